(** * ParamsFacts: [Params] of lib.rs. *)
From Verif Require Import Base BaseFacts Consts Portable PortableFacts SpecFacts Params ParamsSpec
  State StateFacts Avx2Facts.
From Verif Require Spec.
From Coq Require Import ZArith Lia ZifyBool ZifyNat ZifyN.
Local Open Scope N_scope.

(** ** Setters *)

(** [p] stores the parameters [sp] and the flag [ln]. *)
Record encodes (p : Params) (sp : Spec.params) (ln : bool) : Prop := {
  e_hash : val (p_hash_length p) = Spec.digest_length sp;
  e_hash_ok : 1 <= Spec.digest_length sp <= 32;
  e_kl : val (p_key_length p) = N.of_nat (length (Spec.key sp));
  e_key_ok : (length (Spec.key sp) <= 32)%nat;
  e_key : p_key p = Spec.pad 32 (Spec.key sp);
  e_salt : p_salt p = Spec.pad 8 (Spec.salt sp);
  e_salt_ok : (length (Spec.salt sp) <= 8)%nat;
  e_personal : p_personal p = Spec.pad 8 (Spec.personal sp);
  e_personal_ok : (length (Spec.personal sp) <= 8)%nat;
  e_fanout : val (p_fanout p) = Spec.fanout sp;
  e_depth : val (p_max_depth p) = Spec.depth sp;
  e_leaf : val (p_max_leaf_length p) = Spec.leaf_length sp;
  e_offset : val (p_node_offset p) = Spec.node_offset sp;
  e_offset_ok : Spec.node_offset sp < 2 ^ 48;
  e_nd : val (p_node_depth p) = Spec.node_depth sp;
  e_inner : val (p_inner_hash_length p) = Spec.inner_length sp;
  e_inner_ok : Spec.inner_length sp <= 32;
  e_last : p_last_node p = ln
}.

Lemma encodes_default : encodes Params_default Spec.default_params false.
Proof. constructor; try reflexivity; cbn; lia. Qed.

(** What one call does to the abstract parameters. *)
Definition spec_set (sp : Spec.params) (s : setter) : Spec.params :=
  let '(Spec.mk_params a b d e f g h i j k) := sp in
  match s with
  | SHashLength n => Spec.mk_params n b d e f g h i j k
  | SKey x => Spec.mk_params a x d e f g h i j k
  | SSalt x => Spec.mk_params a b d e f g h i x k
  | SPersonal x => Spec.mk_params a b d e f g h i j x
  | SFanout x => Spec.mk_params a b (val x) e f g h i j k
  | SMaxDepth x => Spec.mk_params a b d (val x) f g h i j k
  | SMaxLeafLength x => Spec.mk_params a b d e (val x) g h i j k
  | SNodeOffset x => Spec.mk_params a b d e f (val x) h i j k
  | SNodeDepth x => Spec.mk_params a b d e f g (val x) i j k
  | SInnerHashLength x => Spec.mk_params a b d e f g h x j k
  | SLastNode _ => sp
  end.
Definition spec_set_last (ln : bool) (s : setter) : bool :=
  match s with SLastNode b => b | _ => ln end.

Lemma copy_pad n (src : list byte) : (length src <= n)%nat ->
  copy_into (repeat x00 n) 0 (length src) src = Ok (Spec.pad n src).
Proof.
  intros H. rewrite copy_into_ok by (rewrite ?repeat_length; lia). f_equal. cbn [firstn app].
  unfold Spec.pad. f_equal.
  replace n with (length src + (n - length src))%nat at 1 by lia.
  rewrite repeat_app, skipn_app_ge by (rewrite repeat_length; lia).
  rewrite repeat_length, Nat.sub_diag. reflexivity.
Qed.

Ltac pcbn :=
  cbn [p_hash_length p_key_length p_key p_salt p_personal p_fanout p_max_depth p_max_leaf_length
       p_node_offset p_node_depth p_inner_hash_length p_last_node
       Spec.digest_length Spec.key Spec.fanout Spec.depth Spec.leaf_length Spec.node_offset
       Spec.node_depth Spec.inner_length Spec.salt Spec.personal] in *.

Lemma apply_setter_ok p sp ln s : encodes p sp ln -> valid_setter s = true ->
  exists p', apply_setter p s = Ok p' /\ encodes p' (spec_set sp s) (spec_set_last ln s).
Proof.
  intros E V. destruct E, sp as [xa xb xc xd xe xf xg xh xi xj].
  destruct s; cbn [valid_setter] in V;
    cbn [apply_setter set_hash_length set_key set_salt set_personal set_fanout set_max_depth
         set_max_leaf_length set_node_offset set_node_depth set_inner_hash_length set_last_node_param
         spec_set spec_set_last];
    unfold set_hash_length, set_key, set_salt, set_personal, set_fanout, set_max_depth,
         set_max_leaf_length, set_node_offset, set_node_depth, set_inner_hash_length, set_last_node_param,
         OUTBYTES, KEYBYTES, SALTBYTES, PERSONALBYTES.
  - change (N.of_nat 32) with 32. rewrite V. apply andb_prop in V as [V1 V2].
    eexists; split; [reflexivity|]. constructor; pcbn; try assumption; try lia;
    try (apply val_of_N_small; change (2 ^ 8) with 256; lia).
  - assert (Hk : (length key <= 32)%nat) by lia.
    rewrite (proj2 (Nat.leb_le _ _) Hk), copy_pad by exact Hk. cbn [bind].
    eexists; split; [reflexivity|]. constructor; pcbn; try assumption; try reflexivity;
    try (apply val_of_N_small; change (2 ^ 8) with 256; lia).
  - assert (Hk : (length salt <= 8)%nat) by lia.
    rewrite (proj2 (Nat.leb_le _ _) Hk), copy_pad by exact Hk. cbn [bind].
    eexists; split; [reflexivity|]. constructor; pcbn; try assumption; try reflexivity.
  - assert (Hk : (length personal <= 8)%nat) by lia.
    rewrite (proj2 (Nat.leb_le _ _) Hk), copy_pad by exact Hk. cbn [bind].
    eexists; split; [reflexivity|]. constructor; pcbn; try assumption; try reflexivity.
  - eexists; split; [reflexivity|]. constructor; pcbn; try assumption; try reflexivity.
  - rewrite V. eexists; split; [reflexivity|]. constructor; pcbn; try assumption; try reflexivity.
  - eexists; split; [reflexivity|]. constructor; pcbn; try assumption; try reflexivity.
  - rewrite V. eexists; split; [reflexivity|]. constructor; pcbn; try assumption; try reflexivity. lia.
  - eexists; split; [reflexivity|]. constructor; pcbn; try assumption; try reflexivity.
  - change (N.of_nat 32) with 32. rewrite V.
    eexists; split; [reflexivity|]. constructor; pcbn; try assumption; try lia;
    try (apply val_of_N_small; change (2 ^ 8) with 256; lia).
  - eexists; split; [reflexivity|]. constructor; pcbn; try assumption; try reflexivity.
Qed.

Lemma apply_setter_panic p s : valid_setter s = false -> apply_setter p s = Panic.
Proof.
  intros V. destruct s; cbn [valid_setter] in V; try discriminate V;
    cbn [apply_setter];
    unfold set_hash_length, set_key, set_salt, set_personal, set_max_depth,
         set_node_offset, set_inner_hash_length, OUTBYTES, KEYBYTES, SALTBYTES, PERSONALBYTES.
  - change (N.of_nat 32) with 32. rewrite V. reflexivity.
  - replace (Nat.leb _ _) with false by lia. reflexivity.
  - replace (Nat.leb _ _) with false by lia. reflexivity.
  - replace (Nat.leb _ _) with false by lia. reflexivity.
  - rewrite V. reflexivity.
  - rewrite V. reflexivity.
  - change (N.of_nat 32) with 32. rewrite V. reflexivity.
Qed.

Lemma apply_setters_ok l : forall p sp ln, encodes p sp ln -> forallb valid_setter l = true ->
  exists p', apply_setters p l = Ok p' /\
    encodes p' (fold_left spec_set l sp) (fold_left spec_set_last l ln).
Proof.
  induction l as [|s l IH]; intros p sp ln E V; [exists p; split; [reflexivity|exact E]|].
  cbn [forallb] in V. apply andb_prop in V as [V1 V2].
  destruct (apply_setter_ok p sp ln s E V1) as (p1 & E1 & Enc1).
  cbn [apply_setters]. rewrite E1. cbn [bind fold_left]. apply IH; assumption.
Qed.

Lemma apply_setters_panic l : forall p sp ln, encodes p sp ln -> forallb valid_setter l = false ->
  apply_setters p l = Panic.
Proof.
  induction l as [|s l IH]; intros p sp ln E V; [discriminate V|].
  cbn [forallb] in V. cbn [apply_setters]. destruct (valid_setter s) eqn:Vs.
  - destruct (apply_setter_ok p sp ln s E Vs) as (p1 & E1 & Enc1). rewrite E1. cbn [bind].
    eapply IH; eassumption.
  - rewrite apply_setter_panic by exact Vs. reflexivity.
Qed.

Lemma fold_spec_set l : forall sp,
  fold_left spec_set l sp =
  Spec.mk_params
    (last_call sel_hash_length (Spec.digest_length sp) l)
    (last_call sel_key (Spec.key sp) l)
    (last_call sel_fanout (Spec.fanout sp) l)
    (last_call sel_max_depth (Spec.depth sp) l)
    (last_call sel_max_leaf_length (Spec.leaf_length sp) l)
    (last_call sel_node_offset (Spec.node_offset sp) l)
    (last_call sel_node_depth (Spec.node_depth sp) l)
    (last_call sel_inner (Spec.inner_length sp) l)
    (last_call sel_salt (Spec.salt sp) l)
    (last_call sel_personal (Spec.personal sp) l).
Proof.
  induction l as [|s l IH]; intros sp; [destruct sp; reflexivity|].
  cbn [fold_left]. rewrite IH. destruct sp, s; reflexivity.
Qed.
Lemma fold_spec_last l : forall b, fold_left spec_set_last l b = last_call sel_last_node b l.
Proof. induction l as [|s l IH]; intros b; [reflexivity|]. cbn. rewrite IH. destruct s; reflexivity. Qed.

Theorem build_ok l : forallb valid_setter l = true ->
  exists p, build l = Ok p /\ encodes p (spec_params l) (spec_last_node l).
Proof.
  intros V. destruct (apply_setters_ok l _ _ _ encodes_default V) as (p & E & Enc).
  rewrite fold_spec_set, fold_spec_last in Enc. exists p. split; assumption.
Qed.
Theorem build_panic l : forallb valid_setter l = false -> build l = Panic.
Proof. apply (apply_setters_panic l _ _ _ encodes_default). Qed.

Lemma build_encodes l p : build l = Ok p ->
  forallb valid_setter l = true /\ encodes p (spec_params l) (spec_last_node l).
Proof.
  intros E. destruct (forallb valid_setter l) eqn:V.
  - split; [reflexivity|]. destruct (build_ok l V) as (p' & E' & Enc). congruence.
  - rewrite build_panic in E by exact V. discriminate.
Qed.

(** ** The parameter block *)
Lemma le_num_read bs off : (off + 4 <= length bs)%nat ->
  val (read_u32 bs off) = Spec.le_num (firstn 4 (skipn off bs)).
Proof.
  intros H. unfold read_u32, sub.
  assert (Hl : length (firstn 4 (skipn off bs)) = 4%nat) by (rewrite firstn_length, skipn_length; lia).
  destruct (firstn 4 (skipn off bs)) as [|b0 [|b1 [|b2 [|b3 [|]]]]]; try discriminate Hl.
  rewrite val_u32_of_bytes. cbn [Spec.le_num]. lia.
Qed.

Lemma spec_byte n : n < 256 ->
  Byte.to_N (match Byte.of_N (n mod 256) with Some b => b | None => x00 end) = n.
Proof. intros H. fold (byte_of_N n). rewrite to_N_byte_of_N. apply N.mod_small. exact H. Qed.

Lemma spec_byte_mod n :
  Byte.to_N (match Byte.of_N (n mod 256) with Some b => b | None => x00 end) = n mod 256.
Proof. fold (byte_of_N n). apply to_N_byte_of_N. Qed.


Lemma list8 (l : list byte) : length l = 8%nat ->
  exists a b c d e f g h, l = [a; b; c; d; e; f; g; h].
Proof.
  destruct l as [|a [|b [|c [|d [|e [|f [|g [|h [|]]]]]]]]]; intros H; try discriminate H.
  do 8 eexists; reflexivity.
Qed.

Lemma small_shl (x : u8) k : k <= 24 -> val (ushl (cast 32 x) k) = val x * 2 ^ k.
Proof.
  intros Hk. unfold ushl, cast. rewrite !val_of_N, N.shiftl_mul_pow2. pose proof (val_lt x) as H.
  rewrite (N.mod_small (val x)) by (change (2 ^ 8) with 256 in H; change (2 ^ 32) with 4294967296; lia).
  apply N.mod_small.
  apply N.lt_le_trans with (2 ^ 8 * 2 ^ k).
  - apply N.mul_lt_mono_pos_r; [|exact H]. apply N.neq_0_lt_0, N.pow_nonzero. discriminate.
  - rewrite <- N.pow_add_r. apply N.pow_le_mono_r; [discriminate|lia].
Qed.
Lemma cast8 (x : u8) : val (cast 32 x) = val x.
Proof.
  unfold cast. rewrite val_of_N. pose proof (val_lt x) as H. apply N.mod_small.
  change (2 ^ 8) with 256 in H; change (2 ^ 32) with 4294967296; lia.
Qed.

Lemma four_bytes a b c d : a < 256 -> b < 256 -> c < 256 -> d < 256 ->
  N.lxor (N.lxor (N.lxor a (b * 2 ^ 8)) (c * 2 ^ 16)) (d * 2 ^ 24) =
  a + 256 * (b + 256 * (c + 256 * (d + 256 * 0))).
Proof.
  intros Ha Hb Hc Hd.
  rewrite (lxor_disjoint a b 8) by exact Ha.
  rewrite (lxor_disjoint _ c 16) by (change (2 ^ 8) with 256; change (2 ^ 16) with 65536; lia).
  rewrite (lxor_disjoint _ d 24)
    by (change (2 ^ 8) with 256; change (2 ^ 16) with 65536; change (2 ^ 24) with 16777216; lia).
  change (2 ^ 8) with 256; change (2 ^ 16) with 65536; change (2 ^ 24) with 16777216. lia.
Qed.

Lemma two_bytes a c d : a < 65536 -> c < 256 -> d < 256 ->
  N.lxor (N.lxor a (c * 2 ^ 16)) (d * 2 ^ 24) = a + 65536 * c + 16777216 * d.
Proof.
  intros Ha Hc Hd.
  rewrite (lxor_disjoint _ c 16) by (change (2 ^ 16) with 65536; lia).
  rewrite (lxor_disjoint _ d 24) by (change (2 ^ 16) with 65536; change (2 ^ 24) with 16777216; lia).
  change (2 ^ 16) with 65536; change (2 ^ 24) with 16777216. lia.
Qed.

(** The byte list of the parameter block, spelled out. *)
Lemma val256 (x : u8) : val x < 256.
Proof. exact (val_lt x). Qed.

Lemma digits4 n : n mod 2 ^ 32 = n mod 256 + 256 * ((n / 256) mod 256 + 256 *
  ((n / 256 / 256) mod 256 + 256 * ((n / 256 / 256 / 256) mod 256 + 256 * 0))).
Proof.
  change (2 ^ 32) with (256 * (256 * (256 * 256))).
  rewrite !(N.mod_mul_r _ 256) by discriminate. rewrite N.mul_0_r, N.add_0_r. reflexivity.
Qed.
Lemma digits2 n : n < 65536 -> n = n mod 256 + 256 * ((n / 256) mod 256).
Proof.
  intros H. rewrite <- (N.mod_small n 65536) at 1 by exact H.
  change 65536 with (256 * 256). apply N.mod_mul_r; discriminate.
Qed.

Lemma hi_bound n : n < 2 ^ 48 -> n / 4294967296 < 65536.
Proof. intros H. apply N.div_lt_upper_bound; [discriminate|exact H]. Qed.
Lemma hi_word (x : u64) : val x < 2 ^ 48 -> val (cast 32 (ushr x 32)) = val x / 4294967296.
Proof.
  intros H. apply hi_bound in H. unfold cast, ushr. rewrite !val_of_N, N.shiftr_div_pow2.
  change (2 ^ 32) with 4294967296. change (2 ^ 64) with 18446744073709551616.
  generalize dependent (val x / 4294967296). intros n Hn.
  rewrite !N.mod_small by lia. reflexivity.
Qed.
Lemma word3 a b d e : a + 256 * b + 65536 * d + 16777216 * e =
  a + 256 * (b + 256 * (d + 256 * (e + 256 * 0))).
Proof. lia. Qed.

Theorem make_words_ok p sp ln : encodes p sp ln -> nums (make_words p) = Spec.initial sp.
Proof.
  intros E. destruct E.
  destruct (list8 (p_salt p)) as (s0 & s1 & s2 & s3 & s4 & s5 & s6 & s7 & Es).
  { rewrite e_salt0, pad_length. lia. }
  destruct (list8 (p_personal p)) as (t0 & t1 & t2 & t3 & t4 & t5 & t6 & t7 & Et).
  { rewrite e_personal0, pad_length. lia. }
  unfold Spec.initial, Spec.param_block.
  rewrite <- e_salt0, <- e_personal0, Es, Et.
  rewrite <- e_hash0, <- e_kl0, <- e_fanout0, <- e_depth0, <- e_leaf0, <- e_offset0, <- e_nd0, <- e_inner0.
  unfold nums, make_words. rewrite Es, Et. cbn [oct_list map seq].
  cbn [Spec.le_bytes app]. unfold Spec.word. cbn [Nat.mul Nat.add skipn firstn Spec.le_num].
  rewrite !spec_byte_mod.
  rewrite !val_uxor, !small_shl by lia. rewrite !cast8.
  unfold read_u32. cbn [sub skipn firstn]. unfold sub. cbn [skipn firstn].
  rewrite !val_u32_of_bytes, !N.lxor_assoc.
  pose proof (val256 (p_hash_length p)); pose proof (val256 (p_key_length p));
  pose proof (val256 (p_fanout p)); pose proof (val256 (p_max_depth p));
  pose proof (val256 (p_node_depth p)); pose proof (val256 (p_inner_hash_length p));
  pose proof (val_lt (p_max_leaf_length p)) as Hleaf. 
  rewrite <- e_offset0 in e_offset_ok0.
  assert (E0 : N.lxor (val (p_hash_length p)) (N.lxor (val (p_key_length p) * 2 ^ 8)
             (N.lxor (val (p_fanout p) * 2 ^ 16) (val (p_max_depth p) * 2 ^ 24))) =
     val (p_hash_length p) mod 256 + 256 * (val (p_key_length p) mod 256 + 256 *
       (val (p_fanout p) mod 256 + 256 * (val (p_max_depth p) mod 256 + 256 * 0)))).
  { rewrite <- !N.lxor_assoc, four_bytes by assumption. rewrite !N.mod_small by assumption. reflexivity. }
  rewrite E0.
  assert (E1 : val (cast 32 (p_node_offset p)) = val (p_node_offset p) mod 256 + 256 *
     ((val (p_node_offset p) / 256) mod 256 + 256 * ((val (p_node_offset p) / 256 / 256) mod 256 +
      256 * ((val (p_node_offset p) / 256 / 256 / 256) mod 256 + 256 * 0)))).
  { unfold cast. rewrite val_of_N. apply digits4. }
  rewrite E1.
  assert (E2 : val (p_max_leaf_length p) = val (p_max_leaf_length p) mod 256 + 256 *
     ((val (p_max_leaf_length p) / 256) mod 256 + 256 * ((val (p_max_leaf_length p) / 256 / 256) mod 256 +
      256 * ((val (p_max_leaf_length p) / 256 / 256 / 256) mod 256 + 256 * 0)))).
  { rewrite <- digits4. symmetry. apply N.mod_small. exact Hleaf. }
  rewrite E2 at 1.
  assert (E3 : N.lxor (val (cast 32 (ushr (p_node_offset p) 32)))
             (N.lxor (val (p_node_depth p) * 2 ^ 16) (val (p_inner_hash_length p) * 2 ^ 24)) =
     (val (p_node_offset p) / 256 / 256 / 256 / 256) mod 256 +
     256 * ((val (p_node_offset p) / 256 / 256 / 256 / 256 / 256) mod 256 +
     256 * (val (p_node_depth p) mod 256 + 256 * (val (p_inner_hash_length p) mod 256 + 256 * 0)))).
  { rewrite hi_word by assumption. pose proof (hi_bound _ e_offset_ok0) as Hlt.
    rewrite <- N.lxor_assoc, two_bytes by assumption.
    replace (val (p_node_offset p) / 256 / 256 / 256 / 256) with (val (p_node_offset p) / 4294967296)
      by (rewrite !N.div_div by discriminate; reflexivity).
    rewrite (digits2 _ Hlt) at 1.
    rewrite (N.mod_small (val (p_node_depth p))), (N.mod_small (val (p_inner_hash_length p))) by assumption.
    apply word3. }
  rewrite E3.
  cbn [Spec.at_ nth Spec.IV]. unfold Spec.at_. cbn [nth Spec.IV].
  repeat (apply f_equal2; [reflexivity || (apply f_equal2; [reflexivity|reflexivity || (clear; lia)])|]). reflexivity.
Qed.

Lemma encodes_valid p sp ln : encodes p sp ln -> Spec.valid sp.
Proof.
  intros E. destruct E. unfold Spec.valid.
  rewrite <- e_fanout0, <- e_depth0, <- e_nd0, <- e_leaf0.
  repeat split; try assumption; try apply val256; try apply (val_lt (p_max_leaf_length p)); lia.
Qed.

(** ** [State::with_params] *)
Lemma key_block_copy key : (length key <= 32)%nat ->
  copy_into (repeat x00 BLOCKBYTES) 0 KEYBYTES (Spec.pad 32 key) = Ok (Spec.pad 64 key).
Proof.
  intros H. unfold BLOCKBYTES, KEYBYTES.
  rewrite copy_into_ok by (rewrite ?repeat_length, ?pad_length; lia).
  f_equal. cbn [firstn app]. change (skipn 32 (repeat x00 64)) with (repeat x00 32).
  unfold Spec.pad. rewrite <- app_assoc, <- repeat_app. f_equal. f_equal. lia.
Qed.

Theorem with_params_ok c p sp ln : cfg_ok c -> encodes p sp ln ->
  exists st k, with_params c p = Ok st /\
    Rep c (Spec.initial sp) (Spec.key_block (Spec.key sp)) k st /\
    lazy_k (Spec.key_block (Spec.key sp)) k /\
    st_last_node st = ln /\ st_hash_length st = p_hash_length p /\
    st_compress_fn st = fn_compress (default_compress_impl c).
Proof.
  intros Hc E. pose proof (make_words_ok p sp ln E) as Hw. destruct E.
  unfold with_params. cbv zeta.
  set (st0 := {| st_h := make_words p |}).
  assert (R0 : Rep c (Spec.initial sp) [] 0 st0).
  { subst st0. change (of_N 64 0) with (of_N 64 (N.of_nat (@length byte []))).
    eapply Rep_fresh with (n := nums (make_words p)).
    - reflexivity.
    - apply repeat_length.
    - apply default_fn_ok, Hc.
    - exact Hw.
    - reflexivity.
    - unfold fits. intros _. reflexivity. }
  destruct (Spec.key sp) as [|b key] eqn:Ek.
  - rewrite e_kl0. cbn [length N.of_nat N.ltb N.compare Spec.key_block].
    exists st0, 0%nat. split; [reflexivity|]. split; [exact R0|]. split; [left; reflexivity|].
    subst st0. cbn. auto.
  - rewrite e_kl0. replace (0 <? N.of_nat (length (b :: key))) with true by (cbn [length]; lia).
    rewrite e_key0, key_block_copy by assumption. cbn [bind Spec.key_block].
    assert (Hl : length (Spec.pad 64 (b :: key)) = 64%nat) by (rewrite pad_length; lia).
    destruct (update_ok c _ _ _ st0 (Spec.pad 64 (b :: key)) R0) as (st & k & Eu & R & M & Hz).
    { unfold fits. intros _. rewrite Hl. reflexivity. }
    exists st, k. split; [exact Eu|]. split; [exact R|]. split.
    { apply Hz. left. left. reflexivity. }
    destruct M as (M1 & M2 & M3). rewrite M1, M2, M3. subst st0.
    cbn [st_last_node st_hash_length st_compress_fn]. auto.
Qed.
