(** * SpCalls: which compressions a [blake2sp::State] runs, and when. *)
From Verif Require Import Base Consts Params State Many Blake2sp ParamsSpec Clients Terms BaseFacts ParamsFacts
  Avx2Facts LeafFacts SpFacts Behave SpShape SpLate Witness Traced TracedFacts Calls.
From Verif Require Spec MachineSpec.
From Coq Require Import Lia.
Local Open Scope N_scope.

(** ** Construction *)
Lemma setter_calls p sp ln s p' : encodes p sp ln -> result (apply_setter_t p s) = Ok p' ->
  encodes p' (spec_set sp s) (spec_set_last ln s) /\ runs (events (apply_setter_t p s)) = [].
Proof.
  intros E H. split.
  - rewrite erase_setter in H. destruct (valid_setter s) eqn:V.
    + destruct (apply_setter_ok p sp ln s E V) as (q & A & C). rewrite A in H. apply Ok_inj in H. subst q. exact C.
    + rewrite (apply_setter_panic p s V) in H. discriminate H.
  - destruct s; cbn [apply_setter_t] in *; try reflexivity.
    all: unfold set_hash_length_t, set_key_t, set_salt_t, set_personal_t in *.
    + peel H b Hb. peel H u Hu. rewrite all_t_runs. apply assert_ok in Hu as (_ & ->). reflexivity.
    + peel H u Hu. apply assert_ok in Hu as (_ & ->). reflexivity.
    + peel H u Hu. apply assert_ok in Hu as (_ & ->). reflexivity.
    + peel H u Hu. apply assert_ok in Hu as (_ & ->). reflexivity.
Qed.
Lemma oct_mapM_ok_t {A B} (f : A -> traced B) a r : result (oct_mapM_t f a) = Ok r ->
  (forall l, result (f (proj l a)) = Ok (proj l r)) /\
  runs (events (oct_mapM_t f a)) = concat (map (fun x => runs (events (f x))) (oct_list a)).
Proof.
  intros H. unfold oct_mapM_t in *. peel H x0 H0. peel H x1 H1. peel H x2 H2. peel H x3 H3.
  peel H x4 H4. peel H x5 H5. peel H x6 H6. peel H x7 H7. cbn [ret lift result snd] in H. apply Ok_inj in H. subst r.
  split; [intros []; assumption|]. destruct a. cbn [oct_list map concat o0 o1 o2 o3 o4 o5 o6 o7 ret lift events fst runs flat_map].
  reflexivity.
Qed.

Section Calls.
Variable c : cfg.
Variable f : CompressFn.
Variable f8 : Compress8Fn.
Variable rl : u8.
(** Each leaf keeps [a] bytes in its own buffer: none, or the key block. *)
Variable a : nat.

(** The leaves have compressed [k] groups; [b] bytes are in the buffer. *)
Record sp_holds (k b : nat) (st : SpState) : Prop := {
  hs_leaf : forall l, holds (of_N 8 32) f (Nat.eqb (idx l) 7) (a + 64 * k) a (proj l (sp_leaves st));
  hs_root : took rl f true 0 (sp_root st);
  hs_buf : length (sp_buf st) = 1024%nat;
  hs_buflen : sp_buflen_nat st = b;
  hs_b : (b <= 1024)%nat;
  hs_fn : sp_compress8_fn st = f8
}.
Definition group (k : nat) : routine :=
  Compress8 f8 (oct_const (of_N 64 (N.of_nat (a + 64 * S k)))) (oct_const (uzero 32)) (oct_const (uzero 32)).

Lemma debug_asserts_runs l u : result (debug_asserts_t c l) = Ok u -> runs (events (debug_asserts_t c l)) = [].
Proof.
  unfold debug_asserts_t. destruct (debug_assertions c) eqn:D; [|reflexivity]. intros H. peel H b Hb.
  rewrite all_t_runs. unfold debug_assert_t in *. rewrite D in *. reflexivity.
Qed.

Lemma compress8_calls k block leaves leaves' :
  (forall l, holds (of_N 8 32) f (Nat.eqb (idx l) 7) (a + 64 * k) a (proj l leaves)) ->
  result (sp_compress8_t c block leaves f8) = Ok leaves' ->
  (forall l, holds (of_N 8 32) f (Nat.eqb (idx l) 7) (a + 64 * S k) a (proj l leaves')) /\
  runs (events (sp_compress8_t c block leaves f8)) = [group k].
Proof.
  intros HL H. unfold sp_compress8_t in *. peel H u1 Hu1. rewrite (debug_asserts_runs _ _ Hu1).
  peel H u2 Hu2. rewrite (debug_asserts_runs _ _ Hu2). peel H l1 Hl1. peel H hs Hhs.
  apply oct_mapM_ok_t in Hl1 as (Hl1 & ->).
  assert (HL1 : forall l, holds (of_N 8 32) f (Nat.eqb (idx l) 7) (a + 64 * S k) a (proj l l1)).
  { intros l. specialize (Hl1 l). unfold bump_count_t in Hl1. apply tbind_ok in Hl1 as (n & Hn & R & _).
    cbn [ret lift result snd] in R. apply Ok_inj in R. rewrite <- R.
    cbn [uadd_t note result snd] in Hn. destruct (HL l) as [A1 A2 A3 A4 A5]. rewrite A3 in Hn. apply count_add in Hn.
    constructor; cbn [set_count st_compress_fn st_last_node st_count st_buflen st_hash_length]; try assumption.
    rewrite Hn. f_equal. change BLOCKBYTES with 64%nat. lia. }
  cbn [ret lift result snd] in H. apply Ok_inj in H. subst leaves'. split.
  - intros l. rewrite proj_map2. destruct (HL1 l).
    constructor; cbn [set_h st_compress_fn st_last_node st_count st_buflen st_hash_length]; assumption.
  - replace (concat _) with (@nil routine).
    2: { symmetry. destruct leaves. cbn [oct_list map concat].
         assert (Z : forall s, runs (events (bump_count_t c s)) = []).
         { intros s. unfold bump_count_t, uadd_t. cbn [note tbind]. destruct (uadd c _ _), (overflow_checks c); reflexivity. }
         rewrite !Z. reflexivity. }
    cbn [app call_compress8_t note events fst ret lift runs flat_map]. unfold group. do 2 f_equal.
    apply oct_ext. intros l. rewrite proj_map, proj_const. apply HL1.
Qed.

Lemma sp_fill_calls k b st input st' rest : sp_holds k b st ->
  result (sp_fill_buf_t c st input) = Ok (st', rest) ->
  let take := Nat.min (1024 - b) (length input) in
  sp_holds k (b + take) st' /\ length rest = (length input - take)%nat /\
  runs (events (sp_fill_buf_t c st input)) = [].
Proof.
  intros Hh H. pose proof (hs_buf _ _ _ Hh) as Hbuf. pose proof (hs_buflen _ _ _ Hh) as Hbl. pose proof (hs_b _ _ _ Hh) as Hb.
  unfold sp_fill_buf_t in *. rewrite Hbuf, Hbl in *.
  peel H room Hr. peel H take Ht. peel H src Hs. peel H bf Hbf. peel H bl Hl. peel H rs Hrs.
  cbn [nsub_t note result snd] in Hr. unfold nsub in Hr.
  replace (Nat.leb b 1024) with true in Hr by (symmetry; apply Nat.leb_le; exact Hb).
  apply Ok_inj in Hr. subst room.
  cbn [note result snd] in Ht. apply Ok_inj in Ht.
  cbn [uadd_t slice_from_t slice_to_t copy_into_t note result snd] in *. injection H as <- <-. cbv zeta. rewrite Ht.
  assert (Hle : (take <= 1024 - b)%nat) by (rewrite <- Ht; apply Nat.le_min_l).
  assert (Hv : val (sp_buflen st) = N.of_nat b) by (unfold sp_buflen_nat in Hbl; lia).
  split; [|split].
  - destruct Hh. constructor; cbn [sp_leaves sp_root sp_buf sp_buflen sp_compress8_fn]; try assumption.
    + unfold copy_into in Hbf. destruct (_ && _ && _) eqn:Eb; [|discriminate Hbf].
      apply (f_equal (fun o => match o with Ok x => length x | _ => 0%nat end)) in Hbf. cbv beta iota in Hbf.
      rewrite <- Hbf. apply andb_prop in Eb as (Eb & E3). apply Nat.eqb_eq in E3.
      rewrite !app_length, firstn_length, skipn_length, Hbuf. lia.
    + unfold sp_buflen_nat. cbn [sp_buflen]. apply uadd_val in Hl. rewrite Hl, Hv, val_of_N.
      rewrite (N.mod_small (N.of_nat take)) by (change (2 ^ 16) with 65536; lia).
      rewrite N.mod_small by (change (2 ^ 16) with 65536; lia). lia.
    + lia.
  - apply slice_from_len in Hrs. exact Hrs.
  - unfold nsub_t, uadd_t. destruct (overflow_checks c); reflexivity.
Qed.

Lemma sp_empty_calls k b st input st' rest : sp_holds k b st ->
  result (sp_empty_buffer_t c st input) = Ok (st', rest) ->
  let room := (1024 - b)%nat in
  let m := (length input - room)%nat in
  if Nat.eqb b 0 then sp_holds k 0 st' /\ rest = input /\ runs (events (sp_empty_buffer_t c st input)) = []
  else if Nat.leb (length input) room
  then sp_holds k (b + length input) st' /\ rest = [] /\ runs (events (sp_empty_buffer_t c st input)) = []
  else if Nat.ltb 448 m
  then sp_holds (k + 2) 0 st' /\ length rest = m /\ runs (events (sp_empty_buffer_t c st input)) = [group k; group (S k)]
  else sp_holds (k + 1) 512 st' /\ length rest = m /\ runs (events (sp_empty_buffer_t c st input)) = [group k].
Proof.
  intros Hh H. cbv zeta. unfold sp_empty_buffer_t in *. apply tif_ok in H as (H & ->).
  pose proof (hs_b _ _ _ Hh) as Hb.
  assert (Hv : val (sp_buflen st) = N.of_nat b) by (pose proof (hs_buflen _ _ _ Hh) as X; unfold sp_buflen_nat in X; lia).
  rewrite Hv in *. destruct (Nat.eqb b 0) eqn:E0.
  - apply Nat.eqb_eq in E0. subst b. change (0 <? N.of_nat 0) with false in *. cbv iota in *.
    cbn [ret lift result snd] in H. injection H as <- <-. split; [exact Hh|]. split; reflexivity.
  - apply Nat.eqb_neq in E0. replace (0 <? N.of_nat b) with true in * by (symmetry; apply N.ltb_lt; lia). cbv iota in *.
    peel H p Hp. destruct p as [s1 r1].
    destruct (sp_fill_calls k b st input s1 r1 Hh Hp) as (H1 & Hr & ->). cbv zeta in *. cbn [app].
    destruct (Nat.leb (length input) (1024 - b)) eqn:El.
    + apply Nat.leb_le in El. rewrite Nat.min_r in * by lia. destruct r1; [|cbn [length] in Hr; lia].
      cbn [note result snd] in H. injection H as <- <-. split; [exact H1|]. split; reflexivity.
    + apply Nat.leb_gt in El. rewrite Nat.min_l in * by lia.
      destruct r1 as [|x r1]; [cbn [length] in Hr; lia|]. set (r := x :: r1) in *.
      replace (b + (1024 - b))%nat with 1024%nat in H1 by lia.
      peel H u Hu. peel H bk Hbk. peel H l1 Hl1. rewrite (hs_fn _ _ _ H1) in *.
      destruct (compress8_calls k bk _ _ (hs_leaf _ _ _ H1) Hl1) as (HL1 & ->). cbv zeta in *.
      peel H bl Hbl. apply tif_ok in H as (H & ->).
      cbn [note usub_t array_ref_t events fst result snd runs flat_map app] in *.
      assert (Vb : bl = of_N 16 512).
      { unfold usub in Hbl. cbn [sp_set_leaves sp_buflen] in Hbl.
        assert (V1 : val (sp_buflen s1) = 1024) by (pose proof (hs_buflen _ _ _ H1) as X; unfold sp_buflen_nat in X; lia).
        rewrite V1 in Hbl. change (val (of_N 16 (N.of_nat (8 * BLOCKBYTES)))) with 512 in Hbl.
        change (512 <=? 1024) with true in Hbl. cbv iota in Hbl. apply Ok_inj in Hbl. subst bl. reflexivity. }
      subst bl. replace (runs (if overflow_checks c then _ else [])) with (@nil routine) by (destruct (overflow_checks c); reflexivity).
      change (7 * BLOCKBYTES)%nat with 448%nat in *. rewrite <- Hr.
      destruct (Nat.ltb 448 (length r)) eqn:E4.
      * peel H bk2 Hbk2. peel H l2 Hl2. cbn [sp_set_buflen sp_set_leaves sp_leaves sp_compress8_fn] in *.
        rewrite (hs_fn _ _ _ H1) in *.
        destruct (compress8_calls (S k) bk2 _ _ HL1 Hl2) as (HL2 & ->).
        cbn [ret lift result snd] in H. injection H as <- <-.
        split; [|split; reflexivity]. destruct H1.
        constructor; cbn [sp_set_buflen sp_set_leaves sp_leaves sp_root sp_buf sp_buflen sp_compress8_fn]; try assumption.
        -- replace (k + 2)%nat with (S (S k)) by lia. exact HL2.
        -- reflexivity.
        -- lia.
      * peel H lf Hlf. peel H rg Hrg. peel H src Hsrc. peel H lf2 Hlf2.
        cbn [ret lift result snd slice_to_t slice_from_t copy_into_t note] in *. injection H as <- <-.
        split; [|split; reflexivity]. destruct H1.
        constructor; cbn [sp_set_buflen sp_set_leaves sp_set_buf sp_leaves sp_root sp_buf sp_buflen sp_compress8_fn]; try assumption.
        -- replace (k + 1)%nat with (S k) by lia. exact HL1.
        -- cbn [sp_set_buflen sp_set_leaves sp_buf] in *. unfold slice_to in Hlf. unfold slice_from in Hrg.
           rewrite hs_buf0 in *. change (Nat.leb (8 * BLOCKBYTES) 1024) with true in *. cbv iota in *.
           apply Ok_inj in Hlf, Hrg. unfold copy_into in Hlf2.
           destruct (_ && _ && _) eqn:Eb; [|discriminate Hlf2]. apply Ok_inj in Hlf2.
           apply andb_prop in Eb as (Eb & E5). apply Nat.eqb_eq in E5. apply andb_prop in Eb as (Eb & E6).
           apply Nat.leb_le in E6.
           rewrite <- Hlf2, !app_length, firstn_length, skipn_length.
           assert (Lr : length rg = 512%nat) by (rewrite <- Hrg, skipn_length, hs_buf0; reflexivity).
           assert (Ll : length lf = 512%nat) by (rewrite <- Hlf, firstn_length, hs_buf0; reflexivity).
           rewrite Lr, Ll in *. lia.
        -- reflexivity.
        -- lia.
Qed.

Lemma sp_loop_calls b : forall fuel k st input st' rest, sp_holds k b st ->
  result (sp_update_loop_t fuel c st input) = Ok (st', rest) ->
  let g := loops (length input) in
  sp_holds (k + g) b st' /\ length rest = (length input - 512 * g)%nat /\
  runs (events (sp_update_loop_t fuel c st input)) = map group (seq k g).
Proof.
  induction fuel as [|fuel IH]; intros k st input st' rest Hh H; [discriminate H|]. cbv zeta.
  cbn [sp_update_loop_t] in *. apply tif_ok in H as (H & ->).
  change (15 * BLOCKBYTES)%nat with 960%nat in *. change (8 * BLOCKBYTES)%nat with 512%nat in *.
  destruct (Nat.ltb 960 (length input)) eqn:E.
  - apply Nat.ltb_lt in E. peel H bk Hbk. peel H l1 Hl1. peel H rs Hrs. rewrite (hs_fn _ _ _ Hh) in *.
    destruct (compress8_calls k bk _ _ (hs_leaf _ _ _ Hh) Hl1) as (HL1 & ->).
    cbn [slice_from_t array_ref_t note events fst result snd runs flat_map app] in *. apply slice_from_len in Hrs.
    assert (H1 : sp_holds (S k) b (sp_set_leaves st l1)).
    { destruct Hh. constructor; cbn [sp_set_leaves sp_leaves sp_root sp_buf sp_buflen sp_compress8_fn]; assumption. }
    destruct (IH _ _ _ _ _ H1 H) as (I1 & I2 & ->). cbv zeta in *.
    rewrite loops_S by exact E. rewrite Hrs in *. split; [|split].
    + replace (k + S (loops (length input - 512)))%nat with (S k + loops (length input - 512))%nat by lia. exact I1.
    + rewrite I2. lia.
    + reflexivity.
  - apply Nat.ltb_ge in E. cbn [ret lift result snd] in H. injection H as <- <-.
    rewrite loops_0 by exact E. rewrite Nat.add_0_r, Nat.mul_0_r, Nat.sub_0_r. split; [exact Hh|]. split; reflexivity.
Qed.

Lemma sp_update_calls k b st input st' : sp_holds k b st -> result (sp_update_t c st input) = Ok st' ->
  let g := groups b (length input) in
  sp_holds (k + g) (b + length input - 512 * g) st' /\
  runs (events (sp_update_t c st input)) = map group (seq k g).
Proof.
  intros Hh H. cbv zeta. unfold sp_update_t in *. pose proof (hs_b _ _ _ Hh) as Hb.
  peel H p Hp. destruct p as [s1 i1]. peel H q Hq. destruct q as [s2 i2]. peel H r Hr. destruct r as [s3 i3].
  peel H u Hu. cbn [ret lift result snd] in H. injection H as <-. cbn [ret lift events fst runs flat_map].
  replace (runs (events (debug_assert_t c _))) with (@nil routine).
  2: { unfold debug_assert_t. destruct (debug_assertions c); reflexivity. }
  rewrite !app_nil_r.
  pose proof (sp_empty_calls k b st input s1 i1 Hh Hp) as B. cbv zeta in B. unfold groups.
  pose proof (loops_le (b + length input)) as Lle.
  destruct (Nat.eqb b 0) eqn:E0; cbn [negb andb].
  - apply Nat.eqb_eq in E0. subst b. destruct B as (B1 & -> & ->).
    destruct (sp_loop_calls _ _ _ _ _ _ _ B1 Hq) as (L1 & L2 & ->). cbv zeta in *. cbn [Nat.add app] in *.
    destruct (sp_fill_calls _ _ _ _ _ _ L1 Hr) as (F1 & _ & ->). cbv zeta in *. rewrite app_nil_r.
    split; [|reflexivity]. rewrite L2 in F1. rewrite Nat.min_r in F1 by lia. exact F1.
  - apply Nat.eqb_neq in E0. destruct (Nat.leb (length input) (1024 - b)) eqn:El.
    + apply Nat.leb_le in El. replace (Nat.leb (b + length input) 1024) with true by (symmetry; apply Nat.leb_le; lia).
      destruct B as (B1 & -> & ->).
      destruct (sp_loop_calls _ _ _ _ _ _ _ B1 Hq) as (L1 & L2 & ->). cbv zeta in *. cbn [length] in *.
      rewrite loops_0 in * by lia. rewrite Nat.add_0_r in *.
      destruct (sp_fill_calls _ _ _ _ _ _ L1 Hr) as (F1 & _ & ->). cbv zeta in *. cbn [seq map app].
      split; [|reflexivity]. rewrite L2, Nat.min_0_r, Nat.add_0_r in F1. rewrite Nat.mul_0_r, Nat.sub_0_r. exact F1.
    + apply Nat.leb_gt in El. replace (Nat.leb (b + length input) 1024) with false by (symmetry; apply Nat.leb_gt; lia).
      rewrite loops_S in * by lia.
      destruct (Nat.ltb 448 (length input - (1024 - b))) eqn:E4.
      * apply Nat.ltb_lt in E4. rewrite loops_S in * by lia. destruct B as (B1 & B2 & ->).
        destruct (sp_loop_calls _ _ _ _ _ _ _ B1 Hq) as (L1 & L2 & ->). cbv zeta in *.
        destruct (sp_fill_calls _ _ _ _ _ _ L1 Hr) as (F1 & _ & ->). cbv zeta in *. rewrite app_nil_r.
        replace (b + length input - 512 - 512)%nat with (length i1) in * by lia.
        split.
        -- replace (k + S (S (loops (length i1))))%nat with (k + 2 + loops (length i1))%nat by lia.
           pose proof (loops_le (length i1)).
           rewrite Nat.min_r in F1 by lia. rewrite L2 in F1. cbn [Nat.add] in F1.
           replace (b + length input - 512 * S (S (loops (length i1))))%nat
             with (length i1 - 512 * loops (length i1))%nat by lia. exact F1.
        -- replace (k + 2)%nat with (S (S k)) by lia. reflexivity.
      * apply Nat.ltb_ge in E4. rewrite (loops_0 (b + length input - 512)) in * by lia. destruct B as (B1 & B2 & ->).
        destruct (sp_loop_calls _ _ _ _ _ _ _ B1 Hq) as (L1 & L2 & ->). cbv zeta in *.
        rewrite loops_0 in * by lia. cbn [seq map app]. rewrite Nat.add_0_r in *.
        destruct (sp_fill_calls _ _ _ _ _ _ L1 Hr) as (F1 & _ & ->). cbv zeta in *.
        split; [|reflexivity]. rewrite Nat.min_r in F1 by lia.
        replace (b + length input - 512 * 1)%nat with (512 + length i2)%nat by lia. exact F1.
Qed.

Lemma groups_lazy b n : (0 < groups b n)%nat -> (448 < b + n - 512 * groups b n)%nat.
Proof.
  unfold groups. intros H. destruct (_ && _); [lia|].
  assert (X : forall m, (0 < loops m -> 448 < m - 512 * loops m)%nat).
  { induction m as [m IH] using (well_founded_induction Wf_nat.lt_wf). intros Hm.
    destruct (Nat.le_gt_cases m 960) as [L|L]; [rewrite loops_0 in Hm by exact L; lia|].
    rewrite loops_S in * by exact L.
    destruct (Nat.eq_dec (loops (m - 512)) 0) as [Z|Z]; [rewrite Z; lia|].
    specialize (IH (m - 512)%nat ltac:(lia) ltac:(lia)). lia. }
  apply X, H.
Qed.
Lemma sp_feed_calls pieces : forall k b st st', sp_holds k b st -> (0 < k -> 448 < b)%nat ->
  result (sp_feed_t c st pieces) = Ok st' ->
  let g := settled b (map (@length _) pieces) in
  let m := (b + length (concat pieces))%nat in
  sp_holds (k + g) (m - 512 * g) st' /\ (512 * g <= m)%nat /\ (0 < k + g -> 448 < m - 512 * g)%nat /\
  runs (events (sp_feed_t c st pieces)) = map group (seq k g).
Proof.
  induction pieces as [|x pieces IH]; intros k b st st' Hh Hk H; cbv zeta; cbn [sp_feed_t concat map settled length] in *.
  - cbn [ret lift result snd] in H. injection H as <-. rewrite !Nat.add_0_r, Nat.mul_0_r, Nat.sub_0_r.
    split; [exact Hh|]. split; [lia|]. split; [exact Hk|reflexivity].
  - peel H s1 H1. destruct (sp_update_calls k b st x s1 Hh H1) as (T1 & ->). cbv zeta in *.
    pose proof (groups_le b (length x) (hs_b _ _ _ Hh)) as (G1 & G2).
    pose proof (groups_lazy b (length x)) as G3. set (g := groups b (length x)) in *.
    destruct (IH _ _ _ _ T1 ltac:(lia) H) as (T2 & Q & W & ->). cbv zeta in *. rewrite app_length.
    set (g2 := settled (b + length x - 512 * g) (map (@length _) pieces)) in *.
    replace (b + (length x + length (concat pieces)) - 512 * (g + g2))%nat
      with (b + length x - 512 * g + length (concat pieces) - 512 * g2)%nat by lia.
    rewrite Nat.add_assoc. split; [exact T2|]. split; [lia|]. split; [exact W|].
    rewrite <- map_app, <- seq_app. reflexivity.
Qed.

(** ** finalize *)
Lemma small_update hl ln n st input st' : holds hl f ln n 0 st -> (length input <= 64)%nat ->
  result (update_t c st input) = Ok st' ->
  holds hl f ln (n + length input) (length input) st' /\ runs (events (update_t c st input)) = [].
Proof.
  intros Hh Hi H. unfold update_t in *.
  peel H p Hp. destruct p as [s1 i1]. peel H q Hq. destruct q as [s2 i2]. peel H r Hr. destruct r as [s3 i3].
  cbn [ret lift result snd] in H. injection H as <-. cbn [ret lift events fst runs flat_map]. rewrite app_nil_r.
  destruct (buffer_calls hl c f ln n 0 st input s1 i1 Hh ltac:(lia) Hp) as (B1 & -> & ->).
  destruct (loop_calls hl c f ln 0 _ _ _ _ _ _ B1 Hq) as (L1 & L2 & ->). cbv zeta in *.
  replace (blocks_done (length input)) with 0%nat in * by (symmetry; unfold blocks_done; apply Nat.div_small; lia).
  rewrite Nat.mul_0_r, ?Nat.add_0_r, ?Nat.sub_0_r in *.
  destruct (fill_calls hl c f ln _ 0 _ _ _ _ L1 ltac:(lia) Hr) as (F1 & _ & ->). cbv zeta in *.
  split; [|reflexivity]. rewrite Nat.min_r, L2 in F1 by lia. exact F1.
Qed.
Lemma slice_to_len {A} (l r : list A) n : slice_to l n = Ok r -> length r = n.
Proof.
  unfold slice_to. destruct (Nat.leb n (length l)) eqn:E; [|discriminate]. intros H. apply Ok_inj in H. subst r.
  apply Nat.leb_le in E. rewrite firstn_length. lia.
Qed.
Lemma chunk_first hl ln k buf j n leaf leaf' : holds hl f ln (64 * k) 0 leaf -> (0 < k -> 0 < n)%nat ->
  result (feed_chunk_t c buf j n leaf) = Ok leaf' ->
  took hl f ln (64 * k + Nat.min n 64) leaf' /\ runs (events (feed_chunk_t c buf j n leaf)) = [].
Proof.
  intros Hh Hk H. unfold feed_chunk_t in *. peel H m Hm. peel H x Hx.
  cbn [note slice_to_t result snd events fst runs flat_map app] in *. apply Ok_inj in Hm. subst m.
  apply slice_to_len in Hx. change BLOCKBYTES with 64%nat in Hx. rewrite <- Hx.
  destruct (small_update hl ln _ _ x _ Hh ltac:(lia) H) as (S1 & ->). split; [|reflexivity].
  assert (K : blocks_done (64 * k + length x) = k).
  { destruct (Nat.eq_dec (length x) 0) as [Z|Z].
    - assert (k = 0)%nat as -> by lia. rewrite Z. reflexivity.
    - apply blocks_done_eq. lia. }
  unfold took. rewrite K. replace (64 * k + length x - 64 * k)%nat with (length x) by lia. exact S1.
Qed.
Definition later (m n : nat) : list routine :=
  map (fun i => call f (64 * S i)) (seq (blocks_done m) (blocks_done n - blocks_done m)).
Lemma chunk_second hl ln m buf j n leaf leaf' : took hl f ln m leaf ->
  result (feed_chunk_t c buf j n leaf) = Ok leaf' ->
  took hl f ln (m + Nat.min n 64) leaf' /\ runs (events (feed_chunk_t c buf j n leaf)) = later m (m + Nat.min n 64).
Proof.
  intros Hh H. unfold feed_chunk_t in *. peel H q Hq. peel H x Hx.
  cbn [note slice_to_t result snd events fst runs flat_map app] in *. apply Ok_inj in Hq. subst q.
  apply slice_to_len in Hx. change BLOCKBYTES with 64%nat in Hx. rewrite <- Hx.
  exact (update_calls hl c f ln m leaf x leaf' Hh H).
Qed.
Lemma root_step ln m n root leaf root' : took rl f true m root -> took (of_N 8 32) f ln n leaf ->
  result (feed_root_t c root leaf) = Ok root' ->
  took rl f true (m + 32) root' /\
  runs (events (feed_root_t c root leaf)) = Compress f (of_N 64 (N.of_nat n)) (umax 32) (flag32 ln) :: later m (m + 32).
Proof.
  intros Hr Hl H. unfold feed_root_t in *. peel H r H1. destruct r as [s h]. peel H bs Hbs.
  destruct (finalize_calls _ c f ln n leaf _ Hl H1) as (Hlen & ->). cbn [snd] in Hlen.
  unfold as_bytes_t in *. rewrite Hlen in *. cbn [slice_to_t note result snd events fst runs flat_map app] in *.
  apply slice_to_len in Hbs. change (N.to_nat (val (of_N 8 32))) with 32%nat in Hbs.
  destruct (update_calls rl c f true m root bs root' Hr H) as (U1 & ->). rewrite Hbs in *. split; [exact U1|reflexivity].
Qed.

Definition leaf_bytes (k b i : nat) : nat := (64 * k + Nat.min (b - 64 * i) 64 + Nat.min (b - 64 * (i + 8)) 64)%nat.
Lemma sp_finalize_calls k b st h : a = 0%nat -> sp_holds k b st -> (0 < k -> 448 < b)%nat -> result (sp_finalize_t c st) = Ok h ->
  runs (events (sp_finalize_t c st)) =
    flat_map (fun i => map (fun j => call f (64 * S j)) (seq k (blocks_done (leaf_bytes k b i) - k))) (seq 0 8) ++
    flat_map (fun i => Compress f (of_N 64 (N.of_nat (leaf_bytes k b i))) (umax 32) (flag32 (Nat.eqb i 7))
                       :: later (32 * i) (32 * S i)) (seq 0 8) ++
    [Compress f (of_N 64 256) (umax 32) (flag32 true)].
Proof.
  intros Z0 Hh Hk H. pose proof (hs_leaf _ _ _ Hh) as HL. pose proof (hs_root _ _ _ Hh) as Hr.
  rewrite Z0 in HL. cbn [Nat.add] in HL. unfold sp_finalize_t in *. rewrite (hs_buflen _ _ _ Hh) in *.
  destruct (sp_leaves st) as [s0 s1 s2 s3 s4 s5 s6 s7]. cbv zeta in *.
  pose proof (HL L0) as A0. pose proof (HL L1) as A1. pose proof (HL L2) as A2. pose proof (HL L3) as A3.
  pose proof (HL L4) as A4. pose proof (HL L5) as A5. pose proof (HL L6) as A6. pose proof (HL L7) as A7. clear HL.
  cbn [proj o0 o1 o2 o3 o4 o5 o6 o7 idx] in *.
  Ltac first_chunk H A := let x := fresh "x" in let Hx := fresh in let T := fresh "T" in
    peel H x Hx; apply (chunk_first _ _ _ _ _ _ _ _ A) in Hx; [|change BLOCKBYTES with 64%nat in *; lia];
    destruct Hx as (T & ->).
  Ltac less_step H := let n := fresh "n" in let Hn := fresh in
    peel H n Hn; cbn [note result snd] in Hn; apply Ok_inj in Hn; subst n.
  first_chunk H A0. less_step H. first_chunk H A1. less_step H. first_chunk H A2. less_step H. first_chunk H A3. less_step H.
  first_chunk H A4. less_step H. first_chunk H A5. less_step H. first_chunk H A6. less_step H. first_chunk H A7. less_step H.
  Ltac second_chunk H T := let x := fresh "y" in let Hx := fresh in let U := fresh "U" in
    peel H x Hx; apply (chunk_second _ _ _ _ _ _ _ _ T) in Hx; destruct Hx as (U & ->).
  second_chunk H T. less_step H. second_chunk H T0. less_step H. second_chunk H T1. less_step H. second_chunk H T2. less_step H.
  second_chunk H T3. less_step H. second_chunk H T4. less_step H. second_chunk H T5. less_step H. second_chunk H T6.
  Ltac root H R U := let x := fresh "z" in let Hx := fresh in let V := fresh "V" in
    peel H x Hx; apply (root_step _ _ _ _ _ _ R U) in Hx; destruct Hx as (V & ->).
  root H Hr U. root H V U0. root H V0 U1. root H V1 U2. root H V2 U3. root H V3 U4. root H V4 U5. root H V5 U6.
  peel H r Hf. destruct r as [sf hf]. destruct (finalize_calls _ c f true _ _ _ V6 Hf) as (_ & ->).
  cbn [note ret lift events fst runs flat_map app].
  assert (M : forall i, (i < 8)%nat -> blocks_done (64 * k + Nat.min (b - 64 * i) 64) = k).
  { intros i Hi. destruct (Nat.eq_dec k 0) as [->|Z].
    - destruct (Nat.eq_dec (Nat.min (b - 64 * i) 64) 0) as [->|]; [reflexivity|apply blocks_done_eq; lia].
    - apply blocks_done_eq. specialize (Hk ltac:(lia)). lia. }
  change BLOCKBYTES with 64%nat in *.
  assert (Q : forall i n n', (i < 8)%nat -> n = (b - 64 * i)%nat -> n' = (b - 64 * (i + 8))%nat ->
    later (64 * k + Nat.min n 64) (64 * k + Nat.min n 64 + Nat.min n' 64) =
    map (fun j => call f (64 * S j)) (seq k (blocks_done (leaf_bytes k b i) - k)) /\
    (64 * k + Nat.min n 64 + Nat.min n' 64 = leaf_bytes k b i)%nat).
  { intros i n n' Hi -> ->. unfold later. rewrite (M i Hi). split; reflexivity. }
  destruct (Q 0%nat b (b - 64 - 64 - 64 - 64 - 64 - 64 - 64 - 64)%nat) as (Q0 & N0); [lia..|]. rewrite Q0, N0.
  destruct (Q 1%nat (b - 64)%nat (b - 64 - 64 - 64 - 64 - 64 - 64 - 64 - 64 - 64)%nat) as (Q1 & N1); [lia..|]. rewrite Q1, N1.
  destruct (Q 2%nat (b - 64 - 64)%nat (b - 64 - 64 - 64 - 64 - 64 - 64 - 64 - 64 - 64 - 64)%nat) as (Q2 & N2); [lia..|]. rewrite Q2, N2.
  destruct (Q 3%nat (b - 64 - 64 - 64)%nat (b - 64 - 64 - 64 - 64 - 64 - 64 - 64 - 64 - 64 - 64 - 64)%nat) as (Q3 & N3); [lia..|]. rewrite Q3, N3.
  destruct (Q 4%nat (b - 64 - 64 - 64 - 64)%nat (b - 64 - 64 - 64 - 64 - 64 - 64 - 64 - 64 - 64 - 64 - 64 - 64)%nat) as (Q4 & N4); [lia..|]. rewrite Q4, N4.
  destruct (Q 5%nat (b - 64 - 64 - 64 - 64 - 64)%nat (b - 64 - 64 - 64 - 64 - 64 - 64 - 64 - 64 - 64 - 64 - 64 - 64 - 64)%nat) as (Q5 & N5); [lia..|]. rewrite Q5, N5.
  destruct (Q 6%nat (b - 64 - 64 - 64 - 64 - 64 - 64)%nat (b - 64 - 64 - 64 - 64 - 64 - 64 - 64 - 64 - 64 - 64 - 64 - 64 - 64 - 64)%nat) as (Q6 & N6); [lia..|]. rewrite Q6, N6.
  destruct (Q 7%nat (b - 64 - 64 - 64 - 64 - 64 - 64 - 64)%nat (b - 64 - 64 - 64 - 64 - 64 - 64 - 64 - 64 - 64 - 64 - 64 - 64 - 64 - 64 - 64)%nat) as (Q7 & N7); [lia..|]. rewrite Q7, N7.
  cbn [seq flat_map Nat.eqb]. rewrite <- !app_assoc. reflexivity.
Qed.
(** With the key block in the buffers of the leaves. *)
Lemma keyed_later k x y : (x <= 64)%nat -> (y <= 64)%nat -> (0 < y -> x = 64)%nat ->
  later (64 + 64 * k) (64 + 64 * k + x) = (if Nat.ltb 0 x then [call f (64 * S k)] else []) /\
  later (64 + 64 * k + x) (64 + 64 * k + x + y) = (if Nat.ltb 0 y then [call f (64 * S (S k))] else []).
Proof.
  intros Hx Hy Hxy. unfold later.
  assert (B0 : blocks_done (64 + 64 * k) = k) by (apply blocks_done_eq; lia). rewrite B0.
  destruct (Nat.ltb 0 x) eqn:Ex.
  - apply Nat.ltb_lt in Ex. assert (B1 : blocks_done (64 + 64 * k + x) = S k) by (apply blocks_done_eq; lia). rewrite B1.
    replace (S k - k)%nat with 1%nat by lia. split; [reflexivity|]. destruct (Nat.ltb 0 y) eqn:Ey.
    + apply Nat.ltb_lt in Ey. assert (B2 : blocks_done (64 + 64 * k + x + y) = S (S k)) by (apply blocks_done_eq; lia).
      rewrite B2. replace (S (S k) - S k)%nat with 1%nat by lia. reflexivity.
    + apply Nat.ltb_ge in Ey. assert (y = 0%nat) as -> by lia. rewrite Nat.add_0_r, B1, Nat.sub_diag. reflexivity.
  - apply Nat.ltb_ge in Ex. assert (x = 0%nat) as -> by lia. assert (y = 0%nat) as -> by lia.
    rewrite !Nat.add_0_r, B0, Nat.sub_diag. split; reflexivity.
Qed.
Lemma sp_finalize_keyed_calls k b st h : a = 64%nat -> sp_holds k b st -> result (sp_finalize_t c st) = Ok h ->
  runs (events (sp_finalize_t c st)) =
    flat_map (fun i => if Nat.ltb 0 (Nat.min (b - 64 * i) 64) then [call f (64 * S k)] else []) (seq 0 8) ++
    flat_map (fun i => if Nat.ltb 0 (Nat.min (b - 64 * (i + 8)) 64) then [call f (64 * S (S k))] else []) (seq 0 8) ++
    flat_map (fun i => Compress f (of_N 64 (N.of_nat (64 + leaf_bytes k b i))) (umax 32) (flag32 (Nat.eqb i 7))
                       :: later (32 * i) (32 * S i)) (seq 0 8) ++
    [Compress f (of_N 64 256) (umax 32) (flag32 true)].
Proof.
  intros Z0 Hh H. pose proof (hs_leaf _ _ _ Hh) as HL. pose proof (hs_root _ _ _ Hh) as Hr.
  rewrite Z0 in HL.
  assert (HT : forall l, took (of_N 8 32) f (Nat.eqb (idx l) 7) (64 + 64 * k) (proj l (sp_leaves st))).
  { intros l. unfold took. replace (blocks_done (64 + 64 * k)) with k by (symmetry; apply blocks_done_eq; lia).
    replace (64 + 64 * k - 64 * k)%nat with 64%nat by lia. apply HL. }
  clear HL. unfold sp_finalize_t in *. rewrite (hs_buflen _ _ _ Hh) in *.
  destruct (sp_leaves st) as [s0 s1 s2 s3 s4 s5 s6 s7]. cbv zeta in *.
  pose proof (HT L0) as A0. pose proof (HT L1) as A1. pose proof (HT L2) as A2. pose proof (HT L3) as A3.
  pose proof (HT L4) as A4. pose proof (HT L5) as A5. pose proof (HT L6) as A6. pose proof (HT L7) as A7. clear HT.
  cbn [proj o0 o1 o2 o3 o4 o5 o6 o7 idx] in *.
  second_chunk H A0. less_step H. second_chunk H A1. less_step H. second_chunk H A2. less_step H. second_chunk H A3. less_step H.
  second_chunk H A4. less_step H. second_chunk H A5. less_step H. second_chunk H A6. less_step H. second_chunk H A7. less_step H.
  rename U into T, U0 into T0, U1 into T1, U2 into T2, U3 into T3, U4 into T4, U5 into T5, U6 into T6.
  second_chunk H T. less_step H. second_chunk H T0. less_step H. second_chunk H T1. less_step H. second_chunk H T2. less_step H.
  second_chunk H T3. less_step H. second_chunk H T4. less_step H. second_chunk H T5. less_step H. second_chunk H T6.
  root H Hr U. root H V U0. root H V0 U1. root H V1 U2. root H V2 U3. root H V3 U4. root H V4 U5. root H V5 U6.
  peel H r Hf. destruct r as [sf hf]. destruct (finalize_calls _ c f true _ _ _ V6 Hf) as (_ & ->).
  cbn [note ret lift events fst runs flat_map app].
  change BLOCKBYTES with 64%nat in *.
  assert (Q : forall i n n', (i < 8)%nat -> n = (b - 64 * i)%nat -> n' = (b - 64 * (i + 8))%nat ->
    later (64 + 64 * k) (64 + 64 * k + Nat.min n 64) =
      (if Nat.ltb 0 (Nat.min (b - 64 * i) 64) then [call f (64 * S k)] else []) /\
    later (64 + 64 * k + Nat.min n 64) (64 + 64 * k + Nat.min n 64 + Nat.min n' 64) =
      (if Nat.ltb 0 (Nat.min (b - 64 * (i + 8)) 64) then [call f (64 * S (S k))] else []) /\
    (64 + 64 * k + Nat.min n 64 + Nat.min n' 64 = 64 + leaf_bytes k b i)%nat).
  { intros i n n' Hi -> ->.
    destruct (keyed_later k (Nat.min (b - 64 * i) 64) (Nat.min (b - 64 * (i + 8)) 64)) as (K1 & K2); [lia..|].
    rewrite K1, K2. split; [reflexivity|]. split; [reflexivity|]. unfold leaf_bytes. lia. }
  destruct (Q 0%nat b (b - 64 - 64 - 64 - 64 - 64 - 64 - 64 - 64)%nat) as (P0 & Q0 & N0); [lia..|]. rewrite P0, Q0, N0.
  destruct (Q 1%nat (b - 64)%nat (b - 64 - 64 - 64 - 64 - 64 - 64 - 64 - 64 - 64)%nat) as (P1 & Q1 & N1); [lia..|]. rewrite P1, Q1, N1.
  destruct (Q 2%nat (b - 64 - 64)%nat (b - 64 - 64 - 64 - 64 - 64 - 64 - 64 - 64 - 64 - 64)%nat) as (P2 & Q2 & N2); [lia..|]. rewrite P2, Q2, N2.
  destruct (Q 3%nat (b - 64 - 64 - 64)%nat (b - 64 - 64 - 64 - 64 - 64 - 64 - 64 - 64 - 64 - 64 - 64)%nat) as (P3 & Q3 & N3); [lia..|]. rewrite P3, Q3, N3.
  destruct (Q 4%nat (b - 64 - 64 - 64 - 64)%nat (b - 64 - 64 - 64 - 64 - 64 - 64 - 64 - 64 - 64 - 64 - 64 - 64)%nat) as (P4 & Q4 & N4); [lia..|]. rewrite P4, Q4, N4.
  destruct (Q 5%nat (b - 64 - 64 - 64 - 64 - 64)%nat (b - 64 - 64 - 64 - 64 - 64 - 64 - 64 - 64 - 64 - 64 - 64 - 64 - 64)%nat) as (P5 & Q5 & N5); [lia..|]. rewrite P5, Q5, N5.
  destruct (Q 6%nat (b - 64 - 64 - 64 - 64 - 64 - 64)%nat (b - 64 - 64 - 64 - 64 - 64 - 64 - 64 - 64 - 64 - 64 - 64 - 64 - 64 - 64)%nat) as (P6 & Q6 & N6); [lia..|]. rewrite P6, Q6, N6.
  destruct (Q 7%nat (b - 64 - 64 - 64 - 64 - 64 - 64 - 64)%nat (b - 64 - 64 - 64 - 64 - 64 - 64 - 64 - 64 - 64 - 64 - 64 - 64 - 64 - 64 - 64)%nat) as (P7 & Q7 & N7); [lia..|]. rewrite P7, Q7, N7.
  cbn [seq flat_map Nat.eqb]. rewrite <- !app_assoc. reflexivity.
Qed.
End Calls.

(** ** Construction *)
Lemma leaf_state_calls c p dlen key l st : encodes p (Spec.mk_params dlen key 8 2 0 0 0 32 [] []) false ->
  result (leaf_state_t c p (N.of_nat (idx l))) = Ok st ->
  holds (of_N 8 32) (fn_compress (default_compress_impl c)) (Nat.eqb (idx l) 7)
    (length (Spec.key_block key)) (length (Spec.key_block key)) st /\
  runs (events (leaf_state_t c p (N.of_nat (idx l)))) = [].
Proof.
  intros E H. unfold leaf_state_t in *. peel H p1 H1. peel H p2 H2. peel H p3 H3. peel H s1 H4.
  destruct (setter_calls p _ _ (SNodeOffset _) p1 E H1) as (E1 & R1).
  destruct (setter_calls p1 _ _ (SNodeDepth _) p2 E1 H2) as (E2 & R2).
  destruct (setter_calls p2 _ _ (SLastNode _) p3 E2 H3) as (E3 & R3).
  cbn [apply_setter_t] in R1, R2, R3. rewrite R1, R2, R3.
  destruct (params_calls c p3 _ _ s1 E3 H4) as (T & ->).
  cbn [ret lift result snd] in H. apply Ok_inj in H. subst st. split; [|reflexivity].
  assert (Z : blocks_done (length (Spec.key_block key)) = 0%nat).
  { unfold Spec.key_block. destruct key as [|b0 k0] eqn:Ek; [reflexivity|]. rewrite <- Ek in E |- *.
    rewrite pad_len by (pose proof (e_key_ok _ _ _ E) as X; cbn [Spec.key] in X; lia). reflexivity. }
  cbn [spec_set Spec.key] in T. unfold took in T. rewrite Z, Nat.mul_0_r, Nat.sub_0_r in T.
  destruct T as [T1 T2 T3 T4 T5].
  constructor; cbn [set_st_hash_length st_compress_fn st_last_node st_count st_buflen st_hash_length].
  - exact T1.
  - rewrite T2. destruct l; reflexivity.
  - exact T3.
  - exact T4.
  - reflexivity.
Qed.
Lemma sp_params_calls c p dlen key st : sp_encodes p dlen key -> result (sp_with_params_t c p) = Ok st ->
  (exists rl, sp_holds (fn_compress (default_compress_impl c)) (fn_compress8 (default_compress_impl c)) rl
                (length (Spec.key_block key)) 0 0 st) /\
  runs (events (sp_with_params_t c p)) = [].
Proof.
  intros E H. pose proof (sp_key_slice _ _ _ E) as Hslice. destruct E as [E1 E2 E3 E4 E5].
  unfold sp_with_params_t in *. rewrite E1 in *.
  peel H p1 H1. peel H ky Hky. peel H p2 H2. peel H p3 H3. peel H p4 H4. peel H p5 H5. peel H p6 H6.
  peel H p7 H7. peel H p8 H8. peel H p9 H9. peel H rs Hrs. cbv zeta in *. peel H lv Hlv.
  cbn [slice_to_t note result snd] in Hky. rewrite Hslice in Hky. apply Ok_inj in Hky. subst ky.
  destruct (setter_calls Params_new _ _ (SHashLength _) p1 encodes_default H1) as (C1 & R1).
  destruct (setter_calls p1 _ _ (SKey _) p2 C1 H2) as (C2 & R2).
  destruct (setter_calls p2 _ _ (SFanout _) p3 C2 H3) as (C3 & R3).
  destruct (setter_calls p3 _ _ (SMaxDepth _) p4 C3 H4) as (C4 & R4).
  destruct (setter_calls p4 _ _ (SMaxLeafLength _) p5 C4 H5) as (C5 & R5).
  destruct (setter_calls p5 _ _ (SInnerHashLength _) p6 C5 H6) as (C6 & R6).
  destruct (setter_calls p6 _ _ (SNodeOffset _) p7 C6 H7) as (C7 & R7).
  destruct (setter_calls p7 _ _ (SNodeDepth _) p8 C7 H8) as (C8 & R8).
  destruct (setter_calls p8 _ _ (SLastNode _) p9 C8 H9) as (C9 & R9).
  cbn [apply_setter_t] in R1, R2, R3, R4, R5, R6, R7, R8, R9. rewrite R1, R2, R3, R4, R5, R6, R7, R8, R9.
  clear R1 R2 R3 R4 R5 R6 R7 R8 R9 H1 H2 H3 H4 H5 H6 H7 H8 H9 C1 C2 C3 C4 C5 C7 C8.
  destruct (params_calls c p9 _ _ rs C9 Hrs) as (T & ->).
  cbn [spec_set spec_set_last Spec.default_params] in C6.
  change (val (of_N 8 8)) with 8 in *. change (val (of_N 8 2)) with 2 in *.
  change (val (of_N 32 0)) with 0 in *. change (N.of_nat OUTBYTES) with 32 in *.
  apply oct_mapM_ok_t in Hlv as (Hlv & Rlv).
  assert (HL : forall l, result (leaf_state_t c p6 (N.of_nat (idx l))) = Ok (proj l lv)).
  { intros l. rewrite <- (Hlv l). destruct l; reflexivity. }
  pose proof (fun l => leaf_state_calls c p6 _ _ l (proj l lv) C6 (HL l)) as LS.
  rewrite Rlv. cbn [oct_list map concat].
  change 1 with (N.of_nat (idx L1)). change 2 with (N.of_nat (idx L2)). change 3 with (N.of_nat (idx L3)).
  change 4 with (N.of_nat (idx L4)). change 5 with (N.of_nat (idx L5)). change 6 with (N.of_nat (idx L6)).
  change 7 with (N.of_nat (idx L7)). change 0 with (N.of_nat (idx L0)).
  rewrite (proj2 (LS L0)), (proj2 (LS L1)), (proj2 (LS L2)), (proj2 (LS L3)), (proj2 (LS L4)), (proj2 (LS L5)),
    (proj2 (LS L6)), (proj2 (LS L7)).
  cbn [ret lift result snd] in H. apply Ok_inj in H. subst st. split; [|reflexivity].
  exists (p_hash_length p9). constructor; cbn [sp_leaves sp_root sp_buf sp_buflen sp_compress8_fn].
  - intros l. rewrite Nat.mul_0_r, Nat.add_0_r. apply LS.
  - destruct T as [T1 T2 T3 T4 T5]. constructor; cbn [st_compress_fn st_last_node st_count st_buflen st_hash_length]; try assumption.
    + reflexivity.
    + reflexivity.
  - apply repeat_length.
  - reflexivity.
  - lia.
  - reflexivity.
Qed.

(** ** The whole history of one hash *)
Lemma leaf_bytes_ok k (data : list byte) i : (i < 8)%nat -> (512 * k <= length data)%nat -> (length data - 512 * k <= 1024)%nat ->
  leaf_bytes k (length data - 512 * k) i = length (Spec.leaf_input i data).
Proof.
  intros Hi H1 H2. rewrite <- (firstn_skipn (512 * k) data) at 2.
  assert (F : length (firstn (512 * k) data) = (512 * k)%nat) by (rewrite firstn_length; lia).
  rewrite (leaf_input_app i _ _ k F), app_length, (leaf_input_length i k Hi _ F).
  rewrite leaf_input_two by (try rewrite skipn_length; lia). rewrite app_length, !sub_length, skipn_length.
  unfold leaf_bytes. lia.
Qed.
Theorem sp_hash_calls_ok c l p pieces h : sp_build l = Ok p -> sp_last_key [] l = [] ->
  result (sp_hash_pieces_t c p pieces) = Ok h ->
  let k := settled 0 (map (@length _) pieces) in
  let n i := length (Spec.leaf_input i (concat pieces)) in
  let f := fn_compress (default_compress_impl c) in
  let f8 := fn_compress8 (default_compress_impl c) in
  let block j := Compress f (of_N 64 (N.of_nat (64 * S j))) (uzero 32) (uzero 32) in
  let last m node := Compress f (of_N 64 (N.of_nat m)) (umax 32) (flag32 node) in
  runs (events (sp_hash_pieces_t c p pieces)) =
    map (fun j => Compress8 f8 (oct_const (of_N 64 (N.of_nat (64 * S j)))) (oct_const (uzero 32)) (oct_const (uzero 32)))
      (seq 0 k) ++
    flat_map (fun i => map block (seq k (blocks_done (n i) - k))) (seq 0 8) ++
    flat_map (fun i => last (n i) (Nat.eqb i 7)
                       :: map block (seq (blocks_done (32 * i)) (blocks_done (32 * S i) - blocks_done (32 * i)))) (seq 0 8) ++
    [last 256%nat true] /\
  forall i, (i < 8)%nat -> (k <= blocks_done (n i))%nat.
Proof.
  intros Hb Hkey H. cbv zeta. destruct (sp_build_encodes l p Hb) as (_ & E). rewrite Hkey in E.
  unfold sp_hash_pieces_t in *. peel H s0 H0. peel H s1 H1.
  destruct (sp_params_calls c p _ _ _ E H0) as ((rl & T0) & ->). change (length (Spec.key_block [])) with 0%nat in T0.
  destruct (sp_feed_calls c _ _ rl _ pieces 0 0 s0 s1 T0 ltac:(lia) H1) as (T1 & Q & W & ->). cbv zeta in *.
  rewrite (sp_finalize_calls c _ _ rl _ _ _ s1 h eq_refl T1 W H). cbn [Nat.add app] in *.
  pose proof (hs_b _ _ _ _ _ _ _ T1) as Hle.
  set (k := settled 0 (map (@length _) pieces)) in *.
  assert (Z : forall i, (i < 8)%nat -> leaf_bytes k (length (concat pieces) - 512 * k) i = length (Spec.leaf_input i (concat pieces))).
  { intros i Hi. apply leaf_bytes_ok; assumption. }
  split.
  - cbn [seq flat_map]. rewrite !Z by lia. reflexivity.
  - intros i Hi. rewrite <- (Z i Hi). unfold leaf_bytes. destruct (Nat.eq_dec k 0) as [->|K0]; [lia|].
    specialize (W ltac:(lia)). unfold blocks_done. apply Nat.div_le_lower_bound; lia.
Qed.
(** With a key: the groups are counted one block further, and the key block of each leaf is
    compressed after them, with the counter of the last group. *)
Theorem sp_hash_keyed_calls c l p pieces h : sp_build l = Ok p -> sp_last_key [] l <> [] ->
  result (sp_hash_pieces_t c p pieces) = Ok h ->
  let k := settled 0 (map (@length _) pieces) in
  let n i := length (Spec.leaf_input i (concat pieces)) in
  let f := fn_compress (default_compress_impl c) in
  let f8 := fn_compress8 (default_compress_impl c) in
  let block j := Compress f (of_N 64 (N.of_nat (64 * S j))) (uzero 32) (uzero 32) in
  let last m node := Compress f (of_N 64 (N.of_nat m)) (umax 32) (flag32 node) in
  runs (events (sp_hash_pieces_t c p pieces)) =
    map (fun j => Compress8 f8 (oct_const (of_N 64 (N.of_nat (64 * S (S j))))) (oct_const (uzero 32)) (oct_const (uzero 32)))
      (seq 0 k) ++
    flat_map (fun i => if Nat.ltb (64 * k) (n i) then [block k] else []) (seq 0 8) ++
    flat_map (fun i => if Nat.ltb (64 * S k) (n i) then [block (S k)] else []) (seq 0 8) ++
    flat_map (fun i => last (64 + n i)%nat (Nat.eqb i 7)
                       :: map block (seq (blocks_done (32 * i)) (blocks_done (32 * S i) - blocks_done (32 * i)))) (seq 0 8) ++
    [last 256%nat true] /\
  forall i, (i < 8)%nat -> (64 * k <= n i <= 64 * S (S k))%nat.
Proof.
  intros Hb Hkey H. cbv zeta. destruct (sp_build_encodes l p Hb) as (_ & E).
  unfold sp_hash_pieces_t in *. peel H s0 H0. peel H s1 H1.
  destruct (sp_params_calls c p _ _ _ E H0) as ((rl & T0) & ->).
  assert (Hkl : length (Spec.key_block (sp_last_key [] l)) = 64%nat).
  { pose proof (se_key_ok _ _ _ E) as Hok. unfold Spec.key_block. destruct (sp_last_key [] l); [contradiction|].
    apply pad_len. lia. }
  rewrite Hkl in T0.
  destruct (sp_feed_calls c _ _ rl _ pieces 0 0 s0 s1 T0 ltac:(lia) H1) as (T1 & Q & W & ->). cbv zeta in *.
  rewrite (sp_finalize_keyed_calls c _ _ rl _ _ _ s1 h eq_refl T1 H). cbn [Nat.add app] in *.
  pose proof (hs_b _ _ _ _ _ _ _ T1) as Hle.
  set (k := settled 0 (map (@length _) pieces)) in *.
  assert (Z : forall i, (i < 8)%nat -> leaf_bytes k (length (concat pieces) - 512 * k) i = length (Spec.leaf_input i (concat pieces))).
  { intros i Hi. apply leaf_bytes_ok; assumption. }
  assert (X : forall i, (i < 8)%nat ->
    Nat.ltb 0 (Nat.min (length (concat pieces) - 512 * k - 64 * i) 64) = Nat.ltb (64 * k) (length (Spec.leaf_input i (concat pieces))) /\
    Nat.ltb 0 (Nat.min (length (concat pieces) - 512 * k - 64 * (i + 8)) 64) = Nat.ltb (64 * S k) (length (Spec.leaf_input i (concat pieces)))).
  { intros i Hi. rewrite <- (Z i Hi). unfold leaf_bytes.
    split; apply Bool.eq_true_iff_eq; rewrite !Nat.ltb_lt; lia. }
  split.
  - replace (map (group _ _) (seq 0 k)) with
      (map (fun j => Compress8 (fn_compress8 (default_compress_impl c)) (oct_const (of_N 64 (N.of_nat (64 * S (S j)))))
                       (oct_const (uzero 32)) (oct_const (uzero 32))) (seq 0 k)).
    2: { apply map_ext. intros j. unfold group. do 4 f_equal. lia. }
    f_equal. cbn [seq flat_map].
    rewrite (Z 0%nat), (Z 1%nat), (Z 2%nat), (Z 3%nat), (Z 4%nat), (Z 5%nat), (Z 6%nat), (Z 7%nat) by repeat constructor.
    rewrite (proj1 (X 0%nat ltac:(lia))), (proj1 (X 1%nat ltac:(lia))), (proj1 (X 2%nat ltac:(lia))), (proj1 (X 3%nat ltac:(lia))),
      (proj1 (X 4%nat ltac:(lia))), (proj1 (X 5%nat ltac:(lia))), (proj1 (X 6%nat ltac:(lia))), (proj1 (X 7%nat ltac:(lia))).
    rewrite (proj2 (X 0%nat ltac:(lia))), (proj2 (X 1%nat ltac:(lia))), (proj2 (X 2%nat ltac:(lia))), (proj2 (X 3%nat ltac:(lia))),
      (proj2 (X 4%nat ltac:(lia))), (proj2 (X 5%nat ltac:(lia))), (proj2 (X 6%nat ltac:(lia))), (proj2 (X 7%nat ltac:(lia))).
    reflexivity.
  - intros i Hi. rewrite <- (Z i Hi). unfold leaf_bytes. lia.
Qed.
Lemma erase_sp_feed c pieces : forall st, result (sp_feed_t c st pieces) = sp_feed c st pieces.
Proof.
  induction pieces as [|x l IH]; intros st; [reflexivity|]. cbn [sp_feed_t sp_feed].
  eapply erase_bind; [apply erase_sp_update|]. intros s. apply IH.
Qed.
Lemma erase_sp_hash_pieces c p pieces :
  (h <- result (sp_hash_pieces_t c p pieces) ;; as_bytes h) = sp_hash_pieces c p pieces.
Proof.
  unfold sp_hash_pieces_t, sp_hash_pieces, sp_to_state.
  rewrite (erase_bind _ _ _ (fun st => st1 <- sp_feed c st pieces ;; sp_finalize c st1) (erase_sp_with_params c p)).
  2: { intros st. eapply erase_bind; [apply erase_sp_feed|]. intros st1. apply erase_sp_finalize. }
  destruct (sp_with_params c p) as [st| | |]; try reflexivity. cbn [bind].
  destruct (sp_feed c st pieces) as [st1| | |]; reflexivity.
Qed.

(** ** The number of blocks compressed is the one of the definition *)
Lemma work_app a b : work (a ++ b) = (work a + work b)%nat.
Proof. unfold work. rewrite map_app. apply list_sum_app. Qed.
Lemma work_const {A} (g : A -> routine) w l : (forall x, weight (g x) = w) -> work (map g l) = (w * length l)%nat.
Proof.
  intros H. induction l as [|x l IH]; [cbn; lia|]. cbn [map length]. unfold work in *. cbn [map list_sum fold_right].
  fold (list_sum (map weight (map g l))). rewrite IH, H. lia.
Qed.
Lemma hash_calls_length h data ln : length (Spec.hash_calls h data ln) = S (blocks_done (length data)).
Proof.
  unfold Spec.hash_calls. rewrite app_length, map_length, seq_length. cbn [length].
  assert (Spec.nblocks data = S (blocks_done (length data))); [|lia].
  unfold Spec.nblocks, blocks_done. destruct (length data) as [|m]; [reflexivity|].
  replace (S m + 63)%nat with (m + 1 * 64)%nat by lia. rewrite Nat.div_add by lia.
  replace (S m - 1)%nat with m by lia. lia.
Qed.
Theorem hash_work c l p pieces h : build l = Ok p -> result (hash_pieces_t c p pieces) = Ok h ->
  work (runs (events (hash_pieces_t c p pieces))) =
  length (Spec.blake2s_calls (spec_params l) (spec_last_node l) (concat pieces)).
Proof.
  intros Hb H. rewrite (hash_calls_ok c l p pieces h Hb H). cbv zeta. rewrite work_app, (work_const _ 1) by reflexivity.
  rewrite seq_length. unfold Spec.blake2s_calls. rewrite hash_calls_length. unfold work. cbn [map weight list_sum fold_right]. lia.
Qed.
Lemma sp_hash_work_unkeyed c l p pieces h : sp_build l = Ok p -> sp_last_key [] l = [] ->
  result (sp_hash_pieces_t c p pieces) = Ok h ->
  work (runs (events (sp_hash_pieces_t c p pieces))) =
  length (Spec.blake2sp_calls (sp_last_hash_length 32 l) [] (concat pieces)).
Proof.
  intros Hb Hk H. destruct (sp_hash_calls_ok c l p pieces h Hb Hk H) as (E & Hle). cbv zeta in *. rewrite E. clear E.
  unfold Spec.blake2sp_calls. cbn [seq flat_map]. rewrite !app_length, !hash_calls_length. cbn [Spec.key_block app].
  rewrite app_nil_r. rewrite !app_length, !leaf_digest_length. cbn [length].
  pose proof (Hle 0%nat ltac:(lia)) as M0. pose proof (Hle 1%nat ltac:(lia)) as M1. pose proof (Hle 2%nat ltac:(lia)) as M2.
  pose proof (Hle 3%nat ltac:(lia)) as M3. pose proof (Hle 4%nat ltac:(lia)) as M4. pose proof (Hle 5%nat ltac:(lia)) as M5.
  pose proof (Hle 6%nat ltac:(lia)) as M6. pose proof (Hle 7%nat ltac:(lia)) as M7. clear Hle.
  set (k := settled 0 (map (@length _) pieces)) in *.
  change (blocks_done (32 + (32 + (32 + (32 + (32 + (32 + (32 + (32 + 0)))))))))%nat with 3%nat.
  change (blocks_done (32 * 0)) with 0%nat. change (blocks_done (32 * 1)) with 0%nat. change (blocks_done (32 * 2)) with 0%nat.
  change (blocks_done (32 * 3)) with 1%nat. change (blocks_done (32 * 4)) with 1%nat. change (blocks_done (32 * 5)) with 2%nat.
  change (blocks_done (32 * 6)) with 2%nat. change (blocks_done (32 * 7)) with 3%nat. change (blocks_done (32 * 8)) with 3%nat.
  set (n0 := blocks_done (length (Spec.leaf_input 0 (concat pieces)))) in *.
  set (n1 := blocks_done (length (Spec.leaf_input 1 (concat pieces)))) in *.
  set (n2 := blocks_done (length (Spec.leaf_input 2 (concat pieces)))) in *.
  set (n3 := blocks_done (length (Spec.leaf_input 3 (concat pieces)))) in *.
  set (n4 := blocks_done (length (Spec.leaf_input 4 (concat pieces)))) in *.
  set (n5 := blocks_done (length (Spec.leaf_input 5 (concat pieces)))) in *.
  set (n6 := blocks_done (length (Spec.leaf_input 6 (concat pieces)))) in *.
  set (n7 := blocks_done (length (Spec.leaf_input 7 (concat pieces)))) in *.
  clearbody k n0 n1 n2 n3 n4 n5 n6 n7.
  rewrite app_nil_r. rewrite !work_app, (work_const _ 8), !(work_const _ 1) by reflexivity. rewrite !seq_length.
  cbn [Nat.sub seq map app]. unfold work. cbn [map weight list_sum fold_right]. lia.
Qed.

Lemma sp_hash_work_keyed c l p pieces h : sp_build l = Ok p -> sp_last_key [] l <> [] ->
  result (sp_hash_pieces_t c p pieces) = Ok h ->
  work (runs (events (sp_hash_pieces_t c p pieces))) =
  length (Spec.blake2sp_calls (sp_last_hash_length 32 l) (sp_last_key [] l) (concat pieces)).
Proof.
  intros Hb Hk H. destruct (sp_hash_keyed_calls c l p pieces h Hb Hk H) as (E & Hle). cbv zeta in *. rewrite E. clear E.
  destruct (sp_build_encodes l p Hb) as (_ & E).
  assert (Hkl : length (Spec.key_block (sp_last_key [] l)) = 64%nat).
  { pose proof (se_key_ok _ _ _ E) as Hok. unfold Spec.key_block. destruct (sp_last_key [] l); [contradiction|].
    apply pad_len. lia. }
  set (k := settled 0 (map (@length _) pieces)) in *.
  unfold Spec.blake2sp_calls. cbn [seq flat_map]. rewrite !app_length, !hash_calls_length.
  rewrite !app_length, !leaf_digest_length, !Hkl. cbn [length].
  assert (X : forall i, (i < 8)%nat -> let n := length (Spec.leaf_input i (concat pieces)) in
    let block j := Compress (fn_compress (default_compress_impl c)) (of_N 64 (N.of_nat (64 * S j))) (uzero 32) (uzero 32) in
    (k + work (if Nat.ltb (64 * k) n then [block k] else []) + work (if Nat.ltb (64 * S k) n then [block (S k)] else []))%nat =
    blocks_done (64 + n)).
  { intros i Hi. specialize (Hle i Hi). cbv zeta. set (n := length (Spec.leaf_input i (concat pieces))) in *.
    destruct (Nat.ltb (64 * k) n) eqn:E1, (Nat.ltb (64 * S k) n) eqn:E2;
      try apply Nat.ltb_lt in E1; try apply Nat.ltb_lt in E2; try apply Nat.ltb_ge in E1; try apply Nat.ltb_ge in E2;
      unfold work; cbn [map weight list_sum fold_right]; symmetry; try lia; apply blocks_done_eq; lia. }
  cbv zeta in X.
  pose proof (X 0%nat ltac:(lia)) as M0. pose proof (X 1%nat ltac:(lia)) as M1. pose proof (X 2%nat ltac:(lia)) as M2.
  pose proof (X 3%nat ltac:(lia)) as M3. pose proof (X 4%nat ltac:(lia)) as M4. pose proof (X 5%nat ltac:(lia)) as M5.
  pose proof (X 6%nat ltac:(lia)) as M6. pose proof (X 7%nat ltac:(lia)) as M7. clear X Hle.
  rewrite <- M0, <- M1, <- M2, <- M3, <- M4, <- M5, <- M6, <- M7.
  change (blocks_done (32 + (32 + (32 + (32 + (32 + (32 + (32 + (32 + 0)))))))))%nat with 3%nat.
  change (blocks_done (32 * 0)) with 0%nat. change (blocks_done (32 * 1)) with 0%nat. change (blocks_done (32 * 2)) with 0%nat.
  change (blocks_done (32 * 3)) with 1%nat. change (blocks_done (32 * 4)) with 1%nat. change (blocks_done (32 * 5)) with 2%nat.
  change (blocks_done (32 * 6)) with 2%nat. change (blocks_done (32 * 7)) with 3%nat. change (blocks_done (32 * 8)) with 3%nat.
  rewrite !app_nil_r, !work_app, (work_const _ 8) by reflexivity. rewrite seq_length. cbn [Nat.sub seq map app].
  repeat match goal with |- context [work (if ?b then ?x else ?y)] =>
    let w := fresh "w" in set (w := work (if b then x else y)) in *; clearbody w end.
  unfold work. cbn [map weight list_sum fold_right]. lia.
Qed.
Theorem sp_hash_work c l p pieces h : sp_build l = Ok p -> result (sp_hash_pieces_t c p pieces) = Ok h ->
  work (runs (events (sp_hash_pieces_t c p pieces))) =
  length (Spec.blake2sp_calls (sp_last_hash_length 32 l) (sp_last_key [] l) (concat pieces)).
Proof.
  intros Hb H. destruct (sp_last_key [] l) as [|b k] eqn:E.
  - exact (sp_hash_work_unkeyed c l p pieces h Hb E H).
  - rewrite <- E. apply (sp_hash_work_keyed c l p pieces h Hb); [rewrite E; discriminate|exact H].
Qed.

(** A witness: a traced computation that succeeds. *)
Lemma sp_hash_succeeds : exists p h, sp_build [] = Ok p /\ sp_last_key [] [] = [] /\
  result (sp_hash_pieces_t debug_avx2 p [ramp 1024; ramp 448; ramp 1]) = Ok h.
Proof.
  exists SpParams_new.
  pose proof (sp_hash_pieces_value debug_avx2 [] SpParams_new [ramp 1024; ramp 448; ramp 1]
    (fun _ => eq_refl) eq_refl eq_refl) as E.
  rewrite <- erase_sp_hash_pieces in E.
  destruct (result (sp_hash_pieces_t debug_avx2 SpParams_new [ramp 1024; ramp 448; ramp 1])) as [h| | |].
  - exists h. split; [reflexivity|]. split; reflexivity.
  - discriminate (E ltac:(vm_compute; reflexivity)).
  - discriminate (E ltac:(vm_compute; reflexivity)).
  - discriminate (E ltac:(vm_compute; reflexivity)).
Qed.
Lemma sp_hash_keyed_succeeds : exists p h, sp_build [SpKey (ramp 7)] = Ok p /\ sp_last_key [] [SpKey (ramp 7)] <> [] /\
  result (sp_hash_pieces_t release_avx2 p [ramp 961]) = Ok h.
Proof.
  destruct (sp_build [SpKey (ramp 7)]) as [p| | |] eqn:Eb; try (vm_compute in Eb; discriminate Eb).
  assert (N0 : MachineSpec.sp_keyval [SpKey (ramp 7)] <> []) by discriminate.
  pose proof (sp_hash_late release_avx2 _ p [ramp 961] (fun _ => eq_refl) Eb N0 eq_refl) as X.
  specialize (X ltac:(vm_compute; reflexivity)). rewrite <- erase_sp_hash_pieces in X.
  destruct (result (sp_hash_pieces_t release_avx2 p [ramp 961])) as [h| | |] eqn:E; try discriminate X.
  exists p, h. split; [reflexivity|]. split; [exact N0|exact E].
Qed.
