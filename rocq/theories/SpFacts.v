(** * SpFacts: blake2sp.rs. *)
From Verif Require Import Base BaseFacts Consts Portable PortableFacts SpecFacts Params ParamsSpec State
  StateFacts ParamsFacts Refine Many ManyFacts LeafFacts Blake2sp.
From Verif Require Spec Avx2 Avx2Facts.
Import Avx2Facts (oct_ext, proj_map, proj_map2,
                  proj_const, blocks_ok).
From Coq Require Import ZArith Lia ZifyBool ZifyNat ZifyN.
Local Open Scope N_scope.

Lemma bind_Ok {A B} (x : outcome A) a (f : A -> outcome B) : x = Ok a -> bind x f = f a.
Proof. intros ->. reflexivity. Qed.

(** ** Parameters *)
Record sp_encodes (p : SpParams) (dlen : N) (key : list byte) : Prop := {
  se_hash : val (sp_hash_length p) = dlen;
  se_hash_ok : 1 <= dlen <= 32;
  se_kl : val (sp_key_length p) = N.of_nat (length key);
  se_key_ok : (length key <= 32)%nat;
  se_key : sp_key p = Spec.pad 32 key
}.

Definition sp_valid_setter (s : sp_setter) : bool :=
  match s with
  | SpHashLength n => (1 <=? n) && (n <=? 32)
  | SpKey k => N.of_nat (length k) <=? 32
  end.
Fixpoint sp_last_hash_length (d : N) (l : list sp_setter) : N :=
  match l with [] => d | SpHashLength n :: l => sp_last_hash_length n l | _ :: l => sp_last_hash_length d l end.
Fixpoint sp_last_key (d : list byte) (l : list sp_setter) : list byte :=
  match l with [] => d | SpKey k :: l => sp_last_key k l | _ :: l => sp_last_key d l end.

Lemma sp_encodes_default : sp_encodes SpParams_default 32 [].
Proof. constructor; try reflexivity; cbn; lia. Qed.

Lemma sp_apply_setter_ok p d k s : sp_encodes p d k -> sp_valid_setter s = true ->
  exists p', sp_apply_setter p s = Ok p' /\
    sp_encodes p' (match s with SpHashLength n => n | _ => d end)
                  (match s with SpKey x => x | _ => k end).
Proof.
  intros [E1 E2 E3 E4 E5] V. destruct s as [n|x]; cbn [sp_valid_setter sp_apply_setter] in *.
  - unfold sp_set_hash_length, OUTBYTES. change (N.of_nat 32) with 32. rewrite V.
    apply andb_prop in V as [V1 V2].
    eexists; split; [reflexivity|]. constructor; cbn [sp_hash_length sp_key_length sp_key]; try assumption.
    + apply val_of_N_small. change (2 ^ 8) with 256. lia.
    + lia.
  - unfold sp_set_key, KEYBYTES. assert (Hk : (length x <= 32)%nat) by lia.
    rewrite (proj2 (Nat.leb_le _ _) Hk), copy_pad by exact Hk. cbn [bind].
    eexists; split; [reflexivity|]. constructor; cbn [sp_hash_length sp_key_length sp_key]; try assumption.
    + apply val_of_N_small. change (2 ^ 8) with 256. lia.
    + reflexivity.
Qed.
Lemma sp_apply_setter_panic p s : sp_valid_setter s = false -> sp_apply_setter p s = Panic.
Proof.
  intros V. destruct s as [n|x]; cbn [sp_valid_setter sp_apply_setter] in *.
  - unfold sp_set_hash_length, OUTBYTES. change (N.of_nat 32) with 32. rewrite V. reflexivity.
  - unfold sp_set_key, KEYBYTES. replace (Nat.leb _ _) with false by lia. reflexivity.
Qed.
Lemma sp_apply_setters_ok l : forall p d k, sp_encodes p d k -> forallb sp_valid_setter l = true ->
  exists p', sp_apply_setters p l = Ok p' /\ sp_encodes p' (sp_last_hash_length d l) (sp_last_key k l).
Proof.
  induction l as [|s l IH]; intros p d k E V; [exists p; split; [reflexivity|exact E]|].
  cbn [forallb] in V. apply andb_prop in V as [V1 V2].
  destruct (sp_apply_setter_ok p d k s E V1) as (p1 & E1 & Enc1).
  cbn [sp_apply_setters]. rewrite E1. cbn [bind sp_last_hash_length sp_last_key].
  destruct (IH p1 _ _ Enc1 V2) as (p2 & E2 & Enc2). exists p2. split; [exact E2|].
  destruct s; exact Enc2.
Qed.
Theorem sp_build_ok l : forallb sp_valid_setter l = true ->
  exists p, sp_build l = Ok p /\ sp_encodes p (sp_last_hash_length 32 l) (sp_last_key [] l).
Proof. apply sp_apply_setters_ok, sp_encodes_default. Qed.
Theorem sp_build_panic l : forallb sp_valid_setter l = false -> sp_build l = Panic.
Proof.
  unfold sp_build. generalize SpParams_new, sp_encodes_default. unfold SpParams_new.
  intros p _. revert p. induction l as [|s l IH]; intros p V; [discriminate V|].
  cbn [forallb] in V. cbn [sp_apply_setters]. destruct (sp_valid_setter s) eqn:Vs.
  - cbn [andb] in V. destruct (sp_apply_setter p s) eqn:E; cbn [bind]; try reflexivity.
    + apply IH, V.
    + destruct s; cbn [sp_apply_setter] in E;
      unfold sp_set_hash_length, sp_set_key, copy_into in E;
      repeat match type of E with context [if ?b then _ else _] => destruct b end; discriminate E.
    + destruct s; cbn [sp_apply_setter] in E;
      unfold sp_set_hash_length, sp_set_key, copy_into in E;
      repeat match type of E with context [if ?b then _ else _] => destruct b end; discriminate E.
  - rewrite sp_apply_setter_panic by exact Vs. reflexivity.
Qed.

(** ** The invariant *)
Definition idx (l : lane8) : nat :=
  match l with L0 => 0 | L1 => 1 | L2 => 2 | L3 => 3 | L4 => 4 | L5 => 5 | L6 => 6 | L7 => 7 end.
Lemma idx_lt l : (idx l < 8)%nat.
Proof. destruct l; cbn; lia. Qed.

(** What leaf [i] has hashed when the leaves have been given [P]. *)
Definition leaf_data (key P : list byte) (i : nat) : list byte :=
  Spec.key_block key ++ Spec.leaf_input i P.

(** [P]: bytes given to the leaves; [B]: bytes in the buffer; [ext]: number of bytes
    of the current call still to come. *)
Record SpRep (c : cfg) (dlen : N) (key P B : list byte) (ext : nat) (st : SpState) : Prop := {
  sr_dlen : 1 <= dlen <= 32;
  sr_keylen : (length key <= 32)%nat;
  sr_leaf : forall l, exists k,
     Rep c (Spec.initial (Spec.leaf_params dlen key (idx l))) (leaf_data key P (idx l)) k
         (proj l (sp_leaves st)) /\
     (lazy_k (leaf_data key P (idx l)) k \/ (448 < length B + ext)%nat) /\
     match key with [] => length (leaf_data key P (idx l)) = (64 * k)%nat | _ :: _ => k = 0%nat end;
  sr_leaf_last : forall l, st_last_node (proj l (sp_leaves st)) = Nat.eqb (idx l) 7;
  sr_leaf_hash : forall l, st_hash_length (proj l (sp_leaves st)) = of_N 8 32;
  sr_root : Rep c (Spec.initial (Spec.root_params dlen key)) [] 0 (sp_root st);
  sr_root_last : st_last_node (sp_root st) = true;
  sr_root_hash : val (st_hash_length (sp_root st)) = dlen;
  sr_P : exists k, length P = (512 * k)%nat;
  sr_keyed : key <> [] -> P = [];
  sr_buf_length : length (sp_buf st) = 1024%nat;
  sr_B : (length B <= 1024)%nat;
  sr_buflen : sp_buflen_nat st = length B;
  sr_buf : firstn (length B) (sp_buf st) = B;
  sr_fn : fn8_ok c (sp_compress8_fn st)
}.

(** ** Construction *)
Lemma encodes_leaf_state c p dlen key : cfg_ok c ->
  forall l,
  encodes p (Spec.mk_params dlen key 8 2 0 0 0 32 [] []) false ->
  exists st k, leaf_state c p (N.of_nat (idx l)) = Ok st /\
    Rep c (Spec.initial (Spec.leaf_params dlen key (idx l))) (Spec.key_block key) k st /\
    lazy_k (Spec.key_block key) k /\
    st_last_node st = Nat.eqb (idx l) 7 /\ st_hash_length st = of_N 8 32.
Proof.
  intros Hc l E. unfold leaf_state.
  destruct (apply_setter_ok p _ _ (SNodeOffset (of_N 64 (N.of_nat (idx l)))) E) as (p1 & E1 & C1).
  { destruct l; reflexivity. }
  cbn [apply_setter] in E1. rewrite E1. cbn [bind].
  destruct (apply_setter_ok p1 _ _ (SNodeDepth (of_N 8 0)) C1 eq_refl) as (p2 & E2 & C2).
  cbn [apply_setter] in E2. rewrite E2. cbn [bind].
  destruct (apply_setter_ok p2 _ _ (SLastNode (N.of_nat (idx l) =? 7)) C2 eq_refl) as (p3 & E3 & C3).
  cbn [apply_setter] in E3. rewrite E3. cbn [bind].
  destruct (with_params_ok c p3 _ _ Hc C3) as (st & k & Es & R & Hl & M1 & M2 & _).
  unfold to_state. rewrite Es. cbn [bind].
  cbn [spec_set spec_set_last] in R, M1. change (val (of_N 8 0)) with 0 in R.
  exists (set_st_hash_length st (of_N 8 (N.of_nat OUTBYTES))), k.
  split; [reflexivity|]. split; [|split; [exact Hl|split; [|reflexivity]]].
  - replace (val (of_N 64 (N.of_nat (idx l)))) with (N.of_nat (idx l)) in R by (destruct l; reflexivity).
    unfold set_st_hash_length. destruct R. constructor; assumption.
  - cbn [set_st_hash_length st_last_node]. rewrite M1. destruct l; reflexivity.
Qed.

Lemma sp_key_slice p dlen key : sp_encodes p dlen key ->
  slice_to (sp_key p) (N.to_nat (val (sp_key_length p))) = Ok key.
Proof.
  intros [E1 E2 E3 E4 E5]. rewrite E5, E3, Nat2N.id, slice_to_ok by (rewrite pad_length; lia).
  unfold Spec.pad. rewrite firstn_app_le, firstn_all by lia. reflexivity.
Qed.

Lemma root_reset c sp key k st : Spec.key sp = key -> (length key <= 32)%nat ->
  Rep c (Spec.initial sp) (Spec.key_block key) k st -> lazy_k (Spec.key_block key) k ->
  Rep c (Spec.initial sp) [] 0
    {| st_h := st_h st; st_buf := st_buf st; st_buflen := of_N 8 0; st_count := of_N 64 0;
       st_compress_fn := st_compress_fn st; st_last_node := st_last_node st;
       st_hash_length := st_hash_length st |}.
Proof.
  intros Hk Hl R Hz.
  assert (Hk0 : k = 0%nat).
  { unfold lazy_k in Hz. rewrite key_block_length in Hz by lia. destruct key; lia. }
  subst k. destruct R. rewrite chain_0 in rep_h.
  constructor; cbn [st_h st_buf st_buflen st_count st_compress_fn length]; try assumption; try reflexivity; try lia.
  unfold fits. cbn. lia.
Qed.

Theorem sp_with_params_ok c p dlen key : cfg_ok c -> sp_encodes p dlen key ->
  exists st, sp_with_params c p = Ok st /\ SpRep c dlen key [] [] 0 st.
Proof.
  intros Hc E. pose proof (sp_key_slice _ _ _ E) as Hslice. destruct E as [E1 E2 E3 E4 E5].
  unfold sp_with_params. rewrite E1.
  destruct (apply_setter_ok Params_new _ _ (SHashLength dlen) encodes_default) as (p1 & A1 & C1).
  { cbn [valid_setter]. lia. }
  cbn [apply_setter] in A1. rewrite (bind_Ok _ _ _ A1). rewrite (bind_Ok _ _ _ Hslice).
  destruct (apply_setter_ok p1 _ _ (SKey key) C1) as (p2 & A2 & C2).
  { cbn [valid_setter]. lia. }
  cbn [apply_setter] in A2. rewrite (bind_Ok _ _ _ A2).
  destruct (apply_setter_ok p2 _ _ (SFanout (of_N 8 8)) C2 eq_refl) as (p3 & A3 & C3).
  cbn [apply_setter] in A3. rewrite (bind_Ok _ _ _ A3).
  destruct (apply_setter_ok p3 _ _ (SMaxDepth (of_N 8 2)) C3 eq_refl) as (p4 & A4 & C4).
  cbn [apply_setter] in A4. rewrite (bind_Ok _ _ _ A4).
  destruct (apply_setter_ok p4 _ _ (SMaxLeafLength (of_N 32 0)) C4 eq_refl) as (p5 & A5 & C5).
  cbn [apply_setter] in A5. rewrite (bind_Ok _ _ _ A5).
  destruct (apply_setter_ok p5 _ _ (SInnerHashLength (N.of_nat OUTBYTES)) C5 eq_refl) as (p6 & A6 & C6).
  cbn [apply_setter] in A6. rewrite (bind_Ok _ _ _ A6).
  clear A1 A2 A3 A4 A5 A6 C1 C2 C3 C4 C5 p1 p2 p3 p4 p5.
  destruct (apply_setter_ok p6 _ _ (SNodeOffset (of_N 64 0)) C6 eq_refl) as (p7 & A7 & C7).
  cbn [apply_setter] in A7. rewrite (bind_Ok _ _ _ A7).
  destruct (apply_setter_ok p7 _ _ (SNodeDepth (of_N 8 1)) C7 eq_refl) as (p8 & A8 & C8).
  cbn [apply_setter] in A8. rewrite (bind_Ok _ _ _ A8).
  destruct (apply_setter_ok p8 _ _ (SLastNode true) C8 eq_refl) as (p9 & A9 & C9).
  cbn [apply_setter] in A9. rewrite (bind_Ok _ _ _ A9).
  clear A7 A8 A9 C7 C8 p7 p8.
  cbn [spec_set spec_set_last Spec.default_params] in C6, C9.
  change (val (of_N 8 8)) with 8 in *. change (val (of_N 8 2)) with 2 in *.
  change (val (of_N 32 0)) with 0 in *. change (N.of_nat OUTBYTES) with 32 in *.
  change (val (of_N 64 0)) with 0 in *. change (val (of_N 8 1)) with 1 in *.
  destruct (with_params_ok c p9 _ _ Hc C9) as (rs & rk & Es & R & Hl & M1 & M2 & _).
  unfold to_state. rewrite (bind_Ok _ _ _ Es). cbn [Spec.key] in R, Hl.
  cbv zeta.
  destruct (lane_choice _ (fun l => encodes_leaf_state c p6 dlen key Hc l C6)) as (leaves & HL).
  erewrite (bind_Ok _ leaves).
  2: { apply oct_mapM_ok. intros l. destruct (HL l) as (k & EL & _). rewrite <- EL. destruct l; reflexivity. }
  eexists; split; [reflexivity|].
  constructor; cbn [sp_leaves sp_root sp_buf sp_buflen sp_compress8_fn].
  - exact E2.
  - exact E4.
  - intros l. destruct (HL l) as (k & EL & RL & LL & _). exists k.
    unfold leaf_data. change (Spec.leaf_input (idx l) []) with (@nil byte). rewrite app_nil_r.
    split; [exact RL|]. split; [left; exact LL|]. unfold lazy_k in LL.
    rewrite key_block_length in LL by lia. destruct key; cbn [Spec.key_block length] in *; lia.
  - intros l. destruct (HL l) as (k & EL & RL & LL & X & Y). exact X.
  - intros l. destruct (HL l) as (k & EL & RL & LL & X & Y). exact Y.
  - apply (root_reset c (Spec.root_params dlen key) key rk rs eq_refl E4 R Hl).
  - exact M1.
  - cbn [st_hash_length]. rewrite M2. apply (e_hash _ _ _ C9).
  - exists 0%nat. reflexivity.
  - reflexivity.
  - apply repeat_length.
  - cbn [length]. lia.
  - reflexivity.
  - reflexivity.
  - apply default_fn8_ok.
Qed.

(** ** Filling the buffer *)
Lemma sp_fill_buf_ok c dlen key P B ext st input : SpRep c dlen key P B ext st ->
  let take := Nat.min (1024 - length B) (length input) in
  exists st', sp_fill_buf c st input = Ok (st', skipn take input) /\
    (forall ext', (length B + ext <= length B + take + ext')%nat ->
       SpRep c dlen key P (B ++ firstn take input) ext' st').
Proof.
  intros R take. pose proof (sr_B _ _ _ _ _ _ _ R) as HB.
  pose proof (sr_buf_length _ _ _ _ _ _ _ R) as Hbl.
  pose proof (sr_buflen _ _ _ _ _ _ _ R) as Hl.
  pose proof (sr_buf _ _ _ _ _ _ _ R) as Hb.
  assert (Ht : (take <= length input)%nat) by lia.
  assert (Hft : length (firstn take input) = take) by (rewrite firstn_length; lia).
  unfold sp_fill_buf. rewrite Hbl, Hl, nsub_ok by exact HB. cbn [bind]. cbv zeta. fold take.
  rewrite slice_to_ok by exact Ht. cbn [bind].
  rewrite copy_into_ok by (rewrite ?Hft; lia). cbn [bind].
  assert (Hv : val (sp_buflen st) = N.of_nat (length B)) by (unfold sp_buflen_nat in Hl; lia).
  assert (Hvt : val (of_N 16 (N.of_nat take)) = N.of_nat take).
  { apply val_of_N_small. change (2 ^ 16) with 65536. lia. }
  rewrite uadd_ok by (intros _; rewrite Hv, Hvt; change (2 ^ 16) with 65536; lia).
  cbn [bind]. rewrite Hv, Hvt, slice_from_ok by exact Ht. cbn [bind].
  eexists; split; [reflexivity|]. intros ext' Hext. destruct R.
  constructor; cbn [sp_leaves sp_root sp_buf sp_buflen sp_compress8_fn]; try assumption.
  - intros l. destruct (sr_leaf0 l) as (k & R1 & R2 & R3). exists k. split; [exact R1|].
    split; [|exact R3]. destruct R2 as [R2|R2]; [left; exact R2|right].
    rewrite app_length, Hft. lia.
  - rewrite !app_length, firstn_length, skipn_length, Hft, Hbl. lia.
  - rewrite app_length, Hft. lia.
  - unfold sp_buflen_nat. cbn [sp_buflen]. rewrite app_length, Hft, val_of_N_small; [lia|].
    change (2 ^ 16) with 65536. lia.
  - rewrite Hb, app_assoc, firstn_app_le by lia. apply firstn_all.
Qed.

(** ** Compressing eight blocks *)
Lemma eight_blocks_lane block l : proj l (eight_blocks block) = sub block (idx l * 64) 64.
Proof. destruct l; reflexivity. Qed.

Definition leaves_ok (c : cfg) (dlen : N) (P : list byte) (leaves : oct State) : Prop :=
  forall l, exists k,
    Rep c (Spec.initial (Spec.leaf_params dlen [] (idx l))) (Spec.leaf_input (idx l) P) k (proj l leaves) /\
    length (Spec.leaf_input (idx l) P) = (64 * k)%nat.

Lemma sp_compress8_cases c dlen P leaves fn block np :
  leaves_ok c dlen P leaves -> length P = (512 * np)%nat -> length block = 512%nat -> fn8_ok c fn ->
  (exists leaves', sp_compress8 c block leaves fn = Ok leaves' /\
    leaves_ok c dlen (P ++ block) leaves' /\ forall l, same_meta (proj l leaves) (proj l leaves')) \/
  (sp_compress8 c block leaves fn = Panic /\ ~ fits c (N.of_nat (64 * np + 64))).
Proof.
  intros HL HP Hb Hfn. unfold sp_compress8.
  assert (Hlen : forall l, length (Spec.leaf_input (idx l) P) = (64 * np)%nat).
  { intros l. apply leaf_input_length; [apply idx_lt|exact HP]. }
  assert (HR : forall l, Rep c (Spec.initial (Spec.leaf_params dlen [] (idx l)))
                             (Spec.leaf_input (idx l) P) np (proj l leaves)).
  { intros l. destruct (HL l) as (k & R & Hk). rewrite Hlen in Hk.
    replace np with k by lia. exact R. }
  assert (Hd1 : oct_all (fun l => 0 =? val (st_buflen l)) leaves = true).
  { apply oct_all_spec. intros l. pose proof (rep_buflen _ _ _ _ _ (HR l)) as H.
    rewrite Hlen in H. unfold buflen_nat in H. lia. }
  assert (Hcount : forall l, val (st_count (proj l leaves)) = N.of_nat (64 * np) mod 2 ^ 64).
  { intros l. rewrite <- (Hlen l). apply (rep_count _ _ _ _ _ (HR l)). }
  assert (Hd2 : oct_all (fun l => val (st_count (o0 leaves)) =? val (st_count l)) leaves = true).
  { apply oct_all_spec. intros l. apply N.eqb_eq. pose proof (Hcount L0) as H0. cbn [proj] in H0.
    rewrite H0. symmetry. apply Hcount. }
  assert (Hda : forall b, b = true -> debug_assert c b = Ok tt).
  { intros b ->. unfold debug_assert. destruct (debug_assertions c); reflexivity. }
  rewrite (Hda _ Hd1). cbn [bind]. rewrite (Hda _ Hd2). cbn [bind].
  destruct (fits_dec c (N.of_nat (64 * np + 64))) as [Hfl|Hfl].
  2: { right. split; [|exact Hfl]. destruct (bump_count_cases _ _ _ _ _ (HR L0)) as [_ Bp]. rewrite Hlen in Bp.
       unfold oct_mapM. cbn [proj] in Bp. rewrite (Bp Hfl). reflexivity. }
  left. set (leaves1 := oct_of (fun l => set_count (proj l leaves) (of_N 64 (N.of_nat (64 * np + 64))))).
  rewrite (oct_mapM_ok _ _ leaves1).
  2: { intros l. subst leaves1. rewrite proj_of.
       destruct (bump_count_cases _ _ _ _ _ (HR l)) as [B1 _]. rewrite Hlen in B1. apply B1, Hfl. }
  cbn [bind].
  assert (Hbo : blocks_ok (eight_blocks block)).
  { intros l. rewrite eight_blocks_lane, sub_length, Hb. pose proof (idx_lt l). lia. }
  rewrite call_compress8_ok by assumption. cbn [bind].
  eexists; split; [reflexivity|].
  assert (HRn : forall l, Rep c (Spec.initial (Spec.leaf_params dlen [] (idx l)))
      (Spec.leaf_input (idx l) P ++ sub block (idx l * 64) 64) (S np)
      {| st_h := Portable.compress (st_h (proj l leaves)) (sub block (idx l * 64) 64)
                   (of_N 64 (N.of_nat (64 * np + 64))) (uzero 32) (uzero 32);
         st_buf := st_buf (proj l leaves); st_buflen := st_buflen (proj l leaves);
         st_count := of_N 64 (N.of_nat (64 * np + 64));
         st_compress_fn := st_compress_fn (proj l leaves);
         st_last_node := st_last_node (proj l leaves);
         st_hash_length := st_hash_length (proj l leaves) |}).
  { intros l. apply Rep_block; [apply HR|apply Hlen| | |].
    - rewrite sub_length, Hb. pose proof (idx_lt l). lia.
    - rewrite val_of_N, Hlen. reflexivity.
    - rewrite Hlen. exact Hfl. }
  split.
  - intros l. exists (S np).
    rewrite (leaf_input_app _ P block np HP), (leaf_input_one _ block) by (assumption || apply idx_lt).
    split.
    + rewrite proj_map2, compress8_lane, !proj_map, !proj_const, eight_blocks_lane.
      subst leaves1. rewrite proj_of. exact (HRn l).
    + rewrite app_length, Hlen, sub_length, Hb. pose proof (idx_lt l). lia.
  - intros l. rewrite proj_map2. subst leaves1. rewrite proj_of. repeat split.
Qed.
Lemma sp_compress8_ok c dlen P leaves fn block np :
  leaves_ok c dlen P leaves -> length P = (512 * np)%nat -> length block = 512%nat -> fn8_ok c fn ->
  fits c (N.of_nat (length (P ++ block))) ->
  exists leaves', sp_compress8 c block leaves fn = Ok leaves' /\
    leaves_ok c dlen (P ++ block) leaves' /\ forall l, same_meta (proj l leaves) (proj l leaves').
Proof.
  intros HL HP Hb Hfn Hf. destruct (sp_compress8_cases c dlen P leaves fn block np HL HP Hb Hfn) as [H|(_ & H)]; [exact H|].
  exfalso. apply H. eapply fits_le; [exact Hf|]. rewrite app_length. lia.
Qed.

(** The length of the longest leaf, the first, of [n] bytes. *)
Definition longest_leaf (n : nat) : nat := 64 * (n / 512) + Nat.min 64 (n mod 512).
Lemma longest_leaf_ge n k : (512 * k <= n)%nat -> (64 * k <= longest_leaf n)%nat.
Proof.
  intros H. unfold longest_leaf. assert (k <= n / 512)%nat by (apply Nat.div_le_lower_bound; lia). lia.
Qed.
Lemma longest_leaf_le n : (longest_leaf n <= n)%nat.
Proof. unfold longest_leaf. pose proof (Nat.div_mod n 512). lia. Qed.
Lemma longest_leaf_mono m n : (m <= n)%nat -> (longest_leaf m <= longest_leaf n)%nat.
Proof.
  intros H. unfold longest_leaf. pose proof (Nat.div_mod m 512 ltac:(lia)). pose proof (Nat.div_mod n 512 ltac:(lia)).
  pose proof (Nat.mod_upper_bound m 512). pose proof (Nat.mod_upper_bound n 512).
  assert (m / 512 <= n / 512)%nat by (apply Nat.div_le_mono; lia).
  destruct (Nat.eq_dec (m / 512) (n / 512)) as [E|E]; lia.
Qed.
Lemma longest_leaf_spec key D : length (leaf_data key D 0) = (length (Spec.key_block key) + longest_leaf (length D))%nat.
Proof.
  unfold leaf_data. rewrite app_length. f_equal. set (k := (length D / 512)%nat).
  assert (HD : (512 * k <= length D < 512 * k + 512)%nat).
  { subst k. pose proof (Nat.div_mod (length D) 512 ltac:(lia)). pose proof (Nat.mod_upper_bound (length D) 512). lia. }
  assert (Hf : length (firstn (512 * k) D) = (512 * k)%nat) by (rewrite firstn_length; lia).
  rewrite <- (firstn_skipn (512 * k) D) at 1. rewrite (leaf_input_app 0 _ _ k Hf), app_length.
  rewrite (leaf_input_length 0 k) by (lia || exact Hf).
  rewrite leaf_input_two by (rewrite ?skipn_length; lia). rewrite app_length, !sub_length, skipn_length.
  unfold longest_leaf. fold k. pose proof (Nat.div_mod (length D) 512 ltac:(lia)). fold k in H. lia.
Qed.

Lemma SpRep_leaves c dlen P B ext st : SpRep c dlen [] P B ext st -> leaves_ok c dlen P (sp_leaves st).
Proof.
  intros R l. destruct (sr_leaf _ _ _ _ _ _ _ R l) as (k & R1 & _ & R3). exists k.
  split; [exact R1|exact R3].
Qed.

(** The state after compressing [block], with [B'] in the buffer. *)
Lemma SpRep_step c dlen P B ext st block leaves' B' buf' buflen' ext' :
  SpRep c dlen [] P B ext st -> length block = 512%nat ->
  leaves_ok c dlen (P ++ block) leaves' ->
  (forall l, same_meta (proj l (sp_leaves st)) (proj l leaves')) ->
  (448 < length B' + ext')%nat ->
  length buf' = 1024%nat -> (length B' <= 1024)%nat -> N.to_nat (val buflen') = length B' ->
  firstn (length B') buf' = B' ->
  SpRep c dlen [] (P ++ block) B' ext'
    {| sp_leaves := leaves'; sp_root := sp_root st; sp_buf := buf'; sp_buflen := buflen';
       sp_compress8_fn := sp_compress8_fn st |}.
Proof.
  intros R Hb HL HM Hx H1 H2 H3 H4. destruct R.
  constructor; cbn [sp_leaves sp_root sp_buf sp_buflen sp_compress8_fn]; try assumption.
  - intros l. destruct (HL l) as (k & R1 & R2). exists k. split; [exact R1|]. split; [right; exact Hx|].
    exact R2.
  - intros l. destruct (HM l) as (_ & M2 & _). rewrite M2. apply sr_leaf_last0.
  - intros l. destruct (HM l) as (_ & _ & M3). rewrite M3. apply sr_leaf_hash0.
  - destruct sr_P0 as (k & Hk). exists (S k). rewrite app_length, Hk, Hb. lia.
  - intros Hn. contradiction Hn. reflexivity.
Qed.

(** ** The loop of [update] *)
Lemma sp_update_loop_cases c dlen fuel : forall P ext st input,
  SpRep c dlen [] P [] ext st -> (ext <= length input)%nat ->
  (length input < fuel)%nat ->
  (exists used rest st', sp_update_loop fuel c st input = Ok (st', rest) /\ input = used ++ rest /\
    SpRep c dlen [] (P ++ used) [] (length rest) st' /\ (length rest <= 960)%nat) \/
  (sp_update_loop fuel c st input = Panic /\ ~ fits c (N.of_nat (longest_leaf (length (P ++ input))))).
Proof.
  induction fuel as [|fuel IH]; intros P ext st input R Hext Hfuel; [lia|].
  cbn [sp_update_loop]. unfold BLOCKBYTES.
  destruct (Nat.ltb_spec (15 * 64) (length input)) as [Hl|Hl].
  - rewrite array_ref_ok by lia. cbn [bind skipn].
    change (8 * 64)%nat with 512%nat in *.
    destruct (sr_P _ _ _ _ _ _ _ R) as (np & Hnp).
    assert (Hb : length (firstn 512 input) = 512%nat) by (rewrite firstn_length; lia).
    destruct (sp_compress8_cases c dlen P (sp_leaves st) (sp_compress8_fn st) (firstn 512 input) np
      (SpRep_leaves _ _ _ _ _ _ R) Hnp Hb (sr_fn _ _ _ _ _ _ _ R)) as [(leaves' & E & HL & HM)|(E & Hn)].
    2: { right. rewrite E. split; [reflexivity|]. intros Hf. apply Hn. eapply fits_le; [exact Hf|].
         rewrite app_length. pose proof (longest_leaf_ge (length P + length input) (S np) ltac:(lia)). lia. }
    rewrite E. cbn [bind]. rewrite slice_from_ok by lia. cbn [bind].
    destruct (IH (P ++ firstn 512 input) (length (skipn 512 input)) (sp_set_leaves st leaves') (skipn 512 input))
      as [(used & rest & st' & E' & Ei & R' & Hr)|(E' & Hn)].
    + unfold sp_set_leaves. eapply SpRep_step; try eassumption.
      * cbn [length]. rewrite skipn_length. lia.
      * apply (sr_buf_length _ _ _ _ _ _ _ R).
      * cbn [length]. lia.
      * apply (sr_buflen _ _ _ _ _ _ _ R).
      * reflexivity.
    + lia.
    + rewrite skipn_length. lia.
    + left. exists (firstn 512 input ++ used), rest, st'. split; [exact E'|]. split; [|split; [|exact Hr]].
      * rewrite <- app_assoc, <- Ei. symmetry. apply firstn_skipn.
      * rewrite app_assoc. exact R'.
    + right. rewrite <- app_assoc, firstn_skipn in Hn. split; [exact E'|exact Hn].
  - left. exists [], input, st. rewrite app_nil_r. split; [reflexivity|]. split; [reflexivity|].
    split; [|lia]. destruct R. constructor; try assumption.
    intros l. destruct (sr_leaf0 l) as (k & R1 & R2 & R3). exists k. split; [exact R1|]. split; [|exact R3].
    destruct R2 as [R2|R2]; [left; exact R2|right; cbn [length] in *; lia].
Qed.

Lemma usub_ok {w} c (a b : uint w) : val b <= val a -> usub c a b = Ok (of_N w (val a - val b)).
Proof. intros H. unfold usub. apply N.leb_le in H. rewrite H. reflexivity. Qed.

(** After the last [fill_buf] nothing is left. *)
Lemma sp_finish c dlen key P B ext st input : SpRep c dlen key P B ext st ->
  (length B + length input <= 1024)%nat -> (ext <= length input)%nat ->
  exists st', sp_fill_buf c st input = Ok (st', []) /\ SpRep c dlen key P (B ++ input) 0 st'.
Proof.
  intros R H Hx. destruct (sp_fill_buf_ok c dlen key P B ext st input R) as (st' & E & R'). cbv zeta in *.
  replace (Nat.min (1024 - length B) (length input)) with (length input) in * by lia.
  rewrite skipn_all, firstn_all in *. exists st'. split; [exact E|]. apply R'. lia.
Qed.

(** An update that only fills the buffer. *)
Theorem sp_update_short c dlen key P B st input : SpRep c dlen key P B 0 st ->
  (length B + length input <= 1024)%nat -> (B <> [] \/ (length input <= 960)%nat) ->
  exists st', sp_update c st input = Ok st' /\ SpRep c dlen key P (B ++ input) 0 st'.
Proof.
  intros R H Hx. unfold sp_update, sp_empty_buffer.
  pose proof (sr_buflen _ _ _ _ _ _ _ R) as Hl.
  assert (Hda : forall b, b = true -> debug_assert c b = Ok tt).
  { intros b ->. unfold debug_assert. destruct (debug_assertions c); reflexivity. }
  destruct (N.ltb_spec 0 (val (sp_buflen st))) as [Hpos|Hpos].
  - destruct (sp_finish c dlen key P B 0 st input R H ltac:(lia)) as (st1 & E1 & R1).
    rewrite E1. cbn [bind length sp_update_loop Nat.ltb Nat.leb Nat.mul BLOCKBYTES Nat.add].
    destruct (sp_finish c dlen key P (B ++ input) 0 st1 [] R1) as (st2 & E2 & R2).
    { rewrite app_length. cbn [length]. lia. } { lia. }
    rewrite E2. cbn [bind]. rewrite Hda by reflexivity. cbn [bind].
    rewrite app_nil_r in R2. exists st2. split; [reflexivity|exact R2].
  - cbn [bind sp_update_loop].
    assert (B = []) as ->. { unfold sp_buflen_nat in Hl. destruct B; [reflexivity|cbn [length] in Hl; lia]. }
    destruct Hx as [Hx|Hx]; [contradiction Hx; reflexivity|]. unfold BLOCKBYTES.
    destruct (Nat.ltb_spec (15 * 64) (length input)) as [Hi|Hi]; [lia|]. cbn [bind].
    destruct (sp_finish c dlen key P [] 0 st input R H ltac:(lia)) as (st1 & E1 & R1).
    rewrite E1. cbn [bind]. rewrite Hda by reflexivity. cbn [bind]. exists st1. split; [reflexivity|exact R1].
Qed.

Theorem sp_update_cases c dlen P B st input : SpRep c dlen [] P B 0 st ->
  (exists st' P' B', sp_update c st input = Ok st' /\ SpRep c dlen [] P' B' 0 st' /\
    P' ++ B' = (P ++ B) ++ input) \/
  (sp_update c st input = Panic /\ ~ fits c (N.of_nat (longest_leaf (length ((P ++ B) ++ input))))).
Proof.
  intros R.
  assert (Hda : forall b, b = true -> debug_assert c b = Ok tt).
  { intros b ->. unfold debug_assert. destruct (debug_assertions c); reflexivity. }
  destruct (Nat.le_gt_cases (length B + length input) 1024) as [Hshort|Hlong].
  - destruct (Nat.eq_dec (length B) 0) as [HB0|HB0].
    2: { destruct (sp_update_short c dlen [] P B st input R Hshort) as (st' & E & R').
         { left. intros ->. apply HB0. reflexivity. }
         left. exists st', P, (B ++ input). rewrite app_assoc. auto. }
    destruct (Nat.le_gt_cases (length input) 960) as [Hi|Hi].
    { destruct (sp_update_short c dlen [] P B st input R Hshort) as (st' & E & R'); [right; exact Hi|].
      left. exists st', P, (B ++ input). rewrite app_assoc. auto. }
    (* 960 < length input <= 1024, empty buffer *)
    assert (B = []) as -> by (destruct B; [reflexivity|discriminate HB0]).
    unfold sp_update, sp_empty_buffer.
    pose proof (sr_buflen _ _ _ _ _ _ _ R) as Hl. unfold sp_buflen_nat in Hl. cbn [length] in Hl.
    replace (0 <? val (sp_buflen st)) with false by lia. cbn [bind].
    rewrite app_nil_r.
    destruct (sp_update_loop_cases c dlen (S (length input)) P 0 st input R ltac:(lia) ltac:(lia))
      as [(used & rest & st1 & E1 & Ei & R1 & Hr)|(E1 & Hn)]; rewrite E1; cbn [bind]; [left|right; split; [reflexivity|exact Hn]].
    destruct (sp_finish c dlen [] (P ++ used) [] _ st1 rest R1) as (st2 & E2 & R2); [cbn [length]; lia|lia|].
    rewrite E2. cbn [bind]. rewrite Hda by reflexivity. cbn [bind].
    exists st2, (P ++ used), rest. split; [reflexivity|]. split; [exact R2|].
    rewrite Ei, app_assoc. reflexivity.
  - destruct (Nat.eq_dec (length B) 0) as [HB0|HB0].
    { assert (B = []) as -> by (destruct B; [reflexivity|discriminate HB0]).
      unfold sp_update, sp_empty_buffer.
      pose proof (sr_buflen _ _ _ _ _ _ _ R) as Hl. unfold sp_buflen_nat in Hl. cbn [length] in Hl.
      replace (0 <? val (sp_buflen st)) with false by lia. cbn [bind].
      rewrite app_nil_r.
      destruct (sp_update_loop_cases c dlen (S (length input)) P 0 st input R ltac:(lia) ltac:(lia))
        as [(used & rest & st1 & E1 & Ei & R1 & Hr)|(E1 & Hn)]; rewrite E1; cbn [bind]; [left|right; split; [reflexivity|exact Hn]].
      destruct (sp_finish c dlen [] (P ++ used) [] _ st1 rest R1) as (st2 & E2 & R2); [cbn [length]; lia|lia|].
      rewrite E2. cbn [bind]. rewrite Hda by reflexivity. cbn [bind].
      exists st2, (P ++ used), rest. split; [reflexivity|]. split; [exact R2|].
      rewrite Ei, app_assoc. reflexivity. }
    (* the buffer is filled and compressed *)
    unfold sp_update, sp_empty_buffer.
    pose proof (sr_buflen _ _ _ _ _ _ _ R) as Hl. pose proof (sr_B _ _ _ _ _ _ _ R) as HBle.
    replace (0 <? val (sp_buflen st)) with true by (unfold sp_buflen_nat in Hl; lia).
    set (take := (1024 - length B)%nat).
    destruct (sp_fill_buf_ok c dlen [] P B 0 st input R) as (st1 & E1 & R1'). cbv zeta in *.
    replace (Nat.min (1024 - length B) (length input)) with take in * by lia.
    rewrite E1. cbn [bind]. clear E1.
    specialize (R1' 0%nat ltac:(lia)). rename R1' into R1.
    assert (Hin : input = firstn take input ++ skipn take input) by (symmetry; apply firstn_skipn).
    set (rest := skipn take input) in *. set (B1 := B ++ firstn take input) in *.
    assert (HB1 : length B1 = 1024%nat) by (subst B1; rewrite app_length, firstn_length; lia).
    assert (Hrest : (0 < length rest)%nat) by (subst rest; rewrite skipn_length; lia).
    assert (Htot : (P ++ B) ++ input = (P ++ B1) ++ rest).
    { subst B1. rewrite Hin at 1. rewrite <- !app_assoc. reflexivity. }
    rewrite Htot in *. clearbody rest B1. clear Hin Htot take R Hl HBle.
    destruct rest as [|x0 rest0] eqn:Erest; [cbn [length] in Hrest; lia|]. rewrite <- Erest in *.
    clear Erest x0 rest0. change (8 * BLOCKBYTES)%nat with 512%nat. change (7 * BLOCKBYTES)%nat with 448%nat.
    pose proof (sr_buf_length _ _ _ _ _ _ _ R1) as Hbl. pose proof (sr_buf _ _ _ _ _ _ _ R1) as Hb.
    rewrite HB1, <- Hbl, firstn_all in Hb.
    rewrite array_ref_ok by lia. cbn [bind skipn]. rewrite Hb.
    destruct (sr_P _ _ _ _ _ _ _ R1) as (np & Hnp).
    assert (Hb1 : length (firstn 512 B1) = 512%nat) by (rewrite firstn_length; lia).
    assert (Hb2 : length (skipn 512 B1) = 512%nat) by (rewrite skipn_length; lia).
    assert (HBB : B1 = firstn 512 B1 ++ skipn 512 B1) by (symmetry; apply firstn_skipn).
    assert (Hlong1 : forall k, (k <= np + 2)%nat -> ~ fits c (N.of_nat (64 * k)) ->
      ~ fits c (N.of_nat (longest_leaf (length ((P ++ B1) ++ rest))))).
    { intros k Hk Hn Hf. apply Hn. eapply fits_le; [exact Hf|]. rewrite !app_length.
      pose proof (longest_leaf_ge (length P + length B1 + length rest) k ltac:(lia)). lia. }
    destruct (sp_compress8_cases c dlen P (sp_leaves st1) (sp_compress8_fn st1) (firstn 512 B1) np
      (SpRep_leaves _ _ _ _ _ _ R1) Hnp Hb1 (sr_fn _ _ _ _ _ _ _ R1)) as [(leaves1 & E2 & HL1 & HM1)|(E2 & Hn)].
    2: { right. rewrite E2. split; [reflexivity|]. apply (Hlong1 (S np)); [lia|].
         replace (64 * S np)%nat with (64 * np + 64)%nat by lia. exact Hn. }
    rewrite E2. cbn [bind]. clear E2.
    pose proof (sr_buflen _ _ _ _ _ _ _ R1) as Hl1. unfold sp_buflen_nat in Hl1. rewrite HB1 in Hl1.
    unfold sp_set_leaves, sp_set_buflen, sp_set_buf, sp_buflen_nat.
    cbn [sp_leaves sp_root sp_buf sp_buflen sp_compress8_fn].
    change (val (of_N 16 (N.of_nat 512))) with 512.
    rewrite usub_ok by (change (val (of_N 16 (N.of_nat 512))) with 512; lia). cbn [bind].
    change (val (of_N 16 (N.of_nat 512))) with 512.
    assert (Hv : val (of_N 16 (val (sp_buflen st1) - 512)) = 512).
    { replace (val (sp_buflen st1) - 512) with 512 by lia. reflexivity. }
    set (bl := of_N 16 (val (sp_buflen st1) - 512)) in *. clearbody bl.
    cbn [sp_leaves sp_root sp_buf sp_buflen sp_compress8_fn].
    destruct (Nat.ltb_spec 448 (length rest)) as [Hr|Hr].
    + rewrite array_ref_ok by lia. cbn [bind]. rewrite Hb, firstn_all2 by lia.
      destruct (sp_compress8_cases c dlen (P ++ firstn 512 B1) leaves1 (sp_compress8_fn st1) (skipn 512 B1) (S np)
        HL1 ltac:(rewrite app_length, Hb1; lia) Hb2 (sr_fn _ _ _ _ _ _ _ R1)) as [(leaves2 & E3 & HL2 & HM2)|(E3 & Hn)].
      2: { right. rewrite E3. split; [reflexivity|]. apply (Hlong1 (S (S np))); [lia|].
           replace (64 * S (S np))%nat with (64 * S np + 64)%nat by lia. exact Hn. }
      rewrite E3. cbn [bind]. clear E3.
      cbn [sp_leaves sp_root sp_buf sp_buflen sp_compress8_fn].
      rewrite <- app_assoc, <- HBB in HL2.
      match goal with |- context [sp_update_loop _ c ?s rest] => set (st2 := s) end.
      assert (R2 : SpRep c dlen [] (P ++ B1) [] (length rest) st2).
      { pose proof R1 as R1c. destruct R1c. constructor; subst st2;
        cbn [sp_leaves sp_root sp_buf sp_buflen sp_compress8_fn length]; try assumption.
        - intros l. destruct (HL2 l) as (k & Q1 & Q2). exists k. split; [exact Q1|].
          split; [right; lia|exact Q2].
        - intros l. destruct (HM1 l) as (_ & M2 & _). destruct (HM2 l) as (_ & M2' & _).
          rewrite M2', M2. apply sr_leaf_last0.
        - intros l. destruct (HM1 l) as (_ & _ & M3). destruct (HM2 l) as (_ & _ & M3').
          rewrite M3', M3. apply sr_leaf_hash0.
        - exists (2 + np)%nat. rewrite app_length, HB1. lia.
        - intros Hn. contradiction Hn. reflexivity.
        - lia.
        - reflexivity.
        - reflexivity. }
      clearbody st2.
      destruct (sp_update_loop_cases c dlen (S (length rest)) (P ++ B1) (length rest) st2 rest R2 ltac:(lia) ltac:(lia))
        as [(used & rest' & st3 & E3 & Ei & R3 & Hr')|(E3 & Hn)]; rewrite E3; cbn [bind]; [left|right; split; [reflexivity|exact Hn]].
      destruct (sp_finish c dlen [] ((P ++ B1) ++ used) [] _ st3 rest' R3) as (st4 & E4 & R4);
        [cbn [length]; lia|lia|].
      rewrite E4. cbn [bind]. rewrite Hda by reflexivity. cbn [bind].
      exists st4, ((P ++ B1) ++ used), rest'. split; [reflexivity|]. split; [exact R4|].
      rewrite Ei, !app_assoc. reflexivity.
    + rewrite slice_to_ok by lia. cbn [bind]. rewrite slice_from_ok by lia. cbn [bind].
      rewrite Hv. change (N.to_nat 512) with 512%nat. rewrite Hb.
      rewrite slice_to_ok by lia. cbn [bind]. rewrite (firstn_all2 (n := 512) (skipn 512 B1)) by lia.
      rewrite copy_into_ok by (rewrite ?Hb1, ?Hb2; lia). cbn [bind]. rewrite firstn_O. cbn [app].
      rewrite (skipn_all2 (n := 512) (firstn 512 B1)) by lia. rewrite app_nil_r.
      cbn [sp_leaves sp_root sp_buf sp_buflen sp_compress8_fn sp_update_loop].
      unfold BLOCKBYTES. destruct (Nat.ltb_spec (15 * 64) (length rest)) as [Hx|Hx]; [lia|]. cbn [bind].
      match goal with |- context [sp_fill_buf c ?s rest] => set (st2 := s) end.
      assert (R2 : SpRep c dlen [] (P ++ firstn 512 B1) (skipn 512 B1) 0 st2).
      { subst st2. eapply SpRep_step; try eassumption.
        - rewrite Hb2. lia.
        - rewrite app_length, Hb2. reflexivity.
        - lia.
        - rewrite Hv, Hb2. reflexivity.
        - rewrite firstn_app_le by lia. apply firstn_all. }
      destruct (sp_finish c dlen [] _ _ 0 st2 rest R2) as (st3 & E3 & R3); [lia|lia|].
      rewrite E3. cbn [bind]. rewrite Hda by reflexivity. cbn [bind].
      left. exists st3, (P ++ firstn 512 B1), (skipn 512 B1 ++ rest). split; [reflexivity|]. split; [exact R3|].
      rewrite HBB at 3. rewrite <- !app_assoc. reflexivity.
Qed.
Theorem sp_update_ok c dlen P B st input : SpRep c dlen [] P B 0 st ->
  fits c (N.of_nat (length ((P ++ B) ++ input))) ->
  exists st' P' B', sp_update c st input = Ok st' /\ SpRep c dlen [] P' B' 0 st' /\
    P' ++ B' = (P ++ B) ++ input.
Proof.
  intros R Hf. destruct (sp_update_cases c dlen P B st input R) as [H|(_ & H)]; [exact H|]. exfalso. apply H.
  eapply fits_le; [exact Hf|]. pose proof (longest_leaf_le (length ((P ++ B) ++ input))). lia.
Qed.

(** ** finalize *)
Lemma chunk_ok (buf B : list byte) k n : length buf = 1024%nat -> firstn (length B) buf = B -> (k < 16)%nat ->
  (length B <= 1024)%nat ->
  n = (length B - 64 * k)%nat ->
  slice_to (sub buf (k * BLOCKBYTES) BLOCKBYTES) (Nat.min n BLOCKBYTES) = Ok (sub B (k * 64) 64).
Proof.
  intros Hl Hb Hk HB ->. unfold BLOCKBYTES. rewrite slice_to_ok by (rewrite sub_length; lia).
  f_equal. transitivity (sub (firstn (length B) buf) (k * 64) 64); [|rewrite Hb; reflexivity].
  unfold sub. rewrite firstn_firstn, skipn_firstn_comm, firstn_firstn. f_equal. lia.
Qed.

Lemma leaf_feed c dlen key P B st l : SpRep c dlen key P B 0 st ->
  fits c (N.of_nat (length (leaf_data key (P ++ B) (idx l)))) ->
  exists a b, update c (proj l (sp_leaves st)) (sub B (idx l * 64) 64) = Ok a /\
    update c a (sub B ((idx l + 8) * 64) 64) = Ok b /\
    exists z, finalize c b =
      Ok (z, mk_Hash (Spec.leaf_digest dlen key (P ++ B) (idx l)) (of_N 8 32)).
Proof.
  intros R Hf. destruct (sr_leaf _ _ _ _ _ _ _ R l) as (k & R1 & Hz & _).
  pose proof (sr_leaf_last _ _ _ _ _ _ _ R l) as Hln.
  pose proof (sr_leaf_hash _ _ _ _ _ _ _ R l) as Hhl.
  destruct (sr_P _ _ _ _ _ _ _ R) as (np & Hnp).
  pose proof (sr_B _ _ _ _ _ _ _ R) as HB.
  assert (Hdata : (leaf_data key P (idx l) ++ sub B (idx l * 64) 64) ++ sub B ((idx l + 8) * 64) 64
                  = leaf_data key (P ++ B) (idx l)).
  { unfold leaf_data. rewrite (leaf_input_app _ P B np Hnp).
    rewrite (leaf_input_two (idx l) B (idx_lt l) HB). rewrite !app_assoc. reflexivity. }
  rewrite <- Hdata, !app_length in Hf.
  destruct (update_ok c _ _ _ _ (sub B (idx l * 64) 64) R1) as (a & ka & Ea & Ra & Ma & Za).
  { eapply fits_le; [exact Hf|]. lia. }
  destruct (update_ok c _ _ _ _ (sub B ((idx l + 8) * 64) 64) Ra) as (b & kb & Eb & Rb & Mb & Zb).
  { eapply fits_le; [exact Hf|]. rewrite app_length. lia. }
  exists a, b. split; [exact Ea|]. split; [exact Eb|].
  assert (Hzb : lazy_k ((leaf_data key P (idx l) ++ sub B (idx l * 64) 64) ++ sub B ((idx l + 8) * 64) 64) kb).
  { apply Zb. left. apply Za. destruct Hz as [Hz|Hz]; [left; exact Hz|right].
    intros Hn. apply (f_equal (@length _)) in Hn. rewrite sub_length in Hn. cbn [length] in Hn.
    pose proof (idx_lt l). lia. }
  rewrite (finalize_ok c _ _ _ _ Rb Hzb). exists (zeroed b). do 2 f_equal.
  destruct Ma as (_ & M2 & M3). destruct Mb as (_ & M2' & M3').
  rewrite M2', M2, M3', M3, Hln, Hhl, Hdata. reflexivity.
Qed.

Lemma leaf_digest_length dlen key D i : length (Spec.leaf_digest dlen key D i) = 32%nat.
Proof. unfold Spec.leaf_digest. apply words_bytes_32, hash_words_length. Qed.

Lemma root_feed c h0 D k root leaf (bs : list byte) : Rep c h0 D k root -> lazy_k D k ->
  (exists z, finalize c leaf = Ok (z, mk_Hash bs (of_N 8 32))) -> length bs = 32%nat ->
  fits c (N.of_nat (length D + 32)) ->
  exists root' k', feed_root c root leaf = Ok root' /\ Rep c h0 (D ++ bs) k' root' /\
    lazy_k (D ++ bs) k' /\ same_meta root root'.
Proof.
  intros R Hz (z & E) Hl Hf. unfold feed_root. rewrite E. cbn [bind].
  unfold as_bytes. cbn [h_bytes h_len]. change (N.to_nat (val (of_N 8 32))) with 32%nat.
  rewrite slice_to_ok by lia. cbn [bind]. rewrite firstn_all2 by lia.
  destruct (update_ok c _ _ _ _ bs R) as (r & k' & Er & Rr & Mr & Zr).
  { rewrite Hl. exact Hf. }
  exists r, k'. split; [exact Er|]. split; [exact Rr|]. split; [|exact Mr]. apply Zr. left. exact Hz.
Qed.

Definition sp_hash_value (dlen : N) (key D : list byte) (hl : u8) : Hash :=
  mk_Hash (Spec.words_bytes (Spec.hash_words (Spec.initial (Spec.root_params dlen key))
             (flat_map (Spec.leaf_digest dlen key D) (seq 0 8)) true)) hl.

Theorem sp_finalize_fits c dlen key P B st : SpRep c dlen key P B 0 st ->
  (forall l, fits c (N.of_nat (length (leaf_data key (P ++ B) (idx l))))) ->
  sp_finalize c st = Ok (sp_hash_value dlen key (P ++ B) (st_hash_length (sp_root st))).
Proof.
  intros R Hf. unfold sp_finalize. cbv zeta.
  pose proof (sr_buf_length _ _ _ _ _ _ _ R) as Hbl. pose proof (sr_buf _ _ _ _ _ _ _ R) as Hb.
  pose proof (sr_buflen _ _ _ _ _ _ _ R) as Hl. pose proof (sr_B _ _ _ _ _ _ _ R) as HB.
  pose proof (fun l => leaf_feed c dlen key P B st l R (Hf l)) as HL.
  pose proof (sr_root _ _ _ _ _ _ _ R) as Rr. pose proof (sr_root_last _ _ _ _ _ _ _ R) as Hrl.
  destruct (sp_leaves st) as [s0 s1 s2 s3 s4 s5 s6 s7]. rewrite Hl. unfold feed_chunk.
  rewrite !(chunk_ok (sp_buf st) B) by (try assumption; unfold BLOCKBYTES; lia).
  cbn [bind].
  destruct (HL L0) as (a0 & b0 & A0 & B0 & F0), (HL L1) as (a1 & b1 & A1 & B1 & F1),
    (HL L2) as (a2 & b2 & A2 & B2 & F2), (HL L3) as (a3 & b3 & A3 & B3 & F3),
    (HL L4) as (a4 & b4 & A4 & B4 & F4), (HL L5) as (a5 & b5 & A5 & B5 & F5),
    (HL L6) as (a6 & b6 & A6 & B6 & F6), (HL L7) as (a7 & b7 & A7 & B7 & F7).
  clear HL. cbn [proj idx o0 o1 o2 o3 o4 o5 o6 o7 Nat.add] in *.
  rewrite (bind_Ok _ _ _ A0), (bind_Ok _ _ _ A1), (bind_Ok _ _ _ A2), (bind_Ok _ _ _ A3),
    (bind_Ok _ _ _ A4), (bind_Ok _ _ _ A5), (bind_Ok _ _ _ A6), (bind_Ok _ _ _ A7),
    (bind_Ok _ _ _ B0), (bind_Ok _ _ _ B1), (bind_Ok _ _ _ B2), (bind_Ok _ _ _ B3),
    (bind_Ok _ _ _ B4), (bind_Ok _ _ _ B5), (bind_Ok _ _ _ B6), (bind_Ok _ _ _ B7).
  clear A0 A1 A2 A3 A4 A5 A6 A7 B0 B1 B2 B3 B4 B5 B6 B7.
  assert (Hsmall : forall n, (n <= 512)%nat -> fits c (N.of_nat n)).
  { intros n Hn _. change (2 ^ 64) with 18446744073709551616. lia. }
  pose proof (leaf_digest_length dlen key (P ++ B)) as Hdl.
  destruct (root_feed c _ _ _ _ _ _ Rr (or_introl eq_refl) F0 (Hdl _)) as (r0 & k0 & E0 & R0 & Z0 & M0);
    [apply Hsmall; cbn [length]; lia|].
  rewrite (bind_Ok _ _ _ E0).
  destruct (root_feed c _ _ _ _ _ _ R0 Z0 F1 (Hdl _)) as (r1 & k1 & E1 & R1 & Z1 & M1);
    [apply Hsmall; rewrite ?app_length, ?Hdl; cbn [length]; lia|].
  rewrite (bind_Ok _ _ _ E1).
  destruct (root_feed c _ _ _ _ _ _ R1 Z1 F2 (Hdl _)) as (r2 & k2 & E2 & R2 & Z2 & M2);
    [apply Hsmall; rewrite ?app_length, ?Hdl; cbn [length]; lia|].
  rewrite (bind_Ok _ _ _ E2).
  destruct (root_feed c _ _ _ _ _ _ R2 Z2 F3 (Hdl _)) as (r3 & k3 & E3 & R3 & Z3 & M3);
    [apply Hsmall; rewrite ?app_length, ?Hdl; cbn [length]; lia|].
  rewrite (bind_Ok _ _ _ E3).
  destruct (root_feed c _ _ _ _ _ _ R3 Z3 F4 (Hdl _)) as (r4 & k4 & E4 & R4 & Z4 & M4);
    [apply Hsmall; rewrite ?app_length, ?Hdl; cbn [length]; lia|].
  rewrite (bind_Ok _ _ _ E4).
  destruct (root_feed c _ _ _ _ _ _ R4 Z4 F5 (Hdl _)) as (r5 & k5 & E5 & R5 & Z5 & M5);
    [apply Hsmall; rewrite ?app_length, ?Hdl; cbn [length]; lia|].
  rewrite (bind_Ok _ _ _ E5).
  destruct (root_feed c _ _ _ _ _ _ R5 Z5 F6 (Hdl _)) as (r6 & k6 & E6 & R6 & Z6 & M6);
    [apply Hsmall; rewrite ?app_length, ?Hdl; cbn [length]; lia|].
  rewrite (bind_Ok _ _ _ E6).
  destruct (root_feed c _ _ _ _ _ _ R6 Z6 F7 (Hdl _)) as (r7 & k7 & E7 & R7 & Z7 & M7);
    [apply Hsmall; rewrite ?app_length, ?Hdl; cbn [length]; lia|].
  rewrite (bind_Ok _ _ _ E7).
  rewrite (bind_Ok _ _ _ (finalize_ok c _ _ _ _ R7 Z7)).
  assert (Mall : same_meta (sp_root st) r7).
  { repeat (eapply same_meta_trans; [|eassumption]). apply same_meta_refl. }
  destruct Mall as (_ & Q2 & Q3). rewrite Q2, Q3, Hrl.
  unfold sp_hash_value. cbn [seq flat_map]. rewrite app_nil_r, <- !app_assoc. reflexivity.
Qed.
Theorem sp_finalize_ok c dlen key P B st : SpRep c dlen key P B 0 st ->
  fits c (N.of_nat (length (Spec.key_block key) + length (P ++ B))) ->
  sp_finalize c st = Ok (sp_hash_value dlen key (P ++ B) (st_hash_length (sp_root st))).
Proof.
  intros R Hf. apply sp_finalize_fits; [exact R|]. intros l. eapply fits_le; [exact Hf|].
  unfold leaf_data. rewrite app_length. pose proof (leaf_input_le (idx l) (P ++ B)). lia.
Qed.

(** ** count *)
Lemma uadd_mod c (a b : u64) x y : val a = x mod 2 ^ 64 -> val b = y mod 2 ^ 64 -> fits c (x + y) ->
  exists r, uadd c a b = Ok r /\ val r = (x + y) mod 2 ^ 64.
Proof.
  intros Ha Hb Hf. rewrite uadd_ok.
  - eexists; split; [reflexivity|]. rewrite val_of_N, Ha, Hb. symmetry. apply N.add_mod. discriminate.
  - intros Ho. specialize (Hf Ho). rewrite Ha, Hb, !N.mod_small by lia. exact Hf.
Qed.

Theorem sp_count_ok c dlen key P B st : SpRep c dlen key P B 0 st ->
  fits c (N.of_nat (8 * length (Spec.key_block key) + length (P ++ B))) ->
  exists n, sp_count c st = Ok n /\
    val n = N.of_nat (8 * length (Spec.key_block key) + length (P ++ B)) mod 2 ^ 64.
Proof.
  intros R Hf. unfold sp_count. cbv zeta.
  destruct (sr_P _ _ _ _ _ _ _ R) as (np & Hnp). rewrite app_length, Hnp in *.
  set (x := N.of_nat (length (Spec.key_block key) + 64 * np)).
  assert (HL : forall l, val (proj l (oct_map count (sp_leaves st))) = x mod 2 ^ 64).
  { intros l. rewrite proj_map. destruct (sr_leaf _ _ _ _ _ _ _ R l) as (k & R1 & _).
    unfold count. rewrite (rep_count _ _ _ _ _ R1). unfold leaf_data.
    rewrite app_length, (leaf_input_length _ np (idx_lt l) P Hnp). reflexivity. }
  assert (Hb : val (cast 64 (sp_buflen st)) = N.of_nat (length B) mod 2 ^ 64).
  { unfold cast. rewrite val_of_N. pose proof (sr_buflen _ _ _ _ _ _ _ R) as H.
    unfold sp_buflen_nat in H. replace (val (sp_buflen st)) with (N.of_nat (length B)) by lia. reflexivity. }
  set (ls := oct_map count (sp_leaves st)) in *. clearbody ls.
  pose proof (HL L0) as V0; pose proof (HL L1) as V1; pose proof (HL L2) as V2; pose proof (HL L3) as V3;
  pose proof (HL L4) as V4; pose proof (HL L5) as V5; pose proof (HL L6) as V6; pose proof (HL L7) as V7.
  cbn [proj] in *.
  assert (Hx : 8 * x + N.of_nat (length B) =
               N.of_nat (8 * length (Spec.key_block key) + (512 * np + length B))) by (subst x; lia).
  assert (Hsmall : forall m, m <= 8 * x + N.of_nat (length B) -> fits c m).
  { intros m Hm. eapply fits_le; [exact Hf|]. lia. }
  rewrite <- Hx. clear Hx Hf HL. clearbody x. revert Hb Hsmall. generalize (N.of_nat (length B)). intros b Hb Hsmall.
  destruct (uadd_mod c (o0 ls) (o1 ls) _ _ V0 V1) as (n1 & E1 & W1); [apply Hsmall; clear; lia|].
  rewrite (bind_Ok _ _ _ E1).
  destruct (uadd_mod c n1 (o2 ls) _ _ W1 V2) as (n2 & E2 & W2); [apply Hsmall; clear; lia|].
  rewrite (bind_Ok _ _ _ E2).
  destruct (uadd_mod c n2 (o3 ls) _ _ W2 V3) as (n3 & E3 & W3); [apply Hsmall; clear; lia|].
  rewrite (bind_Ok _ _ _ E3).
  destruct (uadd_mod c n3 (o4 ls) _ _ W3 V4) as (n4 & E4 & W4); [apply Hsmall; clear; lia|].
  rewrite (bind_Ok _ _ _ E4).
  destruct (uadd_mod c n4 (o5 ls) _ _ W4 V5) as (n5 & E5 & W5); [apply Hsmall; clear; lia|].
  rewrite (bind_Ok _ _ _ E5).
  destruct (uadd_mod c n5 (o6 ls) _ _ W5 V6) as (n6 & E6 & W6); [apply Hsmall; clear; lia|].
  rewrite (bind_Ok _ _ _ E6).
  destruct (uadd_mod c n6 (o7 ls) _ _ W6 V7) as (n7 & E7 & W7); [apply Hsmall; clear; lia|].
  rewrite (bind_Ok _ _ _ E7).
  destruct (uadd_mod c n7 (cast 64 (sp_buflen st)) _ _ W7 Hb) as (n8 & E8 & W8); [apply Hsmall; clear; lia|].
  exists n8. split; [exact E8|]. rewrite W8. f_equal. lia.
Qed.

(** ** force_portable *)
Lemma SpRep_force_portable c dlen key P B ext st : SpRep c dlen key P B ext st ->
  SpRep c dlen key P B ext (sp_force_portable st).
Proof.
  intros R. destruct R. constructor; unfold sp_force_portable, sp_buflen_nat;
    cbn [sp_leaves sp_root sp_buf sp_buflen sp_compress8_fn]; try assumption.
  - intros l. destruct (sr_leaf0 l) as (k & R1 & R2 & R3). exists k. rewrite proj_map.
    split; [apply Rep_force_portable, R1|]. split; [exact R2|exact R3].
  - intros l. rewrite proj_map. apply sr_leaf_last0.
  - intros l. rewrite proj_map. apply sr_leaf_hash0.
  - apply Rep_force_portable. assumption.
  - discriminate.
Qed.

(** ** Keyed states: compressing eight blocks fails in builds with debug assertions *)
Lemma sp_compress8_keyed c dlen key B ext st block : SpRep c dlen key [] B ext st -> key <> [] ->
  debug_assertions c = true -> sp_compress8 c block (sp_leaves st) (sp_compress8_fn st) = Panic.
Proof.
  intros R Hk Hd. unfold sp_compress8, debug_assert. rewrite Hd.
  destruct (oct_all (fun l => 0 =? val (st_buflen l)) (sp_leaves st)) eqn:E; [|reflexivity].
  exfalso. rewrite oct_all_spec in E. specialize (E L0). cbn [proj] in E.
  destruct (sr_leaf _ _ _ _ _ _ _ R L0) as (k & R1 & _ & Hz).
  pose proof (rep_buflen _ _ _ _ _ R1) as Hb. unfold leaf_data, buflen_nat in *. cbn [proj idx] in *.
  change (Spec.leaf_input 0 []) with (@nil byte) in *. rewrite app_nil_r in *.
  pose proof (sr_keylen _ _ _ _ _ _ _ R) as Hkl.
  rewrite key_block_length in Hb by lia. destruct key as [|x key]; [contradiction Hk; reflexivity|]. lia.
Qed.

Theorem sp_update_keyed_panic c dlen key P B st input : SpRep c dlen key P B 0 st -> key <> [] ->
  debug_assertions c = true ->
  (1024 < length B + length input)%nat \/ (B = [] /\ (960 < length input)%nat) ->
  sp_update c st input = Panic.
Proof.
  intros R Hk Hd Hbig. pose proof (sr_keyed _ _ _ _ _ _ _ R Hk) as HP. subst P.
  pose proof (sr_buflen _ _ _ _ _ _ _ R) as Hl. pose proof (sr_B _ _ _ _ _ _ _ R) as HB.
  unfold sp_update, sp_empty_buffer, BLOCKBYTES.
  destruct (N.ltb_spec 0 (val (sp_buflen st))) as [Hpos|Hpos].
  - assert (HBl : (0 < length B)%nat) by (unfold sp_buflen_nat in Hl; lia).
    assert (H1024 : (1024 < length B + length input)%nat).
    { destruct Hbig as [H|[-> H]]; [exact H|cbn [length] in HBl; lia]. }
    destruct (sp_fill_buf_ok c dlen key [] B 0 st input R) as (st1 & E1 & R1). cbv zeta in *.
    rewrite E1. cbn [bind].
    set (rest := skipn _ input). assert (Hr : rest <> []).
    { intros Hn. apply (f_equal (@length _)) in Hn. unfold rest in Hn. rewrite skipn_length in Hn.
      cbn [length] in Hn. lia. }
    destruct rest as [|r0 rest]; [contradiction Hr; reflexivity|].
    specialize (R1 0%nat ltac:(lia)).
    rewrite array_ref_ok by (rewrite (sr_buf_length _ _ _ _ _ _ _ R1); lia). cbn [bind].
    rewrite (sp_compress8_keyed _ _ _ _ _ _ _ R1 Hk Hd). reflexivity.
  - assert (B = []) as ->. { unfold sp_buflen_nat in Hl. destruct B; [reflexivity|cbn [length] in Hl; lia]. }
    cbn [bind length] in *. cbn [sp_update_loop]. unfold BLOCKBYTES.
    destruct (Nat.ltb_spec (15 * 64) (length input)) as [Hi|Hi]; [|lia].
    rewrite array_ref_ok by lia. cbn [bind].
    rewrite (sp_compress8_keyed _ _ _ _ _ _ _ R Hk Hd). reflexivity.
Qed.

(** ** The stream view *)
Definition SpModels (c : cfg) (dlen : N) (key D : list byte) (st : SpState) : Prop :=
  exists P B, SpRep c dlen key P B 0 st /\ P ++ B = D.

(** Room for the input in the states of keyed hashing: the part that works. *)
Definition keyed_room (D input : list byte) : Prop :=
  (length (D ++ input) <= 1024)%nat /\ (D <> [] \/ (length input <= 960)%nat).

Theorem sp_models_new c p dlen key : cfg_ok c -> sp_encodes p dlen key ->
  exists st, sp_to_state c p = Ok st /\ SpModels c dlen key [] st.
Proof.
  intros Hc E. destruct (sp_with_params_ok c p dlen key Hc E) as (st & Es & R).
  exists st. split; [exact Es|]. exists [], []. auto.
Qed.
Theorem sp_models_update c dlen D st input : SpModels c dlen [] D st ->
  fits c (N.of_nat (length (D ++ input))) ->
  exists st', sp_update c st input = Ok st' /\ SpModels c dlen [] (D ++ input) st'.
Proof.
  intros (P & B & R & <-) Hf.
  destruct (sp_update_ok c dlen P B st input R Hf) as (st' & P' & B' & E & R' & Heq).
  exists st'. split; [exact E|]. exists P', B'. auto.
Qed.
Theorem sp_models_update_keyed c dlen key D st input : SpModels c dlen key D st -> key <> [] ->
  keyed_room D input ->
  exists st', sp_update c st input = Ok st' /\ SpModels c dlen key (D ++ input) st'.
Proof.
  intros (P & B & R & HD) Hk (H1 & H2). pose proof (sr_keyed _ _ _ _ _ _ _ R Hk) as ->.
  cbn [app] in HD. subst D. rewrite app_length in H1.
  destruct (sp_update_short c dlen key [] B st input R H1 H2) as (st' & E & R').
  exists st'. split; [exact E|]. exists [], (B ++ input). auto.
Qed.
Theorem sp_models_update_panic c dlen key D st input : SpModels c dlen key D st -> key <> [] ->
  debug_assertions c = true -> ~ keyed_room D input -> sp_update c st input = Panic.
Proof.
  intros (P & B & R & HD) Hk Hd Hr. pose proof (sr_keyed _ _ _ _ _ _ _ R Hk) as ->.
  cbn [app] in HD. subst D. eapply sp_update_keyed_panic; try eassumption.
  unfold keyed_room in Hr. rewrite app_length in Hr.
  destruct (Nat.le_gt_cases (length B + length input) 1024) as [H|H]; [right|left; exact H].
  destruct B as [|b B]; [|exfalso; apply Hr; split; [exact H|left; discriminate]].
  split; [reflexivity|]. destruct (Nat.le_gt_cases (length input) 960) as [H9|H9]; [|exact H9].
  exfalso. apply Hr. auto.
Qed.
Theorem sp_models_finalize c dlen key D st : SpModels c dlen key D st ->
  fits c (N.of_nat (length (Spec.key_block key) + length D)) ->
  exists h, sp_finalize c st = Ok h /\ length (h_bytes h) = 32%nat /\ val (h_len h) = dlen /\
    1 <= dlen <= 32 /\ as_bytes h = Ok (Spec.blake2sp dlen key D).
Proof.
  intros (P & B & R & <-) Hf. rewrite (sp_finalize_ok c dlen key P B st R Hf).
  eexists; split; [reflexivity|]. unfold sp_hash_value, as_bytes. cbn [h_bytes h_len].
  assert (H32 : length (Spec.words_bytes (Spec.hash_words (Spec.initial (Spec.root_params dlen key))
     (flat_map (Spec.leaf_digest dlen key (P ++ B)) (seq 0 8)) true)) = 32%nat).
  { apply words_bytes_32, hash_words_length. }
  pose proof (sr_root_hash _ _ _ _ _ _ _ R) as Hh. pose proof (sr_dlen _ _ _ _ _ _ _ R) as Hd.
  split; [exact H32|]. split; [exact Hh|]. split; [exact Hd|].
  rewrite slice_to_ok by (rewrite H32, Hh; lia). rewrite Hh. reflexivity.
Qed.
Theorem sp_models_count c dlen key D st : SpModels c dlen key D st ->
  fits c (N.of_nat (8 * length (Spec.key_block key) + length D)) ->
  exists n, sp_count c st = Ok n /\
    val n = N.of_nat (8 * length (Spec.key_block key) + length D) mod 2 ^ 64.
Proof. intros (P & B & R & <-) Hf. apply sp_count_ok with dlen; assumption. Qed.
Theorem sp_models_force_portable c dlen key D st : SpModels c dlen key D st ->
  SpModels c dlen key D (sp_force_portable st).
Proof. intros (P & B & R & <-). exists P, B. split; [apply SpRep_force_portable, R|reflexivity]. Qed.
