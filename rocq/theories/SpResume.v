(** * SpResume: blake2sp.rs on states with any contents. *)
From Verif Require Import Base BaseFacts Consts Portable PortableFacts SpecFacts Params ParamsSpec State
  StateFacts ParamsFacts Refine Many ManyFacts LeafFacts Blake2sp SpFacts Clients Terms ResumeTerms Resume ResumeMany.
From Verif Require Spec Avx2 Avx2Facts.
Import Avx2Facts (oct_ext, proj_map, proj_map2,
                  proj_const, blocks_ok).
From Coq Require Import ZArith Lia ZifyBool ZifyNat ZifyN.
Local Open Scope N_scope.

(** ** The invariant of [SpFacts], from a state [s0] whose leaves have all counted [C] bytes *)
Definition start_words (s0 : SpState) (l : lane8) : list N := nums (st_h (proj l (sp_leaves s0))).
Record SpAt (c : cfg) (s0 : SpState) (C : N) (P B : list byte) (ext : nat) (st : SpState) : Prop := {
  sa_leaf : forall l, exists k,
     Rep_at c (start_words s0 l) C 0 (Spec.leaf_input (idx l) P) k (proj l (sp_leaves st)) /\
     (lazy_k (Spec.leaf_input (idx l) P) k \/ (448 < length B + ext)%nat) /\
     length (Spec.leaf_input (idx l) P) = (64 * k)%nat;
  sa_meta : forall l, same_meta (proj l (sp_leaves s0)) (proj l (sp_leaves st));
  sa_root : sp_root st = sp_root s0;
  sa_P : exists k, length P = (512 * k)%nat;
  sa_buf_length : length (sp_buf st) = 1024%nat;
  sa_B : (length B <= 1024)%nat;
  sa_buflen : sp_buflen_nat st = length B;
  sa_buf : firstn (length B) (sp_buf st) = B;
  sa_fn : fn8_ok c (sp_compress8_fn st)
}.

(** ** Filling the buffer *)
Lemma sp_fill_buf_at c s0 C P B ext st input : SpAt c s0 C P B ext st ->
  let take := Nat.min (1024 - length B) (length input) in
  exists st', sp_fill_buf c st input = Ok (st', skipn take input) /\
    (forall ext', (length B + ext <= length B + take + ext')%nat ->
       SpAt c s0 C P (B ++ firstn take input) ext' st').
Proof.
  intros R take. pose proof (sa_B _ _ _ _ _ _ _ R) as HB.
  pose proof (sa_buf_length _ _ _ _ _ _ _ R) as Hbl.
  pose proof (sa_buflen _ _ _ _ _ _ _ R) as Hl.
  pose proof (sa_buf _ _ _ _ _ _ _ R) as Hb.
  assert (Ht : (take <= length input)%nat) by lia.
  assert (Hft : length (firstn take input) = take) by (rewrite firstn_length; lia).
  unfold sp_fill_buf. rewrite Hbl, Hl, nsub_ok by exact HB. cbn [bind]. cbv zeta. fold take.
  rewrite slice_to_ok by exact Ht. cbn [bind].
  rewrite copy_into_ok by (rewrite ?Hft; lia). cbn [bind].
  assert (Hv : val (sp_buflen st) = N.of_nat (length B)) by (unfold sp_buflen_nat in Hl; lia).
  assert (Hvt : val (of_N 16 (N.of_nat take)) = N.of_nat take).
  { apply val_of_N_small. change (2 ^ 16) with 65536. lia. }
  rewrite uadd_ok by (intros _; rewrite Hv, Hvt; change (2 ^ 16) with 65536; lia).
  cbn [bind]. rewrite Hv, Hvt, slice_from_ok by exact Ht. cbn [bind].
  eexists; split; [reflexivity|]. intros ext' Hext. destruct R.
  constructor; cbn [sp_leaves sp_root sp_buf sp_buflen sp_compress8_fn]; try assumption.
  - intros l. destruct (sa_leaf0 l) as (k & R1 & R2 & R3). exists k. split; [exact R1|].
    split; [|exact R3]. destruct R2 as [R2|R2]; [left; exact R2|right].
    rewrite app_length, Hft. lia.
  - rewrite !app_length, firstn_length, skipn_length, Hft, Hbl. lia.
  - rewrite app_length, Hft. lia.
  - unfold sp_buflen_nat. cbn [sp_buflen]. rewrite app_length, Hft, val_of_N_small; [lia|].
    change (2 ^ 16) with 65536. lia.
  - rewrite Hb, app_assoc, firstn_app_le by lia. apply firstn_all.
Qed.

Definition leaves_at (c : cfg) (s0 : SpState) (C : N) (P : list byte) (leaves : oct State) : Prop :=
  forall l, exists k,
    Rep_at c (start_words s0 l) C 0 (Spec.leaf_input (idx l) P) k (proj l leaves) /\
    length (Spec.leaf_input (idx l) P) = (64 * k)%nat.

Lemma sp_compress8_at c s0 C P leaves fn block np :
  leaves_at c s0 C P leaves -> length P = (512 * np)%nat -> length block = 512%nat -> fn8_ok c fn ->
  (exists leaves', sp_compress8 c block leaves fn = Ok leaves' /\
    leaves_at c s0 C (P ++ block) leaves' /\ forall l, same_meta (proj l leaves) (proj l leaves')) \/
  (sp_compress8 c block leaves fn = Panic /\ ~ fits c (tally C 0 (64 * np + 64))).
Proof.
  intros HL HP Hb Hfn. unfold sp_compress8.
  assert (Hlen : forall l, length (Spec.leaf_input (idx l) P) = (64 * np)%nat).
  { intros l. apply leaf_input_length; [apply idx_lt|exact HP]. }
  assert (HR : forall l, Rep_at c (start_words s0 l) C 0
                             (Spec.leaf_input (idx l) P) np (proj l leaves)).
  { intros l. destruct (HL l) as (k & R & Hk). rewrite Hlen in Hk.
    replace np with k by lia. exact R. }
  assert (Hd1 : oct_all (fun l => 0 =? val (st_buflen l)) leaves = true).
  { apply oct_all_spec. intros l. pose proof (at_buflen _ _ _ _ _ _ _ (HR l)) as H.
    rewrite Hlen in H. unfold buflen_nat in H. lia. }
  assert (Hcount : forall l, val (st_count (proj l leaves)) = tally C 0 (64 * np) mod 2 ^ 64).
  { intros l. rewrite <- (Hlen l). apply (at_count _ _ _ _ _ _ _ (HR l)). }
  assert (Hd2 : oct_all (fun l => val (st_count (o0 leaves)) =? val (st_count l)) leaves = true).
  { apply oct_all_spec. intros l. apply N.eqb_eq. pose proof (Hcount L0) as H0. cbn [proj] in H0.
    rewrite H0. symmetry. apply Hcount. }
  assert (Hda : forall b, b = true -> debug_assert c b = Ok tt).
  { intros b ->. unfold debug_assert. destruct (debug_assertions c); reflexivity. }
  rewrite (Hda _ Hd1). cbn [bind]. rewrite (Hda _ Hd2). cbn [bind].
  destruct (fits_dec c (tally C 0 (64 * np + 64))) as [Hfl|Hfl].
  2: { right. split; [|exact Hfl]. destruct (bump_cases_at _ _ _ _ _ _ _ (HR L0)) as [_ Bp]. rewrite Hlen in Bp.
       unfold oct_mapM. cbn [proj] in Bp. rewrite (Bp Hfl). reflexivity. }
  left. set (leaves1 := oct_of (fun l => set_count (proj l leaves) (of_N 64 (tally C 0 (64 * np + 64))))).
  rewrite (oct_mapM_ok _ _ leaves1).
  2: { intros l. subst leaves1. rewrite proj_of.
       destruct (bump_cases_at _ _ _ _ _ _ _ (HR l)) as [B1 _]. rewrite Hlen in B1. apply B1, Hfl. }
  cbn [bind].
  assert (Hbo : blocks_ok (eight_blocks block)).
  { intros l. rewrite eight_blocks_lane, sub_length, Hb. pose proof (idx_lt l). lia. }
  rewrite call_compress8_ok by assumption. cbn [bind].
  eexists; split; [reflexivity|].
  assert (HRn : forall l, Rep_at c (start_words s0 l) C 0
      (Spec.leaf_input (idx l) P ++ sub block (idx l * 64) 64) (S np)
      {| st_h := Portable.compress (st_h (proj l leaves)) (sub block (idx l * 64) 64)
                   (of_N 64 (tally C 0 (64 * np + 64))) (uzero 32) (uzero 32);
         st_buf := st_buf (proj l leaves); st_buflen := st_buflen (proj l leaves);
         st_count := of_N 64 (tally C 0 (64 * np + 64));
         st_compress_fn := st_compress_fn (proj l leaves);
         st_last_node := st_last_node (proj l leaves);
         st_hash_length := st_hash_length (proj l leaves) |}).
  { intros l. apply at_block; [apply HR|apply Hlen| | |].
    - rewrite sub_length, Hb. pose proof (idx_lt l). lia.
    - rewrite val_of_N, Hlen. reflexivity.
    - rewrite Hlen. exact Hfl. }
  split.
  - intros l. exists (S np).
    rewrite (leaf_input_app _ P block np HP), (leaf_input_one _ block) by (assumption || apply idx_lt).
    split.
    + rewrite proj_map2, compress8_lane, !proj_map, !proj_const, eight_blocks_lane.
      subst leaves1. rewrite proj_of. exact (HRn l).
    + rewrite app_length, Hlen, sub_length, Hb. pose proof (idx_lt l). lia.
  - intros l. rewrite proj_map2. subst leaves1. rewrite proj_of. repeat split.
Qed.
Lemma SpAt_leaves c s0 C P B ext st : SpAt c s0 C P B ext st -> leaves_at c s0 C P (sp_leaves st).
Proof.
  intros R l. destruct (sa_leaf _ _ _ _ _ _ _ R l) as (k & R1 & _ & R3). exists k.
  split; [exact R1|exact R3].
Qed.

(** The state after compressing [block], with [B'] in the buffer. *)
Lemma SpAt_step c s0 C P B ext st block leaves' B' buf' buflen' ext' :
  SpAt c s0 C P B ext st -> length block = 512%nat ->
  leaves_at c s0 C (P ++ block) leaves' ->
  (forall l, same_meta (proj l (sp_leaves st)) (proj l leaves')) ->
  (448 < length B' + ext')%nat ->
  length buf' = 1024%nat -> (length B' <= 1024)%nat -> N.to_nat (val buflen') = length B' ->
  firstn (length B') buf' = B' ->
  SpAt c s0 C (P ++ block) B' ext'
    {| sp_leaves := leaves'; sp_root := sp_root st; sp_buf := buf'; sp_buflen := buflen';
       sp_compress8_fn := sp_compress8_fn st |}.
Proof.
  intros R Hb HL HM Hx H1 H2 H3 H4. destruct R.
  constructor; cbn [sp_leaves sp_root sp_buf sp_buflen sp_compress8_fn]; try assumption.
  - intros l. destruct (HL l) as (k & R1 & R2). exists k. split; [exact R1|]. split; [right; exact Hx|].
    exact R2.
  - intros l. eapply same_meta_trans; [apply sa_meta0|apply HM].
  - destruct sa_P0 as (k & Hk). exists (S k). rewrite app_length, Hk, Hb. lia.
Qed.

(** ** The loop of [update] *)
Lemma sp_update_loop_at c s0 C fuel : forall P ext st input,
  SpAt c s0 C P [] ext st -> (ext <= length input)%nat ->
  (length input < fuel)%nat ->
  (exists used rest st', sp_update_loop fuel c st input = Ok (st', rest) /\ input = used ++ rest /\
    SpAt c s0 C (P ++ used) [] (length rest) st' /\ (length rest <= 960)%nat) \/
  (sp_update_loop fuel c st input = Panic /\ ~ fits c (tally C 0 (longest_leaf (length (P ++ input))))).
Proof.
  induction fuel as [|fuel IH]; intros P ext st input R Hext Hfuel; [lia|].
  cbn [sp_update_loop]. unfold BLOCKBYTES.
  destruct (Nat.ltb_spec (15 * 64) (length input)) as [Hl|Hl].
  - rewrite array_ref_ok by lia. cbn [bind skipn].
    change (8 * 64)%nat with 512%nat in *.
    destruct (sa_P _ _ _ _ _ _ _ R) as (np & Hnp).
    assert (Hb : length (firstn 512 input) = 512%nat) by (rewrite firstn_length; lia).
    destruct (sp_compress8_at c s0 C P (sp_leaves st) (sp_compress8_fn st) (firstn 512 input) np
      (SpAt_leaves _ _ _ _ _ _ _ R) Hnp Hb (sa_fn _ _ _ _ _ _ _ R)) as [(leaves' & E & HL & HM)|(E & Hn)].
    2: { right. rewrite E. split; [reflexivity|]. intros Hf. apply Hn. eapply fits_le; [exact Hf|]. apply tally_le.
         rewrite app_length. pose proof (longest_leaf_ge (length P + length input) (S np) ltac:(lia)). lia. }
    rewrite E. cbn [bind]. rewrite slice_from_ok by lia. cbn [bind].
    destruct (IH (P ++ firstn 512 input) (length (skipn 512 input)) (sp_set_leaves st leaves') (skipn 512 input))
      as [(used & rest & st' & E' & Ei & R' & Hr)|(E' & Hn)].
    + unfold sp_set_leaves. eapply SpAt_step; try eassumption.
      * cbn [length]. rewrite skipn_length. lia.
      * apply (sa_buf_length _ _ _ _ _ _ _ R).
      * cbn [length]. lia.
      * apply (sa_buflen _ _ _ _ _ _ _ R).
      * reflexivity.
    + lia.
    + rewrite skipn_length. lia.
    + left. exists (firstn 512 input ++ used), rest, st'. split; [exact E'|]. split; [|split; [|exact Hr]].
      * rewrite <- app_assoc, <- Ei. symmetry. apply firstn_skipn.
      * rewrite app_assoc. exact R'.
    + right. rewrite <- app_assoc, firstn_skipn in Hn. split; [exact E'|exact Hn].
  - left. exists [], input, st. rewrite app_nil_r. split; [reflexivity|]. split; [reflexivity|].
    split; [|lia]. destruct R. constructor; try assumption.
    intros l. destruct (sa_leaf0 l) as (k & R1 & R2 & R3). exists k. split; [exact R1|]. split; [|exact R3].
    destruct R2 as [R2|R2]; [left; exact R2|right; cbn [length] in *; lia].
Qed.

(** After the last [fill_buf] nothing is left. *)
Lemma sp_finish_at c s0 C P B ext st input : SpAt c s0 C P B ext st ->
  (length B + length input <= 1024)%nat -> (ext <= length input)%nat ->
  exists st', sp_fill_buf c st input = Ok (st', []) /\ SpAt c s0 C P (B ++ input) 0 st'.
Proof.
  intros R H Hx. destruct (sp_fill_buf_at c s0 C P B ext st input R) as (st' & E & R'). cbv zeta in *.
  replace (Nat.min (1024 - length B) (length input)) with (length input) in * by lia.
  rewrite skipn_all, firstn_all in *. exists st'. split; [exact E|]. apply R'. lia.
Qed.

(** An update that only fills the buffer. *)
Lemma sp_update_short_at c s0 C P B st input : SpAt c s0 C P B 0 st ->
  (length B + length input <= 1024)%nat -> (B <> [] \/ (length input <= 960)%nat) ->
  exists st', sp_update c st input = Ok st' /\ SpAt c s0 C P (B ++ input) 0 st'.
Proof.
  intros R H Hx. unfold sp_update, sp_empty_buffer.
  pose proof (sa_buflen _ _ _ _ _ _ _ R) as Hl.
  assert (Hda : forall b, b = true -> debug_assert c b = Ok tt).
  { intros b ->. unfold debug_assert. destruct (debug_assertions c); reflexivity. }
  destruct (N.ltb_spec 0 (val (sp_buflen st))) as [Hpos|Hpos].
  - destruct (sp_finish_at c s0 C P B 0 st input R H ltac:(lia)) as (st1 & E1 & R1).
    rewrite E1. cbn [bind length sp_update_loop Nat.ltb Nat.leb Nat.mul BLOCKBYTES Nat.add].
    destruct (sp_finish_at c s0 C P (B ++ input) 0 st1 [] R1) as (st2 & E2 & R2).
    { rewrite app_length. cbn [length]. lia. } { lia. }
    rewrite E2. cbn [bind]. rewrite Hda by reflexivity. cbn [bind].
    rewrite app_nil_r in R2. exists st2. split; [reflexivity|exact R2].
  - cbn [bind sp_update_loop].
    assert (B = []) as ->. { unfold sp_buflen_nat in Hl. destruct B; [reflexivity|cbn [length] in Hl; lia]. }
    destruct Hx as [Hx|Hx]; [contradiction Hx; reflexivity|]. unfold BLOCKBYTES.
    destruct (Nat.ltb_spec (15 * 64) (length input)) as [Hi|Hi]; [lia|]. cbn [bind].
    destruct (sp_finish_at c s0 C P [] 0 st input R H ltac:(lia)) as (st1 & E1 & R1).
    rewrite E1. cbn [bind]. rewrite Hda by reflexivity. cbn [bind]. exists st1. split; [reflexivity|exact R1].
Qed.

Lemma sp_update_at c s0 C P B st input : SpAt c s0 C P B 0 st ->
  (exists st' P' B', sp_update c st input = Ok st' /\ SpAt c s0 C P' B' 0 st' /\
    P' ++ B' = (P ++ B) ++ input) \/
  (sp_update c st input = Panic /\ ~ fits c (tally C 0 (longest_leaf (length ((P ++ B) ++ input))))).
Proof.
  intros R.
  assert (Hda : forall b, b = true -> debug_assert c b = Ok tt).
  { intros b ->. unfold debug_assert. destruct (debug_assertions c); reflexivity. }
  destruct (Nat.le_gt_cases (length B + length input) 1024) as [Hshort|Hlong].
  - destruct (Nat.eq_dec (length B) 0) as [HB0|HB0].
    2: { destruct (sp_update_short_at c s0 C P B st input R Hshort) as (st' & E & R').
         { left. intros ->. apply HB0. reflexivity. }
         left. exists st', P, (B ++ input). rewrite app_assoc. auto. }
    destruct (Nat.le_gt_cases (length input) 960) as [Hi|Hi].
    { destruct (sp_update_short_at c s0 C P B st input R Hshort) as (st' & E & R'); [right; exact Hi|].
      left. exists st', P, (B ++ input). rewrite app_assoc. auto. }
    (* 960 < length input <= 1024, empty buffer *)
    assert (B = []) as -> by (destruct B; [reflexivity|discriminate HB0]).
    unfold sp_update, sp_empty_buffer.
    pose proof (sa_buflen _ _ _ _ _ _ _ R) as Hl. unfold sp_buflen_nat in Hl. cbn [length] in Hl.
    replace (0 <? val (sp_buflen st)) with false by lia. cbn [bind].
    rewrite app_nil_r.
    destruct (sp_update_loop_at c s0 C (S (length input)) P 0 st input R ltac:(lia) ltac:(lia))
      as [(used & rest & st1 & E1 & Ei & R1 & Hr)|(E1 & Hn)]; rewrite E1; cbn [bind]; [left|right; split; [reflexivity|exact Hn]].
    destruct (sp_finish_at c s0 C (P ++ used) [] _ st1 rest R1) as (st2 & E2 & R2); [cbn [length]; lia|lia|].
    rewrite E2. cbn [bind]. rewrite Hda by reflexivity. cbn [bind].
    exists st2, (P ++ used), rest. split; [reflexivity|]. split; [exact R2|].
    rewrite Ei, app_assoc. reflexivity.
  - destruct (Nat.eq_dec (length B) 0) as [HB0|HB0].
    { assert (B = []) as -> by (destruct B; [reflexivity|discriminate HB0]).
      unfold sp_update, sp_empty_buffer.
      pose proof (sa_buflen _ _ _ _ _ _ _ R) as Hl. unfold sp_buflen_nat in Hl. cbn [length] in Hl.
      replace (0 <? val (sp_buflen st)) with false by lia. cbn [bind].
      rewrite app_nil_r.
      destruct (sp_update_loop_at c s0 C (S (length input)) P 0 st input R ltac:(lia) ltac:(lia))
        as [(used & rest & st1 & E1 & Ei & R1 & Hr)|(E1 & Hn)]; rewrite E1; cbn [bind]; [left|right; split; [reflexivity|exact Hn]].
      destruct (sp_finish_at c s0 C (P ++ used) [] _ st1 rest R1) as (st2 & E2 & R2); [cbn [length]; lia|lia|].
      rewrite E2. cbn [bind]. rewrite Hda by reflexivity. cbn [bind].
      exists st2, (P ++ used), rest. split; [reflexivity|]. split; [exact R2|].
      rewrite Ei, app_assoc. reflexivity. }
    (* the buffer is filled and compressed *)
    unfold sp_update, sp_empty_buffer.
    pose proof (sa_buflen _ _ _ _ _ _ _ R) as Hl. pose proof (sa_B _ _ _ _ _ _ _ R) as HBle.
    replace (0 <? val (sp_buflen st)) with true by (unfold sp_buflen_nat in Hl; lia).
    set (take := (1024 - length B)%nat).
    destruct (sp_fill_buf_at c s0 C P B 0 st input R) as (st1 & E1 & R1'). cbv zeta in *.
    replace (Nat.min (1024 - length B) (length input)) with take in * by lia.
    rewrite E1. cbn [bind]. clear E1.
    specialize (R1' 0%nat ltac:(lia)). rename R1' into R1.
    assert (Hin : input = firstn take input ++ skipn take input) by (symmetry; apply firstn_skipn).
    set (rest := skipn take input) in *. set (B1 := B ++ firstn take input) in *.
    assert (HB1 : length B1 = 1024%nat) by (subst B1; rewrite app_length, firstn_length; lia).
    assert (Hrest : (0 < length rest)%nat) by (subst rest; rewrite skipn_length; lia).
    assert (Htot : (P ++ B) ++ input = (P ++ B1) ++ rest).
    { subst B1. rewrite Hin at 1. rewrite <- !app_assoc. reflexivity. }
    rewrite Htot in *. clearbody rest B1. clear Hin Htot take R Hl HBle.
    destruct rest as [|x0 rest0] eqn:Erest; [cbn [length] in Hrest; lia|]. rewrite <- Erest in *.
    clear Erest x0 rest0. change (8 * BLOCKBYTES)%nat with 512%nat. change (7 * BLOCKBYTES)%nat with 448%nat.
    pose proof (sa_buf_length _ _ _ _ _ _ _ R1) as Hbl. pose proof (sa_buf _ _ _ _ _ _ _ R1) as Hb.
    rewrite HB1, <- Hbl, firstn_all in Hb.
    rewrite array_ref_ok by lia. cbn [bind skipn]. rewrite Hb.
    destruct (sa_P _ _ _ _ _ _ _ R1) as (np & Hnp).
    assert (Hb1 : length (firstn 512 B1) = 512%nat) by (rewrite firstn_length; lia).
    assert (Hb2 : length (skipn 512 B1) = 512%nat) by (rewrite skipn_length; lia).
    assert (HBB : B1 = firstn 512 B1 ++ skipn 512 B1) by (symmetry; apply firstn_skipn).
    assert (Hlong1 : forall k, (k <= np + 2)%nat -> ~ fits c (tally C 0 (64 * k)) ->
      ~ fits c (tally C 0 (longest_leaf (length ((P ++ B1) ++ rest))))).
    { intros k Hk Hn Hf. apply Hn. eapply fits_le; [exact Hf|]. apply tally_le. rewrite !app_length.
      pose proof (longest_leaf_ge (length P + length B1 + length rest) k ltac:(lia)). lia. }
    destruct (sp_compress8_at c s0 C P (sp_leaves st1) (sp_compress8_fn st1) (firstn 512 B1) np
      (SpAt_leaves _ _ _ _ _ _ _ R1) Hnp Hb1 (sa_fn _ _ _ _ _ _ _ R1)) as [(leaves1 & E2 & HL1 & HM1)|(E2 & Hn)].
    2: { right. rewrite E2. split; [reflexivity|]. apply (Hlong1 (S np)); [lia|].
         replace (64 * S np)%nat with (64 * np + 64)%nat by lia. exact Hn. }
    rewrite E2. cbn [bind]. clear E2.
    pose proof (sa_buflen _ _ _ _ _ _ _ R1) as Hl1. unfold sp_buflen_nat in Hl1. rewrite HB1 in Hl1.
    unfold sp_set_leaves, sp_set_buflen, sp_set_buf, sp_buflen_nat.
    cbn [sp_leaves sp_root sp_buf sp_buflen sp_compress8_fn].
    change (val (of_N 16 (N.of_nat 512))) with 512.
    rewrite usub_ok by (change (val (of_N 16 (N.of_nat 512))) with 512; lia). cbn [bind].
    change (val (of_N 16 (N.of_nat 512))) with 512.
    assert (Hv : val (of_N 16 (val (sp_buflen st1) - 512)) = 512).
    { replace (val (sp_buflen st1) - 512) with 512 by lia. reflexivity. }
    set (bl := of_N 16 (val (sp_buflen st1) - 512)) in *. clearbody bl.
    cbn [sp_leaves sp_root sp_buf sp_buflen sp_compress8_fn].
    destruct (Nat.ltb_spec 448 (length rest)) as [Hr|Hr].
    + rewrite array_ref_ok by lia. cbn [bind]. rewrite Hb, firstn_all2 by lia.
      destruct (sp_compress8_at c s0 C (P ++ firstn 512 B1) leaves1 (sp_compress8_fn st1) (skipn 512 B1) (S np)
        HL1 ltac:(rewrite app_length, Hb1; lia) Hb2 (sa_fn _ _ _ _ _ _ _ R1)) as [(leaves2 & E3 & HL2 & HM2)|(E3 & Hn)].
      2: { right. rewrite E3. split; [reflexivity|]. apply (Hlong1 (S (S np))); [lia|].
           replace (64 * S (S np))%nat with (64 * S np + 64)%nat by lia. exact Hn. }
      rewrite E3. cbn [bind]. clear E3.
      cbn [sp_leaves sp_root sp_buf sp_buflen sp_compress8_fn].
      rewrite <- app_assoc, <- HBB in HL2.
      match goal with |- context [sp_update_loop _ c ?s rest] => set (st2 := s) end.
      assert (R2 : SpAt c s0 C (P ++ B1) [] (length rest) st2).
      { pose proof R1 as R1c. destruct R1c. constructor; subst st2;
        cbn [sp_leaves sp_root sp_buf sp_buflen sp_compress8_fn length]; try assumption.
        - intros l. destruct (HL2 l) as (k & Q1 & Q2). exists k. split; [exact Q1|].
          split; [right; lia|exact Q2].
        - intros l. eapply same_meta_trans; [apply sa_meta0|]. eapply same_meta_trans; [apply HM1|apply HM2].
        - exists (2 + np)%nat. rewrite app_length, HB1. lia.
        - lia.
        - reflexivity.
        - reflexivity. }
      clearbody st2.
      destruct (sp_update_loop_at c s0 C (S (length rest)) (P ++ B1) (length rest) st2 rest R2 ltac:(lia) ltac:(lia))
        as [(used & rest' & st3 & E3 & Ei & R3 & Hr')|(E3 & Hn)]; rewrite E3; cbn [bind]; [left|right; split; [reflexivity|exact Hn]].
      destruct (sp_finish_at c s0 C ((P ++ B1) ++ used) [] _ st3 rest' R3) as (st4 & E4 & R4);
        [cbn [length]; lia|lia|].
      rewrite E4. cbn [bind]. rewrite Hda by reflexivity. cbn [bind].
      exists st4, ((P ++ B1) ++ used), rest'. split; [reflexivity|]. split; [exact R4|].
      rewrite Ei, !app_assoc. reflexivity.
    + rewrite slice_to_ok by lia. cbn [bind]. rewrite slice_from_ok by lia. cbn [bind].
      rewrite Hv. change (N.to_nat 512) with 512%nat. rewrite Hb.
      rewrite slice_to_ok by lia. cbn [bind]. rewrite (firstn_all2 (n := 512) (skipn 512 B1)) by lia.
      rewrite copy_into_ok by (rewrite ?Hb1, ?Hb2; lia). cbn [bind]. rewrite firstn_O. cbn [app].
      rewrite (skipn_all2 (n := 512) (firstn 512 B1)) by lia. rewrite app_nil_r.
      cbn [sp_leaves sp_root sp_buf sp_buflen sp_compress8_fn sp_update_loop].
      unfold BLOCKBYTES. destruct (Nat.ltb_spec (15 * 64) (length rest)) as [Hx|Hx]; [lia|]. cbn [bind].
      match goal with |- context [sp_fill_buf c ?s rest] => set (st2 := s) end.
      assert (R2 : SpAt c s0 C (P ++ firstn 512 B1) (skipn 512 B1) 0 st2).
      { subst st2. eapply SpAt_step; try eassumption.
        - rewrite Hb2. lia.
        - rewrite app_length, Hb2. reflexivity.
        - lia.
        - rewrite Hv, Hb2. reflexivity.
        - rewrite firstn_app_le by lia. apply firstn_all. }
      destruct (sp_finish_at c s0 C _ _ 0 st2 rest R2) as (st3 & E3 & R3); [lia|lia|].
      rewrite E3. cbn [bind]. rewrite Hda by reflexivity. cbn [bind].
      left. exists st3, (P ++ firstn 512 B1), (skipn 512 B1 ++ rest). split; [reflexivity|]. split; [exact R3|].
      rewrite HBB at 3. rewrite <- !app_assoc. reflexivity.
Qed.

(** ** finalize *)
Definition digest_at (s0 : SpState) (C : N) (D : list byte) (l : lane8) : list byte :=
  Spec.words_bytes (hash_from (start_words s0 l) C 0 (Spec.leaf_input (idx l) D) (st_last_node (proj l (sp_leaves s0)))).
Lemma digest_at_length s0 C D l : length (digest_at s0 C D l) = 32%nat.
Proof. unfold digest_at, hash_from. apply words_bytes_32, F_length. Qed.

Lemma leaf_feed_at c s0 C P B st l : SpAt c s0 C P B 0 st ->
  (fits c (tally C 0 (length (Spec.leaf_input (idx l) (P ++ B)))) ->
   exists a b, update c (proj l (sp_leaves st)) (sub B (idx l * 64) 64) = Ok a /\
    update c a (sub B ((idx l + 8) * 64) 64) = Ok b /\
    exists z, finalize c b =
      Ok (z, mk_Hash (digest_at s0 C (P ++ B) l) (st_hash_length (proj l (sp_leaves s0))))) /\
  (~ fits c (tally C 0 (length (Spec.leaf_input (idx l) (P ++ B)))) ->
   update c (proj l (sp_leaves st)) (sub B (idx l * 64) 64) = Panic \/
   exists a, update c (proj l (sp_leaves st)) (sub B (idx l * 64) 64) = Ok a /\
     update c a (sub B ((idx l + 8) * 64) 64) = Panic).
Proof.
  intros R. destruct (sa_leaf _ _ _ _ _ _ _ R l) as (k & R1 & Hz & _).
  destruct (sa_P _ _ _ _ _ _ _ R) as (np & Hnp).
  pose proof (sa_B _ _ _ _ _ _ _ R) as HB.
  assert (Hdata : (Spec.leaf_input (idx l) P ++ sub B (idx l * 64) 64) ++ sub B ((idx l + 8) * 64) 64
                  = Spec.leaf_input (idx l) (P ++ B)).
  { rewrite (leaf_input_app _ P B np Hnp).
    rewrite (leaf_input_two (idx l) B (idx_lt l) HB). rewrite !app_assoc. reflexivity. }
  rewrite <- Hdata. split; intros Hf; rewrite app_length in Hf.
  - destruct (update_at c _ _ _ _ _ _ (sub B (idx l * 64) 64) R1) as (a & ka & Ea & Ra & Ma & Za).
    { eapply fits_le; [exact Hf|]. apply tally_le. rewrite app_length. lia. }
    destruct (update_at c _ _ _ _ _ _ (sub B ((idx l + 8) * 64) 64) Ra Hf) as (b & kb & Eb & Rb & Mb & Zb).
    exists a, b. split; [exact Ea|]. split; [exact Eb|].
    assert (Hzb : lazy_k ((Spec.leaf_input (idx l) P ++ sub B (idx l * 64) 64) ++ sub B ((idx l + 8) * 64) 64) kb).
    { apply Zb. left. apply Za. destruct Hz as [Hz|Hz]; [left; exact Hz|right].
      intros Hn. apply (f_equal (@length _)) in Hn. rewrite sub_length in Hn. cbn [length] in Hn.
      pose proof (idx_lt l). lia. }
    rewrite (finalize_at c _ _ _ _ _ _ Rb Hzb). exists (zeroed b). do 2 f_equal.
    destruct (sa_meta _ _ _ _ _ _ _ R l) as (_ & M2 & M3).
    destruct Ma as (_ & M2' & M3'). destruct Mb as (_ & M2'' & M3'').
    unfold digest_at. rewrite M2'', M2', M2, M3'', M3', M3, Hdata. reflexivity.
  - destruct (fits_dec c (tally C 0 (length (Spec.leaf_input (idx l) P) + length (sub B (idx l * 64) 64)))) as [Hg|Hg].
    + right. destruct (update_at c _ _ _ _ _ _ (sub B (idx l * 64) 64) R1 Hg) as (a & ka & Ea & Ra & Ma & Za).
      exists a. split; [exact Ea|]. exact (update_overflow_at c _ _ _ _ _ _ _ Ra Hf).
    + left. exact (update_overflow_at c _ _ _ _ _ _ _ R1 Hg).
Qed.

Lemma root_feed_at c h0 C m D k root leaf (bs : list byte) hl : Rep_at c h0 C m D k root -> lazy_k D k ->
  (exists z, finalize c leaf = Ok (z, mk_Hash bs hl)) -> length bs = 32%nat -> val hl <= 32 ->
  let d := firstn (N.to_nat (val hl)) bs in
  (fits c (tally C m (length (D ++ d))) ->
   exists root' k', feed_root c root leaf = Ok root' /\ Rep_at c h0 C m (D ++ d) k' root' /\
    lazy_k (D ++ d) k' /\ same_meta root root') /\
  (~ fits c (tally C m (length (D ++ d))) -> feed_root c root leaf = Panic).
Proof.
  intros R Hz (z & E) Hl Hh d. unfold feed_root. rewrite E. cbn [bind].
  unfold as_bytes. cbn [h_bytes h_len].
  rewrite slice_to_ok by lia. cbn [bind]. fold d. rewrite app_length. split; intros Hf.
  - destruct (update_at c _ _ _ _ _ _ d R Hf) as (r & k' & Er & Rr & Mr & Zr).
    exists r, k'. split; [exact Er|]. split; [exact Rr|]. split; [|exact Mr]. apply Zr. left. exact Hz.
  - exact (update_overflow_at c _ _ _ _ _ _ _ R Hf).
Qed.

(** What leaf [l] gives the root. *)
Definition given (s0 : SpState) (C : N) (D : list byte) (l : lane8) : list byte :=
  firstn (N.to_nat (val (st_hash_length (proj l (sp_leaves s0))))) (digest_at s0 C D l).
Definition all_given (s0 : SpState) (C : N) (D Dr : list byte) : list byte :=
  (((((((Dr ++ given s0 C D L0) ++ given s0 C D L1) ++ given s0 C D L2) ++ given s0 C D L3) ++ given s0 C D L4)
    ++ given s0 C D L5) ++ given s0 C D L6) ++ given s0 C D L7.
Lemma given_feed c s0 C D l h0 Cr m Dr k root leaf :
  (forall l, val (st_hash_length (proj l (sp_leaves s0))) <= 32) ->
  Rep_at c h0 Cr m Dr k root -> lazy_k Dr k ->
  (exists z, finalize c leaf = Ok (z, mk_Hash (digest_at s0 C D l) (st_hash_length (proj l (sp_leaves s0))))) ->
  (exists root' k', feed_root c root leaf = Ok root' /\ Rep_at c h0 Cr m (Dr ++ given s0 C D l) k' root' /\
    lazy_k (Dr ++ given s0 C D l) k' /\ same_meta root root') \/
  (feed_root c root leaf = Panic /\ ~ fits c (tally Cr m (length (Dr ++ given s0 C D l)))).
Proof.
  intros Hh R Z F. destruct (root_feed_at c h0 Cr m Dr k root leaf _ _ R Z F (digest_at_length _ _ _ _) (Hh l)) as [Y N].
  fold (given s0 C D l) in Y, N. destruct (fits_dec c (tally Cr m (length (Dr ++ given s0 C D l)))) as [g|g].
  - left. exact (Y g).
  - right. split; [exact (N g)|exact g].
Qed.

Lemma leaf_cases_at c s0 C P B st l : SpAt c s0 C P B 0 st ->
  let n := tally C 0 (length (Spec.leaf_input (idx l) (P ++ B))) in
  (update c (proj l (sp_leaves st)) (sub B (idx l * 64) 64) = Panic /\ ~ fits c n) \/
  exists a, update c (proj l (sp_leaves st)) (sub B (idx l * 64) 64) = Ok a /\
    ((update c a (sub B ((idx l + 8) * 64) 64) = Panic /\ ~ fits c n) \/
     exists b, update c a (sub B ((idx l + 8) * 64) 64) = Ok b /\ fits c n /\
       exists z, finalize c b =
         Ok (z, mk_Hash (digest_at s0 C (P ++ B) l) (st_hash_length (proj l (sp_leaves s0))))).
Proof.
  intros R n. destruct (leaf_feed_at c s0 C P B st l R) as [Y N]. destruct (fits_dec c n) as [Hf|Hf].
  - destruct (Y Hf) as (a & b & Ea & Eb & F). right. exists a. split; [exact Ea|]. right. exists b. auto.
  - destruct (N Hf) as [E|(a & Ea & Eb)]; [left; auto|]. right. exists a. split; [exact Ea|]. left. auto.
Qed.

Lemma sp_finalize_at c s0 C P B st hr Cr mr Dr kr : SpAt c s0 C P B 0 st ->
  Rep_at c hr Cr mr Dr kr (sp_root s0) -> lazy_k Dr kr ->
  (forall l, val (st_hash_length (proj l (sp_leaves s0))) <= 32) ->
  let all := all_given s0 C (P ++ B) Dr in
  (sp_finalize c st = Ok (mk_Hash (Spec.words_bytes (hash_from hr Cr mr all (st_last_node (sp_root s0))))
                            (st_hash_length (sp_root s0))) /\
   (forall l, fits c (tally C 0 (length (Spec.leaf_input (idx l) (P ++ B))))) /\ fits c (tally Cr mr (length all))) \/
  (sp_finalize c st = Panic /\
   ((exists l, ~ fits c (tally C 0 (length (Spec.leaf_input (idx l) (P ++ B))))) \/ ~ fits c (tally Cr mr (length all)))).
Proof.
  intros R Rr Zr Hh all. unfold sp_finalize. cbv zeta.
  pose proof (sa_buf_length _ _ _ _ _ _ _ R) as Hbl. pose proof (sa_buf _ _ _ _ _ _ _ R) as Hb.
  pose proof (sa_buflen _ _ _ _ _ _ _ R) as Hl. pose proof (sa_B _ _ _ _ _ _ _ R) as HB.
  pose proof (fun l => leaf_cases_at c s0 C P B st l R) as HL. cbv zeta in HL.
  rewrite (sa_root _ _ _ _ _ _ _ R).
  destruct (sp_leaves st) as [s_0 s_1 s_2 s_3 s_4 s_5 s_6 s_7]. rewrite Hl. unfold feed_chunk.
  rewrite !(chunk_ok (sp_buf st) B) by (try assumption; unfold BLOCKBYTES; lia).
  cbn [bind].
  destruct (HL L0) as [(A0 & N0)|(a0 & A0 & K0)]; cbn [proj idx o0 o1 o2 o3 o4 o5 o6 o7 Nat.add] in A0;
    [rewrite A0; right; split; [reflexivity|left; exists L0; exact N0]|rewrite (bind_Ok _ _ _ A0); clear A0].
  destruct (HL L1) as [(A1 & N1)|(a1 & A1 & K1)]; cbn [proj idx o0 o1 o2 o3 o4 o5 o6 o7 Nat.add] in A1;
    [rewrite A1; right; split; [reflexivity|left; exists L1; exact N1]|rewrite (bind_Ok _ _ _ A1); clear A1].
  destruct (HL L2) as [(A2 & N2)|(a2 & A2 & K2)]; cbn [proj idx o0 o1 o2 o3 o4 o5 o6 o7 Nat.add] in A2;
    [rewrite A2; right; split; [reflexivity|left; exists L2; exact N2]|rewrite (bind_Ok _ _ _ A2); clear A2].
  destruct (HL L3) as [(A3 & N3)|(a3 & A3 & K3)]; cbn [proj idx o0 o1 o2 o3 o4 o5 o6 o7 Nat.add] in A3;
    [rewrite A3; right; split; [reflexivity|left; exists L3; exact N3]|rewrite (bind_Ok _ _ _ A3); clear A3].
  destruct (HL L4) as [(A4 & N4)|(a4 & A4 & K4)]; cbn [proj idx o0 o1 o2 o3 o4 o5 o6 o7 Nat.add] in A4;
    [rewrite A4; right; split; [reflexivity|left; exists L4; exact N4]|rewrite (bind_Ok _ _ _ A4); clear A4].
  destruct (HL L5) as [(A5 & N5)|(a5 & A5 & K5)]; cbn [proj idx o0 o1 o2 o3 o4 o5 o6 o7 Nat.add] in A5;
    [rewrite A5; right; split; [reflexivity|left; exists L5; exact N5]|rewrite (bind_Ok _ _ _ A5); clear A5].
  destruct (HL L6) as [(A6 & N6)|(a6 & A6 & K6)]; cbn [proj idx o0 o1 o2 o3 o4 o5 o6 o7 Nat.add] in A6;
    [rewrite A6; right; split; [reflexivity|left; exists L6; exact N6]|rewrite (bind_Ok _ _ _ A6); clear A6].
  destruct (HL L7) as [(A7 & N7)|(a7 & A7 & K7)]; cbn [proj idx o0 o1 o2 o3 o4 o5 o6 o7 Nat.add] in A7;
    [rewrite A7; right; split; [reflexivity|left; exists L7; exact N7]|rewrite (bind_Ok _ _ _ A7); clear A7].
  destruct K0 as [(B0 & N0)|(b0 & B0 & G0 & F0)]; cbn [proj idx o0 o1 o2 o3 o4 o5 o6 o7 Nat.add] in B0;
    [rewrite B0; right; split; [reflexivity|left; exists L0; exact N0]|rewrite (bind_Ok _ _ _ B0); clear B0].
  destruct K1 as [(B1 & N1)|(b1 & B1 & G1 & F1)]; cbn [proj idx o0 o1 o2 o3 o4 o5 o6 o7 Nat.add] in B1;
    [rewrite B1; right; split; [reflexivity|left; exists L1; exact N1]|rewrite (bind_Ok _ _ _ B1); clear B1].
  destruct K2 as [(B2 & N2)|(b2 & B2 & G2 & F2)]; cbn [proj idx o0 o1 o2 o3 o4 o5 o6 o7 Nat.add] in B2;
    [rewrite B2; right; split; [reflexivity|left; exists L2; exact N2]|rewrite (bind_Ok _ _ _ B2); clear B2].
  destruct K3 as [(B3 & N3)|(b3 & B3 & G3 & F3)]; cbn [proj idx o0 o1 o2 o3 o4 o5 o6 o7 Nat.add] in B3;
    [rewrite B3; right; split; [reflexivity|left; exists L3; exact N3]|rewrite (bind_Ok _ _ _ B3); clear B3].
  destruct K4 as [(B4 & N4)|(b4 & B4 & G4 & F4)]; cbn [proj idx o0 o1 o2 o3 o4 o5 o6 o7 Nat.add] in B4;
    [rewrite B4; right; split; [reflexivity|left; exists L4; exact N4]|rewrite (bind_Ok _ _ _ B4); clear B4].
  destruct K5 as [(B5 & N5)|(b5 & B5 & G5 & F5)]; cbn [proj idx o0 o1 o2 o3 o4 o5 o6 o7 Nat.add] in B5;
    [rewrite B5; right; split; [reflexivity|left; exists L5; exact N5]|rewrite (bind_Ok _ _ _ B5); clear B5].
  destruct K6 as [(B6 & N6)|(b6 & B6 & G6 & F6)]; cbn [proj idx o0 o1 o2 o3 o4 o5 o6 o7 Nat.add] in B6;
    [rewrite B6; right; split; [reflexivity|left; exists L6; exact N6]|rewrite (bind_Ok _ _ _ B6); clear B6].
  destruct K7 as [(B7 & N7)|(b7 & B7 & G7 & F7)]; cbn [proj idx o0 o1 o2 o3 o4 o5 o6 o7 Nat.add] in B7;
    [rewrite B7; right; split; [reflexivity|left; exists L7; exact N7]|rewrite (bind_Ok _ _ _ B7); clear B7].
  destruct (given_feed c s0 C (P ++ B) L0 _ _ _ _ _ _ _ Hh Rr Zr F0) as [(r0 & k0 & E0 & R0 & Z0 & M0)|(E0 & g0)];
    [rewrite (bind_Ok _ _ _ E0); clear E0 F0
    |rewrite E0; right; split; [reflexivity|right; intros Hf; apply g0; eapply fits_le; [exact Hf|]; apply tally_le;
       unfold all, all_given; rewrite !app_length; clear; lia]].
  destruct (given_feed c s0 C (P ++ B) L1 _ _ _ _ _ _ _ Hh R0 Z0 F1) as [(r1 & k1 & E1 & R1 & Z1 & M1)|(E1 & g1)];
    [rewrite (bind_Ok _ _ _ E1); clear E1 F1
    |rewrite E1; right; split; [reflexivity|right; intros Hf; apply g1; eapply fits_le; [exact Hf|]; apply tally_le;
       unfold all, all_given; rewrite !app_length; clear; lia]].
  destruct (given_feed c s0 C (P ++ B) L2 _ _ _ _ _ _ _ Hh R1 Z1 F2) as [(r2 & k2 & E2 & R2 & Z2 & M2)|(E2 & g2)];
    [rewrite (bind_Ok _ _ _ E2); clear E2 F2
    |rewrite E2; right; split; [reflexivity|right; intros Hf; apply g2; eapply fits_le; [exact Hf|]; apply tally_le;
       unfold all, all_given; rewrite !app_length; clear; lia]].
  destruct (given_feed c s0 C (P ++ B) L3 _ _ _ _ _ _ _ Hh R2 Z2 F3) as [(r3 & k3 & E3 & R3 & Z3 & M3)|(E3 & g3)];
    [rewrite (bind_Ok _ _ _ E3); clear E3 F3
    |rewrite E3; right; split; [reflexivity|right; intros Hf; apply g3; eapply fits_le; [exact Hf|]; apply tally_le;
       unfold all, all_given; rewrite !app_length; clear; lia]].
  destruct (given_feed c s0 C (P ++ B) L4 _ _ _ _ _ _ _ Hh R3 Z3 F4) as [(r4 & k4 & E4 & R4 & Z4 & M4)|(E4 & g4)];
    [rewrite (bind_Ok _ _ _ E4); clear E4 F4
    |rewrite E4; right; split; [reflexivity|right; intros Hf; apply g4; eapply fits_le; [exact Hf|]; apply tally_le;
       unfold all, all_given; rewrite !app_length; clear; lia]].
  destruct (given_feed c s0 C (P ++ B) L5 _ _ _ _ _ _ _ Hh R4 Z4 F5) as [(r5 & k5 & E5 & R5 & Z5 & M5)|(E5 & g5)];
    [rewrite (bind_Ok _ _ _ E5); clear E5 F5
    |rewrite E5; right; split; [reflexivity|right; intros Hf; apply g5; eapply fits_le; [exact Hf|]; apply tally_le;
       unfold all, all_given; rewrite !app_length; clear; lia]].
  destruct (given_feed c s0 C (P ++ B) L6 _ _ _ _ _ _ _ Hh R5 Z5 F6) as [(r6 & k6 & E6 & R6 & Z6 & M6)|(E6 & g6)];
    [rewrite (bind_Ok _ _ _ E6); clear E6 F6
    |rewrite E6; right; split; [reflexivity|right; intros Hf; apply g6; eapply fits_le; [exact Hf|]; apply tally_le;
       unfold all, all_given; rewrite !app_length; clear; lia]].
  destruct (given_feed c s0 C (P ++ B) L7 _ _ _ _ _ _ _ Hh R6 Z6 F7) as [(r7 & k7 & E7 & R7 & Z7 & M7)|(E7 & g7)];
    [rewrite (bind_Ok _ _ _ E7); clear E7 F7
    |rewrite E7; right; split; [reflexivity|right; intros Hf; apply g7; eapply fits_le; [exact Hf|]; apply tally_le;
       unfold all, all_given; rewrite !app_length; clear; lia]].
  rewrite (bind_Ok _ _ _ (finalize_at c _ _ _ _ _ _ R7 Z7)). left.
  assert (Mall : same_meta (sp_root s0) r7).
  { repeat (eapply same_meta_trans; [|eassumption]). apply same_meta_refl. }
  destruct Mall as (_ & Q2 & Q3). rewrite Q2, Q3. split; [reflexivity|]. split; [|exact (at_fits _ _ _ _ _ _ _ R7)].
  intros l. destruct l; assumption.
Qed.

(** ** From a state to the hash *)
Lemma sp_feed_at c s0 C pieces : forall P B st, SpAt c s0 C P B 0 st ->
  (exists st' P' B', sp_feed c st pieces = Ok st' /\ SpAt c s0 C P' B' 0 st' /\ P' ++ B' = (P ++ B) ++ concat pieces) \/
  (sp_feed c st pieces = Panic /\ ~ fits c (tally C 0 (longest_leaf (length ((P ++ B) ++ concat pieces))))).
Proof.
  induction pieces as [|x l IH]; intros P B st R; cbn [sp_feed concat].
  - left. exists st, P, B. rewrite app_nil_r. auto.
  - destruct (sp_update_at c s0 C P B st x R) as [(st' & P' & B' & E & R' & Eq)|(E & Hn)].
    + rewrite E. cbn [bind]. rewrite app_assoc, <- Eq. exact (IH P' B' st' R').
    + right. rewrite E. split; [reflexivity|]. intros Hf. apply Hn. eapply fits_le; [exact Hf|].
      apply tally_le, longest_leaf_mono. rewrite !app_length. lia.
Qed.

Lemma leaf_input_first D l : (length (Spec.leaf_input (idx l) D) <= longest_leaf (length D))%nat.
Proof.
  set (k := (length D / 512)%nat).
  assert (HD : (512 * k <= length D < 512 * k + 512)%nat).
  { subst k. pose proof (Nat.div_mod (length D) 512 ltac:(lia)). pose proof (Nat.mod_upper_bound (length D) 512). lia. }
  assert (Hf : length (firstn (512 * k) D) = (512 * k)%nat) by (rewrite firstn_length; lia).
  pose proof (idx_lt l) as Hi.
  rewrite <- (firstn_skipn (512 * k) D) at 1. rewrite (leaf_input_app _ _ _ k Hf), app_length.
  rewrite (leaf_input_length _ k) by (lia || exact Hf).
  rewrite leaf_input_two by (rewrite ?skipn_length; lia). rewrite app_length, !sub_length, skipn_length.
  unfold longest_leaf. fold k. pose proof (Nat.div_mod (length D) 512 ltac:(lia)). fold k in H. lia.
Qed.
Lemma leaf_input_0 D : length (Spec.leaf_input 0 D) = longest_leaf (length D).
Proof. exact (longest_leaf_spec [] D). Qed.

Lemma given_from s0 C D l : val (count (proj l (sp_leaves s0))) = C ->
  given s0 C D l = leaf_from (proj l (sp_leaves s0)) (idx l) D.
Proof. intros <-. reflexivity. Qed.

Theorem resume_sp c st C pieces : typed_sstate c st -> (sp_buflen_nat st <= 1024)%nat ->
  (forall l, let leaf := proj l (sp_leaves st) in
     buflen_nat leaf = 0%nat /\ val (count leaf) = C /\ val (st_hash_length leaf) <= 32) ->
  (buflen_nat (sp_root st) <= 64)%nat ->
  let root := sp_root st in
  let data := firstn (sp_buflen_nat st) (sp_buf st) ++ concat pieces in
  let digests := leaves_from (sp_leaves st) data in
  let m := buflen_nat root in
  let total := C + N.of_nat (length (Spec.leaf_input 0 data)) in
  let root_total := val (count root) + N.of_nat (length digests) in
  (overflow_checks c = true /\ (2 ^ 64 <= total \/ 2 ^ 64 <= root_total) -> sp_observed c st pieces = Panic) /\
  (overflow_checks c = false \/ (total < 2 ^ 64 /\ root_total < 2 ^ 64) -> exists h,
     sp_observed c st pieces = Ok h /\ h_len h = st_hash_length root /\
     h_bytes h = Spec.words_bytes
       (hash_from (nums (st_h root)) (val (count root)) m (firstn m (st_buf root) ++ digests) (st_last_node root))).
Proof.
  intros (Hb & HT & Hr & Hfn) HB HL Hm root data digests m total root_total.
  assert (R : SpAt c st C [] (firstn (sp_buflen_nat st) (sp_buf st)) 0 st).
  { assert (Hlen : length (firstn (sp_buflen_nat st) (sp_buf st)) = sp_buflen_nat st) by (rewrite firstn_length; lia).
    constructor; rewrite ?Hlen; try assumption; try reflexivity.
    - intros l. exists 0%nat. destruct (HL l) as (L1 & L2 & _).
      pose proof (start_at c (proj l (sp_leaves st)) (HT l) ltac:(lia)) as S. rewrite L1, L2 in S. cbn [firstn] in S.
      split; [exact S|]. split; [left; left; reflexivity|reflexivity].
    - intros l. apply same_meta_refl.
    - exists 0%nat. reflexivity. }
  pose proof (start_at c root Hr Hm) as Rr. fold m in Rr.
  assert (Hh : forall l, val (st_hash_length (proj l (sp_leaves st))) <= 32) by (intros l; apply HL).
  assert (Hall : forall D, all_given st C D (firstn m (st_buf root)) = firstn m (st_buf root) ++ leaves_from (sp_leaves st) D).
  { intros D. unfold all_given, leaves_from.
    rewrite !given_from by apply HL. cbn [proj idx]. rewrite <- !app_assoc. reflexivity. }
  assert (Hfm : length (firstn m (st_buf root)) = m).
  { destruct Hr as (Hr & _). rewrite firstn_length. apply Nat.min_l. unfold root. rewrite Hr. exact Hm. }
  assert (Ht : forall n, fits c (tally C 0 n) <-> fits c (C + N.of_nat n)).
  { intros n. unfold tally. rewrite Nat.sub_0_r. reflexivity. }
  assert (Hrt : fits c (tally (val (count root)) m (length (firstn m (st_buf root) ++ digests))) <-> fits c root_total).
  { unfold tally, root_total. rewrite app_length, Hfm. replace (m + length digests - m)%nat with (length digests) by lia.
    reflexivity. }
  assert (Hbad : forall l, ~ fits c (tally C 0 (length (Spec.leaf_input (idx l) data))) -> ~ fits c total).
  { intros l Hn Hf. apply Hn, Ht. eapply fits_le; [exact Hf|]. unfold total.
    pose proof (leaf_input_first data l). rewrite leaf_input_0. lia. }
  assert (Hcase : (exists h, sp_observed c st pieces = Ok h /\ h_len h = st_hash_length root /\
     h_bytes h = Spec.words_bytes
       (hash_from (nums (st_h root)) (val (count root)) m (firstn m (st_buf root) ++ digests) (st_last_node root)) /\
     fits c total /\ fits c root_total) \/
     (sp_observed c st pieces = Panic /\ (~ fits c total \/ ~ fits c root_total))).
  { unfold sp_observed.
    destruct (sp_feed_at c st C pieces [] _ st R) as [(st' & P' & B' & E & R' & Eq)|(E & Hn)]; rewrite E; cbn [bind].
    - cbn [app] in Eq. fold data in Eq.
      destruct (sp_finalize_at c st C P' B' st' _ _ _ _ _ R' Rr (or_introl eq_refl) Hh) as [(F & G1 & G2)|(F & G)];
        rewrite Eq, Hall in *.
      + left. eexists. split; [exact F|]. split; [reflexivity|]. split; [reflexivity|].
        split; [apply Ht, (G1 L0)|apply Hrt, G2].
      + right. split; [exact F|]. destruct G as [(l & G)|G]; [left; exact (Hbad l G)|right; intros H; apply G, Hrt, H].
    - right. split; [reflexivity|]. left. cbn [app] in Hn. fold data in Hn. rewrite <- leaf_input_0 in Hn.
      exact (Hbad L0 Hn). }
  destruct Hcase as [(h & E & E1 & E2 & G1 & G2)|(E & G)]; split.
  - intros (Ho & Hx). specialize (G1 Ho). specialize (G2 Ho). lia.
  - intros _. exists h. auto.
  - intros _. exact E.
  - intros Hx. exfalso. assert (Hg : fits c total /\ fits c root_total).
    { split; intros Ho; destruct Hx as [Hx|Hx]; try congruence; apply Hx. }
    destruct Hg, G; contradiction.
Qed.

(** Leaf [i] where its counter is that of the message so far. *)
Theorem sp_midway leaf i h P k x : (i < 8)%nat -> length P = (512 * k)%nat ->
  nums (st_h leaf) = Spec.chain h (Spec.leaf_input i P) k -> val (count leaf) = N.of_nat (64 * k) ->
  (k = 0%nat \/ Spec.leaf_input i x <> []) ->
  leaf_from leaf i x =
  firstn (N.to_nat (val (st_hash_length leaf)))
    (Spec.words_bytes (Spec.hash_words h (Spec.leaf_input i (P ++ x)) (st_last_node leaf))).
Proof.
  intros Hi HP Hh Hc Hx. unfold leaf_from. do 2 f_equal. rewrite Hh, Hc, (leaf_input_app i P x k HP).
  pose proof (leaf_input_length i k Hi P HP) as HL.
  assert (Hz : (k = 0 \/ 64 * k < length (Spec.leaf_input i P ++ Spec.leaf_input i x))%nat).
  { destruct Hx as [Hx|Hx]; [left; exact Hx|right]. rewrite app_length, HL.
    destruct (Spec.leaf_input i x); [contradiction Hx; reflexivity|cbn [length]; lia]. }
  pose proof (midway h (Spec.leaf_input i P) k (Spec.leaf_input i x) (st_last_node leaf) ltac:(lia) ltac:(lia) Hz) as M.
  rewrite HL, Nat.sub_diag in M. rewrite (skipn_all2 (n := (64 * k)%nat) (Spec.leaf_input i P)) in M by lia.
  exact M.
Qed.

(** Nothing else in the state matters. *)
Theorem sp_same_contents c a b C pieces : typed_sstate c a -> typed_sstate c b -> (sp_buflen_nat a <= 1024)%nat ->
  (forall l, let leaf := proj l (sp_leaves a) in
     buflen_nat leaf = 0%nat /\ val (count leaf) = C /\ val (st_hash_length leaf) <= 32) ->
  (buflen_nat (sp_root a) <= 64)%nat ->
  (forall l, let x := proj l (sp_leaves a) in let y := proj l (sp_leaves b) in
     st_h x = st_h y /\ count x = count y /\ buflen_nat x = buflen_nat y /\ st_last_node x = st_last_node y /\
     st_hash_length x = st_hash_length y) ->
  (let x := sp_root a in let y := sp_root b in
     st_h x = st_h y /\ count x = count y /\ buflen_nat x = buflen_nat y /\
     firstn (buflen_nat x) (st_buf x) = firstn (buflen_nat y) (st_buf y) /\ st_last_node x = st_last_node y /\
     st_hash_length x = st_hash_length y) ->
  sp_buflen_nat a = sp_buflen_nat b ->
  firstn (sp_buflen_nat a) (sp_buf a) = firstn (sp_buflen_nat b) (sp_buf b) ->
  sp_observed c a pieces = sp_observed c b pieces.
Proof.
  intros Ta Tb HB HL Hr SL (R1 & R2 & R3 & R4 & R5 & R6) El Eb.
  assert (HL' : forall l, let leaf := proj l (sp_leaves b) in
     buflen_nat leaf = 0%nat /\ val (count leaf) = C /\ val (st_hash_length leaf) <= 32).
  { intros l leaf. destruct (HL l) as (H1 & H2 & H3). destruct (SL l) as (_ & S2 & S3 & _ & S5). unfold leaf.
    rewrite <- S2, <- S3, <- S5. auto. }
  pose proof (resume_sp c a C pieces Ta HB HL Hr) as Ra.
  pose proof (resume_sp c b C pieces Tb ltac:(lia) HL' ltac:(lia)) as Rb. cbv zeta in Ra, Rb.
  assert (Ed : forall D, leaves_from (sp_leaves a) D = leaves_from (sp_leaves b) D).
  { intros D.
    assert (E1 : forall l i, leaf_from (proj l (sp_leaves a)) i D = leaf_from (proj l (sp_leaves b)) i D).
    { intros l i. destruct (SL l) as (S1 & S2 & _ & S4 & S5). unfold leaf_from. rewrite S1, S2, S4, S5. reflexivity. }
    unfold leaves_from. rewrite (E1 L0 0%nat : leaf_from (o0 _) _ _ = _), (E1 L1 1%nat : leaf_from (o1 _) _ _ = _),
      (E1 L2 2%nat : leaf_from (o2 _) _ _ = _), (E1 L3 3%nat : leaf_from (o3 _) _ _ = _),
      (E1 L4 4%nat : leaf_from (o4 _) _ _ = _), (E1 L5 5%nat : leaf_from (o5 _) _ _ = _),
      (E1 L6 6%nat : leaf_from (o6 _) _ _ = _), (E1 L7 7%nat : leaf_from (o7 _) _ _ = _). reflexivity. }
  rewrite Ed, Eb, R1, R2, R4, R3, R5, R6 in Ra. destruct Ra as [Pa Oa], Rb as [Pb Ob].
  match type of Pa with _ /\ (2 ^ 64 <= ?t \/ 2 ^ 64 <= ?r) -> _ =>
    destruct (overflow_checks c) eqn:Ho; [destruct (N.lt_ge_cases t (2 ^ 64)) as [Ht|Ht]; [destruct (N.lt_ge_cases r (2 ^ 64)) as [Hq|Hq]|]|] end.
  - destruct (Oa (or_intror (conj Ht Hq))) as (h & E & E1 & E2), (Ob (or_intror (conj Ht Hq))) as (h' & E' & E1' & E2').
    rewrite E, E'. f_equal. destruct h as [x1 y1], h' as [x2 y2]. cbn [h_len h_bytes] in *. congruence.
  - rewrite Pa, Pb by auto. reflexivity.
  - rewrite Pa, Pb by auto. reflexivity.
  - destruct (Oa (or_introl eq_refl)) as (h & E & E1 & E2), (Ob (or_introl eq_refl)) as (h' & E' & E1' & E2').
    rewrite E, E'. f_equal. destruct h as [x1 y1], h' as [x2 y2]. cbn [h_len h_bytes] in *. congruence.
Qed.
