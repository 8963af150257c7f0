(** * ManyFacts: update8, finalize8 and hash8 of lib.rs. *)
From Verif Require Import Base BaseFacts Consts Portable PortableFacts SpecFacts Params State
  StateFacts ParamsFacts Refine Many.
From Verif Require Spec Avx2 Avx2Facts.
Import Avx2Facts (oct_ext, proj_map, proj_map2,
                  proj_const, blocks_ok).
From Coq Require Import ZArith Lia ZifyBool ZifyNat ZifyN.
Local Open Scope N_scope.

(** ** Per-lane effects *)
Lemma lane_dec (P : lane8 -> Prop) (Q : lane8 -> Prop) :
  (forall l, P l \/ Q l) -> (forall l, P l) \/ (exists l, Q l).
Proof.
  intros H.
  destruct (H L0) as [H0|H0]; [|right; exists L0; exact H0].
  destruct (H L1) as [H1|H1]; [|right; exists L1; exact H1].
  destruct (H L2) as [H2|H2]; [|right; exists L2; exact H2].
  destruct (H L3) as [H3|H3]; [|right; exists L3; exact H3].
  destruct (H L4) as [H4|H4]; [|right; exists L4; exact H4].
  destruct (H L5) as [H5|H5]; [|right; exists L5; exact H5].
  destruct (H L6) as [H6|H6]; [|right; exists L6; exact H6].
  destruct (H L7) as [H7|H7]; [|right; exists L7; exact H7].
  left. intros l. destruct l; assumption.
Qed.

Definition oct_of {A} (f : lane8 -> A) : oct A :=
  Oct (f L0) (f L1) (f L2) (f L3) (f L4) (f L5) (f L6) (f L7).
Lemma proj_of {A} (f : lane8 -> A) l : proj l (oct_of f) = f l.
Proof. destruct l; reflexivity. Qed.

Lemma lane_choice {A} (P : lane8 -> A -> Prop) : (forall l, exists y, P l y) ->
  exists o : oct A, forall l, P l (proj l o).
Proof.
  intros H.
  destruct (H L0) as (y0 & H0), (H L1) as (y1 & H1), (H L2) as (y2 & H2), (H L3) as (y3 & H3),
    (H L4) as (y4 & H4), (H L5) as (y5 & H5), (H L6) as (y6 & H6), (H L7) as (y7 & H7).
  exists (Oct y0 y1 y2 y3 y4 y5 y6 y7). intros l. destruct l; assumption.
Qed.

Lemma oct_mapM_ok {A B} (f : A -> outcome B) a o :
  (forall l, f (proj l a) = Ok (proj l o)) -> oct_mapM f a = Ok o.
Proof.
  intros H. pose proof (H L0); pose proof (H L1); pose proof (H L2); pose proof (H L3);
  pose proof (H L4); pose proof (H L5); pose proof (H L6); pose proof (H L7).
  destruct o. cbn [proj] in *. unfold oct_mapM.
  repeat match goal with E : f _ = Ok _ |- _ => rewrite E; cbn [bind]; clear E end. reflexivity.
Qed.
Lemma oct_mapM2_ok {A B C} (f : A -> B -> outcome C) a b o :
  (forall l, f (proj l a) (proj l b) = Ok (proj l o)) -> oct_mapM2 f a b = Ok o.
Proof.
  intros H. pose proof (H L0); pose proof (H L1); pose proof (H L2); pose proof (H L3);
  pose proof (H L4); pose proof (H L5); pose proof (H L6); pose proof (H L7).
  destruct o. cbn [proj] in *. unfold oct_mapM2.
  repeat match goal with E : f _ _ = Ok _ |- _ => rewrite E; cbn [bind]; clear E end. reflexivity.
Qed.

(** One lane panics, the others panic or return. *)
Lemma oct_mapM_panic {A B} (f : A -> outcome B) a :
  (forall l, f (proj l a) = Panic \/ exists y, f (proj l a) = Ok y) ->
  (exists l, f (proj l a) = Panic) -> oct_mapM f a = Panic.
Proof.
  intros H (l & Hl). unfold oct_mapM.
  destruct (H L0) as [E|(y0 & E)]; cbn [proj] in E; rewrite E; cbn [bind]; [reflexivity|].
  assert (l <> L0) by (intros ->; cbn [proj] in Hl; congruence). clear E.
  destruct (H L1) as [E|(y1 & E)]; cbn [proj] in E; rewrite E; cbn [bind]; [reflexivity|].
  assert (l <> L1) by (intros ->; cbn [proj] in Hl; congruence). clear E.
  destruct (H L2) as [E|(y2 & E)]; cbn [proj] in E; rewrite E; cbn [bind]; [reflexivity|].
  assert (l <> L2) by (intros ->; cbn [proj] in Hl; congruence). clear E.
  destruct (H L3) as [E|(y3 & E)]; cbn [proj] in E; rewrite E; cbn [bind]; [reflexivity|].
  assert (l <> L3) by (intros ->; cbn [proj] in Hl; congruence). clear E.
  destruct (H L4) as [E|(y4 & E)]; cbn [proj] in E; rewrite E; cbn [bind]; [reflexivity|].
  assert (l <> L4) by (intros ->; cbn [proj] in Hl; congruence). clear E.
  destruct (H L5) as [E|(y5 & E)]; cbn [proj] in E; rewrite E; cbn [bind]; [reflexivity|].
  assert (l <> L5) by (intros ->; cbn [proj] in Hl; congruence). clear E.
  destruct (H L6) as [E|(y6 & E)]; cbn [proj] in E; rewrite E; cbn [bind]; [reflexivity|].
  assert (l <> L6) by (intros ->; cbn [proj] in Hl; congruence). clear E.
  destruct (H L7) as [E|(y7 & E)]; cbn [proj] in E; rewrite E; cbn [bind]; [reflexivity|].
  destruct l; cbn [proj] in Hl; congruence.
Qed.
Lemma oct_mapM2_mapM {A B C} (f : A -> B -> outcome C) a b :
  oct_mapM2 f a b = oct_mapM (fun p => f (fst p) (snd p)) (oct_map2 pair a b).
Proof. destruct a, b. reflexivity. Qed.
Lemma oct_mapM2_panic {A B C} (f : A -> B -> outcome C) a b :
  (forall l, f (proj l a) (proj l b) = Panic \/ exists y, f (proj l a) (proj l b) = Ok y) ->
  (exists l, f (proj l a) (proj l b) = Panic) -> oct_mapM2 f a b = Panic.
Proof.
  intros H (l & Hl). rewrite oct_mapM2_mapM. apply oct_mapM_panic.
  - intros l'. rewrite proj_map2. apply H.
  - exists l. rewrite proj_map2. exact Hl.
Qed.

Lemma oct_all_spec {A} (f : A -> bool) a : oct_all f a = true <-> forall l, f (proj l a) = true.
Proof.
  unfold oct_all. rewrite !andb_true_iff. split.
  - intros H l. destruct l; cbn [proj]; tauto.
  - intros H. pose proof (H L0); pose proof (H L1); pose proof (H L2); pose proof (H L3);
    pose proof (H L4); pose proof (H L5); pose proof (H L6); pose proof (H L7).
    cbn [proj] in *. tauto.
Qed.

Lemma call_compress8_ok c f h msg count lb ln : fn8_ok c f -> blocks_ok msg ->
  call_compress8 c f h msg count lb ln = Ok (Portable.compress8 h msg count lb ln).
Proof.
  intros Hf Hm. destruct f; cbn [call_compress8]; [reflexivity|].
  rewrite (Hf eq_refl), Avx2Facts.compress8_portable_ok by exact Hm. reflexivity.
Qed.
Lemma compress8_lane h msg count lb ln l :
  proj l (Portable.compress8 h msg count lb ln) =
  Portable.compress (proj l h) (proj l msg) (proj l count) (proj l lb) (proj l ln).
Proof. destruct l; reflexivity. Qed.

(** ** [update8] *)

(** What the first step does to one lane. *)
Lemma compress_buffer_cases c h0 D k st input : Rep c h0 D k st ->
  (compress_buffer_if_possible c st input = Panic /\
     ~ fits c (N.of_nat (length D + length input))) \/
  exists y, compress_buffer_if_possible c st input = Ok y /\
    exists used k', input = used ++ snd y /\ Rep c h0 (D ++ used) k' (fst y) /\
      (snd y = [] \/ length (D ++ used) = (64 * k')%nat) /\
      (fits c (N.of_nat (length D + length input)) ->
         same_meta st (fst y) /\ (snd y = [] -> lazy_k D k \/ input <> [] -> lazy_k (D ++ used) k')).
Proof.
  intros R. destruct (compress_buffer_ok c h0 D k st input R) as [Hok Hpan].
  destruct (fits_dec c (N.of_nat (length D + length input))) as [Hf|Hf].
  - right. destruct (Hok Hf) as (used & rest & st' & k' & E & Ei & R' & M & Hc & Hz).
    exists (st', rest). split; [exact E|]. exists used, k'. cbn [fst snd]. auto 10.
  - destruct (Hpan Hf) as [Hp|(used & rest & st' & k' & E & Ei & R' & HL)]; [left; auto|right].
    exists (st', rest). split; [exact E|]. exists used, k'. cbn [fst snd].
    split; [exact Ei|]. split; [exact R'|]. split; [right; exact HL|]. intros Hx. contradiction.
Qed.

Lemma bump_count_cases c h0 D k st : Rep c h0 D k st ->
  (fits c (N.of_nat (length D + 64)) ->
     bump_count c st = Ok (set_count st (of_N 64 (N.of_nat (length D + 64))))) /\
  (~ fits c (N.of_nat (length D + 64)) -> bump_count c st = Panic).
Proof.
  intros R. unfold bump_count, BLOCKBYTES.
  destruct (count_add c (st_count st) (length D) 64 (rep_fits _ _ _ _ _ R) ltac:(lia) (rep_count _ _ _ _ _ R)) as [Cok Cpan].
  split; intros Hf; [rewrite (Cok Hf)|rewrite (Cpan Hf)]; reflexivity.
Qed.

Lemma update8_loop_ok c fn (Hfn : fn8_ok c fn) (h0 : lane8 -> list N) fuel :
  forall (D : lane8 -> list byte) (k : lane8 -> nat) states inputs,
  (forall l, Rep c (h0 l) (D l) (k l) (proj l states)) ->
  (forall l, proj l inputs = [] \/ length (D l) = (64 * k l)%nat) ->
  (length (proj L0 inputs) < fuel)%nat ->
  (update8_loop fuel c fn states inputs = Panic /\
     exists l, ~ fits c (N.of_nat (length (D l) + length (proj l inputs)))) \/
  exists states' inputs', update8_loop fuel c fn states inputs = Ok (states', inputs') /\
    forall l, exists used k', proj l inputs = used ++ proj l inputs' /\
      Rep c (h0 l) (D l ++ used) k' (proj l states') /\
      same_meta (proj l states) (proj l states') /\
      ((used = [] /\ k' = k l) \/ proj l inputs' <> []).
Proof.
  induction fuel as [|fuel IH]; intros D k states inputs HR Hc Hfuel; [lia|].
  cbn [update8_loop].
  destruct (oct_all _ inputs) eqn:Eall.
  2: { right. exists states, inputs. split; [reflexivity|]. intros l. exists [], (k l).
       rewrite app_nil_r. split; [reflexivity|]. split; [apply HR|]. split; [apply same_meta_refl|]. auto. }
  rewrite oct_all_spec in Eall.
  assert (Hlen : forall l, (64 < length (proj l inputs))%nat).
  { intros l. apply Nat.ltb_lt, (Eall l). }
  assert (HD : forall l, length (D l) = (64 * k l)%nat).
  { intros l. destruct (Hc l) as [E|E]; [|exact E]. specialize (Hlen l). rewrite E in Hlen. cbn in Hlen. lia. }
  destruct (lane_dec (fun l => fits c (N.of_nat (length (D l) + 64)))
                     (fun l => ~ fits c (N.of_nat (length (D l) + 64)))
                     (fun l => fits_dec c _)) as [Hf|(l & Hf)].
  2: { left. split.
       - rewrite oct_mapM_panic; [reflexivity| |].
         + intros l'. destruct (bump_count_cases _ _ _ _ _ (HR l')) as [B1 B2].
           destruct (fits_dec c (N.of_nat (length (D l') + 64))); eauto.
         + exists l. apply (bump_count_cases _ _ _ _ _ (HR l)), Hf.
       - exists l. intros Hx. apply Hf. eapply fits_le; [exact Hx|]. specialize (Hlen l). lia. }
  set (states1 := oct_of (fun l => set_count (proj l states) (of_N 64 (N.of_nat (length (D l) + 64))))).
  rewrite (oct_mapM_ok _ _ states1).
  2: { intros l. subst states1. rewrite proj_of. apply (bump_count_cases _ _ _ _ _ (HR l)), Hf. }
  cbn [bind].
  set (blocks := oct_of (fun l => firstn 64 (proj l inputs))).
  rewrite (oct_mapM_ok _ _ blocks).
  2: { intros l. subst blocks. rewrite proj_of. specialize (Hlen l).
       rewrite array_ref_ok by (unfold BLOCKBYTES; lia). reflexivity. }
  cbn [bind].
  assert (Hb : blocks_ok blocks).
  { intros l. subst blocks. rewrite proj_of, firstn_length. specialize (Hlen l). lia. }
  rewrite call_compress8_ok by assumption. cbn [bind].
  set (inputs1 := oct_of (fun l => skipn 64 (proj l inputs))).
  rewrite (oct_mapM_ok _ _ inputs1).
  2: { intros l. subst inputs1. rewrite proj_of. specialize (Hlen l).
       rewrite slice_from_ok by (unfold BLOCKBYTES; lia). reflexivity. }
  cbn [bind].
  match goal with |- context [update8_loop fuel c fn ?s _] => set (states2 := s) end.
  assert (HR2 : forall l, Rep c (h0 l) (D l ++ firstn 64 (proj l inputs)) (S (k l)) (proj l states2)).
  { intros l. subst states2. rewrite proj_map2, compress8_lane, !proj_map, !proj_const.
    subst states1 blocks. rewrite !proj_of.
    refine (Rep_block c _ _ _ (proj l states) _ _ (HR l) _ _ _ _).
    - apply HD.
    - rewrite firstn_length. specialize (Hlen l). lia.
    - apply val_of_N.
    - apply Hf. }
  destruct (IH _ _ states2 inputs1 HR2) as [(Ep & l & Hp)|(states' & inputs' & E & HP)].
  { intros l. right. rewrite app_length, HD, firstn_length. specialize (Hlen l). lia. }
  { subst inputs1. rewrite proj_of, skipn_length. specialize (Hlen L0). lia. }
  - left. split; [exact Ep|]. exists l. intros Hx. apply Hp. eapply fits_le; [exact Hx|].
    subst inputs1. rewrite proj_of, app_length, firstn_length, skipn_length. lia.
  - right. exists states', inputs'. split; [exact E|]. intros l.
    destruct (HP l) as (used & k' & Ei & R' & M & Hz).
    exists (firstn 64 (proj l inputs) ++ used), k'.
    split; [rewrite <- app_assoc, <- Ei; subst inputs1; rewrite proj_of; symmetry; apply firstn_skipn|].
    split; [rewrite app_assoc; exact R'|].
    split.
    { eapply same_meta_trans; [|exact M]. subst states2 states1.
      rewrite proj_map2, proj_of. repeat split. }
    right. destruct Hz as [[Hu _]|Hz]; [|exact Hz].
    subst used. cbn [app] in Ei. rewrite <- Ei. subst inputs1. rewrite proj_of.
    intros Hx. apply (f_equal (@length _)) in Hx. rewrite skipn_length in Hx. cbn [length] in Hx.
    specialize (Hlen l). lia.
Qed.

Theorem update8_ok c (h0 : lane8 -> list N) D k states inputs :
  (forall l, Rep c (h0 l) (D l) (k l) (proj l states)) ->
  (forall l, fits c (N.of_nat (length (D l) + length (proj l inputs)))) ->
  exists states', update8 c states inputs = Ok states' /\
    forall l, exists k', Rep c (h0 l) (D l ++ proj l inputs) k' (proj l states') /\
      same_meta (proj l states) (proj l states') /\
      (lazy_k (D l) (k l) \/ proj l inputs <> [] -> lazy_k (D l ++ proj l inputs) k').
Proof.
  intros HR Hf. unfold update8.
  assert (H1 : forall l, exists y, compress_buffer_if_possible c (proj l states) (proj l inputs) = Ok y /\
    exists used k', proj l inputs = used ++ snd y /\ Rep c (h0 l) (D l ++ used) k' (fst y) /\
      (snd y = [] \/ length (D l ++ used) = (64 * k')%nat) /\
      same_meta (proj l states) (fst y) /\
      (snd y = [] -> lazy_k (D l) (k l) \/ proj l inputs <> [] -> lazy_k (D l ++ used) k')).
  { intros l. destruct (compress_buffer_cases _ _ _ _ _ (proj l inputs) (HR l))
      as [[_ Hp]|(y & E & used & k' & Ei & R' & Hc & Hm)].
    - exfalso. apply Hp, Hf.
    - exists y. split; [exact E|]. exists used, k'. destruct (Hm (Hf l)). auto. }
  destruct (lane_choice _ H1) as (si & Hsi). clear H1.
  rewrite (oct_mapM2_ok _ _ _ si) by (intros l; apply Hsi). cbn [bind].
  assert (H2 : forall l, exists uk : list byte * nat,
      proj l inputs = fst uk ++ snd (proj l si) /\
      Rep c (h0 l) (D l ++ fst uk) (snd uk) (fst (proj l si)) /\
      (snd (proj l si) = [] \/ length (D l ++ fst uk) = (64 * snd uk)%nat) /\
      same_meta (proj l states) (fst (proj l si)) /\
      (snd (proj l si) = [] -> lazy_k (D l) (k l) \/ proj l inputs <> [] -> lazy_k (D l ++ fst uk) (snd uk))).
  { intros l. destruct (Hsi l) as (_ & used & k' & H). exists (used, k'). exact H. }
  destruct (lane_choice _ H2) as (uk & Huk). clear H2 Hsi.
  destruct (update8_loop_ok c _ (default_fn8_ok c) h0 (S (length (snd (o0 si))))
              (fun l => D l ++ fst (proj l uk)) (fun l => snd (proj l uk))
              (oct_map fst si) (oct_map snd si)) as [(_ & l & Hp)|(states2 & inputs2 & E2 & HP)].
  { intros l. rewrite proj_map. apply Huk. }
  { intros l. rewrite proj_map. apply Huk. }
  { rewrite proj_map. cbn [proj]. lia. }
  { exfalso. apply Hp. eapply fits_le; [apply (Hf l)|]. destruct (Huk l) as (Ei & _).
    rewrite Ei, proj_map, !app_length. lia. }
  rewrite E2. cbn [bind].
  assert (H3 : forall l, exists st', update c (proj l states2) (proj l inputs2) = Ok st' /\
    exists k', Rep c (h0 l) (D l ++ proj l inputs) k' st' /\
      same_meta (proj l states) st' /\
      (lazy_k (D l) (k l) \/ proj l inputs <> [] -> lazy_k (D l ++ proj l inputs) k')).
  { intros l. destruct (Huk l) as (Ei & R1 & Hc & M1 & Hz1).
    destruct (HP l) as (used & k2 & Ei2 & R2 & M2 & Hz2). rewrite proj_map in Ei2. rewrite proj_map in M2.
    assert (ED : ((D l ++ fst (proj l uk)) ++ used) ++ proj l inputs2 = D l ++ proj l inputs).
    { rewrite Ei, Ei2, !app_assoc. reflexivity. }
    destruct (update_ok c _ _ _ _ (proj l inputs2) R2) as (st' & k' & E & R3 & M3 & Hz3).
    { rewrite <- app_length, ED, app_length. apply Hf. }
    rewrite ED in *. exists st'. split; [exact E|]. exists k'. split; [exact R3|].
    split; [eauto using same_meta_trans|]. intros Hin. apply Hz3.
    destruct Hz2 as [[-> ->]|Hz2]; [|right; exact Hz2].
    rewrite app_nil_r. cbn [app] in Ei2. rewrite <- Ei2.
    destruct (snd (proj l si)) eqn:Er; [left; apply Hz1; auto|right; discriminate]. }
  destruct (lane_choice _ H3) as (states' & Hs').
  exists states'. split; [apply oct_mapM2_ok; intros l; apply Hs'|]. intros l. apply Hs'.
Qed.

(** A counter overflows in some lane. *)
Theorem update8_overflow c (h0 : lane8 -> list N) D k states inputs :
  (forall l, Rep c (h0 l) (D l) (k l) (proj l states)) ->
  (exists l, ~ fits c (N.of_nat (length (D l) + length (proj l inputs)))) ->
  update8 c states inputs = Panic.
Proof.
  intros HR (lb & Hf). unfold update8.
  destruct (lane_dec
    (fun l => exists y, compress_buffer_if_possible c (proj l states) (proj l inputs) = Ok y /\
      exists uk : list byte * nat, proj l inputs = fst uk ++ snd y /\
        Rep c (h0 l) (D l ++ fst uk) (snd uk) (fst y) /\
        (snd y = [] \/ length (D l ++ fst uk) = (64 * snd uk)%nat))
    (fun l => compress_buffer_if_possible c (proj l states) (proj l inputs) = Panic)) as [H1|H1].
  { intros l. destruct (compress_buffer_cases _ _ _ _ _ (proj l inputs) (HR l))
      as [[Hp _]|(y & E & used & k' & Ei & R' & Hc & Hm)]; [right; exact Hp|left].
    exists y. split; [exact E|]. exists (used, k'). auto. }
  2: { rewrite oct_mapM2_panic; [reflexivity| |exact H1].
       intros l. destruct (compress_buffer_cases _ _ _ _ _ (proj l inputs) (HR l))
         as [[Hp _]|(y & E & _)]; eauto. }
  destruct (lane_choice _ H1) as (si & Hsi). clear H1.
  rewrite (oct_mapM2_ok _ _ _ si) by (intros l; apply Hsi). cbn [bind].
  destruct (lane_choice _ (fun l => proj2 (Hsi l))) as (uk & Huk). clear Hsi.
  destruct (update8_loop_ok c _ (default_fn8_ok c) h0 (S (length (snd (o0 si))))
              (fun l => D l ++ fst (proj l uk)) (fun l => snd (proj l uk))
              (oct_map fst si) (oct_map snd si)) as [(Ep & _)|(states2 & inputs2 & E2 & HP)].
  { intros l. rewrite proj_map. apply Huk. }
  { intros l. rewrite proj_map. apply Huk. }
  { rewrite proj_map. cbn [proj]. lia. }
  { rewrite Ep. reflexivity. }
  rewrite E2. cbn [bind].
  assert (ED : forall l, exists used k2, 
    Rep c (h0 l) ((D l ++ fst (proj l uk)) ++ used) k2 (proj l states2) /\
    ((D l ++ fst (proj l uk)) ++ used) ++ proj l inputs2 = D l ++ proj l inputs).
  { intros l. destruct (Huk l) as (Ei & R1 & Hc).
    destruct (HP l) as (used & k2 & Ei2 & R2 & M2 & Hz2). rewrite proj_map in Ei2. rewrite proj_map in M2.
    exists used, k2. split; [exact R2|]. rewrite Ei, Ei2, !app_assoc. reflexivity. }
  apply oct_mapM2_panic.
  - intros l. destruct (ED l) as (used & k2 & R2 & E).
    destruct (fits_dec c (N.of_nat (length ((D l ++ fst (proj l uk)) ++ used) + length (proj l inputs2)))) as [Hx|Hx].
    + right. destruct (update_ok c _ _ _ _ _ R2 Hx) as (st' & k' & Eu & _). eauto.
    + left. eapply update_overflow; eassumption.
  - exists lb. destruct (ED lb) as (used & k2 & R2 & E). eapply update_overflow; [exact R2|].
    rewrite <- app_length, E, app_length. exact Hf.
Qed.

(** ** [finalize8] *)
Theorem finalize8_ok c (h0 : lane8 -> list N) D k states :
  (forall l, Rep c (h0 l) (D l) (k l) (proj l states)) ->
  exists states' hashes, finalize8 c states = Ok (states', hashes) /\
    forall l, finalize c (proj l states) = Ok (proj l states', proj l hashes).
Proof.
  intros HR. unfold finalize8. cbv zeta.
  rewrite call_compress8_ok.
  2: apply default_fn8_ok.
  2: { intros l. rewrite !proj_map. apply (rep_buf_length _ _ _ _ _ (Rep_zeroed _ _ _ _ _ (HR l))). }
  cbn [bind]. do 2 eexists. split; [reflexivity|].
  intros l. rewrite proj_map2, compress8_lane, !proj_map, proj_const.
  unfold finalize. fold (zeroed (proj l states)). cbv zeta.
  pose proof (Rep_zeroed _ _ _ _ _ (HR l)) as RZ.
  rewrite call_compress_ok by (destruct RZ; assumption). cbn [bind]. reflexivity.
Qed.
