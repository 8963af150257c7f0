(** * ResumeMany: [update8] and [finalize8] on states with any contents. *)
From Verif Require Import Base BaseFacts Consts Portable PortableFacts SpecFacts Params State StateFacts Many ManyFacts
  Clients Terms ResumeTerms Resume.
From Verif Require Spec Avx2 Avx2Facts.
Import Avx2Facts (oct_ext, proj_map, proj_map2, proj_const, blocks_ok).
From Coq Require Import ZArith Lia ZifyBool ZifyNat ZifyN.
Local Open Scope N_scope.

Lemma compress_cases_at c h0 C m D k st input : Rep_at c h0 C m D k st ->
  (compress_buffer_if_possible c st input = Panic /\
     ~ fits c (tally C m (length D + length input))) \/
  exists y, compress_buffer_if_possible c st input = Ok y /\
    exists used k', input = used ++ snd y /\ Rep_at c h0 C m (D ++ used) k' (fst y) /\
      (snd y = [] \/ length (D ++ used) = (64 * k')%nat) /\
      (fits c (tally C m (length D + length input)) ->
         same_meta st (fst y) /\ (snd y = [] -> lazy_k D k \/ input <> [] -> lazy_k (D ++ used) k')).
Proof.
  intros R. destruct (compress_buffer_at c h0 C m D k st input R) as [Hok Hpan].
  destruct (fits_dec c (tally C m (length D + length input))) as [Hf|Hf].
  - right. destruct (Hok Hf) as (used & rest & st' & k' & E & Ei & R' & M & Hc & Hz).
    exists (st', rest). split; [exact E|]. exists used, k'. cbn [fst snd]. auto 10.
  - destruct (Hpan Hf) as [Hp|(used & rest & st' & k' & E & Ei & R' & HL)]; [left; auto|right].
    exists (st', rest). split; [exact E|]. exists used, k'. cbn [fst snd].
    split; [exact Ei|]. split; [exact R'|]. split; [right; exact HL|]. intros Hx. contradiction.
Qed.

Lemma bump_cases_at c h0 C m D k st : Rep_at c h0 C m D k st ->
  (fits c (tally C m (length D + 64)) ->
     bump_count c st = Ok (set_count st (of_N 64 (tally C m (length D + 64))))) /\
  (~ fits c (tally C m (length D + 64)) -> bump_count c st = Panic).
Proof.
  intros R. unfold bump_count, BLOCKBYTES.
  destruct (tally_add c C m (st_count st) (length D) 64 (at_fits _ _ _ _ _ _ _ R) ltac:(lia) (proj2 (at_m _ _ _ _ _ _ _ R)) (at_count _ _ _ _ _ _ _ R)) as [Cok Cpan].
  split; intros Hf; [rewrite (Cok Hf)|rewrite (Cpan Hf)]; reflexivity.
Qed.

Lemma update8_loop_at c fn (Hfn : fn8_ok c fn) (h0 : lane8 -> list N) (C : lane8 -> N) (m : lane8 -> nat) fuel :
  forall (D : lane8 -> list byte) (k : lane8 -> nat) states inputs,
  (forall l, Rep_at c (h0 l) (C l) (m l) (D l) (k l) (proj l states)) ->
  (forall l, proj l inputs = [] \/ length (D l) = (64 * k l)%nat) ->
  (length (proj L0 inputs) < fuel)%nat ->
  (update8_loop fuel c fn states inputs = Panic /\
     exists l, ~ fits c (tally (C l) (m l) (length (D l) + length (proj l inputs)))) \/
  exists states' inputs', update8_loop fuel c fn states inputs = Ok (states', inputs') /\
    forall l, exists used k', proj l inputs = used ++ proj l inputs' /\
      Rep_at c (h0 l) (C l) (m l) (D l ++ used) k' (proj l states') /\
      same_meta (proj l states) (proj l states') /\
      ((used = [] /\ k' = k l) \/ proj l inputs' <> []).
Proof.
  induction fuel as [|fuel IH]; intros D k states inputs HR Hc Hfuel; [lia|].
  cbn [update8_loop].
  destruct (oct_all _ inputs) eqn:Eall.
  2: { right. exists states, inputs. split; [reflexivity|]. intros l. exists [], (k l).
       rewrite app_nil_r. split; [reflexivity|]. split; [apply HR|]. split; [apply same_meta_refl|]. auto. }
  rewrite oct_all_spec in Eall.
  assert (Hlen : forall l, (64 < length (proj l inputs))%nat).
  { intros l. apply Nat.ltb_lt, (Eall l). }
  assert (HD : forall l, length (D l) = (64 * k l)%nat).
  { intros l. destruct (Hc l) as [E|E]; [|exact E]. specialize (Hlen l). rewrite E in Hlen. cbn in Hlen. lia. }
  destruct (lane_dec (fun l => fits c (tally (C l) (m l) (length (D l) + 64)))
                     (fun l => ~ fits c (tally (C l) (m l) (length (D l) + 64)))
                     (fun l => fits_dec c _)) as [Hf|(l & Hf)].
  2: { left. split.
       - rewrite oct_mapM_panic; [reflexivity| |].
         + intros l'. destruct (bump_cases_at _ _ _ _ _ _ _ (HR l')) as [B1 B2].
           destruct (fits_dec c (tally (C l') (m l') (length (D l') + 64))); eauto.
         + exists l. apply (bump_cases_at _ _ _ _ _ _ _ (HR l)), Hf.
       - exists l. intros Hx. apply Hf. eapply fits_le; [exact Hx|]. apply tally_le. specialize (Hlen l). lia. }
  set (states1 := oct_of (fun l => set_count (proj l states) (of_N 64 (tally (C l) (m l) (length (D l) + 64))))).
  rewrite (oct_mapM_ok _ _ states1).
  2: { intros l. subst states1. rewrite proj_of. apply (bump_cases_at _ _ _ _ _ _ _ (HR l)), Hf. }
  cbn [bind].
  set (blocks := oct_of (fun l => firstn 64 (proj l inputs))).
  rewrite (oct_mapM_ok _ _ blocks).
  2: { intros l. subst blocks. rewrite proj_of. specialize (Hlen l).
       rewrite array_ref_ok by (unfold BLOCKBYTES; lia). reflexivity. }
  cbn [bind].
  assert (Hb : blocks_ok blocks).
  { intros l. subst blocks. rewrite proj_of, firstn_length. specialize (Hlen l). lia. }
  rewrite call_compress8_ok by assumption. cbn [bind].
  set (inputs1 := oct_of (fun l => skipn 64 (proj l inputs))).
  rewrite (oct_mapM_ok _ _ inputs1).
  2: { intros l. subst inputs1. rewrite proj_of. specialize (Hlen l).
       rewrite slice_from_ok by (unfold BLOCKBYTES; lia). reflexivity. }
  cbn [bind].
  match goal with |- context [update8_loop fuel c fn ?s _] => set (states2 := s) end.
  assert (HR2 : forall l, Rep_at c (h0 l) (C l) (m l) (D l ++ firstn 64 (proj l inputs)) (S (k l)) (proj l states2)).
  { intros l. subst states2. rewrite proj_map2, compress8_lane, !proj_map, !proj_const.
    subst states1 blocks. rewrite !proj_of.
    refine (at_block c _ _ _ _ _ (proj l states) _ _ (HR l) _ _ _ _).
    - apply HD.
    - rewrite firstn_length. specialize (Hlen l). lia.
    - apply val_of_N.
    - apply Hf. }
  destruct (IH _ _ states2 inputs1 HR2) as [(Ep & l & Hp)|(states' & inputs' & E & HP)].
  { intros l. right. rewrite app_length, HD, firstn_length. specialize (Hlen l). lia. }
  { subst inputs1. rewrite proj_of, skipn_length. specialize (Hlen L0). lia. }
  - left. split; [exact Ep|]. exists l. intros Hx. apply Hp. eapply fits_le; [exact Hx|]. apply tally_le.
    subst inputs1. rewrite proj_of, app_length, firstn_length, skipn_length. lia.
  - right. exists states', inputs'. split; [exact E|]. intros l.
    destruct (HP l) as (used & k' & Ei & R' & M & Hz).
    exists (firstn 64 (proj l inputs) ++ used), k'.
    split; [rewrite <- app_assoc, <- Ei; subst inputs1; rewrite proj_of; symmetry; apply firstn_skipn|].
    split; [rewrite app_assoc; exact R'|].
    split.
    { eapply same_meta_trans; [|exact M]. subst states2 states1.
      rewrite proj_map2, proj_of. repeat split. }
    right. destruct Hz as [[Hu _]|Hz]; [|exact Hz].
    subst used. cbn [app] in Ei. rewrite <- Ei. subst inputs1. rewrite proj_of.
    intros Hx. apply (f_equal (@length _)) in Hx. rewrite skipn_length in Hx. cbn [length] in Hx.
    specialize (Hlen l). lia.
Qed.

Theorem update8_at c (h0 : lane8 -> list N) (C : lane8 -> N) (m : lane8 -> nat) D k states inputs :
  (forall l, Rep_at c (h0 l) (C l) (m l) (D l) (k l) (proj l states)) ->
  (forall l, fits c (tally (C l) (m l) (length (D l) + length (proj l inputs)))) ->
  exists states', update8 c states inputs = Ok states' /\
    forall l, exists k', Rep_at c (h0 l) (C l) (m l) (D l ++ proj l inputs) k' (proj l states') /\
      same_meta (proj l states) (proj l states') /\
      (lazy_k (D l) (k l) \/ proj l inputs <> [] -> lazy_k (D l ++ proj l inputs) k').
Proof.
  intros HR Hf. unfold update8.
  assert (H1 : forall l, exists y, compress_buffer_if_possible c (proj l states) (proj l inputs) = Ok y /\
    exists used k', proj l inputs = used ++ snd y /\ Rep_at c (h0 l) (C l) (m l) (D l ++ used) k' (fst y) /\
      (snd y = [] \/ length (D l ++ used) = (64 * k')%nat) /\
      same_meta (proj l states) (fst y) /\
      (snd y = [] -> lazy_k (D l) (k l) \/ proj l inputs <> [] -> lazy_k (D l ++ used) k')).
  { intros l. destruct (compress_cases_at _ _ _ _ _ _ _ (proj l inputs) (HR l))
      as [[_ Hp]|(y & E & used & k' & Ei & R' & Hc & Hm)].
    - exfalso. apply Hp, Hf.
    - exists y. split; [exact E|]. exists used, k'. destruct (Hm (Hf l)). auto. }
  destruct (lane_choice _ H1) as (si & Hsi). clear H1.
  rewrite (oct_mapM2_ok _ _ _ si) by (intros l; apply Hsi). cbn [bind].
  assert (H2 : forall l, exists uk : list byte * nat,
      proj l inputs = fst uk ++ snd (proj l si) /\
      Rep_at c (h0 l) (C l) (m l) (D l ++ fst uk) (snd uk) (fst (proj l si)) /\
      (snd (proj l si) = [] \/ length (D l ++ fst uk) = (64 * snd uk)%nat) /\
      same_meta (proj l states) (fst (proj l si)) /\
      (snd (proj l si) = [] -> lazy_k (D l) (k l) \/ proj l inputs <> [] -> lazy_k (D l ++ fst uk) (snd uk))).
  { intros l. destruct (Hsi l) as (_ & used & k' & H). exists (used, k'). exact H. }
  destruct (lane_choice _ H2) as (uk & Huk). clear H2 Hsi.
  destruct (update8_loop_at c _ (default_fn8_ok c) h0 C m (S (length (snd (o0 si))))
              (fun l => D l ++ fst (proj l uk)) (fun l => snd (proj l uk))
              (oct_map fst si) (oct_map snd si)) as [(_ & l & Hp)|(states2 & inputs2 & E2 & HP)].
  { intros l. rewrite proj_map. apply Huk. }
  { intros l. rewrite proj_map. apply Huk. }
  { rewrite proj_map. cbn [proj]. lia. }
  { exfalso. apply Hp. eapply fits_le; [apply (Hf l)|]. apply tally_le. destruct (Huk l) as (Ei & _).
    rewrite Ei, proj_map, !app_length. lia. }
  rewrite E2. cbn [bind].
  assert (H3 : forall l, exists st', update c (proj l states2) (proj l inputs2) = Ok st' /\
    exists k', Rep_at c (h0 l) (C l) (m l) (D l ++ proj l inputs) k' st' /\
      same_meta (proj l states) st' /\
      (lazy_k (D l) (k l) \/ proj l inputs <> [] -> lazy_k (D l ++ proj l inputs) k')).
  { intros l. destruct (Huk l) as (Ei & R1 & Hc & M1 & Hz1).
    destruct (HP l) as (used & k2 & Ei2 & R2 & M2 & Hz2). rewrite proj_map in Ei2. rewrite proj_map in M2.
    assert (ED : ((D l ++ fst (proj l uk)) ++ used) ++ proj l inputs2 = D l ++ proj l inputs).
    { rewrite Ei, Ei2, !app_assoc. reflexivity. }
    destruct (update_at c _ _ _ _ _ _ (proj l inputs2) R2) as (st' & k' & E & R3 & M3 & Hz3).
    { rewrite <- app_length, ED, app_length. apply Hf. }
    rewrite ED in *. exists st'. split; [exact E|]. exists k'. split; [exact R3|].
    split; [eauto using same_meta_trans|]. intros Hin. apply Hz3.
    destruct Hz2 as [[-> ->]|Hz2]; [|right; exact Hz2].
    rewrite app_nil_r. cbn [app] in Ei2. rewrite <- Ei2.
    destruct (snd (proj l si)) eqn:Er; [left; apply Hz1; auto|right; discriminate]. }
  destruct (lane_choice _ H3) as (states' & Hs').
  exists states'. split; [apply oct_mapM2_ok; intros l; apply Hs'|]. intros l. apply Hs'.
Qed.

(** A counter overflows in some lane. *)
Theorem update8_overflow_at c (h0 : lane8 -> list N) (C : lane8 -> N) (m : lane8 -> nat) D k states inputs :
  (forall l, Rep_at c (h0 l) (C l) (m l) (D l) (k l) (proj l states)) ->
  (exists l, ~ fits c (tally (C l) (m l) (length (D l) + length (proj l inputs)))) ->
  update8 c states inputs = Panic.
Proof.
  intros HR (lb & Hf). unfold update8.
  destruct (lane_dec
    (fun l => exists y, compress_buffer_if_possible c (proj l states) (proj l inputs) = Ok y /\
      exists uk : list byte * nat, proj l inputs = fst uk ++ snd y /\
        Rep_at c (h0 l) (C l) (m l) (D l ++ fst uk) (snd uk) (fst y) /\
        (snd y = [] \/ length (D l ++ fst uk) = (64 * snd uk)%nat))
    (fun l => compress_buffer_if_possible c (proj l states) (proj l inputs) = Panic)) as [H1|H1].
  { intros l. destruct (compress_cases_at _ _ _ _ _ _ _ (proj l inputs) (HR l))
      as [[Hp _]|(y & E & used & k' & Ei & R' & Hc & Hm)]; [right; exact Hp|left].
    exists y. split; [exact E|]. exists (used, k'). auto. }
  2: { rewrite oct_mapM2_panic; [reflexivity| |exact H1].
       intros l. destruct (compress_cases_at _ _ _ _ _ _ _ (proj l inputs) (HR l))
         as [[Hp _]|(y & E & _)]; eauto. }
  destruct (lane_choice _ H1) as (si & Hsi). clear H1.
  rewrite (oct_mapM2_ok _ _ _ si) by (intros l; apply Hsi). cbn [bind].
  destruct (lane_choice _ (fun l => proj2 (Hsi l))) as (uk & Huk). clear Hsi.
  destruct (update8_loop_at c _ (default_fn8_ok c) h0 C m (S (length (snd (o0 si))))
              (fun l => D l ++ fst (proj l uk)) (fun l => snd (proj l uk))
              (oct_map fst si) (oct_map snd si)) as [(Ep & _)|(states2 & inputs2 & E2 & HP)].
  { intros l. rewrite proj_map. apply Huk. }
  { intros l. rewrite proj_map. apply Huk. }
  { rewrite proj_map. cbn [proj]. lia. }
  { rewrite Ep. reflexivity. }
  rewrite E2. cbn [bind].
  assert (ED : forall l, exists used k2, 
    Rep_at c (h0 l) (C l) (m l) ((D l ++ fst (proj l uk)) ++ used) k2 (proj l states2) /\
    ((D l ++ fst (proj l uk)) ++ used) ++ proj l inputs2 = D l ++ proj l inputs).
  { intros l. destruct (Huk l) as (Ei & R1 & Hc).
    destruct (HP l) as (used & k2 & Ei2 & R2 & M2 & Hz2). rewrite proj_map in Ei2. rewrite proj_map in M2.
    exists used, k2. split; [exact R2|]. rewrite Ei, Ei2, !app_assoc. reflexivity. }
  apply oct_mapM2_panic.
  - intros l. destruct (ED l) as (used & k2 & R2 & E).
    destruct (fits_dec c (tally (C l) (m l) (length ((D l ++ fst (proj l uk)) ++ used) + length (proj l inputs2)))) as [Hx|Hx].
    + right. destruct (update_at c _ _ _ _ _ _ _ R2 Hx) as (st' & k' & Eu & _). eauto.
    + left. eapply update_overflow_at; eassumption.
  - exists lb. destruct (ED lb) as (used & k2 & R2 & E). eapply update_overflow_at; [exact R2|].
    rewrite <- app_length, E, app_length. exact Hf.
Qed.

(** ** [finalize8] *)
Theorem finalize8_at c (h0 : lane8 -> list N) (C : lane8 -> N) (m : lane8 -> nat) D k states :
  (forall l, Rep_at c (h0 l) (C l) (m l) (D l) (k l) (proj l states)) ->
  exists states' hashes, finalize8 c states = Ok (states', hashes) /\
    forall l, finalize c (proj l states) = Ok (proj l states', proj l hashes).
Proof.
  intros HR. unfold finalize8. cbv zeta.
  assert (HZ : forall l, length (st_buf (zeroed (proj l states))) = 64%nat).
  { intros l. unfold zeroed. cbn [st_buf]. rewrite (zero_buf_at _ _ _ _ _ _ _ (HR l)). apply block_length. }
  rewrite call_compress8_ok.
  2: apply default_fn8_ok.
  2: { intros l. rewrite !proj_map. apply HZ. }
  cbn [bind]. do 2 eexists. split; [reflexivity|].
  intros l. rewrite proj_map2, compress8_lane, !proj_map, proj_const.
  unfold finalize. fold (zeroed (proj l states)). cbv zeta.
  rewrite call_compress_ok by (apply HZ || exact (at_fn _ _ _ _ _ _ _ (HR l))). cbn [bind]. reflexivity.
Qed.

Theorem resume8 c sts inputs :
  (forall l, typed_state c (proj l sts)) -> (forall l, (buflen_nat (proj l sts) <= 64)%nat) ->
  let total l := val (count (proj l sts)) + N.of_nat (length (proj l inputs)) in
  (overflow_checks c = true /\ (exists l, 2 ^ 64 <= total l) -> update8 c sts inputs = Panic) /\
  (overflow_checks c = false \/ (forall l, total l < 2 ^ 64) -> exists sts' sts'' hs,
     update8 c sts inputs = Ok sts' /\ finalize8 c sts' = Ok (sts'', hs) /\
     forall l, let st := proj l sts in let m := buflen_nat st in
       val (count (proj l sts')) = total l mod 2 ^ 64 /\ h_len (proj l hs) = st_hash_length st /\
       h_bytes (proj l hs) = Spec.words_bytes
         (hash_from (nums (st_h st)) (val (count st)) m (firstn m (st_buf st) ++ proj l inputs) (st_last_node st))).
Proof.
  intros Ht Hm total.
  pose proof (fun l => start_at c (proj l sts) (Ht l) (Hm l)) as R.
  assert (ET : forall l, tally (val (count (proj l sts))) (buflen_nat (proj l sts))
                 (length (firstn (buflen_nat (proj l sts)) (st_buf (proj l sts))) + length (proj l inputs)) = total l).
  { intros l. unfold tally, total. rewrite firstn_length. destruct (Ht l) as [-> _]. specialize (Hm l). f_equal. lia. }
  split; intros H.
  - refine (update8_overflow_at c _ _ _ _ _ sts inputs R _). destruct H as [Ho [l Hl]]. exists l. rewrite ET.
    intros F. specialize (F Ho). lia.
  - destruct (update8_at c _ _ _ _ _ sts inputs R) as (sts' & E & HP).
    { intros l. rewrite ET. intros Ho. destruct H as [H|H]; [congruence|apply H]. }
    assert (HK : forall l, exists k', Rep_at c (nums (st_h (proj l sts))) (val (count (proj l sts))) (buflen_nat (proj l sts))
        (firstn (buflen_nat (proj l sts)) (st_buf (proj l sts)) ++ proj l inputs) k' (proj l sts') /\
        same_meta (proj l sts) (proj l sts') /\
        lazy_k (firstn (buflen_nat (proj l sts)) (st_buf (proj l sts)) ++ proj l inputs) k').
    { intros l. destruct (HP l) as (k' & R' & M & L). exists k'. split; [exact R'|]. split; [exact M|].
      apply L. left. left. reflexivity. }
    destruct (lane_choice _ HK) as (ks & Hks).
    destruct (finalize8_at c _ _ _ _ _ sts' (fun l => proj1 (Hks l))) as (sts'' & hs & EF & Hh).
    exists sts', sts'', hs. split; [exact E|]. split; [exact EF|]. intros l st m.
    destruct (Hks l) as (R' & (_ & M2 & M3) & L). specialize (Hh l). rewrite (finalize_at _ _ _ _ _ _ _ R' L) in Hh.
    apply (f_equal (fun o => match o with Ok (_, h) => h | _ => proj l hs end)) in Hh. cbv beta iota in Hh.
    rewrite <- Hh. cbn [h_len h_bytes].
    split; [|split; [exact M3|rewrite M2; reflexivity]].
    destruct R'. rewrite app_length, ET in at_count. exact at_count.
Qed.
