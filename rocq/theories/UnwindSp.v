(** * UnwindSp: what BLAKE2sp without a key leaves when the counter of a leaf overflows. *)
From Verif Require Import Base BaseFacts Consts Portable PortableFacts SpecFacts Params ParamsSpec ParamsFacts State StateFacts
  Many Blake2sp Debug Views Machine MachineSpec Safety Clients Refine ManyFacts LeafFacts SpFacts SpLate SpOverflow Behave
  Corollaries Witness Unwind UnwindFacts UnwindUse.
From Verif Require Spec.
From Coq Require Import ZArith Lia ZifyBool ZifyNat ZifyN.
Local Open Scope N_scope.

Definition leaves_step (c : cfg) (block : list byte) (st : SpState) : ended SpState unit :=
  within sp_leaves sp_set_leaves (sp_compress8_u c block (sp_compress8_fn st)) st.
(** The leaves count alike, so the first one overflows, and nothing has happened yet. *)
Lemma leaves_step_cases c dlen P st block np : leaves_ok c dlen P (sp_leaves st) -> length P = (512 * np)%nat ->
  length block = 512%nat -> fn8_ok c (sp_compress8_fn st) ->
  (exists leaves', leaves_step c block st = Returned (sp_set_leaves st leaves') tt /\
     leaves_ok c dlen (P ++ block) leaves' /\ forall l, same_meta (proj l (sp_leaves st)) (proj l leaves')) \/
  (leaves_step c block st = Unwound st /\ ~ fits c (N.of_nat (64 * np + 64))).
Proof.
  intros HL HP Hb Hfn.
  destruct (sp_compress8_cases c dlen P (sp_leaves st) (sp_compress8_fn st) block np HL HP Hb Hfn)
    as [(leaves' & E & H1 & H2)|(E & Hn)].
  - left. exists leaves'. split; [|auto]. unfold leaves_step, within.
    rewrite (forget_Ok (sp_compress8_u c block (sp_compress8_fn st) (sp_leaves st)) leaves' tt); [reflexivity|].
    rewrite forget_sp_compress8, E. reflexivity.
  - right. split; [|exact Hn]. unfold leaves_step, within.
    enough (Eu : sp_compress8_u c block (sp_compress8_fn st) (sp_leaves st) = Unwound (sp_leaves st)).
    { rewrite Eu. destruct st; reflexivity. }
    unfold sp_compress8_u, this. unfold andthen at 1.
    assert (Da : forall b, debug_assert c b = Ok tt \/ debug_assert c b = Panic).
    { intros b. unfold debug_assert. destruct (debug_assertions c), b; auto. }
    destruct (Da (oct_all (fun l => 0 =? val (st_buflen l)) (sp_leaves st))) as [D1|D1]; rewrite D1; [|reflexivity].
    unfold eval at 1. unfold andthen at 1.
    destruct (Da (oct_all (fun l => val (st_count (o0 (sp_leaves st))) =? val (st_count l)) (sp_leaves st)))
      as [D2|D2]; rewrite D2; [|reflexivity].
    unfold eval at 1. unfold andthen at 1. apply step_cut. unfold each8. cbv zeta. apply step_cut.
    destruct (HL L0) as (k & R & Hk). destruct (bump_count_cases _ _ _ _ _ R) as [_ Bp].
    rewrite (leaf_input_length _ np (idx_lt L0) P HP) in Bp. specialize (Bp Hn).
    unfold within. assert (Eb : bump_count_u c (proj L0 (sp_leaves st)) = Unwound (proj L0 (sp_leaves st))).
    { unfold bump_count_u, this, andthen, eval. unfold bump_count in Bp. destruct (uadd c _ _); try discriminate Bp. reflexivity. }
    rewrite Eb. destruct (sp_leaves st); reflexivity.
Qed.

(** What is left: [np] blocks are in every leaf, [B'] is in the buffer. *)
Definition stopped (c : cfg) (dlen : N) (M : list byte) (st' : SpState) : Prop :=
  exists np B' ext, SpRep c dlen [] (firstn (512 * np) M) B' ext st' /\ (512 * np <= length M)%nat /\
    ~ fits c (N.of_nat (64 * np + 64)) /\
    (B' = [] \/ (B' = sub M (512 * np) 1024 /\ length B' = 1024%nat) \/
     ((1 <= np)%nat /\ B' = sub M (512 * np - 512) 512 /\ length B' = 512%nat)).

Lemma loop_stops c dlen fuel : forall P ext st input, SpRep c dlen [] P [] ext st -> (ext <= length input)%nat ->
  (length input < fuel)%nat ->
  match sp_update_loop_u fuel c input st with
  | Returned _ _ => True
  | Unwound st' => stopped c dlen (P ++ input) st'
  | Undef | Endless => False
  end.
Proof.
  induction fuel as [|fuel IH]; intros P ext st input R Hext Hfuel; [lia|].
  cbn [sp_update_loop_u]. unfold BLOCKBYTES. destruct (Nat.ltb_spec (15 * 64) (length input)) as [Hl|Hl].
  2: { exact I. }
  change (8 * 64)%nat with 512%nat in *.
  destruct (sr_P _ _ _ _ _ _ _ R) as (np & Hnp).
  assert (Hb : length (firstn 512 input) = 512%nat) by (rewrite firstn_length; lia).
  rewrite (step_eval _ _ _ _ (array_ref_ok input 0 512 ltac:(lia))). cbn [skipn].
  unfold this at 1. unfold andthen at 1.
  destruct (leaves_step_cases c dlen P st (firstn 512 input) np (SpRep_leaves _ _ _ _ _ _ R) Hnp Hb (sr_fn _ _ _ _ _ _ _ R))
    as [(leaves' & E & HL & HM)|(E & Hn)]; unfold leaves_step in E.
  - rewrite (step_done _ _ _ _ _ E). rewrite (step_eval _ _ _ _ (slice_from_ok input 512 ltac:(lia))).
    assert (H := IH (P ++ firstn 512 input) (length (skipn 512 input)) (sp_set_leaves st leaves') (skipn 512 input)).
    rewrite <- app_assoc, firstn_skipn in H. apply H.
    + unfold sp_set_leaves. eapply SpRep_step; try eassumption.
      * cbn [length]. rewrite skipn_length. lia.
      * apply (sr_buf_length _ _ _ _ _ _ _ R).
      * cbn [length]. lia.
      * apply (sr_buflen _ _ _ _ _ _ _ R).
      * reflexivity.
    + lia.
    + rewrite skipn_length. lia.
  - rewrite (step_cut _ _ _ _ E). exists np, [], ext.
    rewrite firstn_app_le, firstn_all2, app_length by lia. split; [exact R|]. split; [lia|]. auto.
Qed.

Lemma empty_stops c dlen P B st x : SpRep c dlen [] P B 0 st ->
  match sp_empty_buffer_u c x st with
  | Returned st' rest =>
      (exists P' ext, SpRep c dlen [] P' [] ext st' /\ (ext <= length rest)%nat /\ P' ++ rest = (P ++ B) ++ x) \/
      (exists P' B', SpRep c dlen [] P' B' 0 st' /\ (length rest <= 960)%nat /\ (length B' + length rest <= 1024)%nat)
  | Unwound st' => stopped c dlen ((P ++ B) ++ x) st'
  | Undef | Endless => False
  end.
Proof.
  intros R. pose proof (sr_B _ _ _ _ _ _ _ R) as HB. pose proof (sr_buflen _ _ _ _ _ _ _ R) as Hl.
  unfold sp_empty_buffer_u, BLOCKBYTES. unfold this at 1. unfold andthen at 1.
  destruct (N.ltb_spec 0 (val (sp_buflen st))) as [Hpos|Hpos].
  2: { assert (B = []) as ->. { unfold sp_buflen_nat in Hl. destruct B; [reflexivity|cbn [length] in Hl; lia]. }
       left. exists P, 0%nat. rewrite app_nil_r. split; [exact R|]. split; [lia|reflexivity]. }
  destruct (sp_fill_buf_ok c dlen [] P B 0 st x R) as (st1 & E1 & R1). cbv zeta in *.
  rewrite <- forget_sp_fill_buf in E1. apply forget_Ok in E1.
  set (take := Nat.min (1024 - length B) (length x)) in *. specialize (R1 0%nat ltac:(lia)).
  assert (HM : (P ++ B) ++ x = (P ++ B ++ firstn take x) ++ skipn take x).
  { rewrite <- (firstn_skipn take x) at 1. rewrite <- !app_assoc. reflexivity. }
  rewrite HM. clear HM.
  rewrite (step_done _ _ _ _ _ E1).
  set (rest := skipn take x) in *. set (B1 := B ++ firstn take x) in *.
  assert (Hlr : length rest = (length x - take)%nat) by apply skipn_length.
  assert (HlB1 : length B1 = (length B + take)%nat) by (subst B1; rewrite app_length, firstn_length; lia).
  clearbody rest B1.
  destruct rest as [|x0 rest0] eqn:Erest.
  { right. exists P, B1. cbn [length]. split; [exact R1|]. split; lia. }
  rewrite <- Erest in *. assert (Hrest : (0 < length rest)%nat) by (rewrite Erest; cbn [length]; lia).
  clear Erest x0 rest0. change (8 * 64)%nat with 512%nat in *. change (7 * 64)%nat with 448%nat in *.
  assert (HB1 : length B1 = 1024%nat) by lia.
  pose proof (sr_buf_length _ _ _ _ _ _ _ R1) as Hbl. pose proof (sr_buf _ _ _ _ _ _ _ R1) as Hb.
  rewrite HB1, <- Hbl, firstn_all in Hb.
  destruct (sr_P _ _ _ _ _ _ _ R1) as (np & Hnp).
  assert (Hb1 : length (firstn 512 B1) = 512%nat) by (rewrite firstn_length; lia).
  assert (Hb2 : length (skipn 512 B1) = 512%nat) by (rewrite skipn_length; lia).
  assert (HBB : B1 = firstn 512 B1 ++ skipn 512 B1) by (symmetry; apply firstn_skipn).
  unfold this at 1. unfold andthen at 1.
  assert (Ea : array_ref (sp_buf st1) 0 512 = Ok (firstn 512 B1)).
  { rewrite array_ref_ok by lia. rewrite Hb. reflexivity. }
  rewrite (step_eval _ _ _ _ Ea).
  destruct (leaves_step_cases c dlen P st1 (firstn 512 B1) np (SpRep_leaves _ _ _ _ _ _ R1) Hnp Hb1 (sr_fn _ _ _ _ _ _ _ R1))
    as [(leaves1 & E2 & HL1 & HM1)|(E2 & Hn)]; unfold leaves_step in E2.
  2: { (* the first eight blocks of the buffer *)
       rewrite (step_cut _ _ _ _ E2). exists np, B1, 0%nat.
       rewrite <- app_assoc, firstn_app_le, firstn_all2, app_length by lia. split; [exact R1|]. split; [lia|]. split; [exact Hn|].
       right. left. split; [|exact HB1]. unfold sub. rewrite skipn_app_ge by lia. rewrite Hnp, Nat.sub_diag. cbn [skipn].
       rewrite firstn_app_le, firstn_all2 by lia. reflexivity. }
  rewrite (step_done _ _ _ _ _ E2). clear E2.
  pose proof (sr_buflen _ _ _ _ _ _ _ R1) as Hl1. unfold sp_buflen_nat in Hl1. rewrite HB1 in Hl1.
  assert (Es : usub c (sp_buflen st1) (of_N 16 (N.of_nat 512)) = Ok (of_N 16 512)).
  { rewrite usub_ok by (change (val (of_N 16 (N.of_nat 512))) with 512; lia).
    change (val (of_N 16 (N.of_nat 512))) with 512. replace (val (sp_buflen st1) - 512) with 512 by lia. reflexivity. }
  rewrite (step_eval _ _ _ _ Es). unfold assign at 1. unfold andthen at 1.
  set (st2 := sp_set_buflen (sp_set_leaves st1 leaves1) (of_N 16 512)).
  destruct (Nat.ltb_spec 448 (length rest)) as [Hr|Hr].
  - unfold this at 1. unfold andthen at 1.
    assert (Ea2 : array_ref (sp_buf st2) 512 512 = Ok (skipn 512 B1)).
    { change (sp_buf st2) with (sp_buf st1). rewrite array_ref_ok by lia. rewrite Hb, firstn_all2 by lia. reflexivity. }
    rewrite (step_eval _ _ _ _ Ea2).
    destruct (leaves_step_cases c dlen (P ++ firstn 512 B1) st2 (skipn 512 B1) (S np) HL1
      ltac:(rewrite app_length, Hb1; lia) Hb2 (sr_fn _ _ _ _ _ _ _ R1)) as [(leaves2 & E3 & HL2 & HM2)|(E3 & Hn)];
      unfold leaves_step in E3.
    + rewrite (step_done _ _ _ _ _ E3). unfold assign at 1. unfold andthen at 1. unfold ret.
      left. exists (P ++ B1), (length rest). split; [|split; [lia|reflexivity]].
      rewrite <- app_assoc, <- HBB in HL2.
      pose proof R1 as R1c. destruct R1c. constructor;
        cbn [sp_set_buflen sp_set_leaves st2 sp_leaves sp_root sp_buf sp_buflen sp_compress8_fn length] in *; try assumption.
      * intros l. destruct (HL2 l) as (k & Q1 & Q2). exists k. split; [exact Q1|]. split; [right; lia|exact Q2].
      * intros l. destruct (HM1 l) as (_ & M2 & _). destruct (HM2 l) as (_ & M2' & _). rewrite M2', M2. apply sr_leaf_last.
      * intros l. destruct (HM1 l) as (_ & _ & M3). destruct (HM2 l) as (_ & _ & M3'). rewrite M3', M3. apply sr_leaf_hash.
      * exists (2 + np)%nat. rewrite app_length, HB1. lia.
      * intros Hk. contradiction Hk. reflexivity.
      * lia.
      * reflexivity.
      * reflexivity.
    + (* the second eight blocks: the buffer still starts with the first *)
      rewrite (step_cut _ _ _ _ E3). exists (S np), (firstn 512 B1), 0%nat.
      assert (EM : firstn (512 * S np) ((P ++ B1) ++ rest) = P ++ firstn 512 B1).
      { rewrite <- app_assoc, firstn_app, (firstn_all2 P) by lia. f_equal.
        replace (512 * S np - length P)%nat with 512%nat by lia. rewrite firstn_app_le by lia. reflexivity. }
      rewrite EM. split; [|split; [|split; [exact Hn|]]].
      * apply (SpRep_step c dlen P B1 0 st1 (firstn 512 B1) leaves1 (firstn 512 B1) (sp_buf st1) (of_N 16 512) 0); try assumption; try lia.
        all: rewrite ?Hb1, ?Hb; reflexivity.
      * rewrite !app_length. lia.
      * right. right. split; [lia|]. split; [|exact Hb1]. unfold sub. replace (512 * S np - 512)%nat with (length P) by lia.
        rewrite <- app_assoc, skipn_app_ge, Nat.sub_diag by lia. cbn [skipn]. rewrite firstn_app_le by lia. reflexivity.
  - unfold this at 1. unfold andthen at 1. change (sp_buf st2) with (sp_buf st1). rewrite Hb.
    rewrite (step_eval _ _ _ _ (slice_to_ok B1 512 ltac:(lia))).
    rewrite (step_eval _ _ _ _ (slice_from_ok B1 512 ltac:(lia))).
    change (sp_buflen_nat st2) with 512%nat.
    rewrite (step_eval _ _ _ _ (slice_to_ok (skipn 512 B1) 512 ltac:(lia))).
    rewrite (firstn_all2 (n := 512) (skipn 512 B1)) by lia.
    rewrite (step_eval _ _ _ _ (copy_into_ok (firstn 512 B1) (skipn 512 B1) 0 512 ltac:(lia) ltac:(lia) ltac:(lia))).
    rewrite firstn_O. cbn [app]. rewrite (skipn_all2 (n := 512) (firstn 512 B1)), app_nil_r by lia.
    unfold assign at 1. unfold andthen at 1. unfold ret.
    right. exists (P ++ firstn 512 B1), (skipn 512 B1). split; [|lia].
    apply (SpRep_step c dlen P B1 0 st1 (firstn 512 B1) leaves1 (skipn 512 B1) (skipn 512 B1 ++ skipn 512 B1) (of_N 16 512) 0);
      try assumption; try lia.
    all: rewrite ?app_length, ?Hb2; try reflexivity; try lia.
    rewrite firstn_app_le, firstn_all2 by lia. reflexivity.
Qed.
Theorem sp_update_stops c dlen P B st x : SpRep c dlen [] P B 0 st -> sp_update c st x = Panic ->
  exists st', sp_update_u c x st = Unwound st' /\ stopped c dlen ((P ++ B) ++ x) st'.
Proof.
  intros R Hp. pose proof (forget_sp_update c x st) as F. rewrite Hp in F. destruct (forget_Panic _ F) as (st' & E).
  exists st'. split; [exact E|]. clear F Hp.
  assert (Hda : debug_assert c (Nat.eqb 0 0) = Ok tt) by (unfold debug_assert; destruct (debug_assertions c); reflexivity).
  (* the last part never panics *)
  assert (Hend : forall P1 B1 ext s1 rest s2, SpRep c dlen [] P1 B1 ext s1 -> (length B1 + length rest <= 1024)%nat ->
    (i <~ sp_fill_buf_u c rest ;; eval (debug_assert c (Nat.eqb 0 (length i)))) s1 <> Unwound s2).
  { intros P1 B1 ext s1 rest s2 R1 Hs Ex. destruct (sp_fill_buf_ok c dlen [] P1 B1 ext s1 rest R1) as (s4 & E4 & _). cbv zeta in E4.
    rewrite skipn_all2 in E4 by lia. rewrite <- forget_sp_fill_buf in E4.
    rewrite (step_done _ _ _ _ _ (forget_Ok _ _ _ E4)) in Ex. cbn [length] in Ex. rewrite Hda in Ex. discriminate Ex. }
  unfold sp_update_u in E. pose proof (empty_stops c dlen P B st x R) as H0.
  destruct (sp_empty_buffer_u c x st) as [s1 rest|s1| |] eqn:E0; [|rewrite (step_cut _ _ _ _ E0) in E; injection E as ->; exact H0|destruct H0..].
  rewrite (step_done _ _ _ _ _ E0) in E. destruct H0 as [(P1 & ext & R1 & Hx & <-)|(P1 & B1 & R1 & Hr & Hs)].
  - pose proof (loop_stops c dlen (S (length rest)) P1 ext s1 rest R1 Hx ltac:(lia)) as H1.
    destruct (sp_update_loop_u (S (length rest)) c rest s1) as [s2 r2|s2| |] eqn:E1;
      [|rewrite (step_cut _ _ _ _ E1) in E; injection E as ->; exact H1|destruct H1..].
    exfalso. rewrite (step_done _ _ _ _ _ E1) in E. apply (f_equal forget) in E1.
    rewrite forget_sp_update_loop in E1. cbn [forget] in E1.
    destruct (sp_update_loop_cases c dlen (S (length rest)) P1 ext s1 rest R1 Hx ltac:(lia))
      as [(used & rest' & s3 & E3 & _ & R3 & Hr)|(E3 & _)]; [|congruence].
    rewrite E3 in E1. injection E1 as -> ->. refine (Hend _ _ _ _ _ _ R3 _ E). cbn [length]. lia.
  - exfalso. cbn [sp_update_loop_u] in E. unfold BLOCKBYTES in E.
    destruct (Nat.ltb_spec (15 * 64) (length rest)) as [Hx|_]; [lia|]. unfold ret in E. unfold andthen at 1 in E.
    exact (Hend _ _ _ _ _ _ R1 Hs E).
Qed.

Lemma SpRep_any c dlen P B ext ext' st : SpRep c dlen [] P B ext st -> (448 < length B)%nat -> SpRep c dlen [] P B ext' st.
Proof.
  intros R Hb. destruct R as [r1 r2 Hl]. constructor; try assumption. intros l. destruct (Hl l) as (k & H1 & _ & H3).
  exists k. split; [exact H1|]. split; [right; lia|exact H3].
Qed.
Lemma update_none c st : length (st_buf st) = 64%nat -> val (st_buflen st) = 0 -> update c st [] = Ok st.
Proof.
  intros Hb Hl.
  assert (Hfill : fill_buf c st [] = Ok (st, [])).
  { unfold fill_buf. rewrite nsub_ok by (unfold buflen_nat, BLOCKBYTES; lia). cbn [bind length].
    rewrite Nat.min_0_r, slice_to_ok by lia. cbn [bind].
    rewrite copy_into_ok by (unfold buflen_nat; cbn [firstn length]; lia). cbn [bind firstn app].
    change (N.of_nat 0) with 0.
    rewrite !uadd_ok by (intros _; change (val (of_N 8 0)) with 0; change (val (of_N 64 0)) with 0;
      rewrite N.add_0_r; apply val_lt). cbn [bind].
    change (val (of_N 8 0)) with 0; change (val (of_N 64 0)) with 0. rewrite !N.add_0_r, !of_N_val.
    rewrite Nat.add_0_r, firstn_skipn. rewrite slice_from_ok by (cbn; lia). cbn [bind skipn].
    destruct st; reflexivity. }
  unfold update, compress_buffer_if_possible. replace (0 <? val (st_buflen st)) with false by lia.
  cbn [bind length update_loop]. cbn [Nat.ltb Nat.leb BLOCKBYTES bind].
  rewrite Hfill. reflexivity.
Qed.

(** The digest of a leaf that has compressed all it has counted: a block of zeros is the last. *)
Definition zero_digest (dlen : N) (M : list byte) (K : nat) (i : nat) : list byte :=
  Spec.words_bytes (Spec.F (Spec.chain (Spec.initial (Spec.leaf_params dlen [] i)) (Spec.leaf_input i M) K)
    (repeat x00 64) (64 * N.of_nat K) Spec.ones (if Nat.eqb i 7 then Spec.ones else 0)).

Theorem sp_overflow_left c l p pieces st x : cfg_ok c -> sp_build l = Ok p -> sp_keyval l = [] ->
  (s <- sp_to_state c p ;; sp_feed c s pieces) = Ok st -> sp_update c st x = Panic ->
  let M := concat pieces ++ x in
  exists st' K, sp_update_u c x st = Unwound st' /\ 64 * N.of_nat K + 64 = 2 ^ 64 /\ (512 * K <= length M)%nat /\
    (forall k, let leaf := proj k (sp_leaves st') in
       nums (st_h leaf) = Spec.chain (Spec.initial (Spec.leaf_params (sp_dlen l) [] (idx k))) (Spec.leaf_input (idx k) M) K /\
       val (count leaf) = 64 * N.of_nat K /\ buflen_nat leaf = 0%nat) /\
    (sp_buflen_nat st' = 1024%nat /\ sp_buf st' = sub M (512 * K) 1024 /\ sp_finalize c st' = Panic \/
     sp_buflen_nat st' = 512%nat /\ firstn 512 (sp_buf st') = sub M (512 * K - 512) 512 /\ sp_finalize c st' = Panic \/
     sp_buflen_nat st' = 0%nat /\ exists h, sp_finalize c st' = Ok h /\
       as_bytes h = Ok (firstn (N.to_nat (sp_dlen l)) (Spec.words_bytes (Spec.hash_words
         (Spec.initial (Spec.root_params (sp_dlen l) [])) (flat_map (zero_digest (sp_dlen l) M K) (seq 0 8)) true)))).
Proof.
  intros Hc Hb Hk Hs Hp M. unfold sp_dlen. unfold sp_keyval in Hk. rewrite <- sp_last_keyval in Hk. rewrite <- sp_last_dlen.
  apply sp_build_encodes in Hb as (_ & E). rewrite Hk in E.
  destruct (sp_models_new c p _ _ Hc E) as (s0 & E0 & M0). rewrite E0 in Hs. cbn [bind] in Hs.
  destruct (sp_feed_cases c _ pieces [] s0 M0) as [(st1 & E1 & (P & B & R & HD))|(E1 & _)]; [|congruence].
  assert (st1 = st) as -> by congruence. cbn [app] in HD.
  destruct (sp_update_stops c _ P B st x R Hp) as (st' & Eu & K & B' & ext & R' & HK & Hn & Hcase).
  rewrite HD in *. fold M in R', HK, Hcase. exists st', K.
  set (dlen := sp_last_hash_length 32 l) in *. clearbody dlen.
  set (P' := firstn (512 * K) M) in *.
  assert (HP' : length P' = (512 * K)%nat) by (subst P'; rewrite firstn_length; lia).
  assert (HL : forall k, Rep c (Spec.initial (Spec.leaf_params dlen [] (idx k))) (Spec.leaf_input (idx k) P') K (proj k (sp_leaves st'))).
  { intros k. destruct (SpRep_leaves _ _ _ _ _ _ R' k) as (j & Rj & Hj).
    rewrite (leaf_input_length _ K (idx_lt k) P' HP') in Hj. replace K with j by lia. exact Rj. }
  assert (Hlen : forall k, length (Spec.leaf_input (idx k) P') = (64 * K)%nat) by (intros k; apply leaf_input_length; [apply idx_lt|exact HP']).
  assert (Ho : overflow_checks c = true).
  { destruct (overflow_checks c) eqn:Eo; [reflexivity|]. contradiction Hn. intros X. congruence. }
  assert (HK1 : 64 * N.of_nat K < 2 ^ 64).
  { pose proof (rep_fits _ _ _ _ _ (HL L0) Ho) as F. rewrite Hlen in F. lia. }
  assert (HK2 : 2 ^ 64 <= 64 * N.of_nat K + 64).
  { destruct (N.le_gt_cases (2 ^ 64) (64 * N.of_nat K + 64)) as [H|H]; [exact H|]. contradiction Hn. intros _. lia. }
  assert (HKK : 64 * N.of_nat K + 64 = 2 ^ 64).
  { change (2 ^ 64) with 18446744073709551616 in *. lia. }
  assert (Hch : forall k, Spec.chain (Spec.initial (Spec.leaf_params dlen [] (idx k))) (Spec.leaf_input (idx k) M) K =
                          Spec.chain (Spec.initial (Spec.leaf_params dlen [] (idx k))) (Spec.leaf_input (idx k) P') K).
  { intros k. rewrite <- (firstn_skipn (512 * K) M). fold P'. rewrite (leaf_input_app _ _ _ K HP'). apply chain_app. rewrite Hlen. lia. }
  assert (Hleaf : forall k, let leaf := proj k (sp_leaves st') in
       nums (st_h leaf) = Spec.chain (Spec.initial (Spec.leaf_params dlen [] (idx k))) (Spec.leaf_input (idx k) M) K /\
       val (count leaf) = 64 * N.of_nat K /\ buflen_nat leaf = 0%nat).
  { intros k leaf. split; [rewrite Hch; apply (rep_h _ _ _ _ _ (HL k))|]. split.
    - unfold count, leaf. rewrite (rep_count _ _ _ _ _ (HL k)), Hlen, N.mod_small by lia. lia.
    - unfold leaf. rewrite (rep_buflen _ _ _ _ _ (HL k)), Hlen. lia. }
  split; [exact Eu|]. split; [exact HKK|]. split; [exact HK|]. split; [exact Hleaf|].
  assert (Hover : (512 <= length B')%nat -> sp_finalize c st' = Panic).
  { intros HB. apply (sp_finalize_overflow c dlen [] P' B' st'); [apply (SpRep_any _ _ _ _ ext); [exact R'|lia]|].
    intros F. specialize (F Ho). cbn [Spec.key_block length Nat.add] in F.
    pose proof (longest_leaf_ge (length (P' ++ B')) (K + 1) ltac:(rewrite app_length; lia)). lia. }
  destruct Hcase as [->|[(HB & HBl)|(_ & HB & HBl)]].
  - right. right. split; [apply (sr_buflen _ _ _ _ _ _ _ R')|].
    eexists. split.
    + apply (sp_finalize_gen c (Spec.initial (Spec.root_params dlen [])) [] st' (zero_digest dlen M K)).
      * apply (sr_buf_length _ _ _ _ _ _ _ R').
      * reflexivity.
      * apply (sr_buflen _ _ _ _ _ _ _ R').
      * cbn [length]. lia.
      * apply (sr_root _ _ _ _ _ _ _ R').
      * intros k. destruct (Hleaf k) as (H1 & H2 & H3). pose proof (rep_buf_length _ _ _ _ _ (HL k)) as H4.
        assert (En : forall n, sub (@nil byte) n 64 = []) by (intros n; unfold sub; rewrite skipn_nil; reflexivity).
        rewrite !En. exists (proj k (sp_leaves st')), (proj k (sp_leaves st')).
        rewrite update_none by (try assumption; unfold buflen_nat in H3; lia). split; [reflexivity|]. split; [reflexivity|].
        destruct (finalize_any c (proj k (sp_leaves st'))) as (z & Ez); [exact H4|lia|apply (rep_fn _ _ _ _ _ (HL k))|].
        exists z. rewrite Ez. unfold zero_digest, count in *.
        rewrite H1, H2, H3, (sr_leaf_last _ _ _ _ _ _ _ R' k), (sr_leaf_hash _ _ _ _ _ _ _ R' k). reflexivity.
      * intros i. apply words_bytes_32, F_length.
    + unfold as_bytes. cbn [h_bytes h_len]. rewrite (sr_root_hash _ _ _ _ _ _ _ R'), (sr_root_last _ _ _ _ _ _ _ R').
      pose proof (sr_dlen _ _ _ _ _ _ _ R'). apply slice_to_ok. rewrite words_bytes_32 by apply hash_words_length. lia.
  - left. split; [rewrite (sr_buflen _ _ _ _ _ _ _ R'); exact HBl|]. split; [|apply Hover; lia].
    rewrite <- HB, <- (sr_buf _ _ _ _ _ _ _ R'), HBl. symmetry. apply firstn_all2. rewrite (sr_buf_length _ _ _ _ _ _ _ R'). lia.
  - right. left. split; [rewrite (sr_buflen _ _ _ _ _ _ _ R'); exact HBl|]. split; [|apply Hover; lia].
    rewrite <- HB, <- (sr_buf _ _ _ _ _ _ _ R') at 1. rewrite HBl. reflexivity.
Qed.

(** A state and an input for it. *)
Lemma such_update : exists p st, sp_build [SpHashLength 13] = Ok p /\ sp_keyval [SpHashLength 13] = [] /\
  (s <- sp_to_state debug_portable p ;; sp_feed debug_portable s [ramp 3]) = Ok st /\
  exists x, sp_update debug_portable st x = Panic.
Proof.
  assert (exists p, sp_build [SpHashLength 13] = Ok p) as (p & Hb) by (eexists; lazy; reflexivity).
  pose proof (proj2 (sp_build_encodes _ _ Hb)) as E.
  destruct (sp_models_new debug_portable p _ _ ltac:(discriminate) E) as (s0 & E0 & M0).
  change (sp_last_key [] [SpHashLength 13]) with (@nil byte) in M0.
  destruct (sp_feed_cases debug_portable _ [ramp 3] [] s0 M0) as [(st & E1 & (P & B & R & HD))|(_ & Hn)].
  2: { contradiction Hn. intros _. reflexivity. }
  exists p, st. rewrite E0. cbn [bind]. split; [exact Hb|]. split; [reflexivity|]. split; [exact E1|].
  exists (repeat x00 (N.to_nat (2 ^ 67 + 1025))). set (x := repeat _ _).
  assert (Hx : N.of_nat (length x) = 2 ^ 67 + 1025) by (subst x; rewrite repeat_length; apply N2Nat.id). clearbody x.
  destruct (sp_update_cases debug_portable _ P B st x R) as [(st1 & P1 & B1 & _ & R1 & H1)|(E2 & _)]; [exfalso|exact E2].
  destruct (sr_P _ _ _ _ _ _ _ R1) as (np & Hnp). destruct (sr_leaf _ _ _ _ _ _ _ R1 L0) as (k & Rk & _).
  pose proof (rep_fits _ _ _ _ _ Rk eq_refl) as F. unfold leaf_data in F. cbn [Spec.key_block app] in F.
  rewrite (leaf_input_length _ np (idx_lt L0) P1 Hnp) in F.
  apply (f_equal (@length byte)) in H1. rewrite !app_length in H1. pose proof (sr_B _ _ _ _ _ _ _ R1).
  change (2 ^ 64) with 18446744073709551616 in F. change (2 ^ 67 + 1025) with 147573952589676413953 in Hx. lia.
Qed.
