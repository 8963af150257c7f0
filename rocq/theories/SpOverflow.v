(** * SpOverflow: BLAKE2sp at and beyond 2^64 bytes. *)
From Verif Require Import Base BaseFacts Consts Portable PortableFacts SpecFacts Params ParamsSpec State
  StateFacts ParamsFacts Refine Many ManyFacts LeafFacts Blake2sp SpFacts MachineSpec Clients Behave Corollaries.
From Verif Require Spec Avx2 Avx2Facts.
Import Avx2Facts (proj_map).
From Coq Require Import ZArith Lia ZifyBool ZifyNat ZifyN.
Local Open Scope N_scope.

Lemma leaf_le key D i : (i < 8)%nat ->
  (length (leaf_data key D i) <= length (Spec.key_block key) + longest_leaf (length D))%nat.
Proof.
  intros Hi. unfold leaf_data. rewrite app_length. set (k := (length D / 512)%nat).
  assert (HD : (512 * k <= length D < 512 * k + 512)%nat).
  { subst k. pose proof (Nat.div_mod (length D) 512 ltac:(lia)). pose proof (Nat.mod_upper_bound (length D) 512). lia. }
  assert (Hf : length (firstn (512 * k) D) = (512 * k)%nat) by (rewrite firstn_length; lia).
  rewrite <- (firstn_skipn (512 * k) D) at 1. rewrite (leaf_input_app i _ _ k Hf), app_length.
  rewrite (leaf_input_length i k) by (lia || exact Hf).
  rewrite leaf_input_two by (rewrite ?skipn_length; lia). rewrite app_length, !sub_length, skipn_length.
  unfold longest_leaf. fold k. pose proof (Nat.div_mod (length D) 512 ltac:(lia)) as E. fold k in E. lia.
Qed.

(** ** finalize *)
Lemma leaf_feed_cases c dlen key P B st l : SpRep c dlen key P B 0 st ->
  update c (proj l (sp_leaves st)) (sub B (idx l * 64) 64) = Panic \/
  exists a, update c (proj l (sp_leaves st)) (sub B (idx l * 64) 64) = Ok a /\
    (update c a (sub B ((idx l + 8) * 64) 64) = Panic \/
     (exists b, update c a (sub B ((idx l + 8) * 64) 64) = Ok b) /\
     fits c (N.of_nat (length (leaf_data key (P ++ B) (idx l))))).
Proof.
  intros R. destruct (sr_leaf _ _ _ _ _ _ _ R l) as (k & R1 & _ & _).
  destruct (sr_P _ _ _ _ _ _ _ R) as (np & Hnp). pose proof (sr_B _ _ _ _ _ _ _ R) as HB.
  assert (Hdata : (leaf_data key P (idx l) ++ sub B (idx l * 64) 64) ++ sub B ((idx l + 8) * 64) 64
                  = leaf_data key (P ++ B) (idx l)).
  { unfold leaf_data. rewrite (leaf_input_app _ P B np Hnp).
    rewrite (leaf_input_two (idx l) B (idx_lt l) HB). rewrite !app_assoc. reflexivity. }
  destruct (fits_dec c (N.of_nat (length (leaf_data key P (idx l)) + length (sub B (idx l * 64) 64)))) as [F1|F1].
  2: { left. apply (update_overflow c _ _ _ _ _ R1 F1). }
  right. destruct (update_ok c _ _ _ _ _ R1 F1) as (a & ka & Ea & Ra & _). exists a. split; [exact Ea|].
  rewrite <- Hdata.
  destruct (fits_dec c (N.of_nat (length (leaf_data key P (idx l) ++ sub B (idx l * 64) 64) + length (sub B ((idx l + 8) * 64) 64)))) as [F2|F2].
  2: { left. apply (update_overflow c _ _ _ _ _ Ra F2). }
  right. destruct (update_ok c _ _ _ _ _ Ra F2) as (b & kb & Eb & _). split; [exists b; exact Eb|].
  rewrite app_length. exact F2.
Qed.
Lemma bind_Panic {A B} (x : outcome A) (f : A -> outcome B) : x = Panic -> bind x f = Panic.
Proof. intros ->. reflexivity. Qed.
Theorem sp_finalize_overflow c dlen key P B st : SpRep c dlen key P B 0 st ->
  ~ fits c (N.of_nat (length (Spec.key_block key) + longest_leaf (length (P ++ B)))) ->
  sp_finalize c st = Panic.
Proof.
  intros R Hf. rewrite <- longest_leaf_spec in Hf. change (leaf_data key (P ++ B) 0) with (leaf_data key (P ++ B) (idx L0)) in Hf. unfold sp_finalize. cbv zeta.
  pose proof (sr_buf_length _ _ _ _ _ _ _ R) as Hbl. pose proof (sr_buf _ _ _ _ _ _ _ R) as Hb.
  pose proof (sr_buflen _ _ _ _ _ _ _ R) as Hl. pose proof (sr_B _ _ _ _ _ _ _ R) as HB.
  pose proof (fun l => leaf_feed_cases c dlen key P B st l R) as HL.
  destruct (sp_leaves st) as [s0 s1 s2 s3 s4 s5 s6 s7]. rewrite Hl. unfold feed_chunk.
  rewrite !(chunk_ok (sp_buf st) B) by (try assumption; unfold BLOCKBYTES; lia).
  cbn [bind].
  pose proof (HL L0) as X0; pose proof (HL L1) as X1; pose proof (HL L2) as X2; pose proof (HL L3) as X3;
  pose proof (HL L4) as X4; pose proof (HL L5) as X5; pose proof (HL L6) as X6; pose proof (HL L7) as X7.
  clear HL. cbn [proj idx o0 o1 o2 o3 o4 o5 o6 o7 Nat.add] in *.
  destruct X0 as [X0|(a0 & A0 & X0)]; [apply bind_Panic, X0|]. rewrite (bind_Ok _ _ _ A0).
  destruct X1 as [X1|(a1 & A1 & X1)]; [apply bind_Panic, X1|]. rewrite (bind_Ok _ _ _ A1).
  destruct X2 as [X2|(a2 & A2 & X2)]; [apply bind_Panic, X2|]. rewrite (bind_Ok _ _ _ A2).
  destruct X3 as [X3|(a3 & A3 & X3)]; [apply bind_Panic, X3|]. rewrite (bind_Ok _ _ _ A3).
  destruct X4 as [X4|(a4 & A4 & X4)]; [apply bind_Panic, X4|]. rewrite (bind_Ok _ _ _ A4).
  destruct X5 as [X5|(a5 & A5 & X5)]; [apply bind_Panic, X5|]. rewrite (bind_Ok _ _ _ A5).
  destruct X6 as [X6|(a6 & A6 & X6)]; [apply bind_Panic, X6|]. rewrite (bind_Ok _ _ _ A6).
  destruct X7 as [X7|(a7 & A7 & X7)]; [apply bind_Panic, X7|]. rewrite (bind_Ok _ _ _ A7).
  destruct X0 as [X0|(_ & X0)]; [apply bind_Panic, X0|]. contradiction (Hf X0).
Qed.

(** ** count *)
Lemma uadd_cases c (a b : u64) x y : val a = x mod 2 ^ 64 -> val b = y mod 2 ^ 64 -> fits c x -> fits c y ->
  (exists r, uadd c a b = Ok r /\ val r = (x + y) mod 2 ^ 64 /\ fits c (x + y)) \/
  (uadd c a b = Panic /\ ~ fits c (x + y)).
Proof.
  intros Ha Hb Hx Hy. destruct (fits_dec c (x + y)) as [Hf|Hf].
  - left. destruct (uadd_mod c a b x y Ha Hb Hf) as (r & E & V). exists r. auto.
  - right. split; [|exact Hf]. unfold fits in *. unfold uadd. destruct (overflow_checks c).
    2: { exfalso. apply Hf. discriminate. }
    specialize (Hx eq_refl). specialize (Hy eq_refl). rewrite Ha, Hb, !N.mod_small by assumption.
    destruct (N.ltb_spec (x + y) (2 ^ 64)) as [H|H]; [|reflexivity]. exfalso. apply Hf. intros _. exact H.
Qed.
Theorem sp_count_overflow c dlen key P B st : SpRep c dlen key P B 0 st ->
  ~ fits c (N.of_nat (8 * length (Spec.key_block key) + length (P ++ B))) -> sp_count c st = Panic.
Proof.
  intros R Hf. unfold sp_count. cbv zeta.
  destruct (sr_P _ _ _ _ _ _ _ R) as (np & Hnp). rewrite app_length, Hnp in *.
  set (x := N.of_nat (length (Spec.key_block key) + 64 * np)).
  assert (HL : forall l, val (proj l (oct_map count (sp_leaves st))) = x mod 2 ^ 64 /\ fits c x).
  { intros l. rewrite proj_map. destruct (sr_leaf _ _ _ _ _ _ _ R l) as (k & R1 & _).
    unfold count. pose proof (rep_count _ _ _ _ _ R1) as V. pose proof (rep_fits _ _ _ _ _ R1) as F.
    unfold leaf_data in *. rewrite app_length, (leaf_input_length _ np (idx_lt l) P Hnp) in *. split; [exact V|exact F]. }
  assert (Hb : val (cast 64 (sp_buflen st)) = N.of_nat (length B) mod 2 ^ 64 /\ fits c (N.of_nat (length B))).
  { unfold cast. rewrite val_of_N. pose proof (sr_buflen _ _ _ _ _ _ _ R) as H.
    unfold sp_buflen_nat in H. replace (val (sp_buflen st)) with (N.of_nat (length B)) by lia. split; [reflexivity|].
    intros _. pose proof (sr_B _ _ _ _ _ _ _ R). change (2 ^ 64) with 18446744073709551616. lia. }
  set (ls := oct_map count (sp_leaves st)) in *. clearbody ls.
  pose proof (HL L0) as (V0 & F); pose proof (HL L1) as (V1 & _); pose proof (HL L2) as (V2 & _); pose proof (HL L3) as (V3 & _);
  pose proof (HL L4) as (V4 & _); pose proof (HL L5) as (V5 & _); pose proof (HL L6) as (V6 & _); pose proof (HL L7) as (V7 & _).
  cbn [proj] in *.
  assert (Hx : 8 * x + N.of_nat (length B) =
               N.of_nat (8 * length (Spec.key_block key) + (512 * np + length B))) by (subst x; lia).
  rewrite <- Hx in Hf. clear Hx HL. clearbody x. revert Hb Hf. generalize (N.of_nat (length B)). intros b (Hb & Fb) Hf.
  destruct (uadd_cases c (o0 ls) (o1 ls) _ _ V0 V1 F F) as [(n1 & E1 & W1 & G1)|(E1 & _)]; [|apply bind_Panic, E1].
  rewrite (bind_Ok _ _ _ E1).
  destruct (uadd_cases c n1 (o2 ls) _ _ W1 V2 G1 F) as [(n2 & E2 & W2 & G2)|(E2 & _)]; [|apply bind_Panic, E2].
  rewrite (bind_Ok _ _ _ E2).
  destruct (uadd_cases c n2 (o3 ls) _ _ W2 V3 G2 F) as [(n3 & E3 & W3 & G3)|(E3 & _)]; [|apply bind_Panic, E3].
  rewrite (bind_Ok _ _ _ E3).
  destruct (uadd_cases c n3 (o4 ls) _ _ W3 V4 G3 F) as [(n4 & E4 & W4 & G4)|(E4 & _)]; [|apply bind_Panic, E4].
  rewrite (bind_Ok _ _ _ E4).
  destruct (uadd_cases c n4 (o5 ls) _ _ W4 V5 G4 F) as [(n5 & E5 & W5 & G5)|(E5 & _)]; [|apply bind_Panic, E5].
  rewrite (bind_Ok _ _ _ E5).
  destruct (uadd_cases c n5 (o6 ls) _ _ W5 V6 G5 F) as [(n6 & E6 & W6 & G6)|(E6 & _)]; [|apply bind_Panic, E6].
  rewrite (bind_Ok _ _ _ E6).
  destruct (uadd_cases c n6 (o7 ls) _ _ W6 V7 G6 F) as [(n7 & E7 & W7 & G7)|(E7 & _)]; [|apply bind_Panic, E7].
  rewrite (bind_Ok _ _ _ E7).
  destruct (uadd_cases c n7 (cast 64 (sp_buflen st)) _ _ W7 Hb G7 Fb) as [(n8 & E8 & W8 & G8)|(E8 & _)]; [|exact E8].
  exfalso. apply Hf. eapply fits_le; [exact G8|]. lia.
Qed.

(** ** Streams *)
Lemma sp_feed_cases c dlen pieces : forall D st, SpModels c dlen [] D st ->
  (exists st', sp_feed c st pieces = Ok st' /\ SpModels c dlen [] (D ++ concat pieces) st') \/
  (sp_feed c st pieces = Panic /\ ~ fits c (N.of_nat (longest_leaf (length (D ++ concat pieces))))).
Proof.
  induction pieces as [|x l IH]; intros D st (P & B & R & HD); cbn [sp_feed concat] in *.
  - left. exists st. rewrite app_nil_r. split; [reflexivity|]. exists P, B. auto.
  - destruct (sp_update_cases c dlen P B st x R) as [(st1 & P1 & B1 & E1 & R1 & H1)|(E1 & Hn)]; rewrite E1; cbn [bind].
    + rewrite app_assoc. apply IH. exists P1, B1. split; [exact R1|]. rewrite H1, HD. reflexivity.
    + right. split; [reflexivity|]. intros Hf. apply Hn. eapply fits_le; [exact Hf|].
      rewrite <- HD. enough (longest_leaf (length ((P ++ B) ++ x)) <= longest_leaf (length ((P ++ B) ++ x ++ concat l)))%nat by lia.
      apply longest_leaf_mono. rewrite !app_length. lia.
Qed.
(** The bytes of the first leaf of BLAKE2sp of [n] bytes. *)
Definition first_leaf_bytes (n : N) : N := 64 * (n / 512) + N.min 64 (n mod 512).
Lemma first_leaf_value n : N.of_nat (longest_leaf n) = first_leaf_bytes (N.of_nat n).
Proof.
  unfold longest_leaf, first_leaf_bytes. change 512 with (N.of_nat 512).
  rewrite <- Nat2N.inj_div, <- Nat2N.inj_mod. lia.
Qed.
Theorem sp_hash_limit c l p pieces : cfg_ok c -> sp_build l = Ok p -> sp_keyval l = [] ->
  let n := first_leaf_bytes (N.of_nat (length (concat pieces))) in
  sp_hash_pieces c p pieces =
  if overflow_checks c && (2 ^ 64 <=? n) then Panic else Ok (Spec.blake2sp (sp_dlen l) [] (concat pieces)).
Proof.
  intros Hc Hb Hk n. unfold sp_dlen. unfold sp_keyval in Hk. rewrite <- sp_last_keyval in Hk. rewrite <- sp_last_dlen.
  apply sp_build_encodes in Hb as (_ & E). rewrite Hk in E.
  destruct (sp_models_new c p _ _ Hc E) as (st & Es & M). unfold sp_hash_pieces. rewrite Es. cbn [bind].
  assert (Hfit : forall b : bool, b = overflow_checks c && (2 ^ 64 <=? n) ->
    if b then ~ fits c (N.of_nat (longest_leaf (length (concat pieces))))
    else fits c (N.of_nat (longest_leaf (length (concat pieces))))).
  { intros b ->. rewrite first_leaf_value. fold n. unfold fits. destruct (overflow_checks c); cbn [andb].
    - destruct (N.leb_spec (2 ^ 64) n) as [H|H]; [intros X; specialize (X eq_refl); lia|intros _; exact H].
    - discriminate. }
  specialize (Hfit _ eq_refl). destruct (overflow_checks c && (2 ^ 64 <=? n)).
  - destruct (sp_feed_cases c _ pieces [] st M) as [(st1 & E1 & (P & B & R & HD))|(E1 & _)]; rewrite E1; cbn [bind]; [|reflexivity].
    cbn [app] in HD. rewrite (sp_finalize_overflow c _ _ P B st1 R); [reflexivity|]. rewrite HD. exact Hfit.
  - destruct (sp_feed_cases c _ pieces [] st M) as [(st1 & E1 & (P & B & R & HD))|(_ & Hn)]; [|contradiction (Hn Hfit)].
    rewrite E1. cbn [bind]. cbn [app] in HD. subst. rewrite (sp_finalize_fits c _ _ P B st1 R).
    2: { intros k. eapply fits_le; [exact Hfit|]. rewrite <- HD. pose proof (leaf_le [] (P ++ B) (idx k) (idx_lt k)) as H.
         cbn [Spec.key_block length Nat.add] in H. lia. }
    cbn [bind]. unfold sp_hash_value, as_bytes. cbn [h_bytes h_len].
    assert (H32 : length (Spec.words_bytes (Spec.hash_words (Spec.initial (Spec.root_params (sp_last_hash_length 32 l) []))
       (flat_map (Spec.leaf_digest (sp_last_hash_length 32 l) [] (P ++ B)) (seq 0 8)) true)) = 32%nat).
    { apply words_bytes_32, hash_words_length. }
    pose proof (sr_root_hash _ _ _ _ _ _ _ R) as Hh. pose proof (sr_dlen _ _ _ _ _ _ _ R) as Hd.
    rewrite slice_to_ok by (rewrite H32, Hh; lia). rewrite Hh, <- HD. reflexivity.
Qed.
Theorem sp_count_limit c l p pieces st : cfg_ok c -> sp_build l = Ok p -> sp_keyval l = [] ->
  (s <- sp_to_state c p ;; sp_feed c s pieces) = Ok st ->
  let n := N.of_nat (length (concat pieces)) in
  if overflow_checks c && (2 ^ 64 <=? n) then sp_count c st = Panic
  else exists m, sp_count c st = Ok m /\ val m = n mod 2 ^ 64.
Proof.
  intros Hc Hb Hk Hs n. unfold sp_keyval in Hk. rewrite <- sp_last_keyval in Hk.
  apply sp_build_encodes in Hb as (_ & E). rewrite Hk in E.
  destruct (sp_models_new c p _ _ Hc E) as (s0 & E0 & M). rewrite E0 in Hs. cbn [bind] in Hs.
  destruct (sp_feed_cases c _ pieces [] s0 M) as [(st1 & E1 & (P & B & R & HD))|(E1 & _)]; [|congruence].
  assert (st1 = st) as -> by congruence. cbn [app] in HD.
  assert (Hn : N.of_nat (8 * length (Spec.key_block []) + length (P ++ B)) = n).
  { rewrite HD. reflexivity. }
  destruct (overflow_checks c && (2 ^ 64 <=? n)) eqn:Eo.
  - apply (sp_count_overflow c _ _ P B st R). rewrite Hn. apply andb_prop in Eo as (E2 & E3). apply N.leb_le in E3.
    intros X. specialize (X E2). lia.
  - destruct (sp_count_ok c _ _ P B st R) as (m & Em & Vm).
    + rewrite Hn. intros Ho. rewrite Ho in Eo. cbn [andb] in Eo. apply N.leb_gt in Eo. exact Eo.
    + exists m. split; [exact Em|]. rewrite Vm, Hn. reflexivity.
Qed.
