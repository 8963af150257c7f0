(** * Resume: what a [State] computes from any contents: chaining words, counter and
    pending bytes need have nothing to do with each other. *)
From Verif Require Import Base BaseFacts Consts Portable PortableFacts SpecFacts Params State StateFacts Clients Terms ResumeTerms.
From Verif Require Spec Sse41 Sse41Facts LeafFacts.
From Coq Require Import ZArith Lia ZifyBool ZifyNat ZifyN.
Local Open Scope N_scope.

Lemma from_S h C m D k : chain_from h C m D (S k) =
  Spec.F (chain_from h C m D k) (Spec.block D k) (tally C m (64 * (k + 1))) 0 0.
Proof. unfold chain_from. rewrite seq_S, fold_left_app. reflexivity. Qed.
Lemma from_app h C m D X k : (64 * k <= length D)%nat -> chain_from h C m (D ++ X) k = chain_from h C m D k.
Proof.
  induction k as [|k IH]; intros H; [reflexivity|].
  rewrite !from_S, IH, block_app by lia. reflexivity.
Qed.
Lemma from_start h D k : chain_from h 0 0 D k = Spec.chain h D k.
Proof.
  induction k as [|k IH]; [reflexivity|]. rewrite from_S, chain_S, IH. f_equal. unfold tally. lia.
Qed.
Lemma hash_from_start h D last : hash_from h 0 0 D last = Spec.hash_words h D last.
Proof. unfold hash_from, Spec.hash_words. rewrite from_start. f_equal. unfold tally. lia. Qed.

(** ** The invariant of [StateFacts], with this counter *)
Record Rep_at (c : cfg) (h0 : list N) (C : N) (m : nat) (D : list byte) (k : nat) (st : State) : Prop := {
  at_h : nums (st_h st) = chain_from h0 C m D k;
  at_m : (m <= 64)%nat /\ (m <= length D)%nat;
  at_lo : (64 * k <= length D)%nat;
  at_hi : (length D <= 64 * k + 64)%nat;
  at_buf_length : length (st_buf st) = 64%nat;
  at_buflen : buflen_nat st = (length D - 64 * k)%nat;
  at_buf : firstn (length D - 64 * k) (st_buf st) = skipn (64 * k) D;
  at_count : val (st_count st) = tally C m (length D) mod 2 ^ 64;
  at_fits : fits c (tally C m (length D));
  at_fn : fn_ok c (st_compress_fn st)
}.

Lemma tally_add c C m (count : u64) n i : fits c (tally C m n) -> (i <= 64)%nat -> (m <= n)%nat ->
  val count = tally C m n mod 2 ^ 64 ->
  (fits c (tally C m (n + i)) ->
     uadd c count (of_N 64 (N.of_nat i)) = Ok (of_N 64 (tally C m (n + i)))) /\
  (~ fits c (tally C m (n + i)) -> uadd c count (of_N 64 (N.of_nat i)) = Panic).
Proof.
  intros Hn Hm Hmn Hc.
  assert (Em : val (of_N 64 (N.of_nat i)) = N.of_nat i).
  { apply val_of_N_small. change (2 ^ 64) with 18446744073709551616. lia. }
  assert (Et : tally C m (n + i) = tally C m n + N.of_nat i) by (unfold tally; lia).
  rewrite Et. set (t := tally C m n) in *.
  split; intros H.
  - rewrite uadd_ok.
    + f_equal. apply val_inj. rewrite Em, Hc, !val_of_N, N.add_mod_idemp_l by discriminate. reflexivity.
    + intros Ho. specialize (H Ho). rewrite Em, Hc, N.mod_small by lia. lia.
  - destruct (overflow_checks c) eqn:Ho.
    + apply uadd_panic; [exact Ho|]. unfold fits in *. specialize (Hn Ho).
      rewrite Em, Hc, N.mod_small by lia.
      destruct (N.lt_ge_cases (t + N.of_nat i) (2 ^ 64)); [|lia].
      exfalso. apply H. intros _. assumption.
    + exfalso. apply H. intros Hx. congruence.
Qed.
Lemma tally_le C m i j : (i <= j)%nat -> tally C m i <= tally C m j.
Proof. unfold tally. lia. Qed.

(** ** [fill_buf] *)
Lemma fill_buf_at c h0 C m D k st input : Rep_at c h0 C m D k st ->
  let take := Nat.min (64 - (length D - 64 * k)) (length input) in
  let D' := D ++ firstn take input in
  (fits c (tally C m (length D')) ->
    exists st', fill_buf c st input = Ok (st', skipn take input) /\
      Rep_at c h0 C m D' k st' /\ same_meta st st' /\ st_h st' = st_h st) /\
  (~ fits c (tally C m (length D')) -> fill_buf c st input = Panic).
Proof.
  intros R take D'. destruct R.
  assert (Hlf : length (firstn take input) = take) by (rewrite firstn_length; lia).
  assert (HD' : length D' = (length D + take)%nat) by (unfold D'; rewrite app_length; lia).
  destruct (tally_add c C m (st_count st) (length D) take at_fits0 ltac:(lia) (proj2 at_m0) at_count0) as [Cok Cpan].
  unfold fill_buf. rewrite at_buflen0. rewrite nsub_ok by (unfold BLOCKBYTES; lia).
  cbn [bind]. unfold BLOCKBYTES. fold take.
  rewrite slice_to_ok by lia. cbn [bind].
  rewrite copy_into_ok by lia. cbn [bind].
  assert (Eb : uadd c (st_buflen st) (of_N 8 (N.of_nat take)) =
               Ok (of_N 8 (N.of_nat (length D - 64 * k + take)))).
  { assert (Em : val (of_N 8 (N.of_nat take)) = N.of_nat take).
    { apply val_of_N_small. change (2 ^ 8) with 256. lia. }
    rewrite uadd_ok.
    - f_equal. rewrite Em, (val_buflen st _ at_buflen0). f_equal. lia.
    - intros _. rewrite Em, (val_buflen st _ at_buflen0). change (2 ^ 8) with 256. lia. }
  rewrite Eb. cbn [bind]. rewrite <- HD' in *. split; intros Hf.
  - rewrite (Cok Hf). cbn [bind]. rewrite slice_from_ok by lia. cbn [bind].
    eexists; split; [reflexivity|]. split; [|split; [repeat split|reflexivity]].
    constructor; cbn [st_h st_buf st_buflen st_count st_compress_fn].
    + unfold D'. rewrite from_app by lia. exact at_h0.
    + lia.
    + lia.
    + lia.
    + rewrite !app_length, firstn_length, Hlf, skipn_length. lia.
    + unfold buflen_nat. cbn [st_buflen]. rewrite val_of_N_small; [lia|].
      change (2 ^ 8) with 256. lia.
    + unfold D' at 2. rewrite skipn_app_le by lia. rewrite <- at_buf0.
      rewrite app_assoc, firstn_app_le
        by (rewrite app_length, firstn_length; lia).
      rewrite firstn_all2; [reflexivity|]. rewrite app_length, firstn_length. lia.
    + apply val_of_N.
    + exact Hf.
    + exact at_fn0.
  - rewrite (Cpan Hf). reflexivity.
Qed.

(** One block absorbed without going through the buffer. *)
Lemma at_block c h0 C m D k st B n :
  Rep_at c h0 C m D k st -> length D = (64 * k)%nat -> length B = 64%nat ->
  val n = tally C m (length D + 64) mod 2 ^ 64 -> fits c (tally C m (length D + 64)) ->
  Rep_at c h0 C m (D ++ B) (S k)
    {| st_h := Portable.compress (st_h st) B n (uzero 32) (uzero 32);
       st_buf := st_buf st; st_buflen := st_buflen st; st_count := n;
       st_compress_fn := st_compress_fn st; st_last_node := st_last_node st;
       st_hash_length := st_hash_length st |}.
Proof.
  intros R HD HB Hn Hf. destruct R.
  assert (HL : length (D ++ B) = (64 * k + 64)%nat) by (rewrite app_length; lia).
  constructor; cbn [st_h st_buf st_buflen st_count st_compress_fn].
  - rewrite compress_ok by exact HB. rewrite from_S, from_app by lia.
    rewrite at_h0, val_uzero, Hn, F_mod.
    rewrite block_whole by lia. rewrite skipn_app_ge by lia.
    replace (64 * k - length D)%nat with 0%nat by lia. cbn [skipn].
    rewrite firstn_all2 by lia. f_equal. f_equal. lia.
  - lia.
  - lia.
  - lia.
  - assumption.
  - unfold buflen_nat in *. cbn [st_buflen]. lia.
  - rewrite HL. replace (64 * k + 64 - 64 * S k)%nat with 0%nat by lia.
    cbn [firstn]. symmetry. apply skipn_all2. lia.
  - rewrite HL, Hn, HD. reflexivity.
  - rewrite HL, <- HD. exact Hf.
  - assumption.
Qed.

(** The buffer, full, compressed. *)
Lemma at_flush c h0 C m D k st : Rep_at c h0 C m D k st -> length D = (64 * k + 64)%nat ->
  Rep_at c h0 C m D (S k)
    {| st_h := Portable.compress (st_h st) (st_buf st) (st_count st) (uzero 32) (uzero 32);
       st_buf := st_buf st; st_buflen := uzero 8; st_count := st_count st;
       st_compress_fn := st_compress_fn st; st_last_node := st_last_node st;
       st_hash_length := st_hash_length st |}.
Proof.
  intros R HD. destruct R. constructor; cbn [st_h st_buf st_buflen st_count st_compress_fn].
  - rewrite compress_ok by assumption. rewrite from_S, at_h0, val_uzero, at_count0, F_mod.
    rewrite block_whole by lia. rewrite <- at_buf0, HD.
    replace (64 * k + 64 - 64 * k)%nat with 64%nat by lia.
    rewrite firstn_firstn, Nat.min_id, firstn_all2 by lia. f_equal. f_equal. lia.
  - lia.
  - lia.
  - lia.
  - assumption.
  - unfold buflen_nat. cbn [st_buflen]. rewrite val_uzero. lia.
  - replace (length D - 64 * S k)%nat with 0%nat by lia. cbn [firstn].
    symmetry. apply skipn_all2. lia.
  - assumption.
  - assumption.
  - assumption.
Qed.

(** ** [compress_buffer_if_possible] *)
Lemma compress_buffer_at c h0 C m D k st input : Rep_at c h0 C m D k st ->
  (fits c (tally C m (length D + length input)) ->
   exists used rest st' k',
    compress_buffer_if_possible c st input = Ok (st', rest) /\ input = used ++ rest /\
    Rep_at c h0 C m (D ++ used) k' st' /\ same_meta st st' /\
    (rest = [] \/ length (D ++ used) = (64 * k')%nat) /\
    (rest = [] -> lazy_k D k \/ input <> [] -> lazy_k (D ++ used) k')) /\
  (~ fits c (tally C m (length D + length input)) ->
   compress_buffer_if_possible c st input = Panic \/
   exists used rest st' k',
    compress_buffer_if_possible c st input = Ok (st', rest) /\ input = used ++ rest /\
    Rep_at c h0 C m (D ++ used) k' st' /\ length (D ++ used) = (64 * k')%nat).
Proof.
  intros R. unfold compress_buffer_if_possible.
  destruct (0 <? val (st_buflen st)) eqn:E0.
  2: { apply N.ltb_ge in E0.
       assert (HD : length D = (64 * k)%nat).
       { destruct R. unfold buflen_nat in *. lia. }
       split; intros Hf; [|right]; exists [], input, st, k; rewrite app_nil_r;
         split; try reflexivity; repeat split; try assumption; try tauto.
       all: try (intros -> [H|H]; [exact H|congruence]). all: destruct R; first [assumption|lia]. }
  apply N.ltb_lt in E0.
  assert (Hk : (64 * k < length D)%nat).
  { destruct R. unfold buflen_nat in *. lia. }
  destruct (fill_buf_at c h0 C m D k st input R) as [Fok Fpan]. cbv zeta in *.
  set (take := Nat.min (64 - (length D - 64 * k)) (length input)) in *.
  assert (Htk : (take <= length input)%nat) by (unfold take; lia).
  assert (HD' : length (D ++ firstn take input) = (length D + take)%nat).
  { rewrite app_length, firstn_length. lia. }
  pose proof (fits_dec c (tally C m (length D + take))) as Hdec.
  rewrite <- HD' in Hdec.
  destruct Hdec as [Hf1|Hf1].
  2: { split; intros Hf.
       - exfalso. apply Hf1. eapply fits_le; [exact Hf|]. apply tally_le. lia.
       - left. rewrite (Fpan Hf1). reflexivity. }
  destruct (Fok Hf1) as (st1 & E1 & R1 & M1 & _). rewrite E1. cbn [bind].
  destruct (skipn take input) as [|x rest] eqn:Er.
  - assert (Htl : take = length input).
    { pose proof (f_equal (@length _) Er) as Hl. rewrite skipn_length in Hl. cbn [length] in Hl. lia. }
    split; intros Hf.
    + exists (firstn take input), [], st1, k. rewrite app_nil_r.
      split; [reflexivity|]. split; [rewrite Htl; symmetry; apply firstn_all|].
      split; [exact R1|]. split; [exact M1|]. split; [left; reflexivity|].
      intros _ _. right. lia.
    + exfalso. apply Hf. rewrite HD', Htl in Hf1. exact Hf1.
  - assert (Htl : (take < length input)%nat).
    { pose proof (f_equal (@length _) Er) as Hl. rewrite skipn_length in Hl. cbn [length] in Hl. lia. }
    pose proof R1 as R1'. destruct R1'.
    rewrite call_compress_ok by assumption. cbn [bind].
    assert (HL : length (D ++ firstn take input) = (64 * k + 64)%nat) by (destruct R; lia).
    pose proof (at_flush _ _ _ _ _ _ _ R1 HL) as R2.
    split; intros Hf; [|right]; exists (firstn take input), (x :: rest); do 2 eexists;
      split; try reflexivity; (split; [rewrite <- Er; symmetry; apply firstn_skipn|]).
    + split; [exact R2|]. split; [eapply same_meta_trans; [exact M1|repeat split]|].
      split; [right; lia|]. discriminate.
    + split; [exact R2|]. lia.
Qed.

(** ** The loop *)
Lemma update_loop_at c h0 C m fuel : forall D k st input, Rep_at c h0 C m D k st ->
  length D = (64 * k)%nat -> (length input < fuel)%nat ->
  (fits c (tally C m (length D + length input)) ->
   exists used rest st' k',
    update_loop fuel c st input = Ok (st', rest) /\ input = used ++ rest /\
    Rep_at c h0 C m (D ++ used) k' st' /\ same_meta st st' /\
    length (D ++ used) = (64 * k')%nat /\ (length rest <= 64)%nat /\
    (input <> [] -> rest <> [])) /\
  (~ fits c (tally C m (length D + length input)) ->
    update_loop fuel c st input = Panic \/
    exists used rest st' k',
    update_loop fuel c st input = Ok (st', rest) /\ input = used ++ rest /\
    Rep_at c h0 C m (D ++ used) k' st' /\ length (D ++ used) = (64 * k')%nat /\ (length rest <= 64)%nat).
Proof.
  induction fuel as [|fuel IH]; intros D k st input R HD Hfuel; [lia|].
  cbn [update_loop]. unfold BLOCKBYTES in *.
  destruct (Nat.ltb 64 (length input)) eqn:El.
  2: { apply Nat.ltb_ge in El.
       split; intros Hf; [|right]; exists [], input, st, k; rewrite app_nil_r; auto 10 using same_meta_refl. }
  apply Nat.ltb_lt in El.
  pose proof R as R'. destruct R'.
  destruct (tally_add c C m (st_count st) (length D) 64 at_fits0 ltac:(lia) (proj2 at_m0) at_count0) as [Cok Cpan].
  destruct (fits_dec c (tally C m (length D + 64))) as [Hf1|Hf1].
  2: { split; intros Hf; [|left].
       - exfalso. apply Hf1. eapply fits_le; [exact Hf|apply tally_le; lia].
       - rewrite (Cpan Hf1). reflexivity. }
  rewrite (Cok Hf1). cbn [bind]. rewrite array_ref_ok by lia. cbn [bind skipn].
  assert (HB : length (firstn 64 input) = 64%nat) by (rewrite firstn_length; lia).
  rewrite call_compress_ok by assumption. cbn [bind].
  rewrite slice_from_ok by lia. cbn [bind].
  pose proof (at_block c h0 C m D k st (firstn 64 input) (of_N 64 (tally C m (length D + 64)))
                R HD HB (val_of_N _ _) Hf1) as R2.
  assert (HL : length (D ++ firstn 64 input) = (64 * S k)%nat) by (rewrite app_length; lia).
  match type of R2 with Rep_at _ _ _ _ _ _ ?s => set (st2 := s) in * end.
  destruct (IH _ _ st2 (skipn 64 input) R2 HL ltac:(rewrite skipn_length; lia)) as [IHok IHpan].
  assert (EL : (length (D ++ firstn 64 input) + length (skipn 64 input) = length D + length input)%nat).
  { rewrite HL, skipn_length. lia. }
  rewrite EL in *.
  split; intros Hf.
  - destruct (IHok Hf) as (used & rest & st' & k' & E & Ei & R3 & M & HL3 & Hr & Hne).
    exists (firstn 64 input ++ used), rest, st', k'. rewrite app_assoc.
    split; [exact E|]. split; [rewrite <- app_assoc, <- Ei; symmetry; apply firstn_skipn|].
    split; [exact R3|]. split; [eapply same_meta_trans; [|exact M]; repeat split|].
    split; [exact HL3|]. split; [exact Hr|]. intros _. apply Hne.
    intros Hx. apply (f_equal (@length _)) in Hx. rewrite skipn_length in Hx. cbn [length] in Hx. lia.
  - destruct (IHpan Hf) as [Hp|(used & rest & st' & k' & E & Ei & R3 & HL3 & Hr)]; [left; exact Hp|right].
    exists (firstn 64 input ++ used), rest, st', k'. rewrite app_assoc.
    split; [exact E|]. split; [rewrite <- app_assoc, <- Ei; symmetry; apply firstn_skipn|].
    auto.
Qed.

(** ** [update] *)
Lemma update_at c h0 C m D k st input : Rep_at c h0 C m D k st ->
  fits c (tally C m (length D + length input)) ->
  exists st' k', update c st input = Ok st' /\ Rep_at c h0 C m (D ++ input) k' st' /\ same_meta st st' /\
    (lazy_k D k \/ input <> [] -> lazy_k (D ++ input) k').
Proof.
  intros R Hf. unfold update.
  destruct (compress_buffer_at c h0 C m D k st input R) as [Bok _].
  destruct (Bok Hf) as (u1 & r1 & st1 & k1 & E1 & Ei1 & R1 & M1 & Hcase & Hlz).
  rewrite E1. cbn [bind].
  assert (Hlen1 : (length input = length u1 + length r1)%nat) by (rewrite Ei1; apply app_length).
  assert (Hf1 : fits c (tally C m (length (D ++ u1) + length r1))).
  { rewrite app_length. eapply fits_le; [exact Hf|apply tally_le; lia]. }
  (* the loop *)
  assert (L : exists used rest st' k',
    update_loop (S (length r1)) c st1 r1 = Ok (st', rest) /\ r1 = used ++ rest /\
    Rep_at c h0 C m ((D ++ u1) ++ used) k' st' /\ same_meta st1 st' /\
    (length ((D ++ u1) ++ used) = (64 * k')%nat \/ (rest = [] /\ used = [] /\ k' = k1)) /\
    (length rest <= 64)%nat /\ (r1 <> [] -> rest <> []) /\ (r1 = [] -> k' = k1)).
  { destruct Hcase as [->|HL].
    - exists [], [], st1, k1. rewrite !app_nil_r.
      split; [reflexivity|]. split; [reflexivity|]. split; [exact R1|].
      split; [apply same_meta_refl|]. split; [right; auto|]. split; [cbn; lia|]. split; congruence.
    - destruct (update_loop_at c h0 C m (S (length r1)) (D ++ u1) k1 st1 r1 R1 HL ltac:(lia)) as [Lok _].
      destruct (Lok Hf1) as (used & rest & st' & k' & H1 & H2 & H3 & H4 & H5 & H6 & H7).
      exists used, rest, st', k'. split; [exact H1|]. split; [exact H2|]. split; [exact H3|].
      split; [exact H4|]. split; [left; exact H5|]. split; [exact H6|]. split; [exact H7|].
      intros Hr1. rewrite Hr1 in H2. destruct used; [|discriminate H2].
      rewrite app_nil_r in H5. lia. }
  destruct L as (u2 & r2 & st2 & k2 & E2 & Ei2 & R2 & M2 & HL2 & Hr2 & Hne2 & Hk2).
  rewrite E2. cbn [bind].
  assert (Hlen2 : (length r1 = length u2 + length r2)%nat) by (rewrite Ei2; apply app_length).
  destruct (fill_buf_at c h0 C m _ k2 st2 r2 R2) as [Fok _]. cbv zeta in Fok.
  assert (Htake : Nat.min (64 - (length ((D ++ u1) ++ u2) - 64 * k2)) (length r2) = length r2).
  { destruct HL2 as [HL2|[-> _]]; cbn [length]; lia. }
  rewrite Htake, firstn_all, skipn_all in Fok.
  assert (ED : ((D ++ u1) ++ u2) ++ r2 = D ++ input) by (rewrite Ei1, Ei2, !app_assoc; reflexivity).
  rewrite ED in Fok.
  destruct Fok as (st3 & E3 & R3 & M3 & _).
  { eapply fits_le; [exact Hf|]. apply tally_le. rewrite app_length. lia. }
  rewrite E3. cbn [bind]. exists st3, k2.
  split; [reflexivity|]. split; [exact R3|].
  split; [eauto using same_meta_trans|].
  intros Hin.
  destruct r1 as [|y r1'].
  - (* everything went into the buffer *)
    destruct u2; [|discriminate Ei2]. destruct r2; [|discriminate Ei2].
    rewrite !app_nil_r in *. rewrite Ei1 in *.
    rewrite (Hk2 eq_refl). apply Hlz; auto.
  - specialize (Hne2 ltac:(discriminate)). right.
    destruct HL2 as [HL2|[? _]]; [|congruence].
    rewrite <- ED, app_length, HL2. destruct r2; [congruence|cbn [length]; lia].
Qed.

(** The counter overflows: a panic in builds with overflow checks. *)
Lemma update_overflow_at c h0 C m D k st input : Rep_at c h0 C m D k st ->
  ~ fits c (tally C m (length D + length input)) -> update c st input = Panic.
Proof.
  intros R Hf. unfold update.
  destruct (compress_buffer_at c h0 C m D k st input R) as [_ Bp].
  destruct (Bp Hf) as [->|(u1 & r1 & st1 & k1 & -> & Ei1 & R1 & HL1)]; [reflexivity|].
  cbn [bind].
  assert (Hlen1 : (length input = length u1 + length r1)%nat) by (rewrite Ei1; apply app_length).
  assert (Hf1 : ~ fits c (tally C m (length (D ++ u1) + length r1))).
  { rewrite app_length. rewrite Hlen1, Nat.add_assoc in Hf. exact Hf. }
  destruct (update_loop_at c h0 C m (S (length r1)) (D ++ u1) k1 st1 r1 R1 HL1 ltac:(lia)) as [_ Lp].
  destruct (Lp Hf1) as [->|(u2 & r2 & st2 & k2 & -> & Ei2 & R2 & HL2 & Hr2)]; [reflexivity|].
  cbn [bind].
  destruct (fill_buf_at c h0 C m _ k2 st2 r2 R2) as [_ Fp]. cbv zeta in Fp.
  assert (Htake : Nat.min (64 - (length ((D ++ u1) ++ u2) - 64 * k2)) (length r2) = length r2) by lia.
  rewrite Htake, firstn_all in Fp. rewrite Fp; [reflexivity|].
  intros Hx. apply Hf1. eapply fits_le; [exact Hx|]. apply tally_le.
  rewrite Ei2, !app_length. lia.
Qed.

(** ** [finalize] *)
Lemma zero_buf_at c h0 C m D k st : Rep_at c h0 C m D k st ->
  zero_tail (st_buf st) (buflen_nat st) = Spec.block D k.
Proof.
  intros R. destruct R. rewrite zero_tail_ok by lia.
  rewrite at_buflen0, at_buf0, block_last by lia. reflexivity.
Qed.
Lemma finalize_at c h0 C m D k st : Rep_at c h0 C m D k st -> lazy_k D k ->
  finalize c st =
  Ok (zeroed st, mk_Hash (Spec.words_bytes (hash_from h0 C m D (st_last_node st))) (st_hash_length st)).
Proof.
  intros R Hl. pose proof (zero_buf_at _ _ _ _ _ _ _ R) as E. destruct R.
  unfold finalize. fold (zeroed st). cbv zeta.
  assert (EB : st_buf (zeroed st) = Spec.block D k) by exact E.
  assert (HB : length (st_buf (zeroed st)) = 64%nat) by (rewrite EB; apply block_length).
  rewrite call_compress_ok by assumption. cbn [bind].
  rewrite state_bytes_ok, compress_ok by assumption.
  unfold hash_from. rewrite (nblocks_unique D k) by assumption. cbn [Nat.sub]. rewrite Nat.sub_0_r.
  change (st_h (zeroed st)) with (st_h st). change (st_count (zeroed st)) with (st_count st).
  rewrite at_h0, at_count0, F_mod, val_flag32, val_umax32, EB. reflexivity.
Qed.

(** ** Any contents *)
Lemma start_at c st : typed_state c st -> (buflen_nat st <= 64)%nat ->
  Rep_at c (nums (st_h st)) (val (count st)) (buflen_nat st) (firstn (buflen_nat st) (st_buf st)) 0 st.
Proof.
  intros (Hb & Hf) Hm.
  assert (HL : length (firstn (buflen_nat st) (st_buf st)) = buflen_nat st) by (rewrite firstn_length; lia).
  constructor; rewrite ?HL; cbn [Nat.mul].
  - reflexivity.
  - lia.
  - lia.
  - lia.
  - exact Hb.
  - lia.
  - rewrite Nat.sub_0_r. reflexivity.
  - unfold tally, count. rewrite Nat.sub_diag, N.add_0_r. symmetry. apply N.mod_small, val_lt.
  - intros _. unfold tally, count. rewrite Nat.sub_diag, N.add_0_r. apply val_lt.
  - exact Hf.
Qed.
Lemma feed_at c h0 C m pieces : forall D k st, Rep_at c h0 C m D k st -> lazy_k D k ->
  (fits c (tally C m (length D + length (concat pieces))) ->
   exists st' k', feed c st pieces = Ok st' /\ Rep_at c h0 C m (D ++ concat pieces) k' st' /\ same_meta st st' /\
     lazy_k (D ++ concat pieces) k') /\
  (~ fits c (tally C m (length D + length (concat pieces))) -> feed c st pieces = Panic).
Proof.
  induction pieces as [|x l IH]; intros D k st R Hl; cbn [concat feed].
  - rewrite app_nil_r. cbn [length]. rewrite Nat.add_0_r. split; intros Hf.
    + exists st, k. auto using same_meta_refl.
    + exfalso. apply Hf. destruct R. exact at_fits0.
  - rewrite app_length, Nat.add_assoc.
    destruct (fits_dec c (tally C m (length D + length x))) as [H1|H1].
    + destruct (update_at c h0 C m D k st x R H1) as (st1 & k1 & E & R1 & M1 & L1). rewrite E. cbn [bind].
      specialize (IH _ _ _ R1 (L1 (or_introl Hl))). rewrite app_length in IH. destruct IH as [IH1 IH2].
      split; intros Hf; [|exact (IH2 Hf)].
      destruct (IH1 Hf) as (st' & k' & E' & R' & M' & L'). exists st', k'. rewrite app_assoc.
      split; [exact E'|]. split; [exact R'|]. split; [eapply same_meta_trans; eassumption|exact L'].
    + split; intros Hf.
      * exfalso. apply H1. eapply fits_le; [exact Hf|]. apply tally_le. lia.
      * rewrite (update_overflow_at c h0 C m D k st x R H1). reflexivity.
Qed.

Theorem resume c st pieces : typed_state c st -> (buflen_nat st <= 64)%nat ->
  let m := buflen_nat st in
  let x := concat pieces in
  let total := val (count st) + N.of_nat (length x) in
  (overflow_checks c = true /\ 2 ^ 64 <= total -> feed c st pieces = Panic) /\
  (overflow_checks c = false \/ total < 2 ^ 64 -> exists st' st'' h,
     feed c st pieces = Ok st' /\ val (count st') = total mod 2 ^ 64 /\ finalize c st' = Ok (st'', h) /\
     h_len h = st_hash_length st /\
     h_bytes h = Spec.words_bytes
       (hash_from (nums (st_h st)) (val (count st)) m (firstn m (st_buf st) ++ x) (st_last_node st))).
Proof.
  intros Ht Hm m x total. pose proof (start_at c st Ht Hm) as R.
  assert (HL : length (firstn m (st_buf st)) = m) by (rewrite firstn_length; unfold m; destruct Ht; lia).
  destruct (feed_at c _ _ _ pieces _ _ _ R (or_introl eq_refl)) as [Fok Fp]. fold m x in Fok, Fp.
  assert (ET : tally (val (count st)) m (length (firstn m (st_buf st)) + length x) = total).
  { unfold tally, total. rewrite HL. f_equal. lia. }
  rewrite ET in Fok, Fp. split; intros H.
  - apply Fp. unfold fits. intros F. specialize (F (proj1 H)). lia.
  - destruct Fok as (st' & k' & E & R' & (M1 & M2 & M3) & L').
    { intros Ho. destruct H as [H|H]; [congruence|exact H]. }
    pose proof (finalize_at _ _ _ _ _ _ _ R' L') as EF. eexists. eexists. eexists.
    split; [exact E|]. split; [|split; [exact EF|split; [exact M3|]]].
    + destruct R'. rewrite app_length, ET in at_count0. exact at_count0.
    + cbn [h_bytes]. rewrite M2. reflexivity.
Qed.

(** What [resume] says of the states of ordinary programs: the counter fits the message. *)
Theorem midway h P k x last : (64 * k <= length P)%nat -> (length P <= 64 * k + 64)%nat ->
  (k = 0 \/ 64 * k < length (P ++ x))%nat ->
  hash_from (Spec.chain h P k) (N.of_nat (length P)) (length P - 64 * k) (skipn (64 * k) P ++ x) last =
  Spec.hash_words h (P ++ x) last.
Proof.
  intros H1 H2 H3.
  assert (Esk : forall i, skipn (64 * i) (skipn (64 * k) P ++ x) = skipn (64 * (k + i)) (P ++ x)).
  { intros i. replace (64 * (k + i))%nat with (64 * i + 64 * k)%nat by lia.
    rewrite <- LeafFacts.skipn_plus, (skipn_app_le (64 * k)) by lia. reflexivity. }
  assert (Eb : forall i, Spec.block (skipn (64 * k) P ++ x) i = Spec.block (P ++ x) (k + i)).
  { intros i. unfold Spec.block. rewrite Esk. reflexivity. }
  assert (Ec : forall i, chain_from (Spec.chain h P k) (N.of_nat (length P)) (length P - 64 * k) (skipn (64 * k) P ++ x) i =
                         Spec.chain h (P ++ x) (k + i)).
  { induction i as [|i IH].
    - rewrite Nat.add_0_r, chain_app by lia. reflexivity.
    - rewrite from_S, (Nat.add_succ_r k i), chain_S, IH, Eb. f_equal. unfold tally. lia. }
  assert (EL : length (skipn (64 * k) P ++ x) = (length (P ++ x) - 64 * k)%nat) by (rewrite !app_length, skipn_length; lia).
  assert (En : Spec.nblocks (P ++ x) = (k + Spec.nblocks (skipn (64 * k) P ++ x))%nat).
  { pose proof (nblocks_bounds (skipn (64 * k) P ++ x)) as B. cbv zeta in B.
    rewrite (nblocks_unique (P ++ x) (k + (Spec.nblocks (skipn (64 * k) P ++ x) - 1))); [lia| |];
      rewrite EL, app_length in *; lia. }
  unfold hash_from, Spec.hash_words. rewrite Ec, Eb, En, EL.
  pose proof (nblocks_bounds (skipn (64 * k) P ++ x)) as B. cbv zeta in B.
  replace (k + (Spec.nblocks (skipn (64 * k) P ++ x) - 1))%nat
    with (k + Spec.nblocks (skipn (64 * k) P ++ x) - 1)%nat by lia.
  f_equal. unfold tally. rewrite app_length. lia.
Qed.

(** With another counter the hash is wrong, but for a collision. *)
Theorem wrong_count h P k x C last d : (64 * k <= length P)%nat -> (length P <= 64 * k + 64)%nat ->
  N.of_nat (length (P ++ x)) < 2 ^ 64 -> C < 2 ^ 64 -> C <> N.of_nat (length P) ->
  let m := (length P - 64 * k)%nat in
  let data := skipn (64 * k) P ++ x in
  firstn d (Spec.words_bytes (hash_from (Spec.chain h P k) C m data last)) =
  firstn d (Spec.words_bytes (Spec.hash_words h (P ++ x) last)) ->
  Spec.truncated_collision d (calls_from (Spec.chain h P k) C m data last) (Spec.hash_calls h (P ++ x) last).
Proof.
  intros H1 H2 HL HC HN m data E. right. unfold calls_from, Spec.hash_calls. cbv zeta.
  do 4 eexists. split; [reflexivity|]. split; [reflexivity|]. split.
  - intros X. apply (f_equal Spec.c_t) in X. cbn [Spec.c_t] in X.
    assert (Ed : length data = (m + length x)%nat) by (unfold data, m; rewrite app_length, skipn_length; lia).
    unfold tally in X. rewrite Ed in X. replace (m + length x - m)%nat with (length x) in X by lia.
    rewrite app_length, Nnat.Nat2N.inj_add in X, HL.
    destruct (N.lt_ge_cases (C + N.of_nat (length x)) (2 ^ 64)) as [G|G].
    + rewrite N.mod_small in X by exact G. lia.
    + assert (Y : (C + N.of_nat (length x)) mod 2 ^ 64 = C + N.of_nat (length x) - 2 ^ 64).
      { symmetry. apply N.mod_unique with 1; lia. }
      rewrite Y in X. lia.
  - unfold Spec.run_call. cbn [Spec.c_h Spec.c_block Spec.c_t Spec.c_f0 Spec.c_f1]. rewrite F_mod. exact E.
Qed.

(** Nothing else in a [State] matters. *)
Theorem same_contents c a b pieces : typed_state c a -> typed_state c b -> (buflen_nat a <= 64)%nat ->
  st_h a = st_h b -> count a = count b -> buflen_nat a = buflen_nat b ->
  firstn (buflen_nat a) (st_buf a) = firstn (buflen_nat b) (st_buf b) ->
  st_last_node a = st_last_node b -> st_hash_length a = st_hash_length b ->
  observed c a pieces = observed c b pieces.
Proof.
  intros Ha Hb Hm Eh Ec El Ef En Eq.
  assert (Hm' : (buflen_nat b <= 64)%nat) by lia.
  pose proof (resume c a pieces Ha Hm) as Ra. pose proof (resume c b pieces Hb Hm') as Rb. cbv zeta in Ra, Rb.
  rewrite Ef, Eh, Ec, En, Eq, El in Ra. destruct Ra as [Pa Oa], Rb as [Pb Ob]. unfold observed.
  destruct (overflow_checks c) eqn:Ho.
  - destruct (N.lt_ge_cases (val (count b) + N.of_nat (length (concat pieces))) (2 ^ 64)) as [H|H].
    2: { rewrite (Pa (conj eq_refl H)), (Pb (conj eq_refl H)). reflexivity. }
    destruct (Oa (or_intror H)) as (a1 & a2 & ha & -> & Ca & Fa & La & Ba).
    destruct (Ob (or_intror H)) as (b1 & b2 & hb & -> & Cb & Fb & Lb & Bb). cbn [bind]. rewrite Fa, Fb. cbn [bind].
    assert (K : forall s s' h, finalize c s = Ok (s', h) -> count s' = count s).
    { intros s s' h0. unfold finalize. destruct (call_compress _ _ _ _ _ _ _); try discriminate. intros [= <- _]. reflexivity. }
    rewrite (K _ _ _ Fa), (K _ _ _ Fb). f_equal. f_equal; [apply val_inj; congruence|].
    destruct ha as [x1 y1], hb as [x2 y2]; cbn [h_bytes h_len] in *; congruence.
  - destruct (Oa (or_introl eq_refl)) as (a1 & a2 & ha & -> & Ca & Fa & La & Ba).
    destruct (Ob (or_introl eq_refl)) as (b1 & b2 & hb & -> & Cb & Fb & Lb & Bb). cbn [bind]. rewrite Fa, Fb. cbn [bind].
    assert (K : forall s s' h, finalize c s = Ok (s', h) -> count s' = count s).
    { intros s s' h0. unfold finalize. destruct (call_compress _ _ _ _ _ _ _); try discriminate. intros [= <- _]. reflexivity. }
    rewrite (K _ _ _ Fa), (K _ _ _ Fb). f_equal. f_equal; [apply val_inj; congruence|].
    destruct ha as [x1 y1], hb as [x2 y2]; cbn [h_bytes h_len] in *; congruence.
Qed.
