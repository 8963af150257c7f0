(** * StateFacts: the BLAKE2s [State] of lib.rs computes RFC 7693. *)
From Verif Require Import Base BaseFacts Consts Portable PortableFacts SpecFacts Params State.
From Verif Require Spec Sse41 Sse41Facts.
From Coq Require Import ZArith Lia ZifyBool ZifyNat ZifyN.
Local Open Scope N_scope.

(** ** Arithmetic and slices *)

(** A total of [n] bytes does not overflow the counter in this build. *)
Definition fits (c : cfg) (n : N) : Prop := overflow_checks c = true -> n < 2 ^ 64.

Lemma fits_le c m n : fits c n -> m <= n -> fits c m.
Proof. unfold fits. intros H Hle Ho. specialize (H Ho). lia. Qed.

Lemma uadd_ok {w} c (a b : uint w) :
  (overflow_checks c = true -> val a + val b < 2 ^ w) -> uadd c a b = Ok (of_N w (val a + val b)).
Proof.
  intros H. unfold uadd. destruct (val a + val b <? 2 ^ w) eqn:E; [reflexivity|].
  destruct (overflow_checks c); [|reflexivity].
  apply N.ltb_ge in E. specialize (H eq_refl). lia.
Qed.
Lemma uadd_panic {w} c (a b : uint w) :
  overflow_checks c = true -> 2 ^ w <= val a + val b -> uadd c a b = Panic.
Proof.
  intros Ho H. unfold uadd. rewrite Ho. apply N.ltb_ge in H. rewrite H. reflexivity.
Qed.

Lemma slice_ok {A} (xs : list A) lo hi : (lo <= hi)%nat -> (hi <= length xs)%nat ->
  slice xs lo hi = Ok (firstn (hi - lo) (skipn lo xs)).
Proof.
  intros H1 H2. unfold slice. apply Nat.leb_le in H1, H2. rewrite H1, H2. reflexivity.
Qed.
Lemma slice_to_ok {A} (xs : list A) n : (n <= length xs)%nat -> slice_to xs n = Ok (firstn n xs).
Proof. intros H. unfold slice_to. apply Nat.leb_le in H. rewrite H. reflexivity. Qed.
Lemma slice_from_ok {A} (xs : list A) n : (n <= length xs)%nat -> slice_from xs n = Ok (skipn n xs).
Proof. intros H. unfold slice_from. apply Nat.leb_le in H. rewrite H. reflexivity. Qed.
Lemma copy_into_ok {A} (dst src : list A) lo hi : (lo <= hi)%nat -> (hi <= length dst)%nat ->
  length src = (hi - lo)%nat -> copy_into dst lo hi src = Ok (firstn lo dst ++ src ++ skipn hi dst).
Proof.
  intros H1 H2 H3. unfold copy_into. apply Nat.leb_le in H1, H2. apply Nat.eqb_eq in H3.
  rewrite H1, H2, H3. reflexivity.
Qed.
Lemma array_ref_ok {A} (xs : list A) off len : (off + len <= length xs)%nat ->
  array_ref xs off len = Ok (firstn len (skipn off xs)).
Proof. intros H. unfold array_ref. rewrite slice_ok by lia. repeat f_equal. lia. Qed.
Lemma nsub_ok c a b : (b <= a)%nat -> nsub c a b = Ok (a - b)%nat.
Proof. intros H. unfold nsub. apply Nat.leb_le in H. rewrite H. reflexivity. Qed.

(** ** Function pointers *)

(** A stored pointer that the CPU can execute. *)
Definition fn_ok (c : cfg) (f : CompressFn) : Prop := f = compress_sse41 -> has_sse41 c = true.
Definition fn8_ok (c : cfg) (f : Compress8Fn) : Prop := f = compress8_avx2 -> has_avx2 c = true.

Lemma default_fn_ok c : cfg_ok c -> fn_ok c (fn_compress (default_compress_impl c)).
Proof.
  unfold cfg_ok, fn_ok, default_compress_impl, has_sse41. intros Hc.
  destruct (arch_x86 c), (feature_std c), (cpu_avx2 c); cbn; intros; try discriminate; auto.
Qed.
Lemma default_fn8_ok c : fn8_ok c (fn_compress8 (default_compress_impl c)).
Proof.
  unfold fn8_ok, default_compress_impl, has_avx2.
  destruct (arch_x86 c), (feature_std c), (cpu_avx2 c); cbn; intros; try discriminate; auto.
Qed.

Lemma call_compress_ok c f h msg count lb ln : fn_ok c f -> length msg = 64%nat ->
  call_compress c f h msg count lb ln = Ok (Portable.compress h msg count lb ln).
Proof.
  intros Hf Hm. destruct f; cbn [call_compress]; [reflexivity|].
  rewrite (Hf eq_refl), Sse41Facts.compress_portable_ok by exact Hm. reflexivity.
Qed.

(** ** The stream invariant *)

(** [st] has absorbed the bytes [D] starting from the chaining value [h0]: the first
    [k] blocks are compressed, the rest is in the buffer. *)
Record Rep (c : cfg) (h0 : list N) (D : list byte) (k : nat) (st : State) : Prop := {
  rep_h : nums (st_h st) = Spec.chain h0 D k;
  rep_lo : (64 * k <= length D)%nat;
  rep_hi : (length D <= 64 * k + 64)%nat;
  rep_buf_length : length (st_buf st) = 64%nat;
  rep_buflen : buflen_nat st = (length D - 64 * k)%nat;
  rep_buf : firstn (length D - 64 * k) (st_buf st) = skipn (64 * k) D;
  rep_count : val (st_count st) = N.of_nat (length D) mod 2 ^ 64;
  rep_fits : fits c (N.of_nat (length D));
  rep_fn : fn_ok c (st_compress_fn st)
}.

(** Nothing was compressed too early: a block is compressed only when more follows. *)
Definition lazy_k (D : list byte) (k : nat) : Prop := (k = 0 \/ 64 * k < length D)%nat.

(** The fields no update touches. *)
Definition same_meta (a b : State) : Prop :=
  st_compress_fn b = st_compress_fn a /\ st_last_node b = st_last_node a /\
  st_hash_length b = st_hash_length a.

Lemma same_meta_refl a : same_meta a a.
Proof. repeat split. Qed.
Lemma same_meta_trans a b d : same_meta a b -> same_meta b d -> same_meta a d.
Proof. unfold same_meta. intuition congruence. Qed.

Lemma val_buflen st n : buflen_nat st = n -> val (st_buflen st) = N.of_nat n.
Proof. unfold buflen_nat. lia. Qed.

Lemma count_add c (count : u64) n m : fits c (N.of_nat n) -> (m <= 64)%nat ->
  val count = N.of_nat n mod 2 ^ 64 ->
  (fits c (N.of_nat (n + m)) ->
     uadd c count (of_N 64 (N.of_nat m)) = Ok (of_N 64 (N.of_nat (n + m)))) /\
  (~ fits c (N.of_nat (n + m)) -> uadd c count (of_N 64 (N.of_nat m)) = Panic).
Proof.
  intros Hn Hm Hc.
  assert (Em : val (of_N 64 (N.of_nat m)) = N.of_nat m).
  { apply val_of_N_small. change (2 ^ 64) with 18446744073709551616. lia. }
  split; intros H.
  - rewrite uadd_ok.
    + f_equal. apply val_inj. rewrite Em, Hc, !val_of_N, N.add_mod_idemp_l by discriminate.
      f_equal. lia.
    + intros Ho. specialize (H Ho). rewrite Em, Hc, N.mod_small by lia. lia.
  - destruct (overflow_checks c) eqn:Ho.
    + apply uadd_panic; [exact Ho|]. unfold fits in *. specialize (Hn Ho).
      rewrite Em, Hc, N.mod_small by lia.
      destruct (N.lt_ge_cases (N.of_nat (n + m)) (2 ^ 64)); [|lia].
      exfalso. apply H. intros _. assumption.
    + exfalso. apply H. intros Hx. congruence.
Qed.

(** ** [fill_buf] *)
Lemma fill_buf_ok c h0 D k st input : Rep c h0 D k st ->
  let take := Nat.min (64 - (length D - 64 * k)) (length input) in
  let D' := D ++ firstn take input in
  (fits c (N.of_nat (length D')) ->
    exists st', fill_buf c st input = Ok (st', skipn take input) /\
      Rep c h0 D' k st' /\ same_meta st st' /\ st_h st' = st_h st) /\
  (~ fits c (N.of_nat (length D')) -> fill_buf c st input = Panic).
Proof.
  intros R take D'. destruct R.
  assert (Hlf : length (firstn take input) = take) by (rewrite firstn_length; lia).
  assert (HD' : length D' = (length D + take)%nat) by (unfold D'; rewrite app_length; lia).
  destruct (count_add c (st_count st) (length D) take rep_fits0 ltac:(lia) rep_count0) as [Cok Cpan].
  unfold fill_buf. rewrite rep_buflen0. rewrite nsub_ok by (unfold BLOCKBYTES; lia).
  cbn [bind]. unfold BLOCKBYTES. fold take.
  rewrite slice_to_ok by lia. cbn [bind].
  rewrite copy_into_ok by lia. cbn [bind].
  assert (Eb : uadd c (st_buflen st) (of_N 8 (N.of_nat take)) =
               Ok (of_N 8 (N.of_nat (length D - 64 * k + take)))).
  { assert (Em : val (of_N 8 (N.of_nat take)) = N.of_nat take).
    { apply val_of_N_small. change (2 ^ 8) with 256. lia. }
    rewrite uadd_ok.
    - f_equal. rewrite Em, (val_buflen st _ rep_buflen0). f_equal. lia.
    - intros _. rewrite Em, (val_buflen st _ rep_buflen0). change (2 ^ 8) with 256. lia. }
  rewrite Eb. cbn [bind]. rewrite <- HD' in *. split; intros Hf.
  - rewrite (Cok Hf). cbn [bind]. rewrite slice_from_ok by lia. cbn [bind].
    eexists; split; [reflexivity|]. split; [|split; [repeat split|reflexivity]].
    constructor; cbn [st_h st_buf st_buflen st_count st_compress_fn].
    + unfold D'. rewrite chain_app by lia. exact rep_h0.
    + lia.
    + lia.
    + rewrite !app_length, firstn_length, Hlf, skipn_length. lia.
    + unfold buflen_nat. cbn [st_buflen]. rewrite val_of_N_small; [lia|].
      change (2 ^ 8) with 256. lia.
    + unfold D' at 2. rewrite skipn_app_le by lia. rewrite <- rep_buf0.
      rewrite app_assoc, firstn_app_le
        by (rewrite app_length, firstn_length; lia).
      rewrite firstn_all2; [reflexivity|]. rewrite app_length, firstn_length. lia.
    + apply val_of_N.
    + exact Hf.
    + exact rep_fn0.
  - rewrite (Cpan Hf). reflexivity.
Qed.

(** One block absorbed without going through the buffer. *)
Lemma Rep_block c h0 D k st B n :
  Rep c h0 D k st -> length D = (64 * k)%nat -> length B = 64%nat ->
  val n = N.of_nat (length D + 64) mod 2 ^ 64 -> fits c (N.of_nat (length D + 64)) ->
  Rep c h0 (D ++ B) (S k)
    {| st_h := Portable.compress (st_h st) B n (uzero 32) (uzero 32);
       st_buf := st_buf st; st_buflen := st_buflen st; st_count := n;
       st_compress_fn := st_compress_fn st; st_last_node := st_last_node st;
       st_hash_length := st_hash_length st |}.
Proof.
  intros R HD HB Hn Hf. destruct R.
  assert (HL : length (D ++ B) = (64 * k + 64)%nat) by (rewrite app_length; lia).
  constructor; cbn [st_h st_buf st_buflen st_count st_compress_fn].
  - rewrite compress_ok by exact HB. rewrite chain_S, chain_app by lia.
    rewrite rep_h0, val_uzero, Hn, F_mod.
    rewrite block_whole by lia. rewrite skipn_app_ge by lia.
    replace (64 * k - length D)%nat with 0%nat by lia. cbn [skipn].
    rewrite firstn_all2 by lia. f_equal. lia.
  - lia.
  - lia.
  - assumption.
  - unfold buflen_nat in *. cbn [st_buflen]. lia.
  - rewrite HL. replace (64 * k + 64 - 64 * S k)%nat with 0%nat by lia.
    cbn [firstn]. symmetry. apply skipn_all2. lia.
  - rewrite HL, Hn, HD. reflexivity.
  - rewrite HL, <- HD. exact Hf.
  - assumption.
Qed.

(** The buffer, full, compressed. *)
Lemma Rep_flush_buf c h0 D k st : Rep c h0 D k st -> length D = (64 * k + 64)%nat ->
  Rep c h0 D (S k)
    {| st_h := Portable.compress (st_h st) (st_buf st) (st_count st) (uzero 32) (uzero 32);
       st_buf := st_buf st; st_buflen := uzero 8; st_count := st_count st;
       st_compress_fn := st_compress_fn st; st_last_node := st_last_node st;
       st_hash_length := st_hash_length st |}.
Proof.
  intros R HD. destruct R. constructor; cbn [st_h st_buf st_buflen st_count st_compress_fn].
  - rewrite compress_ok by assumption. rewrite chain_S, rep_h0, val_uzero, rep_count0, F_mod.
    rewrite block_whole by lia. rewrite <- rep_buf0, HD.
    replace (64 * k + 64 - 64 * k)%nat with 64%nat by lia.
    rewrite firstn_firstn, Nat.min_id, firstn_all2 by lia. f_equal. lia.
  - lia.
  - lia.
  - assumption.
  - unfold buflen_nat. cbn [st_buflen]. rewrite val_uzero. lia.
  - replace (length D - 64 * S k)%nat with 0%nat by lia. cbn [firstn].
    symmetry. apply skipn_all2. lia.
  - assumption.
  - assumption.
  - assumption.
Qed.

(** ** [compress_buffer_if_possible] *)
Lemma compress_buffer_ok c h0 D k st input : Rep c h0 D k st ->
  (fits c (N.of_nat (length D + length input)) ->
   exists used rest st' k',
    compress_buffer_if_possible c st input = Ok (st', rest) /\ input = used ++ rest /\
    Rep c h0 (D ++ used) k' st' /\ same_meta st st' /\
    (rest = [] \/ length (D ++ used) = (64 * k')%nat) /\
    (rest = [] -> lazy_k D k \/ input <> [] -> lazy_k (D ++ used) k')) /\
  (~ fits c (N.of_nat (length D + length input)) ->
   compress_buffer_if_possible c st input = Panic \/
   exists used rest st' k',
    compress_buffer_if_possible c st input = Ok (st', rest) /\ input = used ++ rest /\
    Rep c h0 (D ++ used) k' st' /\ length (D ++ used) = (64 * k')%nat).
Proof.
  intros R. unfold compress_buffer_if_possible.
  destruct (0 <? val (st_buflen st)) eqn:E0.
  2: { apply N.ltb_ge in E0.
       assert (HD : length D = (64 * k)%nat).
       { destruct R. unfold buflen_nat in *. lia. }
       split; intros Hf; [|right]; exists [], input, st, k; rewrite app_nil_r;
         split; try reflexivity; repeat split; try assumption; try tauto.
       all: try (intros -> [H|H]; [exact H|congruence]). all: destruct R; assumption. }
  apply N.ltb_lt in E0.
  assert (Hk : (64 * k < length D)%nat).
  { destruct R. unfold buflen_nat in *. lia. }
  destruct (fill_buf_ok c h0 D k st input R) as [Fok Fpan]. cbv zeta in *.
  set (take := Nat.min (64 - (length D - 64 * k)) (length input)) in *.
  assert (Htk : (take <= length input)%nat) by (unfold take; lia).
  assert (HD' : length (D ++ firstn take input) = (length D + take)%nat).
  { rewrite app_length, firstn_length. lia. }
  assert (Hdec : fits c (N.of_nat (length D + take)) \/ ~ fits c (N.of_nat (length D + take))).
  { unfold fits. destruct (overflow_checks c); [|left; discriminate].
    destruct (N.lt_ge_cases (N.of_nat (length D + take)) (2 ^ 64)); [left; auto|right].
    intros Hx. specialize (Hx eq_refl). lia. }
  rewrite <- HD' in Hdec.
  destruct Hdec as [Hf1|Hf1].
  2: { split; intros Hf.
       - exfalso. apply Hf1. eapply fits_le; [exact Hf|]. lia.
       - left. rewrite (Fpan Hf1). reflexivity. }
  destruct (Fok Hf1) as (st1 & E1 & R1 & M1 & _). rewrite E1. cbn [bind].
  destruct (skipn take input) as [|x rest] eqn:Er.
  - assert (Htl : take = length input).
    { pose proof (f_equal (@length _) Er) as Hl. rewrite skipn_length in Hl. cbn [length] in Hl. lia. }
    split; intros Hf.
    + exists (firstn take input), [], st1, k. rewrite app_nil_r.
      split; [reflexivity|]. split; [rewrite Htl; symmetry; apply firstn_all|].
      split; [exact R1|]. split; [exact M1|]. split; [left; reflexivity|].
      intros _ _. right. lia.
    + exfalso. apply Hf. rewrite HD', Htl in Hf1. exact Hf1.
  - assert (Htl : (take < length input)%nat).
    { pose proof (f_equal (@length _) Er) as Hl. rewrite skipn_length in Hl. cbn [length] in Hl. lia. }
    pose proof R1 as R1'. destruct R1'.
    rewrite call_compress_ok by assumption. cbn [bind].
    assert (HL : length (D ++ firstn take input) = (64 * k + 64)%nat) by (destruct R; lia).
    pose proof (Rep_flush_buf _ _ _ _ _ R1 HL) as R2.
    split; intros Hf; [|right]; exists (firstn take input), (x :: rest); do 2 eexists;
      split; try reflexivity; (split; [rewrite <- Er; symmetry; apply firstn_skipn|]).
    + split; [exact R2|]. split; [eapply same_meta_trans; [exact M1|repeat split]|].
      split; [right; lia|]. discriminate.
    + split; [exact R2|]. lia.
Qed.

(** ** The loop *)
Lemma fits_dec c n : fits c n \/ ~ fits c n.
Proof.
  unfold fits. destruct (overflow_checks c); [|left; discriminate].
  destruct (N.lt_ge_cases n (2 ^ 64)); [left; auto|right].
  intros Hx. specialize (Hx eq_refl). lia.
Qed.

Lemma update_loop_ok c h0 fuel : forall D k st input, Rep c h0 D k st ->
  length D = (64 * k)%nat -> (length input < fuel)%nat ->
  (fits c (N.of_nat (length D + length input)) ->
   exists used rest st' k',
    update_loop fuel c st input = Ok (st', rest) /\ input = used ++ rest /\
    Rep c h0 (D ++ used) k' st' /\ same_meta st st' /\
    length (D ++ used) = (64 * k')%nat /\ (length rest <= 64)%nat /\
    (input <> [] -> rest <> [])) /\
  (~ fits c (N.of_nat (length D + length input)) ->
    update_loop fuel c st input = Panic \/
    exists used rest st' k',
    update_loop fuel c st input = Ok (st', rest) /\ input = used ++ rest /\
    Rep c h0 (D ++ used) k' st' /\ length (D ++ used) = (64 * k')%nat /\ (length rest <= 64)%nat).
Proof.
  induction fuel as [|fuel IH]; intros D k st input R HD Hfuel; [lia|].
  cbn [update_loop]. unfold BLOCKBYTES in *.
  destruct (Nat.ltb 64 (length input)) eqn:El.
  2: { apply Nat.ltb_ge in El.
       split; intros Hf; [|right]; exists [], input, st, k; rewrite app_nil_r; auto 10 using same_meta_refl. }
  apply Nat.ltb_lt in El.
  pose proof R as R'. destruct R'.
  destruct (count_add c (st_count st) (length D) 64 rep_fits0 ltac:(lia) rep_count0) as [Cok Cpan].
  destruct (fits_dec c (N.of_nat (length D + 64))) as [Hf1|Hf1].
  2: { split; intros Hf; [|left].
       - exfalso. apply Hf1. eapply fits_le; [exact Hf|lia].
       - rewrite (Cpan Hf1). reflexivity. }
  rewrite (Cok Hf1). cbn [bind]. rewrite array_ref_ok by lia. cbn [bind skipn].
  assert (HB : length (firstn 64 input) = 64%nat) by (rewrite firstn_length; lia).
  rewrite call_compress_ok by assumption. cbn [bind].
  rewrite slice_from_ok by lia. cbn [bind].
  pose proof (Rep_block c h0 D k st (firstn 64 input) (of_N 64 (N.of_nat (length D + 64)))
                R HD HB (val_of_N _ _) Hf1) as R2.
  assert (HL : length (D ++ firstn 64 input) = (64 * S k)%nat) by (rewrite app_length; lia).
  match type of R2 with Rep _ _ _ _ ?s => set (st2 := s) in * end.
  destruct (IH _ _ st2 (skipn 64 input) R2 HL ltac:(rewrite skipn_length; lia)) as [IHok IHpan].
  assert (EL : (length (D ++ firstn 64 input) + length (skipn 64 input) = length D + length input)%nat).
  { rewrite HL, skipn_length. lia. }
  rewrite EL in *.
  split; intros Hf.
  - destruct (IHok Hf) as (used & rest & st' & k' & E & Ei & R3 & M & HL3 & Hr & Hne).
    exists (firstn 64 input ++ used), rest, st', k'. rewrite app_assoc.
    split; [exact E|]. split; [rewrite <- app_assoc, <- Ei; symmetry; apply firstn_skipn|].
    split; [exact R3|]. split; [eapply same_meta_trans; [|exact M]; repeat split|].
    split; [exact HL3|]. split; [exact Hr|]. intros _. apply Hne.
    intros Hx. apply (f_equal (@length _)) in Hx. rewrite skipn_length in Hx. cbn [length] in Hx. lia.
  - destruct (IHpan Hf) as [Hp|(used & rest & st' & k' & E & Ei & R3 & HL3 & Hr)]; [left; exact Hp|right].
    exists (firstn 64 input ++ used), rest, st', k'. rewrite app_assoc.
    split; [exact E|]. split; [rewrite <- app_assoc, <- Ei; symmetry; apply firstn_skipn|].
    auto.
Qed.

(** ** [update] *)
Theorem update_ok c h0 D k st input : Rep c h0 D k st ->
  fits c (N.of_nat (length D + length input)) ->
  exists st' k', update c st input = Ok st' /\ Rep c h0 (D ++ input) k' st' /\ same_meta st st' /\
    (lazy_k D k \/ input <> [] -> lazy_k (D ++ input) k').
Proof.
  intros R Hf. unfold update.
  destruct (compress_buffer_ok c h0 D k st input R) as [Bok _].
  destruct (Bok Hf) as (u1 & r1 & st1 & k1 & E1 & Ei1 & R1 & M1 & Hcase & Hlz).
  rewrite E1. cbn [bind].
  assert (Hlen1 : (length input = length u1 + length r1)%nat) by (rewrite Ei1; apply app_length).
  assert (Hf1 : fits c (N.of_nat (length (D ++ u1) + length r1))).
  { rewrite app_length. eapply fits_le; [exact Hf|lia]. }
  (* the loop *)
  assert (L : exists used rest st' k',
    update_loop (S (length r1)) c st1 r1 = Ok (st', rest) /\ r1 = used ++ rest /\
    Rep c h0 ((D ++ u1) ++ used) k' st' /\ same_meta st1 st' /\
    (length ((D ++ u1) ++ used) = (64 * k')%nat \/ (rest = [] /\ used = [] /\ k' = k1)) /\
    (length rest <= 64)%nat /\ (r1 <> [] -> rest <> []) /\ (r1 = [] -> k' = k1)).
  { destruct Hcase as [->|HL].
    - exists [], [], st1, k1. rewrite !app_nil_r.
      split; [reflexivity|]. split; [reflexivity|]. split; [exact R1|].
      split; [apply same_meta_refl|]. split; [right; auto|]. split; [cbn; lia|]. split; congruence.
    - destruct (update_loop_ok c h0 (S (length r1)) (D ++ u1) k1 st1 r1 R1 HL ltac:(lia)) as [Lok _].
      destruct (Lok Hf1) as (used & rest & st' & k' & H1 & H2 & H3 & H4 & H5 & H6 & H7).
      exists used, rest, st', k'. split; [exact H1|]. split; [exact H2|]. split; [exact H3|].
      split; [exact H4|]. split; [left; exact H5|]. split; [exact H6|]. split; [exact H7|].
      intros Hr1. rewrite Hr1 in H2. destruct used; [|discriminate H2].
      rewrite app_nil_r in H5. lia. }
  destruct L as (u2 & r2 & st2 & k2 & E2 & Ei2 & R2 & M2 & HL2 & Hr2 & Hne2 & Hk2).
  rewrite E2. cbn [bind].
  assert (Hlen2 : (length r1 = length u2 + length r2)%nat) by (rewrite Ei2; apply app_length).
  destruct (fill_buf_ok c h0 _ k2 st2 r2 R2) as [Fok _]. cbv zeta in Fok.
  assert (Htake : Nat.min (64 - (length ((D ++ u1) ++ u2) - 64 * k2)) (length r2) = length r2).
  { destruct HL2 as [HL2|[-> _]]; cbn [length]; lia. }
  rewrite Htake, firstn_all, skipn_all in Fok.
  assert (ED : ((D ++ u1) ++ u2) ++ r2 = D ++ input) by (rewrite Ei1, Ei2, !app_assoc; reflexivity).
  rewrite ED in Fok.
  destruct Fok as (st3 & E3 & R3 & M3 & _).
  { eapply fits_le; [exact Hf|]. rewrite app_length. lia. }
  rewrite E3. cbn [bind]. exists st3, k2.
  split; [reflexivity|]. split; [exact R3|].
  split; [eauto using same_meta_trans|].
  intros Hin.
  destruct r1 as [|y r1'].
  - (* everything went into the buffer *)
    destruct u2; [|discriminate Ei2]. destruct r2; [|discriminate Ei2].
    rewrite !app_nil_r in *. rewrite Ei1 in *.
    rewrite (Hk2 eq_refl). apply Hlz; auto.
  - specialize (Hne2 ltac:(discriminate)). right.
    destruct HL2 as [HL2|[? _]]; [|congruence].
    rewrite <- ED, app_length, HL2. destruct r2; [congruence|cbn [length]; lia].
Qed.

(** The counter overflows: a panic in builds with overflow checks. *)
Theorem update_overflow c h0 D k st input : Rep c h0 D k st ->
  ~ fits c (N.of_nat (length D + length input)) -> update c st input = Panic.
Proof.
  intros R Hf. unfold update.
  destruct (compress_buffer_ok c h0 D k st input R) as [_ Bp].
  destruct (Bp Hf) as [->|(u1 & r1 & st1 & k1 & -> & Ei1 & R1 & HL1)]; [reflexivity|].
  cbn [bind].
  assert (Hlen1 : (length input = length u1 + length r1)%nat) by (rewrite Ei1; apply app_length).
  assert (Hf1 : ~ fits c (N.of_nat (length (D ++ u1) + length r1))).
  { rewrite app_length. rewrite Hlen1, Nat.add_assoc in Hf. exact Hf. }
  destruct (update_loop_ok c h0 (S (length r1)) (D ++ u1) k1 st1 r1 R1 HL1 ltac:(lia)) as [_ Lp].
  destruct (Lp Hf1) as [->|(u2 & r2 & st2 & k2 & -> & Ei2 & R2 & HL2 & Hr2)]; [reflexivity|].
  cbn [bind].
  destruct (fill_buf_ok c h0 _ k2 st2 r2 R2) as [_ Fp]. cbv zeta in Fp.
  assert (Htake : Nat.min (64 - (length ((D ++ u1) ++ u2) - 64 * k2)) (length r2) = length r2) by lia.
  rewrite Htake, firstn_all in Fp. rewrite Fp; [reflexivity|].
  intros Hx. apply Hf1. eapply fits_le; [exact Hx|].
  rewrite Ei2, !app_length. lia.
Qed.

(** ** [finalize] *)
Lemma upd_app_r {A} (xs ys : list A) i x :
  upd (xs ++ ys) (length xs + i) x = xs ++ upd ys i x.
Proof. induction xs as [|y xs IH]; cbn; [reflexivity|]. rewrite IH. reflexivity. Qed.

Lemma zero_fold m : forall (pre ys : list byte), length ys = m ->
  fold_left (fun b i => upd b i x00) (seq (length pre) m) (pre ++ ys) = pre ++ repeat x00 m.
Proof.
  induction m as [|m IH]; intros pre ys Hl.
  - destruct ys; [reflexivity|discriminate Hl].
  - destruct ys as [|y ys]; [discriminate Hl|]. cbn [seq fold_left repeat].
    rewrite <- (Nat.add_0_r (length pre)) at 2. rewrite upd_app_r. cbn [upd].
    specialize (IH (pre ++ [x00]) ys ltac:(cbn in Hl; lia)).
    rewrite <- !app_assoc, app_length in IH. cbn [app length] in IH.
    rewrite Nat.add_1_r in IH. exact IH.
Qed.

Lemma zero_tail_ok buf n : length buf = 64%nat -> (n <= 64)%nat ->
  zero_tail buf n = Spec.pad 64 (firstn n buf).
Proof.
  intros Hb Hn. unfold zero_tail, Spec.pad, BLOCKBYTES.
  assert (Hf : length (firstn n buf) = n) by (rewrite firstn_length; lia).
  pose proof (zero_fold (64 - n) (firstn n buf) (skipn n buf)) as H.
  rewrite Hf in *. rewrite firstn_skipn in H. apply H. rewrite skipn_length. lia.
Qed.

Lemma le_bytes_word (x : u32) : Spec.le_bytes 4 (val x) = u32_to_bytes x.
Proof.
  unfold u32_to_bytes, u32_byte, byte_of_N. cbn [Spec.le_bytes].
  rewrite !N.div_div by discriminate.
  rewrite <- (N.div_1_r (val x)) at 1. reflexivity.
Qed.

Lemma state_bytes_ok w : state_words_to_bytes w = Spec.words_bytes (nums w).
Proof.
  unfold state_words_to_bytes, Spec.words_bytes, nums. destruct w.
  cbn [oct_list map flat_map o0 o1 o2 o3 o4 o5 o6 o7].
  rewrite !le_bytes_word, app_nil_r. reflexivity.
Qed.

Lemma val_flag32 b : val (flag32 b) = if b then Spec.ones else 0.
Proof. destruct b; reflexivity. Qed.

(** The state after [finalize]: the unused part of the buffer is zeroed. *)
Definition zeroed (st : State) : State :=
  {| st_h := st_h st; st_buf := zero_tail (st_buf st) (buflen_nat st);
     st_buflen := st_buflen st; st_count := st_count st;
     st_compress_fn := st_compress_fn st; st_last_node := st_last_node st;
     st_hash_length := st_hash_length st |}.

Lemma Rep_zero_buf c h0 D k st : Rep c h0 D k st ->
  zero_tail (st_buf st) (buflen_nat st) = Spec.block D k.
Proof.
  intros R. destruct R. rewrite zero_tail_ok by lia.
  rewrite rep_buflen0, rep_buf0, block_last by lia. reflexivity.
Qed.

Lemma Rep_zeroed c h0 D k st : Rep c h0 D k st -> Rep c h0 D k (zeroed st).
Proof.
  intros R. pose proof (Rep_zero_buf _ _ _ _ _ R) as E. pose proof R as R'.
  destruct R'. constructor; unfold zeroed; cbn [st_h st_buf st_buflen st_count st_compress_fn];
    try assumption.
  - rewrite E. apply block_length.
  - rewrite E, block_last by lia. unfold Spec.pad.
    rewrite firstn_app_le by (rewrite skipn_length; lia).
    apply firstn_all2. rewrite skipn_length. lia.
Qed.

Theorem finalize_weak c h0 D k st : Rep c h0 D k st ->
  finalize c st =
  Ok (zeroed st,
      mk_Hash (Spec.words_bytes
                 (Spec.F (Spec.chain h0 D k) (Spec.block D k) (N.of_nat (length D)) Spec.ones
                         (if st_last_node st then Spec.ones else 0)))
              (st_hash_length st)).
Proof.
  intros R. pose proof (Rep_zero_buf _ _ _ _ _ R) as E.
  pose proof (Rep_zeroed _ _ _ _ _ R) as RZ. destruct RZ.
  unfold finalize. fold (zeroed st). cbv zeta.
  rewrite call_compress_ok by assumption. cbn [bind].
  rewrite state_bytes_ok, compress_ok by assumption.
  rewrite rep_h0, rep_count0, F_mod, val_flag32, val_umax32.
  unfold zeroed at 2 3 4. cbn [st_buf st_last_node st_hash_length]. rewrite E. reflexivity.
Qed.

Theorem finalize_ok c h0 D k st : Rep c h0 D k st -> lazy_k D k ->
  finalize c st =
  Ok (zeroed st,
      mk_Hash (Spec.words_bytes (Spec.hash_words h0 D (st_last_node st))) (st_hash_length st)).
Proof.
  intros R Hl. rewrite (finalize_weak _ _ _ _ _ R).
  unfold Spec.hash_words. rewrite (nblocks_unique D k) by (destruct R; assumption).
  cbn [Nat.sub]. rewrite Nat.sub_0_r. reflexivity.
Qed.

(** ** Other operations *)
Lemma Rep_set_last_node c h0 D k st b : Rep c h0 D k st -> Rep c h0 D k (set_last_node st b).
Proof. intros R. destruct R. constructor; assumption. Qed.

Lemma Rep_force_portable c h0 D k st : Rep c h0 D k st -> Rep c h0 D k (force_portable st).
Proof. intros R. destruct R. constructor; try assumption. discriminate. Qed.

(** A fresh state around chaining value [w] that has absorbed whole blocks. *)
Lemma Rep_fresh c w D k fn ln hl buf n :
  nums w = n -> length buf = 64%nat -> fn_ok c fn ->
  forall h0, n = Spec.chain h0 D k -> length D = (64 * k)%nat -> fits c (N.of_nat (length D)) ->
  Rep c h0 D k {| st_h := w; st_buf := buf; st_buflen := of_N 8 0;
                  st_count := of_N 64 (N.of_nat (length D)); st_compress_fn := fn;
                  st_last_node := ln; st_hash_length := hl |}.
Proof.
  intros Hw Hb Hfn h0 Hn HD Hfit.
  constructor; cbn [st_h st_buf st_buflen st_count st_compress_fn]; try assumption; try lia.
  - congruence.
  - unfold buflen_nat; cbn [st_buflen]. rewrite val_of_N. cbn. lia.
  - rewrite HD, Nat.sub_diag. cbn [firstn]. symmetry. apply skipn_all2. lia.
  - apply val_of_N.
Qed.
