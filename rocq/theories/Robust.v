(** * Robust: no undefined behaviour from any values the types allow. *)
From Verif Require Import Base BaseFacts Consts Portable Params State Many Blake2sp Views Debug StateFacts Avx2Facts
  Sse41Facts Machine MachineSpec Clients Terms.
From Verif Require Sse41 Avx2.
From Coq Require Import ZArith Lia ZifyBool ZifyNat ZifyN.
Local Open Scope N_scope.

(** [x] returns a [P], or panics. *)
Definition safe {A} (P : A -> Prop) (x : outcome A) : Prop :=
  match x with Ok a => P a | Panic => True | UB | Stuck => False end.
Lemma safe_bind {A B} (P : A -> Prop) (Q : B -> Prop) x f :
  safe P x -> (forall a, P a -> safe Q (f a)) -> safe Q (bind x f).
Proof. destruct x; cbn [safe bind]; auto. Qed.
Lemma safe_imp {A} (P Q : A -> Prop) x : safe P x -> (forall a, P a -> Q a) -> safe Q x.
Proof. destruct x; cbn [safe]; auto. Qed.
Lemma safe_if {A} (P : A -> Prop) (b : bool) x y : (b = true -> safe P x) -> (b = false -> safe P y) ->
  safe P (if b then x else y).
Proof. destruct b; auto. Qed.
Lemma bind_bind {A B C} (x : outcome A) (f : A -> outcome B) (g : B -> outcome C) :
  bind (bind x f) g = bind x (fun a => bind (f a) g).
Proof. destruct x; reflexivity. Qed.
Definition anything {A} (_ : A) : Prop := True.

(** ** Arithmetic and slices *)
Lemma uadd_safe {w} c (a b : uint w) : safe anything (uadd c a b).
Proof. unfold uadd. destruct (_ <? _); [exact I|]. destruct (overflow_checks c); exact I. Qed.
Lemma usub_safe {w} c (a b : uint w) : safe anything (usub c a b).
Proof. unfold usub. destruct (_ <=? _); [exact I|]. destruct (overflow_checks c); exact I. Qed.
Lemma nsub_safe c a b : safe anything (nsub c a b).
Proof. unfold nsub. destruct (Nat.leb b a); [exact I|]. destruct (overflow_checks c); exact I. Qed.
Lemma debug_assert_safe c b : safe anything (debug_assert c b).
Proof. unfold debug_assert. destruct (debug_assertions c), b; exact I. Qed.
Lemma slice_safe {A} (xs : list A) lo hi : safe (fun l => length l = (hi - lo)%nat) (slice xs lo hi).
Proof.
  unfold slice. apply safe_if; intros H; [|exact I]. cbn [safe]. rewrite firstn_length, skipn_length.
  apply andb_prop in H as (H1 & H2). apply Nat.leb_le in H1, H2. lia.
Qed.
Lemma slice_from_safe {A} (xs : list A) lo : safe (fun l => length l = (length xs - lo)%nat) (slice_from xs lo).
Proof. unfold slice_from. apply safe_if; intros H; [|exact I]. cbn [safe]. apply skipn_length. Qed.
Lemma slice_to_safe {A} (xs : list A) hi : safe (fun l => length l = hi) (slice_to xs hi).
Proof.
  unfold slice_to. apply safe_if; intros H; [|exact I]. cbn [safe]. apply Nat.leb_le in H.
  rewrite firstn_length. lia.
Qed.
Lemma copy_into_safe {A} (dst : list A) lo hi src : safe (fun l => length l = length dst) (copy_into dst lo hi src).
Proof.
  unfold copy_into. apply safe_if; intros H; [|exact I]. cbn [safe].
  apply andb_prop in H as (H & H3). apply andb_prop in H as (H1 & H2).
  apply Nat.leb_le in H1, H2. apply Nat.eqb_eq in H3.
  rewrite !app_length, firstn_length, skipn_length. lia.
Qed.
Lemma array_ref_safe {A} (xs : list A) off len : safe (fun l => length l = len) (array_ref xs off len).
Proof. unfold array_ref. eapply safe_imp; [apply slice_safe|]. cbv beta. intros a H. lia. Qed.
Lemma safe_mapM {A B} (Q : B -> Prop) (f : A -> outcome B) (a : oct A) :
  (forall l, safe Q (f (proj l a))) -> safe (fun r => forall l, Q (proj l r)) (oct_mapM f a).
Proof.
  intros H. unfold oct_mapM.
  eapply safe_bind; [exact (H L0)|]; intros b0 H0. eapply safe_bind; [exact (H L1)|]; intros b1 H1.
  eapply safe_bind; [exact (H L2)|]; intros b2 H2. eapply safe_bind; [exact (H L3)|]; intros b3 H3.
  eapply safe_bind; [exact (H L4)|]; intros b4 H4. eapply safe_bind; [exact (H L5)|]; intros b5 H5.
  eapply safe_bind; [exact (H L6)|]; intros b6 H6. eapply safe_bind; [exact (H L7)|]; intros b7 H7.
  cbn [safe]. intros []; assumption.
Qed.
Lemma safe_mapM2 {A B C} (Q : C -> Prop) (f : A -> B -> outcome C) (a : oct A) (b : oct B) :
  (forall l, safe Q (f (proj l a) (proj l b))) -> safe (fun r => forall l, Q (proj l r)) (oct_mapM2 f a b).
Proof.
  intros H. unfold oct_mapM2.
  eapply safe_bind; [exact (H L0)|]; intros b0 H0. eapply safe_bind; [exact (H L1)|]; intros b1 H1.
  eapply safe_bind; [exact (H L2)|]; intros b2 H2. eapply safe_bind; [exact (H L3)|]; intros b3 H3.
  eapply safe_bind; [exact (H L4)|]; intros b4 H4. eapply safe_bind; [exact (H L5)|]; intros b5 H5.
  eapply safe_bind; [exact (H L6)|]; intros b6 H6. eapply safe_bind; [exact (H L7)|]; intros b7 H7.
  cbn [safe]. intros []; assumption.
Qed.

Section Config.
Context (c : cfg) (Hc : cfg_ok c).
Notation tst := (typed_state c).
Ltac sb := eapply safe_bind.

(** ** Calls through pointers *)
Lemma call_compress_safe f h m n a b : (f = compress_sse41 -> has_sse41 c = true) ->
  safe anything (call_compress c f h m n a b).
Proof. intros H. destruct f; cbn [call_compress]; [exact I|]. rewrite H by reflexivity. exact I. Qed.
Lemma call_compress8_safe f h m n a b : (f = compress8_avx2 -> has_avx2 c = true) ->
  safe anything (call_compress8 c f h m n a b).
Proof. intros H. destruct f; cbn [call_compress8]; [exact I|]. rewrite H by reflexivity. exact I. Qed.
Lemma default_fns : (fn_compress (default_compress_impl c) = compress_sse41 -> has_sse41 c = true) /\
  (fn_compress8 (default_compress_impl c) = compress8_avx2 -> has_avx2 c = true).
Proof.
  unfold default_compress_impl, has_sse41, has_avx2.
  destruct (arch_x86 c), (feature_std c), (cpu_avx2 c) eqn:E; cbn; split; try discriminate; try reflexivity.
  intros _. apply Hc, E.
Qed.
Lemma vectorize_safe w : safe anything (call_vectorize8 c (fn_vectorize8 (default_compress_impl c)) w).
Proof.
  unfold default_compress_impl, call_vectorize8, has_avx2.
  destruct (arch_x86 c), (feature_std c), (cpu_avx2 c); exact I.
Qed.
Lemma compress_vectorized_safe w b lo hi x y :
  safe anything (call_compress8_vectorized c (fn_compress8_vectorized (default_compress_impl c)) w b lo hi x y).
Proof.
  unfold default_compress_impl, call_compress8_vectorized, has_avx2.
  destruct (arch_x86 c), (feature_std c), (cpu_avx2 c); exact I.
Qed.

(** ** [State] *)
Definition tpair (x : State * list byte) : Prop := tst (fst x).
Lemma fill_buf_safe st input : tst st ->
  safe (fun x => tst (fst x) /\ (length (snd x) <= length input)%nat) (fill_buf c st input).
Proof.
  intros (Hb & Hf). unfold fill_buf. sb; [apply nsub_safe|]; intros room _. cbv zeta.
  sb; [apply slice_to_safe|]; intros src _.
  sb; [apply copy_into_safe|]; intros buf H.
  sb; [apply uadd_safe|]; intros n _. sb; [apply uadd_safe|]; intros m _.
  sb; [apply slice_from_safe|]; intros rest Hr. cbn [safe fst snd]. split; [|cbv beta in Hr; lia].
  split; cbn [st_buf st_compress_fn]; [cbv beta in H; congruence|exact Hf].
Qed.
Lemma compress_buffer_safe st input : tst st ->
  safe (fun x => tst (fst x) /\ (length (snd x) <= length input)%nat) (compress_buffer_if_possible c st input).
Proof.
  intros H. unfold compress_buffer_if_possible. apply safe_if; intros _; [|cbn [safe fst snd]; auto].
  sb; [apply fill_buf_safe, H|]. intros (st', rest) (H' & Hl). cbn [fst snd] in *.
  destruct rest; [cbn [safe fst snd]; auto|].
  sb; [apply call_compress_safe, H'|]; intros h _. cbn [safe fst snd]. split; [exact H'|exact Hl].
Qed.
Lemma update_loop_safe fuel : forall st input, tst st -> (length input < fuel)%nat ->
  safe (fun x => tst (fst x)) (update_loop fuel c st input).
Proof.
  induction fuel as [|fuel IH]; intros st input H Hl; [lia|]. cbn [update_loop].
  apply safe_if; intros Hg; [|exact H]. apply Nat.ltb_lt in Hg. unfold BLOCKBYTES in *.
  sb; [apply uadd_safe|]; intros n _. sb; [apply array_ref_safe|]; intros b _.
  sb; [apply call_compress_safe, H|]; intros h _. sb; [apply slice_from_safe|]; intros r Hr.
  cbv beta in Hr. apply IH; [exact H|]. lia.
Qed.
Lemma update_safe st input : tst st -> safe tst (update c st input).
Proof.
  intros H. unfold update. sb; [apply compress_buffer_safe, H|]. intros (s1, i1) (H1 & _). cbn [fst snd] in *.
  sb; [apply update_loop_safe; [exact H1|lia]|]. intros (s2, i2) H2. cbn [fst snd] in *.
  sb; [apply fill_buf_safe, H2|]. intros (s3, i3) (H3 & _). exact H3.
Qed.
Lemma with_params_safe p : typed_params p -> safe tst (with_params c p).
Proof.
  intros Hp. unfold with_params. cbv zeta.
  assert (H0 : tst {| st_h := make_words p; st_compress_fn := fn_compress (default_compress_impl c);
    st_buf := repeat x00 BLOCKBYTES; st_buflen := of_N 8 0; st_count := of_N 64 0;
    st_last_node := p_last_node p; st_hash_length := p_hash_length p |}).
  { split; cbn [st_buf st_compress_fn]; [apply repeat_length|apply default_fns]. }
  apply safe_if; intros _; [|exact H0].
  sb; [apply copy_into_safe|]; intros k _. apply update_safe, H0.
Qed.
Lemma zero_tail_length b n : length (zero_tail b n) = length b.
Proof.
  unfold zero_tail. generalize (seq n (BLOCKBYTES - n)). intros l. revert b.
  induction l as [|i l IH]; intros b; [reflexivity|]. cbn [fold_left]. rewrite IH. apply upd_length.
Qed.
Lemma words_bytes_length w : length (state_words_to_bytes w) = 32%nat.
Proof. reflexivity. Qed.
Lemma finalize_safe st : tst st -> safe (fun x => tst (fst x) /\ typed_hash (snd x)) (finalize c st).
Proof.
  intros (Hb & Hf). unfold finalize. cbv zeta. cbn [st_compress_fn st_buf].
  sb; [apply call_compress_safe, Hf|]; intros h _. cbn [safe fst snd]. split; [|apply words_bytes_length].
  split; cbn [st_buf st_compress_fn]; [rewrite zero_tail_length; exact Hb|exact Hf].
Qed.
Lemma hash_one_safe p x : typed_params p -> safe typed_hash (hash_one c p x).
Proof.
  intros H. unfold hash_one. sb; [apply with_params_safe, H|]. intros s Hs.
  sb; [apply update_safe, Hs|]. intros s1 H1. sb; [apply finalize_safe, H1|]. intros (s2, h) (_ & H2). exact H2.
Qed.
Lemma as_bytes_safe h : safe anything (as_bytes h).
Proof. unfold as_bytes. eapply safe_imp; [apply slice_to_safe|]. intros; exact I. Qed.
Lemma push_char_safe s ch : safe anything (push_char s ch).
Proof. unfold push_char. apply safe_if; intros _; exact I. Qed.
Lemma hex_loop_safe l : forall s, safe anything (hex_loop s l).
Proof.
  induction l as [|b l IH]; intros s; [exact I|]. cbn [hex_loop].
  sb; [apply push_char_safe|]; intros s1 _. sb; [apply push_char_safe|]; intros s2 _. apply IH.
Qed.
Lemma to_hex_safe h : safe anything (to_hex h).
Proof. unfold to_hex. sb; [apply as_bytes_safe|]. intros b _. apply hex_loop_safe. Qed.

(** ** Eight at a time *)
Lemma bump_safe st : tst st -> safe tst (bump_count c st).
Proof. intros H. unfold bump_count. sb; [apply uadd_safe|]. intros n _. exact H. Qed.
Lemma update8_loop_safe fuel f : (f = compress8_avx2 -> has_avx2 c = true) -> forall sts inputs,
  (forall l, tst (proj l sts)) -> (length (o0 inputs) < fuel)%nat ->
  safe (fun x => forall l, tst (proj l (fst x))) (update8_loop fuel c f sts inputs).
Proof.
  intros Hf. induction fuel as [|fuel IH]; intros sts inputs H Hl; [lia|]. cbn [update8_loop].
  apply safe_if; intros Hg; [|exact H].
  assert (Hg0 : (64 < length (o0 inputs))%nat).
  { unfold oct_all in Hg. repeat (apply andb_prop in Hg as (Hg & _)). apply Nat.ltb_lt in Hg. exact Hg. }
  sb; [apply (safe_mapM tst); intros l; apply bump_safe, H|]. intros s1 H1.
  sb; [apply (safe_mapM (fun l => length l = BLOCKBYTES)); intros l; apply array_ref_safe|]. intros b _.
  sb; [apply call_compress8_safe, Hf|]. intros hs _.
  assert (Hs : safe (fun r => length (o0 r) = (length (o0 inputs) - 64)%nat)
                 (oct_mapM (fun i => slice_from i BLOCKBYTES) inputs)).
  { unfold oct_mapM. sb; [apply slice_from_safe|]. intros r0 H0.
    do 7 (sb; [apply slice_from_safe|]; intros ? _). exact H0. }
  sb; [exact Hs|]. intros r Hr. cbv beta in Hr. apply IH; [|lia].
  intros l. rewrite proj_map2. exact (H1 l).
Qed.
Lemma update8_safe sts inputs : (forall l, tst (proj l sts)) ->
  safe (fun r => forall l, tst (proj l r)) (update8 c sts inputs).
Proof.
  intros H. unfold update8.
  sb; [apply (safe_mapM2 (fun x => tst (fst x))); intros l; eapply safe_imp; [apply compress_buffer_safe, H|]|].
  { intros a (Ha & _). exact Ha. }
  intros si Hsi. cbv zeta. cbv beta in Hsi.
  sb; [apply update8_loop_safe|].
  - apply default_fns.
  - intros l. rewrite proj_map. apply Hsi.
  - destruct si. cbn [oct_map o0 snd]. lia.
  - intros (s1, i1) H1. cbn [fst] in H1. apply safe_mapM2. intros l. apply update_safe, H1.
Qed.
Lemma finalize8_safe sts : (forall l, tst (proj l sts)) ->
  safe (fun x => (forall l, tst (proj l (fst x))) /\ forall l, typed_hash (proj l (snd x))) (finalize8 c sts).
Proof.
  intros H. unfold finalize8. cbv zeta. sb; [apply call_compress8_safe, default_fns|]. intros hs _.
  cbn [safe fst snd]. split; intros l.
  - rewrite proj_map. destruct (H l) as (Hb & Hf). split; cbn [set_buf st_buf st_compress_fn]; [|exact Hf].
    rewrite zero_tail_length. exact Hb.
  - rewrite proj_map2. apply words_bytes_length.
Qed.

(** ** Exact lengths *)
Lemma raw_read_safe {A} (xs : list A) off len : (off + len <= length xs)%nat -> safe anything (raw_read xs off len).
Proof. intros H. unfold raw_read. apply Nat.leb_le in H. rewrite H. exact I. Qed.
Lemma m128_bytes_length x : length (Intrinsics.m128_bytes x) = 16%nat.
Proof. destruct x. reflexivity. Qed.
Lemma m256_bytes_length x : length (Intrinsics.m256_bytes x) = 32%nat.
Proof. destruct x. reflexivity. Qed.
Lemma export4 h n : let q := Sse41.export_hashes h n in
  typed_hash (q0 q) /\ typed_hash (q1 q) /\ typed_hash (q2 q) /\ typed_hash (q3 q).
Proof.
  cbv zeta. unfold Sse41.export_hashes, typed_hash. cbn [q0 q1 q2 q3 h_bytes].
  rewrite !app_length, !m128_bytes_length. repeat split.
Qed.
Lemma export8 h n l : typed_hash (proj l (Avx2.export_hashes h n)).
Proof.
  unfold Avx2.export_hashes, typed_hash. destruct l; cbn [proj o0 o1 o2 o3 o4 o5 o6 o7 h_bytes]; apply m256_bytes_length.
Qed.
Definition thash4 (q : quad Hash) : Prop := typed_hash (q0 q) /\ typed_hash (q1 q) /\ typed_hash (q2 q) /\ typed_hash (q3 q).
Lemma hash4_loop_safe fuel p a b x y len : length a = len -> length b = len -> length x = len -> length y = len ->
  forall h k n, (len = n + 64 * S k)%nat -> (64 * k < fuel)%nat ->
  safe thash4 (Sse41.hash4_exact_loop fuel p a b x y len h n).
Proof.
  intros Ha Hb Hx Hy. induction fuel as [|fuel IH]; intros h k n E Hf; [lia|]. cbn [Sse41.hash4_exact_loop].
  unfold BLOCKBYTES. do 4 (sb; [apply raw_read_safe; lia|]; intros ? _). cbv zeta.
  apply safe_if; intros Hn; [exact (export4 _ _)|]. apply Nat.eqb_neq in Hn.
  destruct k as [|k]; [lia|]. apply (IH _ k); lia.
Qed.
Lemma hash8_loop_safe fuel p inputs len : (forall l, length (proj l inputs) = len) ->
  forall h k n, (len = n + 64 * S k)%nat -> (64 * k < fuel)%nat ->
  safe (fun r => forall l, typed_hash (proj l r)) (Avx2.hash8_exact_loop fuel p inputs len h n).
Proof.
  intros Hl. induction fuel as [|fuel IH]; intros h k n E Hf; [lia|]. cbn [Avx2.hash8_exact_loop].
  pose proof (Hl L0) as H0. pose proof (Hl L1) as H1. pose proof (Hl L2) as H2. pose proof (Hl L3) as H3.
  pose proof (Hl L4) as H4. pose proof (Hl L5) as H5. pose proof (Hl L6) as H6. pose proof (Hl L7) as H7.
  cbn [proj] in *. unfold BLOCKBYTES. do 8 (sb; [apply raw_read_safe; lia|]; intros ? _). cbv zeta.
  apply safe_if; intros Hn; [exact (export8 _ _)|]. apply Nat.eqb_neq in Hn.
  destruct k as [|k]; [lia|]. apply (IH _ k); lia.
Qed.
Lemma whole_multiple len : Nat.eqb (Nat.modulo len 64) 0 = true -> negb (Nat.eqb len 0) = true ->
  exists k, (len = 0 + 64 * S k)%nat.
Proof.
  intros H1 H2. apply Nat.eqb_eq in H1. apply negb_true_iff, Nat.eqb_neq in H2.
  apply Nat.mod_divides in H1 as (k & ->); [|discriminate]. destruct k as [|k]; [lia|]. exists k. lia.
Qed.
Lemma hash4_exact_safe p q : typed_params p -> safe thash4 (hash4_exact c p q).
Proof.
  intros Hp. unfold hash4_exact. cbv zeta. apply safe_if; intros H; [|exact I].
  apply andb_prop in H as (H & Hne). apply andb_prop in H as (H & Hm).
  apply andb_prop in H as (H & H3). apply andb_prop in H as (H1 & H2).
  apply Nat.eqb_eq in H1, H2, H3. unfold BLOCKBYTES in Hm.
  destruct (whole_multiple _ Hm Hne) as (k & E). unfold default_compress_impl.
  destruct (arch_x86 c && feature_std c && cpu_avx2 c) eqn:Ed; cbn [fn_hash4_exact call_hash4_exact].
  - assert (Hs : has_sse41 c = true).
    { apply andb_prop in Ed as (Ed & Ha). apply andb_prop in Ed as (Ex & _). unfold has_sse41. rewrite Ex. apply Hc, Ha. }
    rewrite Hs. unfold Sse41.hash4_exact. cbv zeta. apply (hash4_loop_safe _ _ _ _ _ _ _ eq_refl H1 H2 H3 _ k); lia.
  - unfold hash4_exact_port. do 4 (sb; [apply hash_one_safe, Hp|]; intros ? ?). cbn [safe]. repeat split; assumption.
Qed.
Lemma hash8_exact_safe p x : typed_params p -> safe (fun r => forall l, typed_hash (proj l r)) (hash8_exact c p x).
Proof.
  intros Hp. unfold hash8_exact. cbv zeta. apply safe_if; intros H; [|exact I].
  apply andb_prop in H as (H & Hne). apply andb_prop in H as (H & Hm).
  do 6 (apply andb_prop in H as (H & ?)). rewrite ?Nat.eqb_eq in *. unfold BLOCKBYTES in Hm.
  assert (Hm' : Nat.eqb (Nat.modulo (length (o0 x)) 64) 0 = true) by (apply Nat.eqb_eq; exact Hm).
  destruct (whole_multiple _ Hm' Hne) as (k & E). unfold default_compress_impl.
  destruct (arch_x86 c && feature_std c && cpu_avx2 c) eqn:Ed; cbn [fn_hash8_exact call_hash8_exact].
  - assert (Hs : has_avx2 c = true).
    { apply andb_prop in Ed as (Ed & Ha). apply andb_prop in Ed as (Ex & _). unfold has_avx2. rewrite Ex. exact Ha. }
    rewrite Hs. unfold Avx2.hash8_exact. cbv zeta. apply (hash8_loop_safe _ _ _ _) with (k := k); [|lia|lia].
    intros []; cbn [proj]; congruence.
  - unfold hash8_exact_port. apply safe_mapM. intros l. apply hash_one_safe, Hp.
Qed.

(** ** hash8 *)
Lemma all_remaining_safe t n l : safe (fun b => b = true -> forall x, In x l -> exists d, nsub c x n = Ok d /\ t d = true)
  (all_remaining c t n l).
Proof.
  induction l as [|x l IH]; cbn [all_remaining]; [intros _ y []|].
  destruct (nsub c x n) as [d| | |] eqn:E; cbn [bind safe]; [|exact I| |].
  - destruct (t d) eqn:Et; [|cbn [safe]; discriminate].
    eapply safe_imp; [exact IH|]. intros b Hb Hbt y [<-|Hy]; [eauto|exact (Hb Hbt y Hy)].
  - pose proof (nsub_safe c x n) as H. rewrite E in H. exact H.
  - pose proof (nsub_safe c x n) as H. rewrite E in H. exact H.
Qed.
Lemma hash8_finish_safe n p w x : safe typed_hash (hash8_finish c (fn_compress (default_compress_impl c)) n p w x).
Proof.
  unfold hash8_finish. cbv zeta. sb; [apply slice_from_safe|]. intros r _.
  sb; [apply update_safe|].
  { split; cbn [st_buf st_compress_fn]; [apply repeat_length|apply default_fns]. }
  intros s Hs. sb; [apply finalize_safe, Hs|]. intros (s1, h) (_ & H). exact H.
Qed.
Lemma hash8_whole_safe fuel ps inputs : forall w n, (n <= length (o0 inputs))%nat -> (length (o0 inputs) - n < fuel)%nat ->
  safe (fun r => forall l, typed_hash (proj l r)) (hash8_loop fuel c (default_compress_impl c) ps inputs w n).
Proof.
  induction fuel as [|fuel IH]; intros w n Hn Hf; [lia|]. cbn [hash8_loop]. cbv zeta.
  sb; [apply all_remaining_safe|]. intros ua Hua. sb; [apply all_remaining_safe|]. intros fa Hfa.
  apply safe_if; intros Hb.
  - sb; [apply vectorize_safe|]. intros w' _.
    do 8 (sb; [apply hash8_finish_safe|]; intros ? ?). cbn [safe]. intros []; assumption.
  - sb; [apply (safe_mapM (fun l => length l = BLOCKBYTES)); intros l; apply array_ref_safe|]. intros b _.
    sb; [apply compress_vectorized_safe|]. intros w' _.
    apply safe_if; intros Ef.
    + sb; [apply vectorize_safe|]. intros w2 _. cbn [safe]. intros l. rewrite proj_map2. apply words_bytes_length.
    + subst fa. destruct ua; [|discriminate Hb].
      destruct (Hua eq_refl (length (o0 inputs))) as (d & E & Hd).
      { destruct inputs. left. reflexivity. }
      rewrite nsub_ok in E by lia. injection E as <-. apply Nat.ltb_lt in Hd. unfold BLOCKBYTES in *.
      apply IH; lia.
Qed.
Lemma hash8_safe ps inputs : safe (fun r => forall l, typed_hash (proj l r)) (hash8 c ps inputs).
Proof.
  unfold hash8. apply safe_if; intros _; [|exact I]. cbv zeta. sb; [apply vectorize_safe|]. intros w _.
  apply hash8_whole_safe; lia.
Qed.

(** ** Parameters *)
Ltac setter := apply safe_if; intros _; [|exact I].
Lemma set_key_safe p k : safe typed_params (set_key p k).
Proof.
  unfold set_key. setter. sb; [apply copy_into_safe|]. intros k' H. cbv beta in H. cbn [safe]. unfold typed_params.
  cbn [p_key]. rewrite H. apply repeat_length.
Qed.
Lemma apply_setter_safe p s : typed_params p -> safe typed_params (apply_setter p s).
Proof.
  intros H. destruct s; cbn [apply_setter]; try apply set_key_safe; try exact H.
  - unfold set_hash_length. setter. exact H.
  - unfold set_salt. setter. sb; [apply copy_into_safe|]. intros k' _. exact H.
  - unfold set_personal. setter. sb; [apply copy_into_safe|]. intros k' _. exact H.
  - unfold set_max_depth. setter. exact H.
  - unfold set_node_offset. setter. exact H.
  - unfold set_inner_hash_length. setter. exact H.
Qed.
Lemma sp_apply_setter_safe p s : typed_sparams p -> safe typed_sparams (sp_apply_setter p s).
Proof.
  intros H. destruct s; cbn [sp_apply_setter].
  - unfold sp_set_hash_length. setter. exact H.
  - unfold sp_set_key. setter. sb; [apply copy_into_safe|]. intros k' Hk. cbv beta in Hk. cbn [safe]. unfold typed_sparams.
    cbn [sp_key]. rewrite Hk. apply repeat_length.
Qed.

(** ** BLAKE2sp *)
Notation tsp := (typed_sstate c).
Lemma leaf_state_safe p i : typed_params p -> safe tst (leaf_state c p i).
Proof.
  intros H. unfold leaf_state. sb; [apply (apply_setter_safe p (SNodeOffset _)), H|]. intros p1 H1.
  sb; [apply (apply_setter_safe p1 (SNodeDepth _)), H1|]. intros p2 H2.
  sb; [apply (apply_setter_safe p2 (SLastNode _)), H2|]. intros p3 H3.
  sb; [apply with_params_safe, H3|]. intros s Hs. exact Hs.
Qed.
Lemma sp_with_params_safe p : safe tsp (sp_with_params c p).
Proof.
  unfold sp_with_params.
  sb; [apply (apply_setter_safe Params_new (SHashLength _)); reflexivity|]. intros p1 H1.
  sb; [apply slice_to_safe|]. intros k _.
  sb; [apply (apply_setter_safe p1 (SKey _)), H1|]. intros p2 H2.
  sb; [apply (apply_setter_safe p2 (SFanout _)), H2|]. intros p3 H3.
  sb; [apply (apply_setter_safe p3 (SMaxDepth _)), H3|]. intros p4 H4.
  sb; [apply (apply_setter_safe p4 (SMaxLeafLength _)), H4|]. intros p5 H5.
  sb; [apply (apply_setter_safe p5 (SInnerHashLength _)), H5|]. intros p6 H6.
  sb; [apply (apply_setter_safe p6 (SNodeOffset _)), H6|]. intros p7 H7.
  sb; [apply (apply_setter_safe p7 (SNodeDepth _)), H7|]. intros p8 H8.
  sb; [apply (apply_setter_safe p8 (SLastNode _)), H8|]. intros p9 H9.
  sb; [apply with_params_safe, H9|]. intros r (Hr & Hf). cbv zeta.
  sb; [apply (safe_mapM tst); intros l; apply leaf_state_safe, H6|]. intros ls Hls. cbn [safe].
  split; [apply repeat_length|]. split; [exact Hls|]. split; [split; [exact Hr|exact Hf]|]. apply default_fns.
Qed.
Lemma sp_fill_buf_safe st input : tsp st ->
  safe (fun x => tsp (fst x) /\ (length (snd x) <= length input)%nat) (sp_fill_buf c st input).
Proof.
  intros (Hb & Hf). unfold sp_fill_buf. sb; [apply nsub_safe|]; intros room _. cbv zeta.
  sb; [apply slice_to_safe|]; intros src _.
  sb; [apply copy_into_safe|]; intros buf H.
  sb; [apply uadd_safe|]; intros n _.
  sb; [apply slice_from_safe|]; intros rest Hr. cbn [safe fst snd]. split; [|cbv beta in Hr; lia].
  split; cbn [sp_buf sp_leaves sp_root sp_compress8_fn]; [cbv beta in H; congruence|exact Hf].
Qed.
Lemma sp_compress8_safe b ls f : (forall l, tst (proj l ls)) -> (f = compress8_avx2 -> has_avx2 c = true) ->
  safe (fun r => forall l, tst (proj l r)) (sp_compress8 c b ls f).
Proof.
  intros H Hf. unfold sp_compress8. sb; [apply debug_assert_safe|]; intros _ _. sb; [apply debug_assert_safe|]; intros _ _.
  sb; [apply (safe_mapM tst); intros l; apply bump_safe, H|]. intros s1 H1.
  sb; [apply call_compress8_safe, Hf|]. intros hs _. cbn [safe]. intros l. rewrite proj_map2. exact (H1 l).
Qed.
Lemma sp_empty_buffer_safe st input : tsp st -> safe (fun x => tsp (fst x)) (sp_empty_buffer c st input).
Proof.
  intros H. unfold sp_empty_buffer. apply safe_if; intros _; [|exact H].
  sb; [apply sp_fill_buf_safe, H|]. intros (s1, i1) (H1 & _). cbn [fst snd] in *.
  destruct i1 as [|x i1]; [exact H1|]. destruct H1 as (Hb & Hl & Hr & Hf).
  sb; [apply array_ref_safe|]. intros b _.
  sb; [apply sp_compress8_safe; [exact Hl|exact Hf]|]. intros ls Hls. cbv zeta.
  sb; [apply usub_safe|]. intros n _. apply safe_if; intros _.
  - sb; [apply array_ref_safe|]. intros b' _.
    sb; [apply sp_compress8_safe; [exact Hls|exact Hf]|]. intros ls' Hls'. cbn [safe fst].
    split; [exact Hb|]. split; [exact Hls'|]. split; [exact Hr|exact Hf].
  - cbn [sp_set_buflen sp_set_leaves sp_buf].
    sb; [apply slice_to_safe|]. intros left Hleft. sb; [apply slice_from_safe|]. intros right Hright.
    sb; [apply slice_to_safe|]. intros src _. sb; [apply copy_into_safe|]. intros left' Hleft'.
    cbv beta in *. cbn [safe fst]. split; [|split; [exact Hls|split; [exact Hr|exact Hf]]].
    cbn [sp_set_buf sp_buf]. rewrite app_length, Hleft', Hleft, Hright, Hb. reflexivity.
Qed.
Lemma sp_update_loop_safe fuel : forall st input, tsp st -> (length input < fuel)%nat ->
  safe (fun x => tsp (fst x)) (sp_update_loop fuel c st input).
Proof.
  induction fuel as [|fuel IH]; intros st input H Hl; [lia|]. cbn [sp_update_loop].
  apply safe_if; intros Hg; [|exact H]. apply Nat.ltb_lt in Hg. unfold BLOCKBYTES in *.
  sb; [apply array_ref_safe|]; intros b _. destruct H as (Hb & Hs & Hr & Hf).
  sb; [apply sp_compress8_safe; [exact Hs|exact Hf]|]. intros ls Hls.
  sb; [apply slice_from_safe|]; intros r Hrest. cbv beta in Hrest. apply IH; [|lia].
  split; [exact Hb|]. split; [exact Hls|]. split; [exact Hr|exact Hf].
Qed.
Lemma sp_update_safe st input : tsp st -> safe tsp (sp_update c st input).
Proof.
  intros H. unfold sp_update. sb; [apply sp_empty_buffer_safe, H|]. intros (s1, i1) H1. cbn [fst] in H1.
  sb; [apply sp_update_loop_safe; [exact H1|lia]|]. intros (s2, i2) H2. cbn [fst] in H2.
  sb; [apply sp_fill_buf_safe, H2|]. intros (s3, i3) (H3 & _). cbn [fst] in H3.
  sb; [apply debug_assert_safe|]. intros _ _. exact H3.
Qed.
Lemma feed_chunk_safe buf k n leaf : tst leaf -> safe tst (feed_chunk c buf k n leaf).
Proof. intros H. unfold feed_chunk. sb; [apply slice_to_safe|]. intros s _. apply update_safe, H. Qed.
Lemma feed_root_safe root leaf : tst root -> tst leaf -> safe tst (feed_root c root leaf).
Proof.
  intros H Hl. unfold feed_root. sb; [apply finalize_safe, Hl|]. intros (s, h) _.
  sb; [apply as_bytes_safe|]. intros b _. apply update_safe, H.
Qed.
Lemma sp_finalize_safe st : tsp st -> safe typed_hash (sp_finalize c st).
Proof.
  intros (_ & Hl & Hr & _). unfold sp_finalize. cbv zeta. destruct (sp_leaves st) as [a0 a1 a2 a3 a4 a5 a6 a7].
  pose proof (Hl L0) as H0. pose proof (Hl L1) as H1. pose proof (Hl L2) as H2. pose proof (Hl L3) as H3.
  pose proof (Hl L4) as H4. pose proof (Hl L5) as H5. pose proof (Hl L6) as H6. pose proof (Hl L7) as H7.
  cbn [proj o0 o1 o2 o3 o4 o5 o6 o7] in *.
  do 16 (sb; [apply feed_chunk_safe; assumption|]; intros ? ?).
  do 8 (sb; [apply feed_root_safe; assumption|]; intros ? ?).
  sb; [apply finalize_safe; assumption|]. intros (s, h) (_ & Hfin). exact Hfin.
Qed.
Lemma sp_count_safe st : safe anything (sp_count c st).
Proof. unfold sp_count. cbv zeta. do 7 (sb; [apply uadd_safe|]; intros ? _). apply uadd_safe. Qed.

(** ** Any call *)
Lemma upd_Forall {A} (P : A -> Prop) l : forall i x, Forall P l -> P x -> Forall P (upd l i x).
Proof.
  induction l as [|y l IH]; intros i x H Hx; [exact H|]. inversion H; subst.
  destruct i; cbn [upd]; constructor; auto.
Qed.
Lemma push_Forall {A} (P : A -> Prop) l x : Forall P l -> P x -> Forall P (l ++ [x]).
Proof. intros H Hx. apply Forall_app. split; [exact H|constructor; [exact Hx|constructor]]. Qed.
Lemma at_obj_safe {A B} (P : A -> Prop) (Q : B -> Prop) l i no f : Forall P l -> safe Q no ->
  (forall x, P x -> safe Q (f x)) -> safe Q (at_obj l i no f).
Proof.
  intros H Hn Hf. unfold at_obj. destruct (nth_error l i) eqn:E; [|exact Hn].
  apply Hf. rewrite Forall_forall in H. apply H. eapply nth_error_In, E.
Qed.
Lemma pick8_typed {A} (P : A -> Prop) l i r : Forall P l -> pick8 l i = Some r -> forall k, P (proj k r).
Proof.
  intros H. rewrite Forall_forall in H. unfold pick8.
  destruct (nth_error l (o0 i)) eqn:E0; [|discriminate]. destruct (nth_error l (o1 i)) eqn:E1; [|discriminate].
  destruct (nth_error l (o2 i)) eqn:E2; [|discriminate]. destruct (nth_error l (o3 i)) eqn:E3; [|discriminate].
  destruct (nth_error l (o4 i)) eqn:E4; [|discriminate]. destruct (nth_error l (o5 i)) eqn:E5; [|discriminate].
  destruct (nth_error l (o6 i)) eqn:E6; [|discriminate]. destruct (nth_error l (o7 i)) eqn:E7; [|discriminate].
  intros E. injection E as <-. intros []; cbn [proj o0 o1 o2 o3 o4 o5 o6 o7]; apply H; eapply nth_error_In; eassumption.
Qed.
Lemma put8_Forall {A} (P : A -> Prop) l i r : Forall P l -> (forall k, P (proj k r)) -> Forall P (put8 l i r).
Proof.
  intros H Hr. unfold put8.
  pose proof (Hr L0). pose proof (Hr L1). pose proof (Hr L2). pose proof (Hr L3).
  pose proof (Hr L4). pose proof (Hr L5). pose proof (Hr L6). pose proof (Hr L7).
  cbn [proj] in *. repeat (apply upd_Forall; [|assumption]). exact H.
Qed.
Lemma all_bytes_safe l : safe anything (all_bytes l).
Proof.
  induction l as [|h l IH]; cbn [all_bytes]; [exact I|]. sb; [apply as_bytes_safe|]. intros b _.
  sb; [exact IH|]. intros bs _. exact I.
Qed.
Definition txs (x : session * obs) : Prop := typed c (fst x).
Lemma give_hash_safe s h : typed c s -> typed_hash h -> safe txs (give_hash s h).
Proof.
  intros (H1 & H2 & H3 & H4 & H5) H. unfold give_hash. sb; [apply as_bytes_safe|]. intros b _. cbn [safe].
  split; [exact H1|]. split; [exact H2|]. split; [apply push_Forall; assumption|]. split; [exact H4|exact H5].
Qed.
Lemma give_hashes_safe s l : typed c s -> Forall typed_hash l -> safe txs (give_hashes s l).
Proof.
  intros (H1 & H2 & H3 & H4 & H5) H. unfold give_hashes. sb; [apply all_bytes_safe|]. intros b _. cbn [safe].
  split; [exact H1|]. split; [exact H2|]. split; [apply Forall_app; split; assumption|]. split; [exact H4|exact H5].
Qed.
Lemma oct_Forall {A} (P : A -> Prop) (o : oct A) : (forall l, P (proj l o)) -> Forall P (oct_list o).
Proof.
  intros H. destruct o.
  pose proof (H L0). pose proof (H L1). pose proof (H L2). pose proof (H L3).
  pose proof (H L4). pose proof (H L5). pose proof (H L6). pose proof (H L7).
  cbn [proj o0 o1 o2 o3 o4 o5 o6 o7] in *. repeat (constructor; [assumption|]). constructor.
Qed.
Lemma typed_params_list s l : typed c s -> Forall typed_params l -> typed c (with_params_list s l).
Proof. intros (H1 & H2 & H3 & H4 & H5) H. repeat (split; [assumption|]). exact H5. Qed.
Lemma typed_states s l : typed c s -> Forall tst l -> typed c (with_states s l).
Proof. intros (H1 & H2 & H3 & H4 & H5) H. repeat (split; [assumption|]). exact H5. Qed.
Lemma typed_sparams_list s l : typed c s -> Forall typed_sparams l -> typed c (with_sparams s l).
Proof. intros (H1 & H2 & H3 & H4 & H5) H. repeat (split; [assumption|]). exact H5. Qed.
Lemma typed_sstates s l : typed c s -> Forall tsp l -> typed c (with_sstates s l).
Proof. intros (H1 & H2 & H3 & H4 & H5) H. repeat (split; [assumption|]). exact H. Qed.

Theorem step_safe s o : typed c s -> safe txs (step c s o).
Proof.
  intros H. pose proof H as (HP & HS & HH & HQ & HT).
  assert (Hinv : safe txs (Ok (s, OInvalid))) by exact H.
  assert (Hst : forall l, Forall tst l -> typed c (with_states s l)) by (intros l; apply typed_states, H).
  assert (Hss : forall l, Forall tsp l -> typed c (with_sstates s l)) by (intros l; apply typed_sstates, H).
  assert (Hpl : forall l, Forall typed_params l -> typed c (with_params_list s l)) by (intros l; apply typed_params_list, H).
  assert (Hsl : forall l, Forall typed_sparams l -> typed c (with_sparams s l)) by (intros l; apply typed_sparams_list, H).
  destruct o; cbn [step]; cbv zeta;
    try (lazymatch goal with |- safe _ (at_obj ?l _ _ _) =>
           match goal with F : Forall _ l |- _ => apply (at_obj_safe _ _ _ _ _ _ F Hinv); intros x Hx end end);
    try (match goal with |- context [pick8 ?l ?i] => destruct (pick8 l i) as [xs|] eqn:Ex; [|exact Hinv] end;
         match type of Ex with pick8 ?l ?i = _ =>
           match goal with F : Forall _ l |- _ => pose proof (pick8_typed _ _ _ _ F Ex) as Hxs end end).
  (* lib.rs *)
  - apply Hpl, push_Forall; [exact HP|reflexivity].
  - apply Hpl, push_Forall; [exact HP|exact Hx].
  - sb; [apply apply_setter_safe, Hx|]. intros p Hp. apply Hpl, upd_Forall; [exact HP|exact Hp].
  - sb; [apply with_params_safe; reflexivity|]. intros st Hs. apply Hst, push_Forall; [exact HS|exact Hs].
  - sb; [apply with_params_safe, Hx|]. intros st Hs. apply Hst, push_Forall; [exact HS|exact Hs].
  - apply Hst, push_Forall; [exact HS|exact Hx].
  - sb; [apply update_safe, Hx|]. intros st Hs. apply Hst, upd_Forall; [exact HS|exact Hs].
  - unfold write. rewrite bind_bind. sb; [apply update_safe, Hx|]. intros st Hs. apply Hst, upd_Forall; [exact HS|exact Hs].
  - apply Hst, upd_Forall; [exact HS|exact Hx].
  - apply Hst, upd_Forall; [exact HS|exact Hx].
  - exact H.
  - exact H.
  - apply Hst, upd_Forall; [exact HS|]. split; [apply Hx|discriminate].
  - sb; [apply finalize_safe, Hx|]. intros (st, h) (Hs & Hh). cbn [fst snd] in *.
    apply give_hash_safe; [apply Hst, upd_Forall; [exact HS|exact Hs]|exact Hh].
  - apply safe_if; intros _; [|exact Hinv]. sb; [apply update8_safe, Hxs|]. intros ys Hys.
    apply Hst, put8_Forall; [exact HS|exact Hys].
  - apply safe_if; intros _; [|exact Hinv]. sb; [apply finalize8_safe, Hxs|]. intros (ys, hs) (Hys & Hh). cbn [fst snd] in *.
    apply give_hashes_safe; [apply Hst, put8_Forall; [exact HS|exact Hys]|apply oct_Forall, Hh].
  - sb; [apply (hash_one_safe Params_default); reflexivity|]. intros h Hh. apply give_hash_safe; [exact H|exact Hh].
  - sb; [apply hash8_safe|]. intros hs Hh. apply give_hashes_safe; [exact H|apply oct_Forall, Hh].
  - sb; [apply hash8_exact_safe, Hx|]. intros hs Hh. apply give_hashes_safe; [exact H|apply oct_Forall, Hh].
  - sb; [apply hash4_exact_safe, Hx|]. intros hs (A & B & C & D). apply give_hashes_safe; [exact H|].
    destruct hs. repeat (constructor; [assumption|]). constructor.
  - sb; [apply as_bytes_safe|]. intros b _. exact H.
  - sb; [apply to_hex_safe|]. intros b _. exact H.
  - unfold hash_debug. rewrite bind_bind. sb; [apply to_hex_safe|]. intros b _. exact H.
  - apply (at_obj_safe _ _ _ _ _ _ HH Hinv). intros y Hy. unfold hash_eq. rewrite bind_bind.
    sb; [apply as_bytes_safe|]. intros b _. rewrite bind_bind. sb; [apply as_bytes_safe|]. intros b' _. exact H.
  - unfold hash_eq_slice. rewrite bind_bind. sb; [apply as_bytes_safe|]. intros b _. exact H.
  (* blake2sp.rs *)
  - apply Hsl, push_Forall; [exact HQ|reflexivity].
  - apply Hsl, push_Forall; [exact HQ|exact Hx].
  - sb; [apply sp_apply_setter_safe, Hx|]. intros p Hp. apply Hsl, upd_Forall; [exact HQ|exact Hp].
  - exact H.
  - sb; [apply sp_with_params_safe|]. intros st Hs. apply Hss, push_Forall; [exact HT|exact Hs].
  - sb; [apply sp_with_params_safe|]. intros st Hs. apply Hss, push_Forall; [exact HT|exact Hs].
  - apply Hss, push_Forall; [exact HT|exact Hx].
  - sb; [apply sp_update_safe, Hx|]. intros st Hs. apply Hss, upd_Forall; [exact HT|exact Hs].
  - unfold sp_write. rewrite bind_bind. sb; [apply sp_update_safe, Hx|]. intros st Hs. apply Hss, upd_Forall; [exact HT|exact Hs].
  - apply Hss, upd_Forall; [exact HT|exact Hx].
  - sb; [apply sp_count_safe|]. intros n _. exact H.
  - unfold sp_state_debug. rewrite bind_bind. sb; [apply sp_count_safe|]. intros n _. exact H.
  - apply Hss, upd_Forall; [exact HT|]. destruct Hx as (Hb & Hl & Hr & Hf).
    split; [exact Hb|]. split; [|split; [split; [apply Hr|discriminate]|discriminate]].
    intros l. cbn [sp_force_portable sp_leaves]. rewrite proj_map. split; [apply Hl|discriminate].
  - sb; [apply sp_finalize_safe, Hx|]. intros h Hh. apply give_hash_safe; [exact H|exact Hh].
  - unfold Blake2sp.blake2sp. rewrite bind_bind. sb; [apply sp_with_params_safe|]. intros st Hs.
    rewrite bind_bind. sb; [apply sp_update_safe, Hs|]. intros st' Hs'.
    sb; [apply sp_finalize_safe, Hs'|]. intros h Hh. apply give_hash_safe; [exact H|exact Hh].
Qed.

(** Whatever a call finds, it returns such values or panics. *)
Theorem any_call s o : typed c s ->
  step c s o = Panic \/ exists s' x, step c s o = Ok (s', x) /\ typed c s'.
Proof.
  intros H. pose proof (step_safe s o H) as Hs. destruct (step c s o) as [(s', x)| | |]; cbn [safe] in Hs.
  - right. exists s', x. split; [reflexivity|exact Hs].
  - left. reflexivity.
  - destruct Hs.
  - destruct Hs.
Qed.
(** So does every call of a program that catches panics and goes on. *)
Theorem catching_typed s ops s' : typed c s -> catching c s ops s' -> typed c s'.
Proof.
  intros H R. induction R as [s|s o s1 x ops s2 E R IH|s o s1 ops s2 E H1 R IH]; [exact H| |exact (IH H1)].
  apply IH. destruct (any_call s o H) as [E'|(s' & y & E' & H')]; [congruence|].
  assert (s1 = s') by congruence. subst s'. exact H'.
Qed.
Theorem after_catching ops s o : catching c empty_session ops s -> step c s o <> UB /\ step c s o <> Stuck.
Proof.
  intros R. assert (H : typed c s).
  { eapply catching_typed; [|exact R]. repeat split; constructor. }
  destruct (any_call s o H) as [E|(s' & y & E & _)]; rewrite E; split; discriminate.
Qed.
End Config.
