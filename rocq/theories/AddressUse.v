(** * AddressUse: [AddressFacts] in the shape C64 states it. *)
From Verif Require Import Base Consts Intrinsics Portable Params Views Memory MemoryFacts MemoryNeeds Addresses AddressFacts.
From Verif Require Sse41 Avx2.
From Coq Require Import Lia.
Local Open Scope nat_scope.

Lemma place_same m m' p : map address m = map address m' -> place m p = place m' p.
Proof. intros H. rewrite <- (N.add_0_r (place m p)), <- (N.add_0_r (place m' p)), <- !(spot_place _ _ 0), H. reflexivity. Qed.
Lemma there r m p n : within r m p n = true -> alloc p < length (map address m).
Proof.
  unfold within. intros H. rewrite map_length. apply nth_error_Some. intros E. rewrite E in H. discriminate H.
Qed.
Lemma reference_there m p t mu : reference m p t mu -> alloc p < length (map address m).
Proof. intros (o & E & _). rewrite map_length. apply nth_error_Some. congruence. Qed.
Lemma told {A} (x : tcode A) (y : code A) m l Q a m' : erases x y -> tells x (map address m) l (map address m) Q ->
  y m = Ok (a, m') -> fst (x m) = l.
Proof. intros E T H. rewrite <- (E m) in H. destruct (T m a m' eq_refl H) as (L & _). exact L. Qed.
Lemma not_ub {A} (b : bool) (x : outcome A) a : (b = false -> x = UB) -> x = Ok a -> b = true.
Proof. intros H E. destruct b; [reflexivity|]. specialize (H eq_refl). congruence. Qed.
Lemma read_spot m p k n : mk_access Read (spot (map address m) p k) n = read_at m p k n.
Proof. rewrite spot_place. reflexivity. Qed.
Lemma write_spot m p k n : mk_access Write (spot (map address m) p k) n = write_at m p k n.
Proof. rewrite spot_place. reflexivity. Qed.
Lemma chunks_reads m p k : chunks (map address m) p k = reads16 m p k.
Proof. unfold chunks, reads16. cbn [seq map Nat.mul Nat.add]. rewrite !read_spot, Nat.add_0_r. reflexivity. Qed.
Lemma block8_reads m p k : block8 (map address m) p k = flat_map (fun p => reads32 m p k) (oct_list p).
Proof.
  unfold block8. apply flat_map_ext. intros q. unfold reads32. cbn [seq map Nat.mul Nat.add]. rewrite !read_spot, Nat.add_0_r. reflexivity.
Qed.

Theorem compress_accesses r iv h msg count lastblock lastnode m m' :
  compress r iv h msg count lastblock lastnode m = Ok (tt, m') ->
  fst (compress_t r iv h msg count lastblock lastnode m) =
  [read_at m h 0 16; read_at m h 16 16; read_at m iv 0 16; read_at m iv 16 16] ++ reads16 m msg 0 ++
  [read_at m h 0 16; write_at m h 0 16; read_at m h 16 16; write_at m h 16 16].
Proof.
  intros E. pose proof (not_ub _ _ _ (compress_needs r m iv h msg count lastblock lastnode) E) as H.
  repeat (apply andb_prop in H as [H ?]).
  rewrite (told _ _ m _ _ tt m' (erases_compress r iv h msg count lastblock lastnode)
             (tells_compress r iv h msg count lastblock lastnode _ ltac:(eapply there; eassumption) ltac:(eapply there; eassumption) ltac:(eapply there; eassumption)) E).
  rewrite <- chunks_reads. unfold chunks. cbn [app Nat.add]. rewrite !read_spot, !write_spot. reflexivity.
Qed.
Lemma below m p : (forall l, alloc (proj l p) < length (map address m)) -> octall_below (map address m) p.
Proof. intros H. unfold octall_below, octall. repeat split; [apply (H L0)|apply (H L1)|apply (H L2)|apply (H L3)|apply (H L4)|apply (H L5)|apply (H L6)|apply (H L7)]. Qed.
Theorem compress8_accesses r h msg count lastblock lastnode m m' :
  compress8 r h msg count lastblock lastnode m = Ok (tt, m') ->
  fst (compress8_t r h msg count lastblock lastnode m) =
  map (fun p => read_at m p 0 32) (oct_list h) ++ flat_map (fun p => reads32 m p 0) (oct_list msg) ++
  map (fun p => write_at m p 0 32) (oct_list h).
Proof.
  intros E. assert (H : forall l, within r m (proj l h) 32 && aligned m (proj l h) 4 && mutable (proj l h) && within Allocation m (proj l msg) 64 = true).
  { intros l. apply (not_ub _ _ _ (compress8_needs r m h msg count lastblock lastnode l) E). }
  assert (Lh : octall_below (map address m) h).
  { apply below. intros l. specialize (H l). repeat (apply andb_prop in H as [H ?]). eapply there; eassumption. }
  assert (Lm : octall_below (map address m) msg).
  { apply below. intros l. specialize (H l). repeat (apply andb_prop in H as [H ?]). eapply there; eassumption. }
  rewrite (told _ _ m _ _ tt m' (erases_compress8 r h msg count lastblock lastnode)
             (tells_compress8 r h msg count lastblock lastnode _ Lh Lm) E).
  rewrite block8_reads. f_equal; [|f_equal]; apply map_ext; intros p; [apply read_spot|apply write_spot].
Qed.
Definition vectors m (d : direction) p := map (fun i => mk_access d (place m p + N.of_nat (32 * i))%N 32) (seq 0 8).
Lemma vecs_vectors d m p : vecs_at d (map address m) p = vectors m d p.
Proof. unfold vecs_at, vectors. apply map_ext. intros i. rewrite spot_place, Nat.mul_comm. reflexivity. Qed.
Theorem vectorize_words8_accesses r p m m' : vectorize_words8 r p m = Ok (tt, m') ->
  fst (vectorize_words8_t r p m) =
  map (fun i => read_at m p (32 * i) 32) (seq 0 8) ++ map (fun i => write_at m p (32 * i) 32) (seq 0 8).
Proof.
  intros E. pose proof (not_ub _ _ _ (vectorize_words8_needs r m p) E) as H. repeat (apply andb_prop in H as [H ?]).
  rewrite (told _ _ m _ _ tt m' (erases_vectorize_words8 r p) (tells_vectorize_words8 r p _ ltac:(eapply there; eassumption)) E).
  rewrite !vecs_vectors. reflexivity.
Qed.
Theorem compress8_vectorized_accesses r p msg cl ch lb ln m m' : compress8_vectorized r p msg cl ch lb ln m = Ok (tt, m') ->
  fst (compress8_vectorized_t r p msg cl ch lb ln m) =
  flat_map (fun q => reads32 m q 0) (oct_list msg) ++ map (fun q => read_at m q 0 32) [cl; ch; lb; ln] ++
  map (fun i => read_at m p (32 * i) 32) (seq 0 8) ++
  flat_map (fun i => [read_at m p (32 * i) 32; write_at m p (32 * i) 32]) (seq 0 8).
Proof.
  intros E.
  assert (H : within r m p 256 && aligned m p 32 && mutable p &&
    (within r m cl 32 && aligned m cl 32) && (within r m ch 32 && aligned m ch 32) &&
    (within r m lb 32 && aligned m lb 32) && (within r m ln 32 && aligned m ln 32) = true).
  { apply (not_ub _ _ _ (fun K => compress8_vectorized_needs r m p msg cl ch lb ln (or_introl K)) E). }
  assert (Hm : forall l, within Allocation m (proj l msg) 64 = true).
  { intros l. apply (not_ub _ _ _ (fun K => compress8_vectorized_needs r m p msg cl ch lb ln (or_intror (ex_intro _ l K))) E). }
  assert (Lm : octall_below (map address m) msg) by (apply below; intros l; eapply there, Hm).
  repeat match goal with K : _ && _ = true |- _ => apply andb_prop in K as [? ?] end.
  rewrite (told _ _ m _ _ tt m' (erases_compress8_vectorized r p msg cl ch lb ln)
             (tells_compress8_vectorized r p msg cl ch lb ln _ ltac:(eapply there; eassumption) Lm ltac:(eapply there; eassumption)
                ltac:(eapply there; eassumption) ltac:(eapply there; eassumption) ltac:(eapply there; eassumption)) E).
  rewrite block8_reads, vecs_vectors. cbn [map]. rewrite !read_spot. f_equal. f_equal. f_equal.
  apply flat_map_ext. intros i. rewrite read_spot, write_spot, Nat.mul_comm. reflexivity.
Qed.
Theorem hash4_exact_accesses r places params i0 i1 i2 i3 n m res m' : 0 < n ->
  reference m i0 (Array U8 (64 * n)) false -> reference m i1 (Array U8 (64 * n)) false ->
  reference m i2 (Array U8 (64 * n)) false -> reference m i3 (Array U8 (64 * n)) false ->
  hash4_exact r places params i0 i1 i2 i3 (64 * n) m = Ok (res, m') ->
  fst (hash4_exact_t r places params i0 i1 i2 i3 (64 * n) m) =
  flat_map (fun k => flat_map (fun p => reads16 m p (64 * k)) [i0; i1; i2; i3]) (seq 0 n) ++
  map (fun a => mk_access Write a 16) [q0 places; q1 places; q2 places; q3 places] ++
  map (fun a => mk_access Write (a + 16) 16) [q0 places; q1 places; q2 places; q3 places] ++
  map (fun a => mk_access Read a 32) [q0 places; q1 places; q2 places; q3 places].
Proof.
  intros Hn R0 R1 R2 R3 E. apply reference_there in R0, R1, R2, R3. rewrite (Nat.mul_comm 64 n) in *.
  pose proof (tells_hash4_exact_loop r places params i0 i1 i2 i3 (map address m) n R0 R1 R2 R3 (S (n * 64)) n 0
    (oct_map Sse41.set1 (make_words params)) eq_refl Hn ltac:(lia)) as T.
  rewrite (told _ _ m _ _ res m' (erases_hash4_exact r places params i0 i1 i2 i3 (n * 64)) T E).
  f_equal. apply flat_map_ext. intros k. unfold block4. rewrite !chunks_reads. cbn [flat_map]. rewrite app_nil_r, (Nat.mul_comm 64 k). reflexivity.
Qed.
Theorem hash8_exact_accesses r params input n m res m' : 0 < n ->
  (forall l, reference m (proj l input) (Array U8 (64 * n)) false) ->
  hash8_exact r params input (64 * n) m = Ok (res, m') ->
  fst (hash8_exact_t r params input (64 * n) m) =
  flat_map (fun k => flat_map (fun p => reads32 m p (64 * k)) (oct_list input)) (seq 0 n).
Proof.
  intros Hn R E. rewrite (Nat.mul_comm 64 n) in *.
  assert (L : octall_below (map address m) input) by (apply below; intros l; eapply reference_there, R).
  pose proof (tells_hash8_exact_loop r params input (map address m) n L (S (n * 64)) n 0
    (oct_map Avx2.load_256_from_u32 (make_words params)) eq_refl Hn ltac:(lia)) as T.
  rewrite (told _ _ m _ _ res m' (erases_hash8_exact r params input (n * 64)) T E).
  apply flat_map_ext. intros k. rewrite block8_reads, (Nat.mul_comm 64 k). reflexivity.
Qed.
