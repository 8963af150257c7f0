(** * MemoryFacts: the routines on memory do what the functions on values say. *)
From Verif Require Import Base BaseFacts Consts Intrinsics Portable PortableFacts Params Memory Avx2Facts Sse41Facts IntelFacts LeafFacts.
From Verif Require Sse41 Avx2 Spec Corollaries.
From Coq Require Import Lia.
Local Open Scope nat_scope.

Lemma andthen_ok {A B} (x : code A) (f : A -> code B) m a m' : x m = Ok (a, m') -> andthen x f m = f a m'.
Proof. intros H. unfold andthen. rewrite H. reflexivity. Qed.
Lemma andthen_ub {A B} (x : code A) (f : A -> code B) m : x m = UB -> andthen x f m = UB.
Proof. intros H. unfold andthen. rewrite H. reflexivity. Qed.

(** ** Pointers. *)
Definition shift (p : pointer) (d : nat) : pointer :=
  mk_pointer (alloc p) (offset p + d) (from p) (upto p) (mutable p).
Definition narrow (p : pointer) (n : nat) (w : bool) : pointer :=
  mk_pointer (alloc p) (offset p) (offset p) (offset p + n) w.

Lemma within_le r m p n k : within r m p n = true -> k <= n -> within r m p k = true.
Proof.
  unfold within. destruct (nth_error m (alloc p)) as [o|]; [|discriminate]. intros H Hk.
  apply andb_true_iff in H. destruct H as [H1 H2]. apply Nat.leb_le in H1. apply andb_true_iff. split; [apply Nat.leb_le; lia|].
  destruct r; [reflexivity|]. apply andb_true_iff in H2. destruct H2 as [H2 H3]. apply Nat.leb_le in H3.
  apply andb_true_iff. split; [exact H2|apply Nat.leb_le; lia].
Qed.
Lemma within_alloc r m p n : within r m p n = true -> within Allocation m p n = true.
Proof.
  unfold within. destruct (nth_error m (alloc p)) as [o|]; [|discriminate]. intros H.
  apply andb_true_iff in H. destruct H as [H1 _]. rewrite H1. reflexivity.
Qed.
Lemma within_shift r m p d n : within r m p (d + n) = true -> within r m (shift p d) n = true.
Proof.
  unfold within. cbn [alloc offset from upto shift]. destruct (nth_error m (alloc p)) as [o|]; [|discriminate]. intros H.
  apply andb_true_iff in H. destruct H as [H1 H2]. apply Nat.leb_le in H1. apply andb_true_iff. split; [apply Nat.leb_le; lia|].
  destruct r; [reflexivity|]. apply andb_true_iff in H2. destruct H2 as [H2 H3]. apply Nat.leb_le in H2, H3.
  apply andb_true_iff. split; apply Nat.leb_le; lia.
Qed.
Lemma within_narrow m p n w k : within Allocation m p k = true -> within Allocation m (narrow p n w) k = true.
Proof. intros H. exact H. Qed.
Lemma within_narrow_borrow m p n w k : within Allocation m p n = true -> k <= n -> within Borrow m (narrow p n w) k = true.
Proof.
  unfold within. cbn [alloc offset from upto narrow]. destruct (nth_error m (alloc p)) as [o|]; [|discriminate]. intros H Hk.
  rewrite andb_true_r in H. apply Nat.leb_le in H. rewrite !andb_true_iff, !Nat.leb_le. lia.
Qed.
Lemma within_narrow_any r m p n w k : within r m p n = true -> k <= n -> within r m (narrow p n w) k = true.
Proof.
  intros H Hk. destruct r.
  - exact (within_le _ _ _ _ _ H Hk).
  - apply within_narrow_borrow; [exact (within_alloc _ _ _ _ H)|exact Hk].
Qed.

Lemma reference_within r m p t w : reference m p t w -> within r m p (size_of t) = true.
Proof.
  intros (o & H & Hn & _ & Hf & Hu & _). unfold within. rewrite H. apply andb_true_iff. split; [apply Nat.leb_le; exact Hn|].
  destruct r; [reflexivity|]. apply andb_true_iff. split; apply Nat.leb_le; lia.
Qed.
Lemma divide_aligned m p o a : nth_error m (alloc p) = Some o -> (0 < a) ->
  N.divide (N.of_nat a) (address o + N.of_nat (offset p)) -> aligned m p a = true.
Proof.
  intros H Ha Hd. unfold aligned. rewrite H. apply N.eqb_eq. apply N.mod_divide; [lia|exact Hd].
Qed.
Lemma aligned_divide m p a : 0 < a -> aligned m p a = true ->
  exists o, nth_error m (alloc p) = Some o /\ N.divide (N.of_nat a) (address o + N.of_nat (offset p)).
Proof.
  intros Ha. unfold aligned. destruct (nth_error m (alloc p)) as [o|]; [|discriminate]. intros H. exists o. split; [reflexivity|].
  apply N.eqb_eq in H. apply N.mod_divide in H; [exact H|lia].
Qed.
Lemma aligned_shift m p a d : 0 < a -> aligned m p a = true -> N.divide (N.of_nat a) (N.of_nat d) -> aligned m (shift p d) a = true.
Proof.
  intros Ha H Hd. destruct (aligned_divide m p a Ha H) as (o & Ho & Hq).
  apply (divide_aligned m (shift p d) o a Ho Ha). cbn [offset shift]. rewrite Nat2N.inj_add, N.add_assoc. apply N.divide_add_r; assumption.
Qed.
Lemma aligned_divides m p a b : 0 < a -> 0 < b -> aligned m p a = true -> N.divide (N.of_nat b) (N.of_nat a) -> aligned m p b = true.
Proof.
  intros Ha Hb H Hd. destruct (aligned_divide m p a Ha H) as (o & Ho & Hq).
  apply (divide_aligned m p o b Ho Hb). exact (N.divide_trans _ _ _ Hd Hq).
Qed.
Lemma reference_aligned m p t w : reference m p t w -> 0 < align_of t -> aligned m p (align_of t) = true.
Proof. intros (o & H & _ & Hd & _) Ha. exact (divide_aligned m p o _ H Ha Hd). Qed.
Lemma reference_mutable m p t : reference m p t true -> mutable p = true.
Proof. intros (o & _ & _ & _ & _ & _ & H). exact (H eq_refl). Qed.

(** ** Memory. *)
Lemma upd_length {A} (xs : list A) i x : length (upd xs i x) = length xs.
Proof. revert i. induction xs as [|y xs IH]; intros [|i]; cbn; auto. Qed.
Lemma nth_error_upd_same {A} (xs : list A) i x : i < length xs -> nth_error (upd xs i x) i = Some x.
Proof. revert i. induction xs as [|y xs IH]; intros [|i]; cbn; intros H; try lia; [reflexivity|]. apply IH. lia. Qed.
Lemma nth_error_upd_other {A} (xs : list A) i j x : i <> j -> nth_error (upd xs i x) j = nth_error xs j.
Proof. revert i j. induction xs as [|y xs IH]; intros [|i] [|j]; cbn; intros H; try reflexivity; try congruence. apply IH. lia. Qed.
Lemma upd_upd {A} (xs : list A) i x y : upd (upd xs i x) i y = upd xs i y.
Proof. revert i. induction xs as [|z xs IH]; intros [|i]; cbn; congruence. Qed.
Lemma nth_error_lt {A} (xs : list A) i x : nth_error xs i = Some x -> i < length xs.
Proof. intros H. apply nth_error_Some. congruence. Qed.

Definition patch (p : nat) (bs l : list byte) : list byte := firstn p l ++ bs ++ skipn (p + length bs) l.
Lemma patch_length p bs l : p + length bs <= length l -> length (patch p bs l) = length l.
Proof. intros H. unfold patch. rewrite !app_length, firstn_length, skipn_length. lia. Qed.
Lemma stored_nth m q bs k : within Allocation m q (length bs) = true ->
  nth_error (stored m q bs) k =
  if Nat.eqb k (alloc q) then
    match nth_error m k with Some o => Some (mk_object (address o) (patch (offset q) bs (bytes o))) | None => None end
  else nth_error m k.
Proof.
  unfold within, stored. destruct (nth_error m (alloc q)) as [o|] eqn:E; [|discriminate]. intros _.
  destruct (Nat.eqb_spec k (alloc q)) as [->|Hk].
  - rewrite nth_error_upd_same by exact (nth_error_lt _ _ _ E). rewrite E. reflexivity.
  - apply nth_error_upd_other. congruence.
Qed.
Lemma within_fits m q n : within Allocation m q n = true <-> exists o, nth_error m (alloc q) = Some o /\ offset q + n <= length (bytes o).
Proof.
  unfold within. destruct (nth_error m (alloc q)) as [o|].
  - rewrite andb_true_r, Nat.leb_le. split; [intros H; exists o; auto|intros (o' & H & H'); injection H as <-; exact H'].
  - split; [discriminate|intros (o & H & _); discriminate].
Qed.
Lemma within_stored r m q bs p n : within Allocation m q (length bs) = true -> within r (stored m q bs) p n = within r m p n.
Proof.
  intros H. unfold within. rewrite (stored_nth m q bs _ H). destruct (Nat.eqb_spec (alloc p) (alloc q)) as [E|E]; [|reflexivity].
  apply within_fits in H. destruct H as (o & Ho & Hn). rewrite E, Ho. cbn [bytes]. rewrite patch_length by exact Hn. reflexivity.
Qed.
Lemma aligned_stored m q bs p a : within Allocation m q (length bs) = true -> aligned (stored m q bs) p a = aligned m p a.
Proof.
  intros H. unfold aligned. rewrite (stored_nth m q bs _ H). destruct (Nat.eqb_spec (alloc p) (alloc q)) as [E|E]; [|reflexivity].
  destruct (nth_error m (alloc p)); reflexivity.
Qed.
Lemma contents_length r m p n : within r m p n = true -> length (contents m p n) = n.
Proof.
  intros H. apply within_alloc in H. apply within_fits in H. destruct H as (o & Ho & Hn). unfold contents, sub. rewrite Ho.
  rewrite firstn_length, skipn_length. lia.
Qed.
Lemma sub_sub {A} (l : list A) a n d k : d + k <= n -> sub (sub l a n) d k = sub l (a + d) k.
Proof.
  intros H. unfold sub. rewrite skipn_firstn_comm, firstn_firstn, skipn_plus, Nat.min_l by lia. f_equal. f_equal. lia.
Qed.
Lemma contents_at m p q n d k : alloc q = alloc p -> offset q = offset p + d -> d + k <= n ->
  contents m q k = sub (contents m p n) d k.
Proof.
  intros Ea Eo H. unfold contents. rewrite Ea, Eo. destruct (nth_error m (alloc p)) as [o|].
  - symmetry. apply sub_sub. exact H.
  - unfold sub. rewrite skipn_nil, firstn_nil. reflexivity.
Qed.
Lemma stored_same m p q bs : alloc q = alloc p -> offset q = offset p -> stored m q bs = stored m p bs.
Proof. intros Ea Eo. unfold stored. rewrite Ea, Eo. reflexivity. Qed.
Lemma sub_patch_same p bs l : p <= length l -> sub (patch p bs l) p (length bs) = bs.
Proof.
  intros H. unfold sub, patch. rewrite skipn_app, skipn_all2, firstn_length by (rewrite firstn_length; lia).
  rewrite Nat.min_l by lia. rewrite Nat.sub_diag. cbn [skipn app]. rewrite firstn_app, firstn_all, Nat.sub_diag. cbn [firstn]. apply app_nil_r.
Qed.
Lemma sub_patch_before p bs l a n : a + n <= p -> p <= length l -> sub (patch p bs l) a n = sub l a n.
Proof.
  intros H Hp. unfold sub, patch. rewrite skipn_app, firstn_app. rewrite skipn_length, firstn_length, Nat.min_l by lia.
  replace (n - (p - a)) with 0 by lia. rewrite firstn_O, app_nil_r. rewrite skipn_firstn_comm, firstn_firstn, Nat.min_l by lia. reflexivity.
Qed.
Lemma sub_patch_after p bs l a n : p + length bs <= a -> p + length bs <= length l -> sub (patch p bs l) a n = sub l a n.
Proof.
  intros H Hp. unfold sub, patch. rewrite skipn_app, skipn_all2 by (rewrite firstn_length; lia). cbn [app].
  rewrite firstn_length, Nat.min_l by lia. rewrite skipn_app, skipn_all2 by lia. cbn [app]. rewrite skipn_plus. f_equal. f_equal. lia.
Qed.
Lemma contents_stored_same m q bs p : within Allocation m q (length bs) = true -> alloc p = alloc q -> offset p = offset q ->
  contents (stored m q bs) p (length bs) = bs.
Proof.
  intros H Ea Eo. unfold contents. rewrite (stored_nth m q bs _ H), Ea, Nat.eqb_refl, Eo.
  apply within_fits in H. destruct H as (o & Ho & Hn). rewrite Ho. cbn [bytes]. apply sub_patch_same. lia.
Qed.
Lemma contents_stored_apart m q bs p n : within Allocation m q (length bs) = true -> apart p n q (length bs) ->
  contents (stored m q bs) p n = contents m p n.
Proof.
  intros H Hd. unfold contents. rewrite (stored_nth m q bs _ H).
  destruct (Nat.eqb_spec (alloc p) (alloc q)) as [E|E]; [|reflexivity].
  apply within_fits in H. destruct H as (o & Ho & Hn). rewrite E, Ho. cbn [bytes].
  destruct Hd as [Hd|[Hd|Hd]]; [contradiction|apply sub_patch_before; lia|apply sub_patch_after; lia].
Qed.
Lemma patch_app p a b l : p + length a + length b <= length l -> patch (p + length a) b (patch p a l) = patch p (a ++ b) l.
Proof.
  intros H. unfold patch at 1 3. rewrite app_length.
  replace (firstn (p + length a) (patch p a l)) with (firstn p l ++ a).
  - rewrite <- !app_assoc. f_equal. f_equal. f_equal. unfold patch.
    rewrite skipn_app, skipn_all2 by (rewrite firstn_length; lia). cbn [app]. rewrite firstn_length, Nat.min_l by lia.
    rewrite skipn_app, skipn_all2 by lia. cbn [app]. rewrite skipn_plus. f_equal. lia.
  - unfold patch. rewrite firstn_app, firstn_length, Nat.min_l by lia. rewrite (firstn_all2 (firstn p l)) by (rewrite firstn_length; lia).
    replace (p + length a - p) with (length a) by lia. rewrite firstn_app, firstn_all, Nat.sub_diag. cbn [firstn]. rewrite app_nil_r. reflexivity.
Qed.
Lemma stored_app m p q a b : within Allocation m p (length a + length b) = true -> alloc q = alloc p -> offset q = offset p + length a ->
  stored (stored m p a) q b = stored m p (a ++ b).
Proof.
  intros H Ea Eo. apply within_fits in H. destruct H as (o & Ho & Hn). unfold stored at 1. rewrite Ea, Eo.
  rewrite stored_nth by (apply within_fits; exists o; split; [exact Ho|lia]). rewrite Nat.eqb_refl, Ho. cbn [address bytes].
  unfold stored. rewrite Ho. rewrite upd_upd. f_equal. f_equal. apply (patch_app (offset p) a b (bytes o)). lia.
Qed.

(** ** Operations. *)
Lemma ptr_add_ok r m t p k n : within r m p n = true -> k * size_of t <= n -> ptr_add t p k m = Ok (shift p (k * size_of t), m).
Proof.
  intros H Hk. unfold ptr_add. erewrite andthen_ok; [reflexivity|]. unfold check.
  change (mk_pointer (alloc p) (offset p + k * size_of t) (from p) (upto p) (mutable p)) with (shift p (k * size_of t)).
  rewrite within_shift; [reflexivity|]. apply (within_le Allocation m p n); [exact (within_alloc _ _ _ _ H)|lia].
Qed.
Lemma reborrow_ok r m w t p : within r m p (size_of t) = true -> aligned m p (align_of t) = true -> (w = true -> mutable p = true) ->
  reborrow r w t p m = Ok (narrow p (size_of t) w, m).
Proof.
  intros H Ha Hw. unfold reborrow. erewrite andthen_ok; [reflexivity|]. unfold check. rewrite H, Ha. cbn [andb].
  destruct w; cbn [negb orb]; [rewrite (Hw eq_refl)|]; reflexivity.
Qed.
Lemma element_ok r m w t p i n : within r m p n = true -> (i + 1) * size_of t <= n ->
  aligned m (shift p (i * size_of t)) (align_of t) = true -> (w = true -> mutable p = true) ->
  element r w t p i m = Ok (narrow (shift p (i * size_of t)) (size_of t) w, m).
Proof.
  intros H Hi Ha Hw. unfold element. erewrite andthen_ok by (apply (ptr_add_ok r m t p i n H); lia).
  apply reborrow_ok; [|exact Ha|exact Hw]. apply within_shift. apply (within_le r m p n); [exact H|lia].
Qed.
Lemma read_unaligned_ok r m p n : within r m p n = true -> read_unaligned r p n m = Ok (contents m p n, m).
Proof. intros H. unfold read_unaligned. erewrite andthen_ok; [reflexivity|]. unfold check. rewrite H. reflexivity. Qed.
Lemma read_ok r m t p : within r m p (size_of t) = true -> aligned m p (align_of t) = true -> read r t p m = Ok (contents m p (size_of t), m).
Proof. intros H Ha. unfold read. erewrite andthen_ok; [apply read_unaligned_ok; exact H|]. unfold check. rewrite Ha. reflexivity. Qed.
Lemma write_unaligned_ok r m p bs : within r m p (length bs) = true -> mutable p = true -> write_unaligned r p bs m = Ok (tt, stored m p bs).
Proof. intros H Hw. unfold write_unaligned. erewrite andthen_ok; [reflexivity|]. unfold check. rewrite H, Hw. reflexivity. Qed.
Lemma write_ok r m t p bs : within r m p (length bs) = true -> aligned m p (align_of t) = true -> mutable p = true ->
  write r t p bs m = Ok (tt, stored m p bs).
Proof. intros H Ha Hw. unfold write. erewrite andthen_ok; [apply write_unaligned_ok; assumption|]. unfold check. rewrite Ha. reflexivity. Qed.

(** ** Values. *)
Lemma m128_of_to x : m128_of_bytes (m128_bytes x) = x.
Proof.
  destruct x as [a b c d]. unfold m128_bytes, m128_of_bytes, word_at, bget. cbn [quad_list flat_map u32_to_bytes app nth Nat.add].
  rewrite !u32_of_bytes_roundtrip. reflexivity.
Qed.
Lemma m256_of_to x : m256_of_bytes (m256_bytes x) = x.
Proof.
  destruct x as [a b c d e f g h]. unfold m256_bytes, m256_of_bytes, word_at, bget. cbn [oct_list flat_map u32_to_bytes app nth Nat.add].
  rewrite !u32_of_bytes_roundtrip. reflexivity.
Qed.
Lemma words_lo w : m128_of_bytes (sub (words_bytes w) 0 16) = Sse41.loadu_lo w.
Proof.
  destruct w as [a b c d e f g h]. unfold words_bytes, m128_of_bytes, word_at, bget, sub, Sse41.loadu_lo.
  cbn [oct_list flat_map u32_to_bytes app nth Nat.add firstn skipn o0 o1 o2 o3]. rewrite !u32_of_bytes_roundtrip. reflexivity.
Qed.
Lemma words_hi w : m128_of_bytes (sub (words_bytes w) 16 16) = Sse41.loadu_hi w.
Proof.
  destruct w as [a b c d e f g h]. unfold words_bytes, m128_of_bytes, word_at, bget, sub, Sse41.loadu_hi.
  cbn [oct_list flat_map u32_to_bytes app nth Nat.add firstn skipn o4 o5 o6 o7]. rewrite !u32_of_bytes_roundtrip. reflexivity.
Qed.
Lemma words_store lo hi : words_bytes (Sse41.storeu_2 lo hi) = m128_bytes lo ++ m128_bytes hi.
Proof. destruct lo, hi. reflexivity. Qed.
Lemma m128_bytes_length x : length (m128_bytes x) = 16.
Proof. destruct x. reflexivity. Qed.
Lemma m256_bytes_length x : length (m256_bytes x) = 32.
Proof. destruct x. reflexivity. Qed.

(** ** sse41.rs *)
Lemma loadu_ok r m p : within r m p 16 = true -> loadu r p m = Ok (m128_of_bytes (contents m p 16), m).
Proof. intros H. unfold loadu, _mm_loadu. erewrite andthen_ok by (apply read_unaligned_ok; exact H). reflexivity. Qed.
Lemma storeu_ok r m p x : within r m p 16 = true -> mutable p = true -> storeu r p x m = Ok (tt, stored m p (m128_bytes x)).
Proof. intros H Hw. unfold storeu, _mm_storeu. apply write_unaligned_ok; [rewrite m128_bytes_length; exact H|exact Hw]. Qed.

Lemma compress_split h msg count lastblock lastnode :
  Sse41.compress h msg count lastblock lastnode =
  let '(row1, row2, row3, row4) :=
    compress_rounds (Sse41.loadu_lo h) (Sse41.loadu_hi h) (Sse41.loadu_lo IV)
      (Sse41.xor (Sse41.loadu_hi IV) (Sse41.setr (cast 32 count) (cast 32 (ushr count 32)) lastblock lastnode))
      (_mm_loadu_si128 msg 0) (_mm_loadu_si128 msg 16) (_mm_loadu_si128 msg 32) (_mm_loadu_si128 msg 48) in
  Sse41.storeu_2 (Sse41.xor (Sse41.loadu_lo h) (Sse41.xor row1 row3)) (Sse41.xor (Sse41.loadu_hi h) (Sse41.xor row2 row4)).
Proof.
  unfold Sse41.compress, compress_rounds.
  destruct (Sse41.compress_round1 _ _ _ _ _ _ _ _) as [[[? ?] ?] ?].
  destruct (Sse41.compress_round2 _ _ _ _ _ _ _ _) as [[[? ?] ?] ?].
  destruct (Sse41.compress_round3 _ _ _ _ _ _ _ _) as [[[? ?] ?] ?].
  destruct (Sse41.compress_round4 _ _ _ _ _ _ _ _) as [[[? ?] ?] ?].
  destruct (Sse41.compress_round5 _ _ _ _ _ _ _ _) as [[[? ?] ?] ?].
  destruct (Sse41.compress_round6 _ _ _ _ _ _ _ _) as [[[? ?] ?] ?].
  destruct (Sse41.compress_round7 _ _ _ _ _ _ _ _) as [[[? ?] ?] ?].
  destruct (Sse41.compress_round8 _ _ _ _ _ _ _ _) as [[[? ?] ?] ?].
  destruct (Sse41.compress_round9 _ _ _ _ _ _ _ _) as [[[? ?] ?] ?].
  destruct (Sse41.compress_round10 _ _ _ _ _ _ _ _) as [[[? ?] ?] ?].
  reflexivity.
Qed.

(** A word of an array of words. *)
Lemma word_element r m w p i : reference m p StateWords_ty w -> i < 8 ->
  forall u, (u = true -> mutable p = true) ->
  element r u U32 p i m = Ok (narrow (shift p (i * 4)) 4 u, m).
Proof.
  intros H Hi u Hu. apply (element_ok r m u U32 p i 32); [exact (reference_within r m p _ w H)|cbn; lia| |exact Hu].
  apply aligned_shift; [cbn; lia|exact (reference_aligned m p StateWords_ty w H ltac:(cbn; lia))|].
  exists (N.of_nat i). cbn [size_of align_of]. lia.
Qed.

Theorem compress_memory m iv h msg count lastblock lastnode w :
  reference m iv StateWords_ty false -> reference m h StateWords_ty true -> reference m msg Block_ty false ->
  contents m iv 32 = words_bytes IV -> contents m h 32 = words_bytes w ->
  compress Allocation iv h msg count lastblock lastnode m =
  Ok (tt, stored m h (words_bytes (Sse41.compress w (contents m msg 64) count lastblock lastnode))).
Proof.
  intros Hi Hh Hm Ei Eh. unfold compress.
  assert (Wi := reference_within Allocation _ _ _ _ Hi). assert (Wh := reference_within Allocation _ _ _ _ Hh).
  assert (Wm := reference_within Allocation _ _ _ _ Hm). change (size_of StateWords_ty) with 32 in *. change (size_of Block_ty) with 64 in *.
  assert (Mh := reference_mutable _ _ _ Hh).
  erewrite andthen_ok by (apply (word_element Allocation m true h 0 Hh); [lia|discriminate]).
  erewrite andthen_ok by (apply loadu_ok; apply within_narrow, within_shift, (within_le _ _ _ 32 _ Wh); cbn; lia).
  erewrite andthen_ok by (apply (word_element Allocation m true h 4 Hh); [lia|discriminate]).
  erewrite andthen_ok by (apply loadu_ok; apply within_narrow, within_shift, (within_le _ _ _ 32 _ Wh); cbn; lia).
  erewrite andthen_ok by (apply (word_element Allocation m false iv 0 Hi); [lia|discriminate]).
  erewrite andthen_ok by (apply loadu_ok; apply within_narrow, within_shift, (within_le _ _ _ 32 _ Wi); cbn; lia).
  erewrite andthen_ok by (apply (word_element Allocation m false iv 4 Hi); [lia|discriminate]).
  erewrite andthen_ok by (apply loadu_ok; apply within_narrow, within_shift, (within_le _ _ _ 32 _ Wi); cbn; lia).
  erewrite andthen_ok by (apply (ptr_add_ok Allocation m U8 msg 0 64 Wm); cbn; lia).
  erewrite andthen_ok by (apply loadu_ok; apply within_shift, (within_le _ _ _ 64 _ Wm); cbn; lia).
  erewrite andthen_ok by (apply (ptr_add_ok Allocation m U8 msg 16 64 Wm); cbn; lia).
  erewrite andthen_ok by (apply loadu_ok; apply within_shift, (within_le _ _ _ 64 _ Wm); cbn; lia).
  erewrite andthen_ok by (apply (ptr_add_ok Allocation m U8 msg 32 64 Wm); cbn; lia).
  erewrite andthen_ok by (apply loadu_ok; apply within_shift, (within_le _ _ _ 64 _ Wm); cbn; lia).
  erewrite andthen_ok by (apply (ptr_add_ok Allocation m U8 msg 48 64 Wm); cbn; lia).
  erewrite andthen_ok by (apply loadu_ok; apply within_shift, (within_le _ _ _ 64 _ Wm); cbn; lia).
  rewrite compress_split.
  rewrite (contents_at m h (narrow (shift h (0 * 4)) 4 false) 32 0 16 eq_refl) by (cbn; lia).
  rewrite (contents_at m h (narrow (shift h (4 * 4)) 4 false) 32 16 16 eq_refl) by (cbn; lia).
  rewrite (contents_at m iv (narrow (shift iv (0 * 4)) 4 false) 32 0 16 eq_refl) by (cbn; lia).
  rewrite (contents_at m iv (narrow (shift iv (4 * 4)) 4 false) 32 16 16 eq_refl) by (cbn; lia).
  rewrite (contents_at m msg (shift msg (0 * size_of U8)) 64 0 16 eq_refl) by (cbn; lia).
  rewrite (contents_at m msg (shift msg (16 * size_of U8)) 64 16 16 eq_refl) by (cbn; lia).
  rewrite (contents_at m msg (shift msg (32 * size_of U8)) 64 32 16 eq_refl) by (cbn; lia).
  rewrite (contents_at m msg (shift msg (48 * size_of U8)) 64 48 16 eq_refl) by (cbn; lia).
  rewrite Eh, Ei, !words_lo, !words_hi. unfold _mm_loadu_si128.
  destruct (compress_rounds _ _ _ _ _ _ _ _) as [[[row1 row2] row3] row4].
  erewrite andthen_ok by (apply (word_element Allocation m true h 0 Hh); [lia|intros _; exact Mh]).
  erewrite andthen_ok by (apply (word_element Allocation m true h 0 Hh); [lia|discriminate]).
  erewrite andthen_ok by (apply loadu_ok; apply within_narrow, within_shift, (within_le _ _ _ 32 _ Wh); cbn; lia).
  erewrite andthen_ok by (apply storeu_ok; [apply within_narrow, within_shift, (within_le _ _ _ 32 _ Wh); lia|reflexivity]).
  rewrite (contents_at m h (narrow (shift h (0 * 4)) 4 false) 32 0 16 eq_refl) by (cbn; lia). rewrite Eh, words_lo.
  set (lo := Sse41.xor _ (Sse41.xor row1 row3)).
  rewrite (stored_same m h (narrow (shift h (0 * 4)) 4 true)) by (cbn; lia).
  assert (Wlo : within Allocation m h (length (m128_bytes lo)) = true) by (rewrite m128_bytes_length; apply (within_le _ _ _ 32 _ Wh); cbn; lia).
  set (m1 := stored m h (m128_bytes lo)).
  assert (W1 : within Allocation m1 h 32 = true) by (unfold m1; rewrite within_stored; [exact Wh|exact Wlo]).
  assert (E4 : forall u, (u = true -> mutable h = true) -> element Allocation u U32 h 4 m1 = Ok (narrow (shift h (4 * 4)) 4 u, m1)).
  { intros u Hu. apply (element_ok Allocation m1 u U32 h 4 32 W1); [cbn; lia| |exact Hu]. unfold m1. rewrite aligned_stored by exact Wlo.
    apply aligned_shift; [cbn; lia|exact (reference_aligned m h StateWords_ty true Hh ltac:(cbn; lia))|]. exists 4%N. reflexivity. }
  erewrite andthen_ok by (apply E4; intros _; exact Mh).
  erewrite andthen_ok by (apply E4; discriminate).
  erewrite andthen_ok by (apply loadu_ok; apply within_narrow, within_shift, (within_le _ _ _ 32 _ W1); cbn; lia).
  rewrite storeu_ok by first [reflexivity | apply within_narrow, within_shift, (within_le _ _ _ 32 _ W1); lia].
  unfold m1 at 2. rewrite contents_stored_apart; [|exact Wlo|right; right; rewrite m128_bytes_length; cbn; lia].
  rewrite (contents_at m h (narrow (shift h (4 * 4)) 4 false) 32 16 16 eq_refl) by (cbn; lia). rewrite Eh, words_hi.
  unfold m1. rewrite stored_app with (p := h); [|rewrite !m128_bytes_length; exact Wh|reflexivity|cbn; rewrite m128_bytes_length; lia].
  rewrite words_store. reflexivity.
Qed.

(** ** [hash4_exact] *)
Lemma loadu_4_ok r m p : within r m p 64 = true -> loadu_4 r p m = Ok (Sse41.loadu_4 (contents m p 64), m).
Proof.
  intros H. unfold loadu_4.
  erewrite andthen_ok by (apply (ptr_add_ok r m M128 p 0 64 H); cbn; lia).
  erewrite andthen_ok by (apply loadu_ok; apply within_shift, (within_le _ _ _ 64 _ H); cbn; lia).
  erewrite andthen_ok by (apply (ptr_add_ok r m M128 p 1 64 H); cbn; lia).
  erewrite andthen_ok by (apply loadu_ok; apply within_shift, (within_le _ _ _ 64 _ H); cbn; lia).
  erewrite andthen_ok by (apply (ptr_add_ok r m M128 p 2 64 H); cbn; lia).
  erewrite andthen_ok by (apply loadu_ok; apply within_shift, (within_le _ _ _ 64 _ H); cbn; lia).
  erewrite andthen_ok by (apply (ptr_add_ok r m M128 p 3 64 H); cbn; lia).
  erewrite andthen_ok by (apply loadu_ok; apply within_shift, (within_le _ _ _ 64 _ H); cbn; lia).
  unfold give, Sse41.loadu_4, _mm_loadu_si128.
  rewrite (contents_at m p (shift p (0 * size_of M128)) 64 0 16 eq_refl) by (cbn; lia).
  rewrite (contents_at m p (shift p (1 * size_of M128)) 64 16 16 eq_refl) by (cbn; lia).
  rewrite (contents_at m p (shift p (2 * size_of M128)) 64 32 16 eq_refl) by (cbn; lia).
  rewrite (contents_at m p (shift p (3 * size_of M128)) 64 48 16 eq_refl) by (cbn; lia).
  reflexivity.
Qed.
Lemma transpose_message_blocks_ok r m a b c d : within r m a 64 = true -> within r m b 64 = true -> within r m c 64 = true -> within r m d 64 = true ->
  transpose_message_blocks r a b c d m =
  Ok (Sse41.transpose_message_blocks (contents m a 64) (contents m b 64) (contents m c 64) (contents m d 64), m).
Proof.
  intros Ha Hb Hc Hd. unfold transpose_message_blocks, Sse41.transpose_message_blocks.
  rewrite (andthen_ok _ _ _ _ _ (loadu_4_ok r m a Ha)). destruct (Sse41.loadu_4 (contents m a 64)) as [a0 a1 a2 a3].
  rewrite (andthen_ok _ _ _ _ _ (loadu_4_ok r m b Hb)). destruct (Sse41.loadu_4 (contents m b 64)) as [b0 b1 b2 b3].
  rewrite (andthen_ok _ _ _ _ _ (loadu_4_ok r m c Hc)). destruct (Sse41.loadu_4 (contents m c 64)) as [c0 c1 c2 c3].
  rewrite (andthen_ok _ _ _ _ _ (loadu_4_ok r m d Hd)). destruct (Sse41.loadu_4 (contents m d 64)) as [d0 d1 d2 d3].
  reflexivity.
Qed.
Lemma compress4_split h m0 m1 m2 m3 a b c d :
  Sse41.compress4_transposed h m0 m1 m2 m3 a b c d = compress4_rounds h (Sse41.transpose_message_blocks m0 m1 m2 m3) a b c d.
Proof. unfold Sse41.compress4_transposed, compress4_rounds. cbn [seq fold_left]. reflexivity. Qed.
Lemma compress4_transposed_ok r m h m0 m1 m2 m3 a b c d :
  within r m m0 64 = true -> within r m m1 64 = true -> within r m m2 64 = true -> within r m m3 64 = true ->
  compress4_transposed r h m0 m1 m2 m3 a b c d m =
  Ok (Sse41.compress4_transposed h (contents m m0 64) (contents m m1 64) (contents m m2 64) (contents m m3 64) a b c d, m).
Proof.
  intros H0 H1 H2 H3. unfold compress4_transposed.
  rewrite (andthen_ok _ _ _ _ _ (transpose_message_blocks_ok r m m0 m1 m2 m3 H0 H1 H2 H3)). rewrite compress4_split. reflexivity.
Qed.

Lemma aligned_1 r m p n : within r m p n = true -> aligned m p 1 = true.
Proof.
  intros H. apply within_alloc, within_fits in H. destruct H as (o & Ho & _). unfold aligned. rewrite Ho. apply N.eqb_eq. apply N.mod_1_r.
Qed.
Definition block_pointer (input : pointer) (count : nat) : pointer := narrow (shift input count) 64 false.
Lemma block_at_ok r m input n count : within r m input n = true -> count + 64 <= n ->
  block_at r input count m = Ok (block_pointer input count, m).
Proof.
  intros H Hc. unfold block_at. erewrite andthen_ok by (apply (ptr_add_ok r m U8 input count n H); cbn; lia).
  cbn [size_of]. rewrite Nat.mul_1_r.
  assert (W : within r m (shift input count) 64 = true) by (apply within_shift, (within_le _ _ _ n _ H); lia).
  apply reborrow_ok; [exact W|exact (aligned_1 _ _ _ _ W)|discriminate].
Qed.
Lemma block_within r m input n count : within r m input n = true -> count + 64 <= n -> within r m (block_pointer input count) 64 = true.
Proof. intros H Hc. apply within_narrow_any; [|lia]. apply within_shift, (within_le _ _ _ n _ H). lia. Qed.
Lemma block_contents m input n count : count + 64 <= n -> contents m (block_pointer input count) 64 = sub (contents m input n) count 64.
Proof. intros H. apply contents_at; [reflexivity|reflexivity|exact H]. Qed.

(** The four arrays of [export_hashes]. *)
Lemma nth_error_local {A} (m l : list A) k : nth_error (m ++ l) (length m + k) = nth_error l k.
Proof. rewrite nth_error_app2 by lia. f_equal. lia. Qed.
Lemma upd_local {A} (m l : list A) k x : upd (m ++ l) (length m + k) x = m ++ upd l k x.
Proof. induction m as [|y m IH]; cbn; [reflexivity|]. f_equal. exact IH. Qed.
Lemma store_local {B} m l k a b d x i n (K : code B) : nth_error l k = Some (mk_object a b) -> i = length m + k -> length b = n -> d + 16 <= n ->
  andthen (element Allocation true U8 (mk_pointer i 0 0 n true) d)
          (fun q => andthen (storeu Allocation q x) (fun _ => K)) (m ++ l) =
  K (m ++ upd l k (mk_object a (patch d (m128_bytes x) b))).
Proof.
  intros Hk -> Hn Hd. set (p := mk_pointer _ _ _ _ _).
  assert (W : within Allocation (m ++ l) p n = true).
  { apply within_fits. exists (mk_object a b). cbn [alloc offset bytes p]. split; [rewrite nth_error_local; exact Hk|lia]. }
  erewrite andthen_ok; [|apply (element_ok Allocation (m ++ l) true U8 p d n W); [cbn; lia| |reflexivity]].
  - erewrite andthen_ok; [|apply storeu_ok; [|reflexivity]].
    + f_equal. unfold stored, narrow, shift. cbn [alloc offset p size_of]. rewrite nth_error_local, Hk, upd_local.
      cbn [address bytes]. rewrite Nat.mul_1_r. reflexivity.
    + apply within_narrow, within_shift, (within_le _ _ _ _ _ W). cbn. lia.
  - apply (aligned_1 Allocation _ _ 0). apply within_shift, (within_le _ _ _ _ _ W). cbn. lia.
Qed.
Lemma read_local m l k a b i n : nth_error l k = Some (mk_object a b) -> i = length m + k -> length b = n ->
  read Allocation (Array U8 n) (mk_pointer i 0 0 n true) (m ++ l) = Ok (b, m ++ l).
Proof.
  intros Hk -> <-. set (p := mk_pointer _ _ _ _ _).
  assert (W : within Allocation (m ++ l) p (length b) = true).
  { apply within_fits. exists (mk_object a b). cbn [alloc offset bytes p]. split; [rewrite nth_error_local; exact Hk|lia]. }
  rewrite read_ok; cbn [size_of align_of]; rewrite ?Nat.mul_1_r; [|exact W|exact (aligned_1 _ _ _ _ W)].
  unfold contents, p. cbn [alloc offset]. rewrite nth_error_local, Hk. cbn [bytes]. unfold sub. cbn [skipn]. rewrite firstn_all. reflexivity.
Qed.
Lemma patch_all bs l : length bs = length l -> patch 0 bs l = bs.
Proof. intros H. unfold patch. cbn [firstn app Nat.add]. rewrite H, skipn_all. apply app_nil_r. Qed.
Lemma patch_halves x y : patch 16 (m128_bytes y) (patch 0 (m128_bytes x) (repeat x00 OUTBYTES)) = m128_bytes x ++ m128_bytes y.
Proof.
  change 16 with (0 + 16). rewrite <- (m128_bytes_length x) at 1. rewrite patch_app.
  - apply patch_all. rewrite app_length, !m128_bytes_length. reflexivity.
  - rewrite !m128_bytes_length. cbn. lia.
Qed.
Lemma patch_half_length d x b : d + 16 <= length b -> length (patch d (m128_bytes x) b) = length b.
Proof. intros H. apply patch_length. rewrite m128_bytes_length. exact H. Qed.

Lemma export_hashes_ok m places h len :
  body (export_hashes Allocation places h len) m = Ok (Sse41.export_hashes h len, m).
Proof.
  unfold body, export_hashes, Sse41.export_hashes.
  set (lo := Sse41.transpose_vecs (o0 h) _ _ _). set (hi := Sse41.transpose_vecs (o4 h) _ _ _).
  assert (Z : length (repeat x00 OUTBYTES) = 32) by reflexivity.
  erewrite andthen_ok by (unfold local; rewrite Z; reflexivity).
  erewrite andthen_ok by (unfold local; rewrite Z, app_length; reflexivity).
  erewrite andthen_ok by (unfold local; rewrite Z, !app_length; reflexivity).
  erewrite andthen_ok by (unfold local; rewrite Z, !app_length; reflexivity).
  rewrite <- !app_assoc. cbn [app length]. rewrite <- ?Nat.add_assoc. cbn [Nat.add].
  change OUTBYTES with 32 in *. set (z := repeat x00 32) in *.
  assert (Lo : forall x, length (patch 0 (m128_bytes x) z) = 32) by (intros x; rewrite patch_half_length; [exact Z|rewrite Z; lia]).
  rewrite (store_local m _ 0 (q0 places) z 0) by first [reflexivity | lia]. cbn [upd].
  rewrite (store_local m _ 1 (q1 places) z 0) by first [reflexivity | lia]. cbn [upd].
  rewrite (store_local m _ 2 (q2 places) z 0) by first [reflexivity | lia]. cbn [upd].
  rewrite (store_local m _ 3 (q3 places) z 0) by first [reflexivity | lia]. cbn [upd].
  erewrite (store_local m _ 0 (q0 places) _ 16) by first [reflexivity | apply Lo | lia]. cbn [upd].
  erewrite (store_local m _ 1 (q1 places) _ 16) by first [reflexivity | apply Lo | lia]. cbn [upd].
  erewrite (store_local m _ 2 (q2 places) _ 16) by first [reflexivity | apply Lo | lia]. cbn [upd].
  erewrite (store_local m _ 3 (q3 places) _ 16) by first [reflexivity | apply Lo | lia]. cbn [upd].
  unfold z. rewrite !patch_halves.
  assert (Le : forall x y, length (m128_bytes x ++ m128_bytes y) = 32) by (intros; rewrite app_length, !m128_bytes_length; reflexivity).
  erewrite andthen_ok by (eapply (read_local m _ 0); [reflexivity|lia|apply Le]).
  erewrite andthen_ok by (eapply (read_local m _ 1); [reflexivity|lia|apply Le]).
  erewrite andthen_ok by (eapply (read_local m _ 2); [reflexivity|lia|apply Le]).
  erewrite andthen_ok by (eapply (read_local m _ 3); [reflexivity|lia|apply Le]).
  unfold give. cbn [bind]. rewrite firstn_app, firstn_all, Nat.sub_diag. cbn [firstn]. rewrite app_nil_r. reflexivity.
Qed.

Lemma raw_read_ok {A} (xs : list A) off len ys : raw_read xs off len = Ok ys -> off + len <= length xs /\ ys = sub xs off len.
Proof. unfold raw_read. destruct (Nat.leb_spec (off + len) (length xs)); [|discriminate]. intros E. injection E as <-. auto. Qed.
Lemma raw_read_cases {A} (xs : list A) off len :
  off + len <= length xs /\ raw_read xs off len = Ok (sub xs off len) \/ length xs < off + len /\ raw_read xs off len = UB.
Proof. unfold raw_read. destruct (Nat.leb_spec (off + len) (length xs)); [left|right]; auto. Qed.

Lemma export_hashes_borrow m places h len : body (export_hashes Borrow places h len) m = UB.
Proof.
  unfold body, export_hashes.
  assert (Z : length (repeat x00 OUTBYTES) = 32) by reflexivity.
  erewrite andthen_ok by (unfold local; rewrite Z; reflexivity).
  do 3 (erewrite andthen_ok by (unfold local; reflexivity)). rewrite <- !app_assoc. cbn [app].
  set (l := [mk_object (q0 places) _; _; _; _]). set (p := mk_pointer (length m) 0 0 32 true).
  assert (W : forall r, within r (m ++ l) p 32 = true).
  { intros r. unfold within, p. cbn [alloc offset from upto]. rewrite <- (Nat.add_0_r (length m)), nth_error_local. cbn [nth_error l bytes]. rewrite Z. destruct r; reflexivity. }
  erewrite andthen_ok by
    (apply (element_ok Borrow (m ++ l) true U8 p 0 32 (W _)); [cbn; lia|apply (aligned_1 Allocation _ _ 0), within_shift, (within_le _ _ _ 32 _ (W _)); cbn; lia|reflexivity]).
  rewrite andthen_ub; [reflexivity|]. unfold storeu, _mm_storeu, write_unaligned. apply andthen_ub. unfold check.
  replace (within Borrow _ _ _) with false; [reflexivity|]. symmetry. unfold within. rewrite m128_bytes_length. cbn [alloc offset from upto narrow shift p size_of].
  destruct (nth_error _ _); [|reflexivity]. apply andb_false_iff. right. apply andb_false_iff. right. reflexivity.
Qed.

Lemma hash4_loop_ok m r places params i0 i1 i2 i3 n0 n1 n2 n3 len : within r m i0 n0 = true -> within r m i1 n1 = true ->
  within r m i2 n2 = true -> within r m i3 n3 = true ->
  forall fuel h count res,
  Sse41.hash4_exact_loop fuel params (contents m i0 n0) (contents m i1 n1) (contents m i2 n2) (contents m i3 n3) len h count = Ok res ->
  hash4_exact_loop fuel r places params i0 i1 i2 i3 len h count m = match r with Allocation => Ok (res, m) | Borrow => UB end.
Proof.
  intros W0 W1 W2 W3. induction fuel as [|fuel IH]; intros h count res H; [discriminate|]. cbn [Sse41.hash4_exact_loop hash4_exact_loop] in *.
  repeat match goal with H : bind (raw_read (contents m ?i ?n) ?o ?k) _ = Ok _ |- _ =>
    let x := fresh "x" in let Hx := fresh "Hx" in
    destruct (raw_read (contents m i n) o k) as [x| | |] eqn:Hx; [|discriminate H|discriminate H|discriminate H];
    apply raw_read_ok in Hx; cbn [bind] in H end.
  rewrite (contents_length _ _ _ _ W0) in Hx. rewrite (contents_length _ _ _ _ W1) in Hx0.
  rewrite (contents_length _ _ _ _ W2) in Hx1. rewrite (contents_length _ _ _ _ W3) in Hx2. change BLOCKBYTES with 64 in *.
  destruct Hx as [L0 ->], Hx0 as [L1 ->], Hx1 as [L2 ->], Hx2 as [L3 ->].
  rewrite (andthen_ok _ _ _ _ _ (block_at_ok r m i0 n0 count W0 L0)), (andthen_ok _ _ _ _ _ (block_at_ok r m i1 n1 count W1 L1)),
    (andthen_ok _ _ _ _ _ (block_at_ok r m i2 n2 count W2 L2)), (andthen_ok _ _ _ _ _ (block_at_ok r m i3 n3 count W3 L3)).
  erewrite andthen_ok by (apply compress4_transposed_ok; eapply block_within; eassumption).
  rewrite (block_contents m i0 n0), (block_contents m i1 n1), (block_contents m i2 n2), (block_contents m i3 n3) by assumption.
  destruct (Nat.eqb (count + 64) len).
  - injection H as <-. destruct r; [apply export_hashes_ok|apply export_hashes_borrow].
  - apply IH. exact H.
Qed.
Theorem hash4_exact_memory r m places params i0 i1 i2 i3 n0 n1 n2 n3 res :
  reference m i0 (Array U8 n0) false -> reference m i1 (Array U8 n1) false ->
  reference m i2 (Array U8 n2) false -> reference m i3 (Array U8 n3) false ->
  Sse41.hash4_exact params (contents m i0 n0) (contents m i1 n1) (contents m i2 n2) (contents m i3 n3) = Ok res ->
  hash4_exact r places params i0 i1 i2 i3 n0 m = match r with Allocation => Ok (res, m) | Borrow => UB end.
Proof.
  intros R0 R1 R2 R3.
  assert (W0 := reference_within r _ _ _ _ R0). assert (W1 := reference_within r _ _ _ _ R1).
  assert (W2 := reference_within r _ _ _ _ R2). assert (W3 := reference_within r _ _ _ _ R3). cbn [size_of] in W0, W1, W2, W3.
  rewrite Nat.mul_1_r in W0, W1, W2, W3. unfold Sse41.hash4_exact, hash4_exact. rewrite (contents_length _ _ _ _ W0).
  destruct (make_words params) as [a b c d e f g h]. apply hash4_loop_ok; assumption.
Qed.

(** ** avx2.rs *)
Lemma mm256_loadu_ok r m p : within r m p 32 = true -> _mm256_loadu r p m = Ok (m256_of_bytes (contents m p 32), m).
Proof. intros H. unfold _mm256_loadu. erewrite andthen_ok by (apply read_unaligned_ok; exact H). reflexivity. Qed.
Lemma load_2x256_ok r m p : within r m p 64 = true -> load_2x256 r p m = Ok (Avx2.load_2x256 (contents m p 64), m).
Proof.
  intros H. unfold load_2x256.
  erewrite andthen_ok by (apply mm256_loadu_ok, (within_le _ _ _ 64 _ H); lia).
  erewrite andthen_ok by (apply (ptr_add_ok r m M256 p 1 64 H); cbn; lia).
  erewrite andthen_ok by (apply mm256_loadu_ok, within_shift, (within_le _ _ _ 64 _ H); cbn; lia).
  unfold give, Avx2.load_2x256, _mm256_loadu_si256.
  rewrite (contents_at m p p 64 0 32 eq_refl) by lia.
  rewrite (contents_at m p (shift p (1 * size_of M256)) 64 32 32 eq_refl) by (cbn; lia). reflexivity.
Qed.
Lemma load_msg_vecs_ok r m msg : octall (fun p => within r m p 64 = true) msg ->
  load_msg_vecs_interleave r msg m = Ok (Avx2.load_msg_vecs_interleave (oct_map (fun p => contents m p 64) msg), m).
Proof.
  destruct msg as [p0 p1 p2 p3 p4 p5 p6 p7]. intros (H0 & H1 & H2 & H3 & H4 & H5 & H6 & H7).
  unfold load_msg_vecs_interleave, Avx2.load_msg_vecs_interleave. cbn [oct_map o0 o1 o2 o3 o4 o5 o6 o7] in *.
  rewrite (andthen_ok _ _ _ _ _ (load_2x256_ok r m p0 H0)). destruct (Avx2.load_2x256 (contents m p0 64)).
  rewrite (andthen_ok _ _ _ _ _ (load_2x256_ok r m p1 H1)). destruct (Avx2.load_2x256 (contents m p1 64)).
  rewrite (andthen_ok _ _ _ _ _ (load_2x256_ok r m p2 H2)). destruct (Avx2.load_2x256 (contents m p2 64)).
  rewrite (andthen_ok _ _ _ _ _ (load_2x256_ok r m p3 H3)). destruct (Avx2.load_2x256 (contents m p3 64)).
  rewrite (andthen_ok _ _ _ _ _ (load_2x256_ok r m p4 H4)). destruct (Avx2.load_2x256 (contents m p4 64)).
  rewrite (andthen_ok _ _ _ _ _ (load_2x256_ok r m p5 H5)). destruct (Avx2.load_2x256 (contents m p5 64)).
  rewrite (andthen_ok _ _ _ _ _ (load_2x256_ok r m p6 H6)). destruct (Avx2.load_2x256 (contents m p6 64)).
  rewrite (andthen_ok _ _ _ _ _ (load_2x256_ok r m p7 H7)). destruct (Avx2.load_2x256 (contents m p7 64)).
  reflexivity.
Qed.
Lemma rounds8_split h mv a b c d :
  Avx2.compress8_transposed h mv a b c d =
  let v := rounds8 h mv a b c d in
  Oct (Avx2.xor (o0 h) (Avx2.xor (Avx2.vget v 0) (Avx2.vget v 8))) (Avx2.xor (o1 h) (Avx2.xor (Avx2.vget v 1) (Avx2.vget v 9)))
      (Avx2.xor (o2 h) (Avx2.xor (Avx2.vget v 2) (Avx2.vget v 10))) (Avx2.xor (o3 h) (Avx2.xor (Avx2.vget v 3) (Avx2.vget v 11)))
      (Avx2.xor (o4 h) (Avx2.xor (Avx2.vget v 4) (Avx2.vget v 12))) (Avx2.xor (o5 h) (Avx2.xor (Avx2.vget v 5) (Avx2.vget v 13)))
      (Avx2.xor (o6 h) (Avx2.xor (Avx2.vget v 6) (Avx2.vget v 14))) (Avx2.xor (o7 h) (Avx2.xor (Avx2.vget v 7) (Avx2.vget v 15))).
Proof. unfold Avx2.compress8_transposed, rounds8. cbn [seq fold_left]. reflexivity. Qed.

(** Eight vectors in memory. *)
Definition vecs_bytes (v : oct m256) : list byte := flat_map m256_bytes (oct_list v).
Definition onth {A} (x : oct A) (i : nat) : A :=
  match i with 0 => o0 x | 1 => o1 x | 2 => o2 x | 3 => o3 x | 4 => o4 x | 5 => o5 x | 6 => o6 x | _ => o7 x end.
Lemma vecs_part v i : i < 8 -> m256_of_bytes (sub (vecs_bytes v) (32 * i) 32) = onth v i.
Proof.
  intros Hi. rewrite <- (m256_of_to (onth v i)). f_equal. destruct v as [a b c d e f g h]. unfold vecs_bytes. cbn [oct_list flat_map].
  assert (S : forall (x y : list byte) n, length x <= n -> sub (x ++ y) n 32 = sub y (n - length x) 32).
  { intros x y n H. unfold sub. rewrite skipn_app, skipn_all2 by exact H. reflexivity. }
  assert (E : forall x y : list byte, length x = 32 -> sub (x ++ y) 0 32 = x).
  { intros x y H. unfold sub. cbn [skipn]. rewrite firstn_app, H, Nat.sub_diag, firstn_O, app_nil_r. apply firstn_all2. lia. }
  do 8 (destruct i as [|i]; [cbn [onth o0 o1 o2 o3 o4 o5 o6 o7];
    repeat (rewrite S by (rewrite !m256_bytes_length; lia)); rewrite ?m256_bytes_length; apply E, m256_bytes_length|]). lia.
Qed.
Lemma stored_nil m p n : within Allocation m p n = true -> stored m p [] = m.
Proof.
  intros H. apply within_fits in H. destruct H as (o & Ho & Hn). unfold stored. rewrite Ho. cbn [app length]. rewrite Nat.add_0_r, firstn_skipn.
  destruct o as [a bs]. cbn [address bytes]. clear Hn. revert Ho. generalize (alloc p). induction m as [|x m IH]; intros [|k] H; cbn in *; try discriminate.
  - injection H as ->. reflexivity.
  - f_equal. exact (IH k H).
Qed.

(** What eight vectors written one after the other leave. *)
Section Vecs.
Variables (r : rules) (m : memory) (p : pointer).
Hypothesis W : within r m p 256 = true.
Hypothesis A : aligned m p 32 = true.
Hypothesis M : mutable p = true.
Variables (v : oct m256).
Hypothesis E : contents m p 256 = vecs_bytes v.

Lemma vec_get_ok bs i : length bs <= 32 * i -> i < 8 -> vec_get r p i (stored m p bs) = Ok (onth v i, stored m p bs).
Proof.
  intros Hb Hi. unfold vec_get.
  assert (Wb : within Allocation m p (length bs) = true) by (apply (within_le _ _ _ 256); [exact (within_alloc _ _ _ _ W)|lia]).
  assert (W' : within r (stored m p bs) p 256 = true) by (rewrite within_stored; assumption).
  erewrite andthen_ok by (apply (ptr_add_ok r _ M256 p i 256 W'); cbn; lia).
  erewrite andthen_ok.
  2: { apply read_ok; cbn [size_of align_of].
    - apply within_shift, (within_le _ _ _ 256 _ W'). lia.
    - apply aligned_shift; [lia|rewrite aligned_stored; assumption|]. exists (N.of_nat i). lia. }
  unfold give. do 2 f_equal. cbn [size_of].
  rewrite contents_stored_apart; [|exact Wb|right; right; cbn; lia].
  rewrite (contents_at m p (shift p (i * 32)) 256 (32 * i) 32 eq_refl) by (cbn; lia). rewrite E. apply vecs_part. exact Hi.
Qed.
Lemma vec_set_ok bs i x : length bs = 32 * i -> i < 8 -> vec_set r p i x (stored m p bs) = Ok (tt, stored m p (bs ++ m256_bytes x)).
Proof.
  intros Hb Hi. unfold vec_set.
  assert (Wb : within Allocation m p (length bs) = true) by (apply (within_le _ _ _ 256); [exact (within_alloc _ _ _ _ W)|lia]).
  assert (W' : within r (stored m p bs) p 256 = true) by (rewrite within_stored; assumption).
  erewrite andthen_ok by (apply (ptr_add_ok r _ M256 p i 256 W'); cbn; lia).
  rewrite write_ok; cbn [size_of align_of]; [| | |exact M].
  - rewrite (stored_app m p); [reflexivity| |reflexivity|cbn; lia].
    rewrite m256_bytes_length. apply (within_le _ _ _ 256); [exact (within_alloc _ _ _ _ W)|lia].
  - rewrite m256_bytes_length. apply within_shift, (within_le _ _ _ 256 _ W'). lia.
  - apply aligned_shift; [lia|rewrite aligned_stored; assumption|]. exists (N.of_nat i). lia.
Qed.
Lemma stored_start : stored m p [] = m.
Proof. exact (stored_nil m p 256 (within_alloc _ _ _ _ W)). Qed.
Lemma vecs_get_ok : vecs_get r p m = Ok (v, m).
Proof.
  assert (G : forall i, i < 8 -> vec_get r p i m = Ok (onth v i, m)).
  { intros i Hi. pose proof (vec_get_ok [] i (Nat.le_0_l _) Hi) as H. rewrite stored_start in H. exact H. }
  unfold vecs_get.
  rewrite (andthen_ok _ _ _ _ _ (G 0 ltac:(lia))), (andthen_ok _ _ _ _ _ (G 1 ltac:(lia))), (andthen_ok _ _ _ _ _ (G 2 ltac:(lia))),
    (andthen_ok _ _ _ _ _ (G 3 ltac:(lia))), (andthen_ok _ _ _ _ _ (G 4 ltac:(lia))), (andthen_ok _ _ _ _ _ (G 5 ltac:(lia))),
    (andthen_ok _ _ _ _ _ (G 6 ltac:(lia))), (andthen_ok _ _ _ _ _ (G 7 ltac:(lia))).
  destruct v. reflexivity.
Qed.
Definition prefix (x : oct m256) (i : nat) : list byte := flat_map m256_bytes (firstn i (oct_list x)).
Lemma prefix_length x i : i <= 8 -> length (prefix x i) = 32 * i.
Proof.
  intros H. unfold prefix. destruct x. cbn [oct_list].
  do 9 (destruct i as [|i]; [cbn [firstn flat_map]; rewrite ?app_length, ?m256_bytes_length; reflexivity|]). lia.
Qed.
Lemma prefix_snoc x i : i < 8 -> prefix x (S i) = prefix x i ++ m256_bytes (onth x i).
Proof.
  intros H. unfold prefix. destruct x. cbn [oct_list].
  do 8 (destruct i as [|i]; [cbn [firstn flat_map onth o0 o1 o2 o3 o4 o5 o6 o7]; rewrite ?app_nil_r, <- ?app_assoc; reflexivity|]). lia.
Qed.
Lemma vec_set_next x i y : y = onth x i -> i < 8 -> vec_set r p i y (stored m p (prefix x i)) = Ok (tt, stored m p (prefix x (S i))).
Proof. intros -> Hi. rewrite vec_set_ok by (rewrite ?prefix_length; lia). rewrite prefix_snoc by exact Hi. reflexivity. Qed.
Lemma vec_get_next x i : i < 8 -> vec_get r p i (stored m p (prefix x i)) = Ok (onth v i, stored m p (prefix x i)).
Proof. intros Hi. apply vec_get_ok; [rewrite prefix_length; lia|exact Hi]. Qed.
Lemma compress8_transposed_ok mv a b c d :
  compress8_transposed r p mv a b c d m = Ok (tt, stored m p (vecs_bytes (Avx2.compress8_transposed v mv a b c d))).
Proof.
  unfold compress8_transposed. rewrite (andthen_ok _ _ _ _ _ vecs_get_ok). rewrite rounds8_split. cbv zeta.
  set (u := rounds8 v mv a b c d). match goal with |- _ = Ok (tt, stored m p (vecs_bytes ?y)) => set (x := y) end.
  rewrite <- stored_start at 1. change (@nil byte) with (prefix x 0).
  assert (St : forall i, i < 8 -> Avx2.xor (onth v i) (Avx2.xor (Avx2.vget u i) (Avx2.vget u (8 + i))) = onth x i ->
    andthen (vec_get r p i) (fun y => vec_set r p i (Avx2.xor y (Avx2.xor (Avx2.vget u i) (Avx2.vget u (8 + i))))) (stored m p (prefix x i)) =
    Ok (tt, stored m p (prefix x (S i)))).
  { intros i Hi Hx. rewrite (andthen_ok _ _ _ _ _ (vec_get_next x i Hi)). apply vec_set_next; [exact Hx|exact Hi]. }
  rewrite (andthen_ok _ _ _ _ _ (St 0 ltac:(lia) eq_refl)), (andthen_ok _ _ _ _ _ (St 1 ltac:(lia) eq_refl)),
    (andthen_ok _ _ _ _ _ (St 2 ltac:(lia) eq_refl)), (andthen_ok _ _ _ _ _ (St 3 ltac:(lia) eq_refl)),
    (andthen_ok _ _ _ _ _ (St 4 ltac:(lia) eq_refl)), (andthen_ok _ _ _ _ _ (St 5 ltac:(lia) eq_refl)),
    (andthen_ok _ _ _ _ _ (St 6 ltac:(lia) eq_refl)).
  exact (St 7 ltac:(lia) eq_refl).
Qed.
Lemma transpose_ok : andthen (vecs_get r p) (fun v =>
  let v := Avx2.transpose_vecs v in
  _ <-- vec_set r p 0 (o0 v) ;; _ <-- vec_set r p 1 (o1 v) ;; _ <-- vec_set r p 2 (o2 v) ;; _ <-- vec_set r p 3 (o3 v) ;;
  _ <-- vec_set r p 4 (o4 v) ;; _ <-- vec_set r p 5 (o5 v) ;; _ <-- vec_set r p 6 (o6 v) ;; vec_set r p 7 (o7 v)) m =
  Ok (tt, stored m p (vecs_bytes (Avx2.transpose_vecs v))).
Proof.
  rewrite (andthen_ok _ _ _ _ _ vecs_get_ok). set (x := Avx2.transpose_vecs v). cbv zeta.
  rewrite <- stored_start at 1. change (@nil byte) with (prefix x 0).
  rewrite (andthen_ok _ _ _ _ _ (vec_set_next x 0 _ eq_refl ltac:(lia))), (andthen_ok _ _ _ _ _ (vec_set_next x 1 _ eq_refl ltac:(lia))),
    (andthen_ok _ _ _ _ _ (vec_set_next x 2 _ eq_refl ltac:(lia))), (andthen_ok _ _ _ _ _ (vec_set_next x 3 _ eq_refl ltac:(lia))),
    (andthen_ok _ _ _ _ _ (vec_set_next x 4 _ eq_refl ltac:(lia))), (andthen_ok _ _ _ _ _ (vec_set_next x 5 _ eq_refl ltac:(lia))),
    (andthen_ok _ _ _ _ _ (vec_set_next x 6 _ eq_refl ltac:(lia))).
  exact (vec_set_next x 7 _ eq_refl ltac:(lia)).
Qed.
End Vecs.

Lemma aligned_words_ref m p w : reference m p Words8_ty w -> (forall r, within r m p 256 = true) /\ aligned m p 32 = true.
Proof.
  intros H. split; [intros r; exact (reference_within r _ _ _ _ H)|]. exact (reference_aligned _ _ _ _ H ltac:(cbn; lia)).
Qed.
Lemma cast_vecs r m p : reference m p Words8_ty true -> reborrow r true (Array M256 8) p m = Ok (narrow p 256 true, m).
Proof.
  intros H. destruct (aligned_words_ref m p true H) as [W A].
  apply (reborrow_ok r m true (Array M256 8) p); [apply W|exact A|intros _; exact (reference_mutable _ _ _ H)].
Qed.
Theorem vectorize_words8_memory r m p w : reference m p Words8_ty true -> contents m p 256 = states_bytes w ->
  vectorize_words8 r p m = Ok (tt, stored m p (states_bytes (Avx2.vectorize_words8 w))).
Proof.
  intros H E. destruct (aligned_words_ref m p true H) as [W A]. unfold vectorize_words8. rewrite (andthen_ok _ _ _ _ _ (cast_vecs r m p H)).
  exact (transpose_ok r m (narrow p 256 true) (within_narrow_any r m p 256 true 256 (W r) (le_n _)) A eq_refl w E).
Qed.
Theorem compress8_vectorized_memory r m p msg cl ch lb ln w : reference m p Words8_ty true ->
  octall (fun q => reference m q Block_ty false) msg ->
  reference m cl AlignedWords8_ty false -> reference m ch AlignedWords8_ty false ->
  reference m lb AlignedWords8_ty false -> reference m ln AlignedWords8_ty false ->
  contents m p 256 = states_bytes w ->
  forall wl wh wb wn, contents m cl 32 = words_bytes wl -> contents m ch 32 = words_bytes wh ->
  contents m lb 32 = words_bytes wb -> contents m ln 32 = words_bytes wn ->
  compress8_vectorized r p msg cl ch lb ln m =
  Ok (tt, stored m p (states_bytes (Avx2.compress8_vectorized w (oct_map (fun q => contents m q 64) msg) wl wh wb wn))).
Proof.
  intros H Hm Hl Hh Hb Hn E wl wh wb wn El Eh Eb En. destruct (aligned_words_ref m p true H) as [W A].
  unfold compress8_vectorized. rewrite (andthen_ok _ _ _ _ _ (cast_vecs r m p H)).
  erewrite andthen_ok.
  2: { apply load_msg_vecs_ok. unfold octall in *. intuition (apply (reference_within r _ _ Block_ty false); assumption). }
  assert (R : forall q, reference m q AlignedWords8_ty false -> read r AlignedWords8_ty q m = Ok (contents m q 32, m)).
  { intros q Hq. apply (read_ok r m AlignedWords8_ty q); [exact (reference_within r _ _ _ _ Hq)|exact (reference_aligned _ _ _ _ Hq ltac:(cbn; lia))]. }
  rewrite (andthen_ok _ _ _ _ _ (R cl Hl)), (andthen_ok _ _ _ _ _ (R ch Hh)), (andthen_ok _ _ _ _ _ (R lb Hb)), (andthen_ok _ _ _ _ _ (R ln Hn)).
  rewrite El, Eh, Eb, En. unfold transmute_m256, words_bytes. change (fun a => flat_map u32_to_bytes (oct_list a)) with m256_bytes.
  rewrite (compress8_transposed_ok r m (narrow p 256 true) (within_narrow_any r m p 256 true 256 (W r) (le_n _)) A eq_refl w E).
  unfold Avx2.compress8_vectorized. rewrite <- (m256_of_to wl) at 2. rewrite <- (m256_of_to wh) at 2. rewrite <- (m256_of_to wb) at 2. rewrite <- (m256_of_to wn) at 2.
  reflexivity.
Qed.

(** ** [compress8]: eight states anywhere. *)
Lemma oct_same (x : m256) : m256_of_bytes (words_bytes x) = x.
Proof. exact (m256_of_to x). Qed.
Lemma write_state r m0 m p x : reference m0 p StateWords_ty true ->
  (forall r p n, within r m p n = within r m0 p n) -> (forall p n, aligned m p n = aligned m0 p n) ->
  write r StateWords_ty p (m256_bytes x) m = Ok (tt, stored m p (m256_bytes x)) /\
  (forall r q n, within r (stored m p (m256_bytes x)) q n = within r m0 q n) /\ (forall q n, aligned (stored m p (m256_bytes x)) q n = aligned m0 q n).
Proof.
  intros H Hw Ha.
  assert (W : forall r, within r m p (length (m256_bytes x)) = true).
  { intros r'. rewrite m256_bytes_length, Hw. exact (reference_within r' _ _ _ _ H). }
  split; [|split].
  - apply write_ok; [apply W|rewrite Ha; exact (reference_aligned _ _ _ _ H ltac:(cbn; lia))|exact (reference_mutable _ _ _ H)].
  - intros r' q n. rewrite within_stored by apply W. apply Hw.
  - intros q n. rewrite aligned_stored by apply W. apply Ha.
Qed.
Theorem compress8_memory r m h msg count lastblock lastnode w :
  octall (fun p => reference m p StateWords_ty true) h -> octall (fun p => reference m p Block_ty false) msg ->
  oct_map (fun p => contents m p 32) h = oct_map words_bytes w ->
  compress8 r h msg count lastblock lastnode m =
  Ok (tt, stored_all m (oct_zip h (oct_map words_bytes
        (Avx2.compress8 w (oct_map (fun p => contents m p 64) msg) count lastblock lastnode)))).
Proof.
  intros Hh Hm E. unfold compress8, Avx2.compress8, loadu256, Avx2.loadu.
  assert (Wm : octall (fun p => within r m p 64 = true) msg).
  { unfold octall in *. intuition (apply (reference_within r _ _ Block_ty false); assumption). }
  destruct h as [h0 h1 h2 h3 h4 h5 h6 h7]. destruct w as [w0 w1 w2 w3 w4 w5 w6 w7].
  destruct Hh as (H0 & H1 & H2 & H3 & H4 & H5 & H6 & H7). cbn [oct_map o0 o1 o2 o3 o4 o5 o6 o7] in *.
  injection E as E0 E1 E2 E3 E4 E5 E6 E7.
  assert (L : forall p x, reference m p StateWords_ty true -> contents m p 32 = words_bytes x -> _mm256_loadu r p m = Ok (x, m)).
  { intros p x Hp Hx. rewrite mm256_loadu_ok by exact (reference_within r _ _ _ _ Hp). rewrite Hx, oct_same. reflexivity. }
  rewrite (andthen_ok _ _ _ _ _ (L h0 w0 H0 E0)), (andthen_ok _ _ _ _ _ (L h1 w1 H1 E1)), (andthen_ok _ _ _ _ _ (L h2 w2 H2 E2)),
    (andthen_ok _ _ _ _ _ (L h3 w3 H3 E3)), (andthen_ok _ _ _ _ _ (L h4 w4 H4 E4)), (andthen_ok _ _ _ _ _ (L h5 w5 H5 E5)),
    (andthen_ok _ _ _ _ _ (L h6 w6 H6 E6)), (andthen_ok _ _ _ _ _ (L h7 w7 H7 E7)).
  rewrite (andthen_ok _ _ _ _ _ (load_msg_vecs_ok r m msg Wm)).
  destruct count, lastblock, lastnode. cbn [oct_map o0 o1 o2 o3 o4 o5 o6 o7]. cbv zeta.
  set (y := Avx2.transpose_vecs (Avx2.compress8_transposed _ _ _ _ _ _)). clearbody y.
  destruct (write_state r m m h0 (o0 y) H0 (fun _ _ _ => eq_refl) (fun _ _ => eq_refl)) as (S0 & W0 & A0).
  destruct (write_state r m _ h1 (o1 y) H1 W0 A0) as (S1 & W1 & A1).
  destruct (write_state r m _ h2 (o2 y) H2 W1 A1) as (S2 & W2 & A2).
  destruct (write_state r m _ h3 (o3 y) H3 W2 A2) as (S3 & W3 & A3).
  destruct (write_state r m _ h4 (o4 y) H4 W3 A3) as (S4 & W4 & A4).
  destruct (write_state r m _ h5 (o5 y) H5 W4 A4) as (S5 & W5 & A5).
  destruct (write_state r m _ h6 (o6 y) H6 W5 A5) as (S6 & W6 & A6).
  destruct (write_state r m _ h7 (o7 y) H7 W6 A6) as (S7 & _ & _).
  rewrite (andthen_ok _ _ _ _ _ S0), (andthen_ok _ _ _ _ _ S1), (andthen_ok _ _ _ _ _ S2), (andthen_ok _ _ _ _ _ S3),
    (andthen_ok _ _ _ _ _ S4), (andthen_ok _ _ _ _ _ S5), (andthen_ok _ _ _ _ _ S6).
  exact S7.
Qed.

(** ** [hash8_exact] *)
Lemma block_at_ub m input n count : upto input = offset input + n -> n < count + 64 -> block_at Borrow input count m = UB.
Proof.
  intros Hu Hc. unfold block_at, ptr_add, andthen, check, give. destruct (within Allocation m _ 0); cbn [bind]; [|reflexivity].
  unfold reborrow, andthen, check, give. replace (within Borrow _ _ _) with false; [reflexivity|]. symmetry. unfold within.
  cbn [alloc offset from upto size_of Block_ty]. destruct (nth_error m (alloc input)); [|reflexivity].
  rewrite Hu. change BLOCKBYTES with 64. apply andb_false_iff. right. apply andb_false_iff. right. apply Nat.leb_gt. lia.
Qed.
Lemma block_step {B} r m input n count (K : pointer -> code B) (k : list byte -> outcome B) :
  within r m input n = true -> (r = Borrow -> upto input = offset input + n) ->
  (n < count + 64 -> r = Borrow) ->
  (count + 64 <= n -> K (block_pointer input count) m = with_memory m (k (contents m (block_pointer input count) 64))) ->
  andthen (block_at r input count) K m = with_memory m (bind (raw_read (contents m input n) count BLOCKBYTES) k).
Proof.
  intros W Hu Hr H. change BLOCKBYTES with 64. destruct (raw_read_cases (contents m input n) count 64) as [[L E]|[L E]]; rewrite E; cbn [bind];
    rewrite (contents_length _ _ _ _ W) in L.
  - rewrite (andthen_ok _ _ _ _ _ (block_at_ok r m input n count W L)), (H L), (block_contents m input n count L). reflexivity.
  - assert (r = Borrow) by (apply Hr; exact L). subst r. apply andthen_ub. apply (block_at_ub m input n count (Hu eq_refl) L).
Qed.
Lemma hash8_loop_ok r m params input (n : oct nat) len :
  octall (fun p => within r m (fst p) (snd p) = true /\ (r = Borrow -> upto (fst p) = offset (fst p) + snd p))
         (oct_map2 pair input n) ->
  forall fuel h count,
  let value := Avx2.hash8_exact_loop fuel params (oct_map2 (contents m) input n) len h count in
  (r = Borrow \/ exists x, value = Ok x) ->
  hash8_exact_loop fuel r params input len h count m = with_memory m value.
Proof.
  destruct input as [i0 i1 i2 i3 i4 i5 i6 i7]. destruct n as [n0 n1 n2 n3 n4 n5 n6 n7]. cbn [oct_map2].
  intros ((W0 & U0) & (W1 & U1) & (W2 & U2) & (W3 & U3) & (W4 & U4) & (W5 & U5) & (W6 & U6) & (W7 & U7)).
  cbn [fst snd o0 o1 o2 o3 o4 o5 o6 o7] in *.
  induction fuel as [|fuel IH]; intros h count; [reflexivity|].
  cbn [Avx2.hash8_exact_loop hash8_exact_loop o0 o1 o2 o3 o4 o5 o6 o7]. intros H.
  assert (F : forall i n, within r m i n = true -> forall k : list byte -> outcome (oct Hash),
    (r = Borrow \/ exists x, bind (raw_read (contents m i n) count BLOCKBYTES) k = Ok x) ->
    (n < count + 64 -> r = Borrow) /\
    (count + 64 <= n -> r = Borrow \/ exists x, k (contents m (block_pointer i count) 64) = Ok x)).
  { intros i n W k [->|[x Hx]]; [auto|]. change BLOCKBYTES with 64 in Hx.
    destruct (raw_read_cases (contents m i n) count 64) as [[L E]|[L E]]; rewrite E in Hx; cbn [bind] in Hx; [|discriminate].
    rewrite (contents_length _ _ _ _ W) in L. split; [lia|]. intros _. right. exists x. rewrite (block_contents m i n) by lia. exact Hx. }
  destruct (F i0 n0 W0 _ H) as [B0 H0]; apply (block_step r m i0 n0); [exact W0|exact U0|exact B0|]; intros L0; specialize (H0 L0).
  destruct (F i1 n1 W1 _ H0) as [B1 H1]; apply (block_step r m i1 n1); [exact W1|exact U1|exact B1|]; intros L1; specialize (H1 L1).
  destruct (F i2 n2 W2 _ H1) as [B2 H2]; apply (block_step r m i2 n2); [exact W2|exact U2|exact B2|]; intros L2; specialize (H2 L2).
  destruct (F i3 n3 W3 _ H2) as [B3 H3]; apply (block_step r m i3 n3); [exact W3|exact U3|exact B3|]; intros L3; specialize (H3 L3).
  destruct (F i4 n4 W4 _ H3) as [B4 H4]; apply (block_step r m i4 n4); [exact W4|exact U4|exact B4|]; intros L4; specialize (H4 L4).
  destruct (F i5 n5 W5 _ H4) as [B5 H5]; apply (block_step r m i5 n5); [exact W5|exact U5|exact B5|]; intros L5; specialize (H5 L5).
  destruct (F i6 n6 W6 _ H5) as [B6 H6]; apply (block_step r m i6 n6); [exact W6|exact U6|exact B6|]; intros L6; specialize (H6 L6).
  destruct (F i7 n7 W7 _ H6) as [B7 H7]; apply (block_step r m i7 n7); [exact W7|exact U7|exact B7|]; intros L7; specialize (H7 L7).
  clear F H H0 H1 H2 H3 H4 H5 H6.
  rewrite (andthen_ok _ _ _ _ _ (load_msg_vecs_ok r m (Oct (block_pointer i0 count) (block_pointer i1 count) (block_pointer i2 count) (block_pointer i3 count)
      (block_pointer i4 count) (block_pointer i5 count) (block_pointer i6 count) (block_pointer i7 count))
    (conj (block_within r m i0 n0 count W0 L0) (conj (block_within r m i1 n1 count W1 L1) (conj (block_within r m i2 n2 count W2 L2)
    (conj (block_within r m i3 n3 count W3 L3) (conj (block_within r m i4 n4 count W4 L4) (conj (block_within r m i5 n5 count W5 L5)
    (conj (block_within r m i6 n6 count W6 L6) (block_within r m i7 n7 count W7 L7)))))))))).
  cbn [oct_map]. cbv zeta in *. destruct (Nat.eqb (count + BLOCKBYTES) len); [reflexivity|]. apply IH. exact H7.
Qed.
Theorem hash8_exact_memory r m params input (n : oct nat) :
  octall (fun p => reference m (fst p) (Array U8 (snd p)) false /\ upto (fst p) = offset (fst p) + snd p) (oct_map2 pair input n) ->
  let value := Avx2.hash8_exact params (oct_map2 (contents m) input n) in
  (r = Borrow \/ exists x, value = Ok x) ->
  hash8_exact r params input (o0 n) m = with_memory m value.
Proof.
  intros H. unfold Avx2.hash8_exact, hash8_exact.
  assert (Hw : octall (fun p => within r m (fst p) (snd p) = true /\ (r = Borrow -> upto (fst p) = offset (fst p) + snd p)) (oct_map2 pair input n)).
  { assert (G : forall p : pointer * nat, reference m (fst p) (Array U8 (snd p)) false /\ upto (fst p) = offset (fst p) + snd p ->
      within r m (fst p) (snd p) = true /\ (r = Borrow -> upto (fst p) = offset (fst p) + snd p)).
    { intros p [R U]. split; [|auto]. pose proof (reference_within r _ _ _ _ R) as W. cbn [size_of] in W. rewrite Nat.mul_1_r in W. exact W. }
    unfold octall in *. decompose [and] H. repeat split; try (apply G; split; assumption); intros; assumption. }
  assert (L : length (o0 (oct_map2 (contents m) input n)) = o0 n).
  { destruct Hw as [[W _] _]. destruct input, n. exact (contents_length _ _ _ _ W). }
  rewrite L. destruct (make_words params). apply hash8_loop_ok. exact Hw.
Qed.

(** ** The stricter rules. *)
Theorem compress_borrow m iv h msg count lastblock lastnode w : reference m h StateWords_ty w ->
  compress Borrow iv h msg count lastblock lastnode m = UB.
Proof.
  intros H. unfold compress. erewrite andthen_ok by (apply (word_element Borrow m w h 0 H); [lia|discriminate]).
  apply andthen_ub. unfold loadu, _mm_loadu. apply andthen_ub. unfold read_unaligned. apply andthen_ub. unfold check.
  replace (within Borrow _ _ _) with false; [reflexivity|]. symmetry. unfold within. cbn [alloc offset from upto narrow shift].
  destruct (nth_error _ _); [|reflexivity]. apply andb_false_iff. right. apply andb_false_iff. right. apply Nat.leb_gt. lia.
Qed.

(** ** What is where after the writes. *)
Lemma stored_all_contents l : forall m q n, Forall (fun '(p, bs) => within Allocation m p (length bs) = true) l ->
  Forall (fun '(p, bs) => apart q n p (length bs)) l -> contents (stored_all m l) q n = contents m q n.
Proof.
  induction l as [|[p bs] l IH]; intros m q n W D; [reflexivity|]. inversion_clear W as [|? ? W0 W1]. inversion_clear D as [|? ? D0 D1].
  cbn [stored_all fold_left]. fold (stored_all (stored m p bs) l). rewrite IH; [apply contents_stored_apart; assumption| |exact D1].
  apply Forall_forall. intros [p' bs'] Hin. rewrite within_stored by exact W0. exact (proj1 (Forall_forall _ _) W1 _ Hin).
Qed.
Lemma stored_all_nth l : forall m i p bs, Forall (fun '(p, bs) => within Allocation m p (length bs) = true) l ->
  ForallOrdPairs (fun x y => apart (fst x) (length (snd x)) (fst y) (length (snd y))) l ->
  nth_error l i = Some (p, bs) -> contents (stored_all m l) p (length bs) = bs.
Proof.
  induction l as [|[p' bs'] l IH]; intros m i p bs W D H; [destruct i; discriminate|]. inversion_clear W as [|? ? W0 W1]. inversion_clear D as [|? ? D0 D1].
  assert (W2 : Forall (fun '(p, bs) => within Allocation (stored m p' bs') p (length bs) = true) l).
  { apply Forall_forall. intros [q b] Hin. rewrite within_stored by exact W0. exact (proj1 (Forall_forall _ _) W1 _ Hin). }
  cbn [stored_all fold_left]. fold (stored_all (stored m p' bs') l). destruct i as [|i]; cbn [nth_error] in H.
  - injection H as -> ->. rewrite stored_all_contents; [apply contents_stored_same; auto|exact W2|].
    apply Forall_forall. intros [q b] Hin. exact (proj1 (Forall_forall _ _) D0 _ Hin).
  - exact (IH _ i p bs W2 D1 H).
Qed.
Lemma apart_sym p n q k : apart p n q k -> apart q k p n.
Proof. unfold apart. intuition congruence. Qed.
Theorem alignment_needed r m p : aligned m p 32 = false -> vectorize_words8 r p m = UB.
Proof.
  intros H. unfold vectorize_words8. apply andthen_ub. unfold reborrow. apply andthen_ub. unfold check. cbn [align_of]. rewrite H.
  rewrite andb_false_r. reflexivity.
Qed.
Lemma octall_proj {A} (P : A -> Prop) x : (forall l, P (proj l x)) -> octall P x.
Proof.
  intros H. destruct x. repeat split; [exact (H L0)|exact (H L1)|exact (H L2)|exact (H L3)|exact (H L4)|exact (H L5)|exact (H L6)|exact (H L7)].
Qed.
Lemma words_bytes_length w : length (words_bytes w) = 32.
Proof. exact (m256_bytes_length w). Qed.
Lemma stored_oct m h (y : oct StateWords) : (forall l, within Allocation m (proj l h) 32 = true) ->
  (forall l l', l <> l' -> apart (proj l h) 32 (proj l' h) 32) ->
  let m' := stored_all m (oct_zip h (oct_map words_bytes y)) in
  (forall l, contents m' (proj l h) 32 = words_bytes (proj l y)) /\
  (forall q n, (forall l, apart q n (proj l h) 32) -> contents m' q n = contents m q n).
Proof.
  intros W D m'.
  assert (Hw : Forall (fun '(p, bs) => within Allocation m p (length bs) = true) (oct_zip h (oct_map words_bytes y))).
  { destruct h, y. cbn [oct_map oct_zip oct_list combine].
    repeat apply Forall_cons; try apply Forall_nil; rewrite words_bytes_length; [exact (W L0)|exact (W L1)|exact (W L2)|exact (W L3)|exact (W L4)|exact (W L5)|exact (W L6)|exact (W L7)]. }
  split.
  - assert (Hp : ForallOrdPairs (fun x y => apart (fst x) (length (snd x)) (fst y) (length (snd y))) (oct_zip h (oct_map words_bytes y))).
    { destruct h, y. cbn [oct_map oct_zip oct_list combine].
      repeat first [apply FOP_nil | apply FOP_cons | apply Forall_nil | apply Forall_cons]; cbn [fst snd]; rewrite !words_bytes_length;
        match goal with |- apart ?a _ ?b _ =>
          match goal with D : forall l l' : lane8, _ |- _ =>
            first [exact (D L0 L1 ltac:(discriminate)) | exact (D L0 L2 ltac:(discriminate)) | exact (D L0 L3 ltac:(discriminate))
                  |exact (D L0 L4 ltac:(discriminate)) | exact (D L0 L5 ltac:(discriminate)) | exact (D L0 L6 ltac:(discriminate)) | exact (D L0 L7 ltac:(discriminate))
                  |exact (D L1 L2 ltac:(discriminate)) | exact (D L1 L3 ltac:(discriminate)) | exact (D L1 L4 ltac:(discriminate))
                  |exact (D L1 L5 ltac:(discriminate)) | exact (D L1 L6 ltac:(discriminate)) | exact (D L1 L7 ltac:(discriminate))
                  |exact (D L2 L3 ltac:(discriminate)) | exact (D L2 L4 ltac:(discriminate)) | exact (D L2 L5 ltac:(discriminate)) | exact (D L2 L6 ltac:(discriminate)) | exact (D L2 L7 ltac:(discriminate))
                  |exact (D L3 L4 ltac:(discriminate)) | exact (D L3 L5 ltac:(discriminate)) | exact (D L3 L6 ltac:(discriminate)) | exact (D L3 L7 ltac:(discriminate))
                  |exact (D L4 L5 ltac:(discriminate)) | exact (D L4 L6 ltac:(discriminate)) | exact (D L4 L7 ltac:(discriminate))
                  |exact (D L5 L6 ltac:(discriminate)) | exact (D L5 L7 ltac:(discriminate)) | exact (D L6 L7 ltac:(discriminate))] end end. }
    assert (N : forall l i, nth_error (oct_zip h (oct_map words_bytes y)) i = Some (proj l h, words_bytes (proj l y)) ->
      contents m' (proj l h) 32 = words_bytes (proj l y)).
    { intros l i Hi. rewrite <- (words_bytes_length (proj l y)) at 1. exact (stored_all_nth _ m i _ _ Hw Hp Hi). }
    intros [ | | | | | | | ]; [apply (N L0 0)|apply (N L1 1)|apply (N L2 2)|apply (N L3 3)|apply (N L4 4)|apply (N L5 5)|apply (N L6 6)|apply (N L7 7)];
      destruct h, y; reflexivity.
  - intros q n Hq. apply stored_all_contents; [exact Hw|]. destruct h, y. cbn [oct_map oct_zip oct_list combine].
    repeat apply Forall_cons; try apply Forall_nil; rewrite words_bytes_length;
      [exact (Hq L0)|exact (Hq L1)|exact (Hq L2)|exact (Hq L3)|exact (Hq L4)|exact (Hq L5)|exact (Hq L6)|exact (Hq L7)].
Qed.

(** ** As stated. *)
Theorem compress_memory_stated m iv h msg w b count lastblock lastnode :
  reference m iv StateWords_ty false -> reference m h StateWords_ty true -> reference m msg Block_ty false ->
  contents m iv 32 = words_bytes IV -> contents m h 32 = words_bytes w -> contents m msg 64 = b ->
  compress Allocation iv h msg count lastblock lastnode m =
  Ok (tt, stored m h (words_bytes (Sse41.compress w b count lastblock lastnode))).
Proof. intros Hi Hh Hm Ei Eh <-. apply compress_memory; assumption. Qed.
Theorem compress8_memory_stated r m h msg count lastblock lastnode w b :
  (forall l, reference m (proj l h) StateWords_ty true) -> (forall l, reference m (proj l msg) Block_ty false) ->
  (forall l, contents m (proj l h) 32 = words_bytes (proj l w)) -> (forall l, contents m (proj l msg) 64 = proj l b) ->
  (forall l l', l <> l' -> apart (proj l h) 32 (proj l' h) 32) ->
  exists m', compress8 r h msg count lastblock lastnode m = Ok (tt, m') /\
  (forall l, contents m' (proj l h) 32 = words_bytes (proj l (Avx2.compress8 w b count lastblock lastnode))) /\
  (forall q n, (forall l, apart q n (proj l h) 32) -> contents m' q n = contents m q n).
Proof.
  intros Hh Hm Eh Eb D. eexists. split; [apply compress8_memory with (w := w)|].
  - apply octall_proj. exact Hh.
  - apply octall_proj. exact Hm.
  - apply oct_ext. intros l. rewrite !proj_map. apply Eh.
  - replace (oct_map (fun p => contents m p 64) msg) with b by (apply oct_ext; intros l; rewrite proj_map; symmetry; apply Eb).
    apply stored_oct; [|exact D]. intros l. exact (reference_within Allocation _ _ _ _ (Hh l)).
Qed.
Theorem compress8_vectorized_memory_stated r m p msg cl ch lb ln w b wl wh wb wn : reference m p Words8_ty true ->
  (forall l, reference m (proj l msg) Block_ty false) ->
  reference m cl AlignedWords8_ty false -> reference m ch AlignedWords8_ty false ->
  reference m lb AlignedWords8_ty false -> reference m ln AlignedWords8_ty false ->
  contents m p 256 = states_bytes w -> (forall l, contents m (proj l msg) 64 = proj l b) ->
  contents m cl 32 = words_bytes wl -> contents m ch 32 = words_bytes wh ->
  contents m lb 32 = words_bytes wb -> contents m ln 32 = words_bytes wn ->
  compress8_vectorized r p msg cl ch lb ln m =
  Ok (tt, stored m p (states_bytes (Avx2.compress8_vectorized w b wl wh wb wn))).
Proof.
  intros H Hm Hl Hh Hb Hn E Eb El Eh Elb En.
  replace b with (oct_map (fun p => contents m p 64) msg) by (apply oct_ext; intros l; rewrite proj_map; apply Eb).
  apply compress8_vectorized_memory; try assumption. apply octall_proj. exact Hm.
Qed.
Theorem hash4_exact_memory_stated m places params i0 i1 i2 i3 x0 x1 x2 x3 res :
  reference m i0 (Array U8 (length x0)) false -> reference m i1 (Array U8 (length x1)) false ->
  reference m i2 (Array U8 (length x2)) false -> reference m i3 (Array U8 (length x3)) false ->
  contents m i0 (length x0) = x0 -> contents m i1 (length x1) = x1 -> contents m i2 (length x2) = x2 -> contents m i3 (length x3) = x3 ->
  Sse41.hash4_exact params x0 x1 x2 x3 = Ok res ->
  hash4_exact Allocation places params i0 i1 i2 i3 (length x0) m = Ok (res, m) /\
  hash4_exact Borrow places params i0 i1 i2 i3 (length x0) m = UB.
Proof.
  intros R0 R1 R2 R3 E0 E1 E2 E3 H.
  assert (H' : Sse41.hash4_exact params (contents m i0 (length x0)) (contents m i1 (length x1)) (contents m i2 (length x2)) (contents m i3 (length x3)) = Ok res)
    by (rewrite E0, E1, E2, E3; exact H).
  split; [exact (hash4_exact_memory Allocation m places params i0 i1 i2 i3 _ _ _ _ res R0 R1 R2 R3 H')|
          exact (hash4_exact_memory Borrow m places params i0 i1 i2 i3 _ _ _ _ res R0 R1 R2 R3 H')].
Qed.
Theorem hash4_exact_memory_allocation m places params i0 i1 i2 i3 x0 x1 x2 x3 res :
  reference m i0 (Array U8 (length x0)) false -> reference m i1 (Array U8 (length x1)) false ->
  reference m i2 (Array U8 (length x2)) false -> reference m i3 (Array U8 (length x3)) false ->
  contents m i0 (length x0) = x0 -> contents m i1 (length x1) = x1 -> contents m i2 (length x2) = x2 -> contents m i3 (length x3) = x3 ->
  Sse41.hash4_exact params x0 x1 x2 x3 = Ok res ->
  hash4_exact Allocation places params i0 i1 i2 i3 (length x0) m = Ok (res, m).
Proof. intros. eapply hash4_exact_memory_stated; eassumption. Qed.
Theorem hash4_exact_memory_borrow m places params i0 i1 i2 i3 x0 x1 x2 x3 res :
  reference m i0 (Array U8 (length x0)) false -> reference m i1 (Array U8 (length x1)) false ->
  reference m i2 (Array U8 (length x2)) false -> reference m i3 (Array U8 (length x3)) false ->
  contents m i0 (length x0) = x0 -> contents m i1 (length x1) = x1 -> contents m i2 (length x2) = x2 -> contents m i3 (length x3) = x3 ->
  Sse41.hash4_exact params x0 x1 x2 x3 = Ok res ->
  hash4_exact Borrow places params i0 i1 i2 i3 (length x0) m = UB.
Proof. intros. eapply hash4_exact_memory_stated; eassumption. Qed.
Theorem hash8_exact_memory_stated r m params input x :
  (forall l, reference m (proj l input) (Array U8 (length (proj l x))) false) ->
  (forall l, upto (proj l input) = offset (proj l input) + length (proj l x)) ->
  (forall l, contents m (proj l input) (length (proj l x)) = proj l x) ->
  (r = Borrow \/ exists y, Avx2.hash8_exact params x = Ok y) ->
  hash8_exact r params input (length (o0 x)) m = with_memory m (Avx2.hash8_exact params x).
Proof.
  intros R U E H.
  assert (Ex : oct_map2 (contents m) input (oct_map (@length byte) x) = x).
  { apply oct_ext. intros l. rewrite proj_map2, proj_map. apply E. }
  pose proof (hash8_exact_memory r m params input (oct_map (@length byte) x)) as T. rewrite Ex in T.
  replace (length (o0 x)) with (o0 (oct_map (@length byte) x)) by (destruct x; reflexivity).
  apply T; [|exact H]. apply octall_proj. intros l. rewrite proj_map2, proj_map. split; [apply R|apply U].
Qed.
Theorem stored_frame m p bs q n : within Allocation m p (length bs) = true -> apart q n p (length bs) ->
  contents (stored m p bs) p (length bs) = bs /\ contents (stored m p bs) q n = contents m q n.
Proof. intros H D. split; [apply contents_stored_same; auto|apply contents_stored_apart; assumption]. Qed.
Theorem compress_memory_F m iv h msg w b count lastblock lastnode :
  reference m iv StateWords_ty false -> reference m h StateWords_ty true -> reference m msg Block_ty false ->
  contents m iv 32 = words_bytes IV -> contents m h 32 = words_bytes w -> contents m msg 64 = b ->
  exists w', compress Allocation iv h msg count lastblock lastnode m = Ok (tt, stored m h (words_bytes w')) /\
  w' = Sse41.compress w b count lastblock lastnode /\
  nums w' = Spec.F (nums w) b (val count) (val lastblock) (val lastnode).
Proof.
  intros Hi Hh Hm Ei Eh Eb. eexists. split; [apply compress_memory_stated; eassumption|split; [reflexivity|]].
  apply Corollaries.sse41_compress_F. rewrite <- Eb. exact (contents_length Allocation m msg 64 (reference_within Allocation _ _ _ _ Hm)).
Qed.
Theorem compress8_memory_F r m h msg count lastblock lastnode w b :
  (forall l, reference m (proj l h) StateWords_ty true) -> (forall l, reference m (proj l msg) Block_ty false) ->
  (forall l, contents m (proj l h) 32 = words_bytes (proj l w)) -> (forall l, contents m (proj l msg) 64 = proj l b) ->
  (forall l l', l <> l' -> apart (proj l h) 32 (proj l' h) 32) ->
  exists m' w', compress8 r h msg count lastblock lastnode m = Ok (tt, m') /\
  (forall l, contents m' (proj l h) 32 = words_bytes (proj l w')) /\
  (forall q n, (forall l, apart q n (proj l h) 32) -> contents m' q n = contents m q n) /\
  w' = Avx2.compress8 w b count lastblock lastnode /\
  forall l, nums (proj l w') = Spec.F (nums (proj l w)) (proj l b) (val (proj l count)) (val (proj l lastblock)) (val (proj l lastnode)).
Proof.
  intros Hh Hm Eh Eb D. destruct (compress8_memory_stated r m h msg count lastblock lastnode w b Hh Hm Eh Eb D) as (m' & E & S & F).
  exists m', (Avx2.compress8 w b count lastblock lastnode). repeat split; try assumption. intros l. apply Corollaries.avx2_compress8_F.
  intros k. rewrite <- Eb. exact (contents_length Allocation m _ 64 (reference_within Allocation _ _ _ _ (Hm k))).
Qed.

(** ** Under the stricter rule. *)
Lemma words_bytes_of bs : length bs = 32 -> exists w, bs = words_bytes w.
Proof. intros H. exists (m256_of_bytes bs). symmetry. exact (IntelFacts.m256_bytes_of bs H). Qed.
Lemma flat_words n : forall bs, length bs = n * 32 -> exists l, length l = n /\ bs = flat_map words_bytes l.
Proof.
  induction n as [|n IH]; intros bs H.
  - exists []. destruct bs; [split; reflexivity|discriminate].
  - destruct (words_bytes_of (firstn 32 bs)) as [w E]; [rewrite firstn_length; lia|].
    destruct (IH (skipn 32 bs)) as (l & L & E'); [rewrite skipn_length; lia|].
    exists (w :: l). split; [cbn; lia|]. cbn [flat_map]. rewrite <- E, <- E'. symmetry. apply firstn_skipn.
Qed.
Lemma states_bytes_of bs : length bs = 256 -> exists w, bs = states_bytes w.
Proof.
  intros H. destruct (flat_words 8 bs H) as (l & L & ->).
  do 8 (destruct l as [|? l]; [discriminate L|]). destruct l; [|discriminate L].
  eexists (Oct _ _ _ _ _ _ _ _). reflexivity.
Qed.
Theorem compress8_borrow m h msg count lastblock lastnode :
  (forall l, reference m (proj l h) StateWords_ty true) -> (forall l, reference m (proj l msg) Block_ty false) ->
  (forall l l', l <> l' -> apart (proj l h) 32 (proj l' h) 32) ->
  exists m', compress8 Borrow h msg count lastblock lastnode m = Ok (tt, m').
Proof.
  intros Hh Hm D.
  destruct (compress8_memory_stated Borrow m h msg count lastblock lastnode
    (oct_map (fun p => m256_of_bytes (contents m p 32)) h) (oct_map (fun p => contents m p 64) msg) Hh Hm) as (m' & E & _).
  - intros l. rewrite proj_map. symmetry. apply IntelFacts.m256_bytes_of.
    exact (contents_length Borrow m _ 32 (reference_within Borrow _ _ _ _ (Hh l))).
  - intros l. rewrite proj_map. reflexivity.
  - exact D.
  - exists m'. exact E.
Qed.
Theorem vectorized_borrow m p msg cl ch lb ln : reference m p Words8_ty true ->
  (forall l, reference m (proj l msg) Block_ty false) ->
  reference m cl AlignedWords8_ty false -> reference m ch AlignedWords8_ty false ->
  reference m lb AlignedWords8_ty false -> reference m ln AlignedWords8_ty false ->
  (exists m', vectorize_words8 Borrow p m = Ok (tt, m')) /\
  exists m', compress8_vectorized Borrow p msg cl ch lb ln m = Ok (tt, m').
Proof.
  intros Hp Hm Hl Hh Hb Hn.
  destruct (states_bytes_of (contents m p 256)) as [w E]; [exact (contents_length Borrow m _ 256 (reference_within Borrow _ _ _ _ Hp))|].
  split; [eexists; exact (vectorize_words8_memory Borrow m p w Hp E)|].
  assert (W : forall q, reference m q AlignedWords8_ty false -> exists x, contents m q 32 = words_bytes x).
  { intros q H. exact (words_bytes_of _ (contents_length Borrow m _ 32 (reference_within Borrow _ _ _ _ H))). }
  destruct (W cl Hl) as [wl El], (W ch Hh) as [wh Eh], (W lb Hb) as [wb Eb], (W ln Hn) as [wn En].
  eexists. apply (compress8_vectorized_memory_stated Borrow m p msg cl ch lb ln w (oct_map (fun p => contents m p 64) msg) wl wh wb wn); try assumption.
  intros l. rewrite proj_map. reflexivity.
Qed.
Lemma avx2_exact_loop_ok params inputs blocks : (forall l, length (proj l inputs) = blocks * 64) ->
  forall fuel n w, n < blocks -> blocks <= n + fuel ->
  exists hs, Avx2.hash8_exact_loop fuel params inputs (blocks * 64) w (n * 64) = Ok hs.
Proof.
  intros Hlen. induction fuel as [|fuel IH]; intros n w Hn Hf; [lia|].
  cbn [Avx2.hash8_exact_loop]. change BLOCKBYTES with 64.
  assert (R : forall l, exists b, raw_read (proj l inputs) (n * 64) 64 = Ok b).
  { intros l. eexists. unfold raw_read. rewrite Hlen. replace (n * 64 + 64 <=? blocks * 64) with true; [reflexivity|]. symmetry. apply Nat.leb_le. lia. }
  destruct (R L0) as [? R0], (R L1) as [? R1], (R L2) as [? R2], (R L3) as [? R3], (R L4) as [? R4], (R L5) as [? R5], (R L6) as [? R6], (R L7) as [? R7].
  cbn [proj] in R0, R1, R2, R3, R4, R5, R6, R7. rewrite R0, R1, R2, R3, R4, R5, R6, R7. cbn [bind].
  destruct (Nat.eqb_spec (n * 64 + 64) (blocks * 64)) as [E|E]; cbv zeta.
  - eexists. reflexivity.
  - replace (n * 64 + 64) with (S n * 64) by lia. apply IH; lia.
Qed.
Theorem hash8_exact_borrow m params input n : 0 < n ->
  (forall l, reference m (proj l input) (Array U8 (n * 64)) false) ->
  (forall l, upto (proj l input) = offset (proj l input) + n * 64) ->
  exists hs, hash8_exact Borrow params input (n * 64) m = Ok (hs, m).
Proof.
  intros Hn R U. set (x := oct_map (fun p => contents m p (n * 64)) input).
  assert (L : forall l, length (proj l x) = n * 64).
  { intros l. unfold x. rewrite proj_map. apply (contents_length Borrow). pose proof (reference_within Borrow _ _ _ _ (R l)) as W.
    cbn [size_of] in W. rewrite Nat.mul_1_r in W. exact W. }
  assert (Hx : exists hs, Avx2.hash8_exact params x = Ok hs).
  { unfold Avx2.hash8_exact. cbv zeta. rewrite (L L0 : length (o0 x) = n * 64). apply (avx2_exact_loop_ok params x n L _ 0); lia. }
  destruct Hx as [hs Hx]. exists hs.
  pose proof (hash8_exact_memory_stated Borrow m params input x) as T. rewrite Hx in T. cbn [with_memory bind] in T.
  rewrite (L L0 : length (o0 x) = n * 64) in T. apply T.
  - intros l. rewrite L. apply R.
  - intros l. rewrite L. apply U.
  - intros l. rewrite L. unfold x. rewrite proj_map. reflexivity.
  - left. reflexivity.
Qed.
