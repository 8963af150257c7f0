(** * AddressFacts: which addresses the unsafe code accesses. *)
From Verif Require Import Base BaseFacts Consts Intrinsics Portable Params Memory MemoryFacts Addresses.
From Verif Require Sse41 Avx2.
From Coq Require Import Lia.
Local Open Scope nat_scope.

(** ** The results are those of [Memory] *)
Definition erases {A} (x : tcode A) (y : code A) : Prop := forall m, snd (x m) = y m.
Lemma erases_bind {A B} (x : tcode A) y (f : A -> tcode B) g :
  erases x y -> (forall a, erases (f a) (g a)) -> erases (andthen_t x f) (andthen y g).
Proof.
  intros Hx Hf m. unfold andthen_t, andthen. rewrite <- (Hx m). destruct (x m) as [l [[a m1]| | |]]; cbn [snd bind]; try reflexivity.
  rewrite <- (Hf a m1). destruct (f a m1). reflexivity.
Qed.
Lemma erases_give {A} (a : A) : erases (give_t a) (give a).
Proof. intros m. reflexivity. Qed.
Lemma erases_check b : erases (check_t b) (check b).
Proof. intros m. reflexivity. Qed.
Lemma erases_body {A} (x : tcode A) y : erases x y -> erases (body_t x) (body y).
Proof. intros H m. unfold body_t, body. rewrite <- H. destruct (x m). reflexivity. Qed.
Lemma erases_if {A} (b : bool) (x x' : tcode A) y y' : erases x y -> erases x' y' ->
  erases (if b then x else x') (if b then y else y').
Proof. destruct b; auto. Qed.
Create HintDb erasing.
Ltac erase := intros; repeat lazymatch goal with
  | |- erases (andthen_t _ _) _ => apply erases_bind; [|intros ?]
  | |- erases (give_t _) _ => apply erases_give
  | |- erases (check_t _) _ => apply erases_check
  | |- erases (body_t _) _ => apply erases_body
  | |- erases (if ?b then _ else _) _ => apply erases_if
  | |- erases (let x := ?v in @?f x) (let y := _ in @?g y) => change (erases (f v) (g v)); generalize v; intros ?; cbv beta
  | |- erases (match ?p with Quad _ _ _ _ => _ end) _ => destruct p
  | |- erases (match ?p with (_, _) => _ end) _ => destruct p
  | |- erases (fun _ => _) _ => intros m; reflexivity
  | |- erases _ _ => solve [auto with erasing nocore]
  end.
Lemma erases_ptr_add t p n : erases (ptr_add_t t p n) (ptr_add t p n).
Proof. cbv beta delta [ptr_add_t ptr_add]. erase. Qed.
Lemma erases_reborrow r mu t p : erases (reborrow_t r mu t p) (reborrow r mu t p).
Proof. cbv beta delta [reborrow_t reborrow]. erase. Qed.
#[global] Hint Resolve erases_ptr_add erases_reborrow : erasing.
Lemma erases_element r mu t p i : erases (element_t r mu t p i) (element r mu t p i).
Proof. cbv beta delta [element_t element]. erase. Qed.
Lemma erases_read_unaligned r p n : erases (read_unaligned_t r p n) (read_unaligned r p n).
Proof. cbv beta delta [read_unaligned_t read_unaligned]. erase. Qed.
Lemma erases_write_unaligned r p bs : erases (write_unaligned_t r p bs) (write_unaligned r p bs).
Proof. cbv beta delta [write_unaligned_t write_unaligned]. erase. Qed.
#[global] Hint Resolve erases_element erases_read_unaligned erases_write_unaligned : erasing.
Lemma erases_read r t p : erases (read_t r t p) (read r t p).
Proof. cbv beta delta [read_t read]. erase. Qed.
Lemma erases_write r t p bs : erases (write_t r t p bs) (write r t p bs).
Proof. cbv beta delta [write_t write]. erase. Qed.
Lemma erases_local a bs : erases (local_t a bs) (local a bs).
Proof. intros m. reflexivity. Qed.
Lemma erases_loadu r p : erases (loadu_t r p) (loadu r p).
Proof. cbv beta delta [loadu_t loadu _mm_loadu_t _mm_loadu]. erase. Qed.
Lemma erases_mm_loadu r p : erases (_mm_loadu_t r p) (_mm_loadu r p).
Proof. exact (erases_loadu r p). Qed.
Lemma erases_storeu r p x : erases (storeu_t r p x) (storeu r p x).
Proof. cbv beta delta [storeu_t storeu _mm_storeu_t _mm_storeu]. erase. Qed.
Lemma erases_loadu256 r p : erases (loadu256_t r p) (loadu256 r p).
Proof. cbv beta delta [loadu256_t loadu256 _mm256_loadu_t _mm256_loadu]. erase. Qed.
Lemma erases_mm256_loadu r p : erases (_mm256_loadu_t r p) (_mm256_loadu r p).
Proof. exact (erases_loadu256 r p). Qed.
#[global] Hint Resolve erases_read erases_write erases_local erases_loadu erases_mm_loadu erases_storeu erases_loadu256 erases_mm256_loadu : erasing.
Theorem erases_compress r iv h msg count lastblock lastnode :
  erases (compress_t r iv h msg count lastblock lastnode) (compress r iv h msg count lastblock lastnode).
Proof. cbv beta delta [compress_t compress]. erase. Qed.
Lemma erases_loadu_4 r p : erases (loadu_4_t r p) (loadu_4 r p).
Proof. cbv beta delta [loadu_4_t loadu_4]. erase. Qed.
#[global] Hint Resolve erases_loadu_4 : erasing.
Lemma erases_transpose_message_blocks r a b c d : erases (transpose_message_blocks_t r a b c d) (transpose_message_blocks r a b c d).
Proof. cbv beta delta [transpose_message_blocks_t transpose_message_blocks]. erase. Qed.
#[global] Hint Resolve erases_transpose_message_blocks : erasing.
Lemma erases_compress4_transposed r h a b c d x y z w :
  erases (compress4_transposed_t r h a b c d x y z w) (compress4_transposed r h a b c d x y z w).
Proof. cbv beta delta [compress4_transposed_t compress4_transposed]. erase. Qed.
Lemma erases_export_hashes r places h n : erases (export_hashes_t r places h n) (export_hashes r places h n).
Proof. cbv beta delta [export_hashes_t export_hashes]. erase. Qed.
Lemma erases_block_at r p n : erases (block_at_t r p n) (block_at r p n).
Proof. cbv beta delta [block_at_t block_at]. erase. Qed.
#[global] Hint Resolve erases_compress4_transposed erases_export_hashes erases_block_at : erasing.
Lemma erases_hash4_exact_loop fuel : forall r places params i0 i1 i2 i3 len h count,
  erases (hash4_exact_loop_t fuel r places params i0 i1 i2 i3 len h count)
         (hash4_exact_loop fuel r places params i0 i1 i2 i3 len h count).
Proof. induction fuel as [|f IH]; intros; cbn [hash4_exact_loop_t hash4_exact_loop]; [intros m; reflexivity|]. erase. Qed.
Theorem erases_hash4_exact r places params i0 i1 i2 i3 len :
  erases (hash4_exact_t r places params i0 i1 i2 i3 len) (hash4_exact r places params i0 i1 i2 i3 len).
Proof. apply erases_hash4_exact_loop. Qed.
Lemma erases_load_2x256 r p : erases (load_2x256_t r p) (load_2x256 r p).
Proof. cbv beta delta [load_2x256_t load_2x256]. erase. Qed.
#[global] Hint Resolve erases_load_2x256 : erasing.
Lemma erases_load_msg_vecs_interleave r msg : erases (load_msg_vecs_interleave_t r msg) (load_msg_vecs_interleave r msg).
Proof. cbv beta delta [load_msg_vecs_interleave_t load_msg_vecs_interleave]. erase. Qed.
Lemma erases_vec_get r p i : erases (vec_get_t r p i) (vec_get r p i).
Proof. cbv beta delta [vec_get_t vec_get]. erase. Qed.
Lemma erases_vec_set r p i x : erases (vec_set_t r p i x) (vec_set r p i x).
Proof. cbv beta delta [vec_set_t vec_set]. erase. Qed.
#[global] Hint Resolve erases_load_msg_vecs_interleave erases_vec_get erases_vec_set : erasing.
Lemma erases_vecs_get r p : erases (vecs_get_t r p) (vecs_get r p).
Proof. cbv beta delta [vecs_get_t vecs_get]. erase. Qed.
#[global] Hint Resolve erases_vecs_get : erasing.
Lemma erases_compress8_transposed r p v x y z w :
  erases (compress8_transposed_t r p v x y z w) (compress8_transposed r p v x y z w).
Proof.
  cbv beta delta [compress8_transposed_t compress8_transposed]. apply erases_bind; [erase|intros h].
  set (u := rounds8 h v x y z w). clearbody u. cbv zeta. erase.
Qed.
#[global] Hint Resolve erases_compress8_transposed : erasing.
Theorem erases_vectorize_words8 r p : erases (vectorize_words8_t r p) (vectorize_words8 r p).
Proof. cbv beta delta [vectorize_words8_t vectorize_words8]. erase. Qed.
Theorem erases_compress8_vectorized r p msg a b c d :
  erases (compress8_vectorized_t r p msg a b c d) (compress8_vectorized r p msg a b c d).
Proof. cbv beta delta [compress8_vectorized_t compress8_vectorized]. erase. Qed.
Theorem erases_compress8 r h msg count lastblock lastnode :
  erases (compress8_t r h msg count lastblock lastnode) (compress8 r h msg count lastblock lastnode).
Proof. cbv beta delta [compress8_t compress8]. erase. Qed.
Lemma erases_hash8_exact_loop fuel : forall r params input len h count,
  erases (hash8_exact_loop_t fuel r params input len h count) (hash8_exact_loop fuel r params input len h count).
Proof. induction fuel as [|f IH]; intros; cbn [hash8_exact_loop_t hash8_exact_loop]; [intros m; reflexivity|]. erase. Qed.
Theorem erases_hash8_exact r params input len : erases (hash8_exact_t r params input len) (hash8_exact r params input len).
Proof. apply erases_hash8_exact_loop. Qed.

(** ** The accesses

    [tells x s l s' Q]: in a memory with objects at the addresses [s], if [x] succeeds then
    it makes the accesses [l], leaves objects at [s'], and its result satisfies [Q]. *)
Definition spot (s : list N) (p : pointer) (k : nat) : N :=
  match nth_error s (alloc p) with None => 0 | Some a => a + N.of_nat (offset p) end%N + N.of_nat k.
Definition tells {A} (x : tcode A) (s : list N) (l : list access) (s' : list N) (Q : A -> Prop) : Prop :=
  forall m a m', map address m = s -> snd (x m) = Ok (a, m') -> fst (x m) = l /\ map address m' = s' /\ Q a.
Lemma spot_place m p k : spot (map address m) p k = (place m p + N.of_nat k)%N.
Proof. unfold spot, place. rewrite nth_error_map. destruct (nth_error m (alloc p)); reflexivity. Qed.
Lemma tells_bind {A B} (x : tcode A) (f : A -> tcode B) s l s1 Q l2 s2 R : tells x s l s1 Q ->
  (forall a, Q a -> tells (f a) s1 l2 s2 R) -> tells (andthen_t x f) s (l ++ l2) s2 R.
Proof.
  intros Hx Hf m b m' Hm H. unfold andthen_t in *. destruct (x m) as [l1 [[a m1]| | |]] eqn:E; try discriminate H.
  destruct (Hx m a m1 Hm) as (L & S & HQ); [rewrite E; reflexivity|]. rewrite E in L. cbn [fst] in L.
  specialize (Hf a HQ m1 b m' S). destruct (f a m1) as [l' o]. cbn [fst snd] in *. destruct (Hf H) as (L' & S' & HR).
  subst. auto.
Qed.
Lemma tells_bind0 {A B} (x : tcode A) (f : A -> tcode B) s s1 Q l2 s2 R : tells x s [] s1 Q ->
  (forall a, Q a -> tells (f a) s1 l2 s2 R) -> tells (andthen_t x f) s l2 s2 R.
Proof. exact (tells_bind x f s [] s1 Q l2 s2 R). Qed.
Lemma tells_give {A} (a : A) s (Q : A -> Prop) : Q a -> tells (give_t a) s [] s Q.
Proof. intros HQ m b m' Hm E. cbn in E. injection E as <- <-. auto. Qed.
Lemma tells_check b s : tells (check_t b) s [] s (fun _ => True).
Proof. intros m a m' Hm. unfold check_t. cbn [fst snd]. destruct (b m); [|discriminate]. intros E. injection E as <- <-. auto. Qed.
Lemma tells_list {A} (x : tcode A) s l l' s' Q : l = l' -> tells x s l s' Q -> tells x s l' s' Q.
Proof. intros ->. auto. Qed.
(** [q] points [k] bytes after [p]. *)
Definition after (p : pointer) (k : nat) (q : pointer) : Prop := alloc q = alloc p /\ offset q = offset p + k.
Lemma spot_after s p k q j : after p k q -> alloc p < length s -> spot s q j = spot s p (k + j).
Proof.
  intros (Ha & Ho) L. unfold spot. rewrite Ha, Ho. apply nth_error_Some in L. destruct (nth_error s (alloc p)) as [a|]; [lia|contradiction].
Qed.
Lemma after_trans p k q j t : after p k q -> after q j t -> after p (k + j) t.
Proof. unfold after. intros (-> & ->) (-> & ->). split; [reflexivity|lia]. Qed.
Lemma after_refl p : after p 0 p.
Proof. split; [reflexivity|lia]. Qed.
Lemma tells_ptr_add t p n s : tells (ptr_add_t t p n) s [] s (after p (n * size_of t)).
Proof.
  unfold ptr_add_t. eapply tells_bind0; [apply tells_check|]. intros _ _. apply tells_give. split; reflexivity.
Qed.
Lemma tells_reborrow r mu t p s : tells (reborrow_t r mu t p) s [] s (after p 0).
Proof.
  unfold reborrow_t. eapply tells_bind0; [apply tells_check|]. intros _ _. apply tells_give. split; cbn; lia.
Qed.
Lemma tells_element r mu t p i s : tells (element_t r mu t p i) s [] s (after p (i * size_of t)).
Proof.
  unfold element_t. eapply tells_bind0; [apply tells_ptr_add|]. intros q Hq. cbv beta in Hq.
  intros m a m' Hm E. destruct (tells_reborrow r mu t q s m a m' Hm E) as (L & S & (H1 & H2)).
  split; [exact L|]. split; [exact S|]. destruct Hq as (H3 & H4). split; [congruence|lia].
Qed.
Lemma tells_read_unaligned r p n s : tells (read_unaligned_t r p n) s [mk_access Read (spot s p 0) n] s (fun _ => True).
Proof.
  unfold read_unaligned_t. eapply tells_bind0; [apply tells_check|]. intros _ _ m a m' Hm E. cbn [fst snd] in *.
  injection E as <- <-. rewrite <- Hm, spot_place, N.add_0_r. auto.
Qed.
Lemma tells_write_unaligned r p bs s :
  tells (write_unaligned_t r p bs) s [mk_access Write (spot s p 0) (length bs)] s (fun _ => True).
Proof.
  unfold write_unaligned_t. eapply tells_bind0; [apply tells_check|]. intros _ _ m a m' Hm E. cbn [fst snd] in *.
  injection E as <- <-. rewrite <- Hm, spot_place, N.add_0_r. split; [reflexivity|]. split; [|exact I].
  unfold stored. destruct (nth_error m (alloc p)) as [o|] eqn:En; [|reflexivity].
  clear - En. revert En. generalize (alloc p) as i. induction m as [|x m IH]; intros [|i] H; try discriminate H; cbn in *.
  - injection H as ->. reflexivity.
  - f_equal. apply IH. exact H.
Qed.
Lemma tells_read r t p s : tells (read_t r t p) s [mk_access Read (spot s p 0) (size_of t)] s (fun _ => True).
Proof. unfold read_t. eapply tells_bind0; [apply tells_check|]. intros _ _. apply tells_read_unaligned. Qed.
Lemma tells_write r t p bs s : tells (write_t r t p bs) s [mk_access Write (spot s p 0) (length bs)] s (fun _ => True).
Proof. unfold write_t. eapply tells_bind0; [apply tells_check|]. intros _ _. apply tells_write_unaligned. Qed.
Lemma tells_any {A} (x : tcode A) s l s' (Q R : A -> Prop) : (forall a, Q a -> R a) -> tells x s l s' Q -> tells x s l s' R.
Proof. intros H Hx m a m' Hm E. destruct (Hx m a m' Hm E) as (? & ? & ?). auto. Qed.

(** *** Loads and stores, relative to where the routine's argument points *)
Lemma tells_loadu r p k q s : after p k q -> alloc p < length s ->
  tells (loadu_t r q) s [mk_access Read (spot s p k) 16] s (fun _ => True).
Proof.
  intros Ha L. unfold loadu_t, _mm_loadu_t. eapply (tells_bind _ _ _ [_] _ _ []); [eapply tells_list; [|apply tells_read_unaligned]|intros ? _; apply tells_give, I].
  rewrite (spot_after s p k q 0 Ha L), Nat.add_0_r. reflexivity.
Qed.
Lemma tells_storeu r p k q x s : after p k q -> alloc p < length s ->
  tells (storeu_t r q x) s [mk_access Write (spot s p k) 16] s (fun _ => True).
Proof.
  intros Ha L. unfold storeu_t, _mm_storeu_t. eapply tells_list; [|apply tells_write_unaligned].
  rewrite (spot_after s p k q 0 Ha L), Nat.add_0_r, m128_bytes_length. reflexivity.
Qed.
Lemma tells_loadu256 r p k q s : after p k q -> alloc p < length s ->
  tells (loadu256_t r q) s [mk_access Read (spot s p k) 32] s (fun _ => True).
Proof.
  intros Ha L. unfold loadu256_t, _mm256_loadu_t. eapply (tells_bind _ _ _ [_] _ _ []); [eapply tells_list; [|apply tells_read_unaligned]|intros ? _; apply tells_give, I].
  rewrite (spot_after s p k q 0 Ha L), Nat.add_0_r. reflexivity.
Qed.
Lemma tells_read_after r t p k q s : after p k q -> alloc p < length s ->
  tells (read_t r t q) s [mk_access Read (spot s p k) (size_of t)] s (fun _ => True).
Proof. intros Ha L. eapply tells_list; [|apply tells_read]. rewrite (spot_after s p k q 0 Ha L), Nat.add_0_r. reflexivity. Qed.
Lemma tells_write_after r t p k q bs n s : after p k q -> alloc p < length s -> length bs = n ->
  tells (write_t r t q bs) s [mk_access Write (spot s p k) n] s (fun _ => True).
Proof. intros Ha L <-. eapply tells_list; [|apply tells_write]. rewrite (spot_after s p k q 0 Ha L), Nat.add_0_r. reflexivity. Qed.
Lemma tells_vec_get r p k q i s : after p k q -> alloc p < length s ->
  tells (vec_get_t r q i) s [mk_access Read (spot s p (k + i * 32)) 32] s (fun _ => True).
Proof.
  intros Ha L. unfold vec_get_t. eapply (tells_bind _ _ _ [] _ _ [_]); [apply tells_ptr_add|]. intros t Ht. cbv beta in Ht.
  eapply (tells_bind _ _ _ [_] _ _ []); [apply (tells_read_after r M256 p _ t s (after_trans _ _ _ _ _ Ha Ht) L)|]. intros ? _. apply tells_give, I.
Qed.
Lemma tells_vec_set r p k q i x s : after p k q -> alloc p < length s ->
  tells (vec_set_t r q i x) s [mk_access Write (spot s p (k + i * 32)) 32] s (fun _ => True).
Proof.
  intros Ha L. unfold vec_set_t. eapply (tells_bind _ _ _ [] _ _ [_]); [apply tells_ptr_add|]. intros t Ht. cbv beta in Ht.
  apply (tells_write_after r M256 p _ t _ 32 s (after_trans _ _ _ _ _ Ha Ht) L). apply m256_bytes_length.
Qed.
Ltac behind := first [eassumption|eapply after_trans; eassumption|apply after_refl].
Ltac tell1 := first
  [apply tells_ptr_add|apply tells_element|apply tells_reborrow
  |eapply tells_loadu; [behind|assumption]|eapply tells_storeu; [behind|assumption]
  |eapply tells_loadu256; [behind|assumption]|eapply tells_vec_get; [behind|assumption]|eapply tells_vec_set; [behind|assumption]
  |eapply tells_read_after; [behind|assumption]|eapply tells_write_after; [behind|assumption|apply m256_bytes_length]
  |apply tells_give; exact I].
Ltac tell := repeat lazymatch goal with
  | |- tells (andthen_t _ _) _ _ _ _ => eapply tells_bind; [tell1|intros ? ?; cbv beta in *]
  | |- tells (let x := ?v in @?f x) ?s ?l ?s' ?Q => change (tells (f v) s l s' Q); generalize v; intros ?; cbv beta
  | |- tells (match ?p with (_, _) => _ end) _ _ _ _ => destruct p
  | |- tells (match ?p with Quad _ _ _ _ => _ end) _ _ _ _ => destruct p
  | |- tells _ _ _ _ _ => tell1
  end.
Lemma tells_compress r iv h msg count lastblock lastnode s :
  alloc iv < length s -> alloc h < length s -> alloc msg < length s ->
  tells (compress_t r iv h msg count lastblock lastnode) s
    [mk_access Read (spot s h 0) 16; mk_access Read (spot s h 16) 16;
     mk_access Read (spot s iv 0) 16; mk_access Read (spot s iv 16) 16;
     mk_access Read (spot s msg 0) 16; mk_access Read (spot s msg 16) 16;
     mk_access Read (spot s msg 32) 16; mk_access Read (spot s msg 48) 16;
     mk_access Read (spot s h 0) 16; mk_access Write (spot s h 0) 16;
     mk_access Read (spot s h 16) 16; mk_access Write (spot s h 16) 16] s (fun _ => True).
Proof.
  intros Li Lh Lm. eapply tells_list; cycle 1.
  - cbv beta delta [compress_t]. tell.
  - reflexivity.
Qed.
Definition chunks (s : list N) (p : pointer) (k : nat) : list access :=
  [mk_access Read (spot s p k) 16; mk_access Read (spot s p (k + 16)) 16;
   mk_access Read (spot s p (k + 32)) 16; mk_access Read (spot s p (k + 48)) 16].
Lemma tells_loadu_4 r p k q s : after p k q -> alloc p < length s ->
  tells (loadu_4_t r q) s (chunks s p k) s (fun _ => True).
Proof.
  intros Ha L. eapply tells_list; cycle 1.
  - unfold loadu_4_t. do 4 (eapply tells_bind; [apply tells_ptr_add|intros ? ?; cbv beta in *]; eapply tells_bind; [|intros ? _]; [eapply tells_loadu; [eapply after_trans; [exact Ha|eassumption]|exact L]|]).
    apply tells_give, I.
  - unfold chunks. cbn [size_of Nat.mul Nat.add]. rewrite Nat.add_0_r. reflexivity.
Qed.
Lemma tells_compress4_transposed r h k p0 p1 p2 p3 q0 q1 q2 q3 a b c d s :
  after p0 k q0 -> after p1 k q1 -> after p2 k q2 -> after p3 k q3 ->
  alloc p0 < length s -> alloc p1 < length s -> alloc p2 < length s -> alloc p3 < length s ->
  tells (compress4_transposed_t r h q0 q1 q2 q3 a b c d) s
    (chunks s p0 k ++ chunks s p1 k ++ chunks s p2 k ++ chunks s p3 k) s (fun _ => True).
Proof.
  intros A0 A1 A2 A3 L0 L1 L2 L3. unfold compress4_transposed_t, transpose_message_blocks_t.
  eapply tells_list; cycle 1.
  - eapply tells_bind; [|intros ? _; apply tells_give, I].
    eapply tells_bind; [eapply tells_loadu_4; [exact A0|exact L0]|intros [] _].
    eapply tells_bind; [eapply tells_loadu_4; [exact A1|exact L1]|intros [] _].
    eapply tells_bind; [eapply tells_loadu_4; [exact A2|exact L2]|intros [] _].
    eapply tells_bind; [eapply tells_loadu_4; [exact A3|exact L3]|intros [] _].
    apply (tells_give _ s (fun _ => True)), I.
  - rewrite !app_nil_r. reflexivity.
Qed.
Lemma tells_block_at r p n s : tells (block_at_t r p n) s [] s (after p n).
Proof.
  unfold block_at_t. eapply tells_bind0; [apply tells_ptr_add|]. intros q Hq. cbv beta in Hq. cbn [size_of] in Hq. rewrite Nat.mul_1_r in Hq.
  eapply tells_any; [|apply tells_reborrow]. intros t Ht. cbv beta in Ht. pose proof (after_trans _ _ _ _ _ Hq Ht) as H. rewrite Nat.add_0_r in H. exact H.
Qed.
Lemma tells_local a n s : tells (local_t a (repeat x00 n)) s [] (s ++ [a]) (fun p => alloc p = length s /\ offset p = 0).
Proof.
  intros m p m' Hm E. unfold local_t in *. cbn [fst snd] in *. injection E as <- <-. split; [reflexivity|].
  rewrite map_app, Hm. split; [reflexivity|]. cbn [alloc offset]. rewrite <- Hm, map_length. auto.
Qed.
Lemma tells_body {A} (x : tcode A) s l s' Q : tells x s l (s ++ s') Q -> tells (body_t x) s l s Q.
Proof.
  intros H m a m' Hm E. unfold body_t in *. specialize (H m). destruct (x m) as [l1 [[b m1]| | |]]; cbn [fst snd bind] in *; try discriminate E.
  injection E as -> <-. destruct (H a m1 Hm eq_refl) as (L & S & HQ). split; [exact L|]. split; [|exact HQ].
  rewrite <- firstn_map, S. rewrite <- (map_length address m), Hm, firstn_app, firstn_all, Nat.sub_diag. apply app_nil_r.
Qed.
(** The accesses of [export_hashes] to arrays at [a]: 16 bytes and 16 bytes are written, 32 read. *)
Definition exports (a : quad N) : list access :=
  [mk_access Write (q0 a) 16; mk_access Write (q1 a) 16; mk_access Write (q2 a) 16; mk_access Write (q3 a) 16;
   mk_access Write (q0 a + 16) 16; mk_access Write (q1 a + 16) 16; mk_access Write (q2 a + 16) 16; mk_access Write (q3 a + 16) 16;
   mk_access Read (q0 a) 32; mk_access Read (q1 a) 32; mk_access Read (q2 a) 32; mk_access Read (q3 a) 32].
Lemma spot_local s t a p k : alloc p = length s -> offset p = 0 -> spot (s ++ a :: t) p k = (a + N.of_nat k)%N.
Proof.
  intros Ha Ho. unfold spot. rewrite Ha, Ho, nth_error_app2, Nat.sub_diag by lia. cbn [nth_error]. lia.
Qed.
Lemma tells_export_hashes r a h n s : tells (body_t (export_hashes_t r a h n)) s (exports a) s (fun _ => True).
Proof.
  apply tells_body with [q0 a; q1 a; q2 a; q3 a]. cbv beta delta [export_hashes_t].
  eapply tells_bind0; [apply tells_local|]. intros b0 (A0 & O0).
  eapply tells_bind0; [apply tells_local|]. intros b1 (A1 & O1).
  eapply tells_bind0; [apply tells_local|]. intros b2 (A2 & O2).
  eapply tells_bind0; [apply tells_local|]. intros b3 (A3 & O3).
  rewrite <- !app_assoc. cbn [app]. repeat rewrite app_length in *. cbn [length] in *.
  set (s' := s ++ [q0 a; q1 a; q2 a; q3 a]).
  assert (Hs : length s' = length s + 4) by (unfold s'; rewrite app_length; reflexivity).
  assert (L0 : alloc b0 < length s') by lia. assert (L1 : alloc b1 < length s') by lia.
  assert (L2 : alloc b2 < length s') by lia. assert (L3 : alloc b3 < length s') by lia.
  assert (S0 : forall k, spot s' b0 k = (q0 a + N.of_nat k)%N) by (intros k; apply spot_local; lia).
  assert (S1 : forall k, spot s' b1 k = (q1 a + N.of_nat k)%N).
  { intros k. unfold s'. change (s ++ q0 a :: ?t) with (s ++ [q0 a] ++ t). rewrite app_assoc. apply spot_local; rewrite ?app_length; cbn [length]; lia. }
  assert (S2 : forall k, spot s' b2 k = (q2 a + N.of_nat k)%N).
  { intros k. unfold s'. change [q0 a; q1 a; q2 a; q3 a] with ([q0 a; q1 a] ++ [q2 a; q3 a]). rewrite app_assoc. apply spot_local; rewrite ?app_length; cbn [length]; lia. }
  assert (S3 : forall k, spot s' b3 k = (q3 a + N.of_nat k)%N).
  { intros k. unfold s'. change [q0 a; q1 a; q2 a; q3 a] with ([q0 a; q1 a; q2 a] ++ [q3 a]). rewrite app_assoc. apply spot_local; rewrite ?app_length; cbn [length]; lia. }
  eapply tells_list; cycle 1.
  - tell.
  - cbn [app size_of Nat.mul Nat.add]. unfold exports, OUTBYTES. rewrite !S0, !S1, !S2, !S3. cbn [N.of_nat Pos.of_succ_nat Pos.succ]. rewrite !N.add_0_r. reflexivity.
Qed.
Definition block4 (s : list N) (i0 i1 i2 i3 : pointer) (k : nat) : list access :=
  chunks s i0 k ++ chunks s i1 k ++ chunks s i2 k ++ chunks s i3 k.
Lemma tells_hash4_exact_loop r a params i0 i1 i2 i3 s n :
  alloc i0 < length s -> alloc i1 < length s -> alloc i2 < length s -> alloc i3 < length s ->
  forall fuel d j h, j + d = n -> 0 < d -> d <= fuel ->
  tells (hash4_exact_loop_t fuel r a params i0 i1 i2 i3 (n * 64) h (j * 64)) s
    (flat_map (fun k => block4 s i0 i1 i2 i3 (k * 64)) (seq j d) ++ exports a) s (fun _ => True).
Proof.
  intros L0 L1 L2 L3. induction fuel as [|f IH]; intros d j h Hd Hp Hf; [lia|].
  destruct d as [|d]; [lia|]. cbn [hash4_exact_loop_t seq flat_map].
  eapply tells_bind0; [apply tells_block_at|]. intros b0 A0. cbv beta in A0.
  eapply tells_bind0; [apply tells_block_at|]. intros b1 A1. cbv beta in A1.
  eapply tells_bind0; [apply tells_block_at|]. intros b2 A2. cbv beta in A2.
  eapply tells_bind0; [apply tells_block_at|]. intros b3 A3. cbv beta in A3.
  cbv zeta. unfold BLOCKBYTES.
  rewrite <- app_assoc. eapply tells_bind; [eapply tells_compress4_transposed; eassumption|]. intros h' _.
  replace (j * 64 + 64) with (S j * 64) by lia. destruct (Nat.eqb_spec (S j * 64) (n * 64)) as [E|E].
  - assert (d = 0) as -> by lia. cbn [seq flat_map app]. apply tells_export_hashes.
  - apply IH; lia.
Qed.
Lemma tells_load_2x256 r p k q s : after p k q -> alloc p < length s ->
  tells (load_2x256_t r q) s [mk_access Read (spot s p k) 32; mk_access Read (spot s p (k + 32)) 32] s (fun _ => True).
Proof.
  intros Ha L. unfold load_2x256_t. eapply (tells_bind _ _ _ [_] _ _ [_]); [eapply tells_loadu256; [exact Ha|exact L]|]. intros x _.
  eapply (tells_bind _ _ _ [] _ _ [_]); [apply tells_ptr_add|]. intros t Ht. cbv beta in Ht.
  eapply (tells_bind _ _ _ [_] _ _ []); [eapply (tells_loadu256 r p _ t s (after_trans _ _ _ _ _ Ha Ht) L)|]. intros y _. apply tells_give, I.
Qed.
Definition block8 (s : list N) (p : oct pointer) (k : nat) : list access :=
  flat_map (fun p => [mk_access Read (spot s p k) 32; mk_access Read (spot s p (k + 32)) 32]) (oct_list p).
Definition octall_below (s : list N) (p : oct pointer) : Prop := octall (fun p => alloc p < length s) p.
Lemma tells_load_msg_vecs_interleave r p k q s :
  after (o0 p) k (o0 q) -> after (o1 p) k (o1 q) -> after (o2 p) k (o2 q) -> after (o3 p) k (o3 q) ->
  after (o4 p) k (o4 q) -> after (o5 p) k (o5 q) -> after (o6 p) k (o6 q) -> after (o7 p) k (o7 q) -> octall_below s p ->
  tells (load_msg_vecs_interleave_t r q) s (block8 s p k) s (fun _ => True).
Proof.
  intros A0 A1 A2 A3 A4 A5 A6 A7 (L0 & L1 & L2 & L3 & L4 & L5 & L6 & L7).
  eapply tells_list; cycle 1.
  - cbv beta delta [load_msg_vecs_interleave_t].
    eapply tells_bind; [eapply tells_load_2x256; [exact A0|exact L0]|intros [] _].
    eapply tells_bind; [eapply tells_load_2x256; [exact A1|exact L1]|intros [] _].
    eapply tells_bind; [eapply tells_load_2x256; [exact A2|exact L2]|intros [] _].
    eapply tells_bind; [eapply tells_load_2x256; [exact A3|exact L3]|intros [] _].
    eapply tells_bind; [eapply tells_load_2x256; [exact A4|exact L4]|intros [] _].
    eapply tells_bind; [eapply tells_load_2x256; [exact A5|exact L5]|intros [] _].
    eapply tells_bind; [eapply tells_load_2x256; [exact A6|exact L6]|intros [] _].
    eapply tells_bind; [eapply tells_load_2x256; [exact A7|exact L7]|intros [] _].
    cbv zeta. apply (tells_give _ s (fun _ => True)), I.
  - destruct p. reflexivity.
Qed.
Lemma tells_hash8_exact_loop r params p s n : octall_below s p ->
  forall fuel d j h, j + d = n -> 0 < d -> d <= fuel ->
  tells (hash8_exact_loop_t fuel r params p (n * 64) h (j * 64)) s
    (flat_map (fun k => block8 s p (k * 64)) (seq j d)) s (fun _ => True).
Proof.
  intros L. induction fuel as [|f IH]; intros d j h Hd Hp Hf; [lia|].
  destruct d as [|d]; [lia|]. cbn [hash8_exact_loop_t seq flat_map].
  eapply tells_bind0; [apply tells_block_at|]. intros b0 A0. cbv beta in A0.
  eapply tells_bind0; [apply tells_block_at|]. intros b1 A1. cbv beta in A1.
  eapply tells_bind0; [apply tells_block_at|]. intros b2 A2. cbv beta in A2.
  eapply tells_bind0; [apply tells_block_at|]. intros b3 A3. cbv beta in A3.
  eapply tells_bind0; [apply tells_block_at|]. intros b4 A4. cbv beta in A4.
  eapply tells_bind0; [apply tells_block_at|]. intros b5 A5. cbv beta in A5.
  eapply tells_bind0; [apply tells_block_at|]. intros b6 A6. cbv beta in A6.
  eapply tells_bind0; [apply tells_block_at|]. intros b7 A7. cbv beta in A7.
  cbv zeta. unfold BLOCKBYTES.
  eapply tells_bind; [apply (tells_load_msg_vecs_interleave r p (j * 64)); assumption|]. intros v _.
  replace (j * 64 + 64) with (S j * 64) by lia. destruct (Nat.eqb_spec (S j * 64) (n * 64)) as [E|E].
  - assert (d = 0) as -> by lia. cbn [seq flat_map app]. apply tells_give, I.
  - apply IH; lia.
Qed.
(** Reads of vectors [0..8], writes of them, and both of each in turn. *)
Definition vecs_at (d : direction) (s : list N) (p : pointer) : list access :=
  map (fun i => mk_access d (spot s p (i * 32)) 32) (seq 0 8).
Lemma tells_vecs_get r p q s : after p 0 q -> alloc p < length s ->
  tells (vecs_get_t r q) s (vecs_at Read s p) s (fun _ => True).
Proof.
  intros Ha L. eapply tells_list; cycle 1.
  - cbv beta delta [vecs_get_t]. tell.
  - reflexivity.
Qed.
Lemma tells_vectorize_words8 r p s : alloc p < length s ->
  tells (vectorize_words8_t r p) s (vecs_at Read s p ++ vecs_at Write s p) s (fun _ => True).
Proof.
  intros L. eapply tells_list; cycle 1.
  - cbv beta delta [vectorize_words8_t]. eapply tells_bind; [apply tells_reborrow|intros q Ha; cbv beta in Ha].
    eapply tells_bind; [eapply tells_vecs_get; [exact Ha|exact L]|intros v _]. tell.
  - reflexivity.
Qed.
Lemma tells_compress8_transposed r p q v a b c d s : after p 0 q -> alloc p < length s ->
  tells (compress8_transposed_t r q v a b c d) s
    (vecs_at Read s p ++ flat_map (fun i => [mk_access Read (spot s p (i * 32)) 32; mk_access Write (spot s p (i * 32)) 32]) (seq 0 8))
    s (fun _ => True).
Proof.
  intros Ha L. eapply tells_list; cycle 1.
  - cbv beta delta [compress8_transposed_t]. eapply tells_bind; [eapply tells_vecs_get; [exact Ha|exact L]|intros h _].
    set (u := rounds8 h v a b c d). clearbody u. cbv zeta.
    do 7 (eapply tells_bind; [eapply tells_bind; [tell1|intros ? _; tell1]|intros ? _]).
    eapply tells_bind; [tell1|intros ? _; tell1].
  - reflexivity.
Qed.
Lemma tells_compress8_vectorized r p msg cl ch lb ln s : alloc p < length s -> octall_below s msg ->
  alloc cl < length s -> alloc ch < length s -> alloc lb < length s -> alloc ln < length s ->
  tells (compress8_vectorized_t r p msg cl ch lb ln) s
    (block8 s msg 0 ++ map (fun p => mk_access Read (spot s p 0) 32) [cl; ch; lb; ln] ++
     vecs_at Read s p ++ flat_map (fun i => [mk_access Read (spot s p (i * 32)) 32; mk_access Write (spot s p (i * 32)) 32]) (seq 0 8))
    s (fun _ => True).
Proof.
  intros L Lm L0 L1 L2 L3. eapply tells_list; cycle 1.
  - cbv beta delta [compress8_vectorized_t]. eapply tells_bind; [apply tells_reborrow|intros q Ha; cbv beta in Ha].
    eapply tells_bind; [apply (tells_load_msg_vecs_interleave r msg 0); try apply after_refl; exact Lm|intros v _].
    do 4 (eapply tells_bind; [tell1|intros ? _]). apply (tells_compress8_transposed r p q); assumption.
  - reflexivity.
Qed.
Lemma tells_compress8 r h msg count lastblock lastnode s : octall_below s h -> octall_below s msg ->
  tells (compress8_t r h msg count lastblock lastnode) s
    (map (fun p => mk_access Read (spot s p 0) 32) (oct_list h) ++ block8 s msg 0 ++
     map (fun p => mk_access Write (spot s p 0) 32) (oct_list h)) s (fun _ => True).
Proof.
  intros (L0 & L1 & L2 & L3 & L4 & L5 & L6 & L7) Lm. eapply tells_list; cycle 1.
  - cbv beta delta [compress8_t]. do 8 (eapply tells_bind; [tell1|intros ? _]).
    match goal with |- tells (let x := ?v in @?f x) ?s ?l ?s' ?Q => change (tells (f v) s l s' Q); generalize v; intros ?; cbv beta end.
    match goal with |- tells (let x := ?v in @?f x) ?s ?l ?s' ?Q => change (tells (f v) s l s' Q); generalize v; intros ?; cbv beta end.
    eapply tells_bind; [apply (tells_load_msg_vecs_interleave r msg 0); try apply after_refl; exact Lm|intros v _]. tell.
  - destruct h. reflexivity.
Qed.
