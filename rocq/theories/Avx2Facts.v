(** * Avx2Facts: avx2.rs computes eight independent portable compressions. *)
From Verif Require Export Views.
From Verif Require Import Base BaseFacts Consts Portable PortableFacts ScalarRound Intrinsics Avx2.
From Coq Require Import ZArith Lia.
Local Open Scope N_scope.

(** ** Lanes *)
Lemma oct_ext {A} (a b : oct A) : (forall l, proj l a = proj l b) -> a = b.
Proof.
  destruct a, b; intros H.
  pose proof (H L0); pose proof (H L1); pose proof (H L2); pose proof (H L3);
  pose proof (H L4); pose proof (H L5); pose proof (H L6); pose proof (H L7).
  cbn in *; congruence.
Qed.

Lemma proj_map {A B} (f : A -> B) l o : proj l (oct_map f o) = f (proj l o).
Proof. destruct l, o; reflexivity. Qed.
Lemma proj_map2 {A B C} (f : A -> B -> C) l o o' :
  proj l (oct_map2 f o o') = f (proj l o) (proj l o').
Proof. destruct l, o, o'; reflexivity. Qed.
Lemma proj_const {A} (a : A) l : proj l (oct_const a) = a.
Proof. destruct l; reflexivity. Qed.

Lemma proj_add l a b : proj l (add a b) = wrapping_add (proj l a) (proj l b).
Proof. apply proj_map2. Qed.
Lemma proj_xor l a b : proj l (xor a b) = uxor (proj l a) (proj l b).
Proof. apply proj_map2. Qed.

Lemma proj_rot16 l a : proj l (rot16 a) = rotate_right (proj l a) 16.
Proof.
  rewrite <- rot16_bytes. destruct l, a; cbv -[u32_byte u32_of_bytes]; reflexivity.
Qed.
Lemma proj_rot8 l a : proj l (rot8 a) = rotate_right (proj l a) 8.
Proof.
  rewrite <- rot8_bytes. destruct l, a; cbv -[u32_byte u32_of_bytes]; reflexivity.
Qed.
Lemma proj_rot12 l a : proj l (rot12 a) = rotate_right (proj l a) 12.
Proof.
  rewrite <- rot_or_shifts by discriminate. unfold rot12, _mm256_or_si256.
  rewrite proj_map2. unfold _mm256_srli_epi32, _mm256_slli_epi32. rewrite !proj_map. reflexivity.
Qed.
Lemma proj_rot7 l a : proj l (rot7 a) = rotate_right (proj l a) 7.
Proof.
  rewrite <- rot_or_shifts by discriminate. unfold rot7, _mm256_or_si256.
  rewrite proj_map2. unfold _mm256_srli_epi32, _mm256_slli_epi32. rewrite !proj_map. reflexivity.
Qed.
Lemma proj_set1 l x : proj l (load_256_from_u32 x) = x.
Proof. apply proj_const. Qed.

(** ** The round, lane by lane *)
Lemma proj_vget l v i : proj l (vget v i) = wget (map (proj l) v) i.
Proof.
  unfold vget, wget, get. rewrite <- (proj_set1 l (uzero 32)).
  symmetry; apply (map_nth (proj l)).
Qed.

Lemma map_set_add l v k a b : map (proj l) (set_add v k a b) = s_add (map (proj l) v) k a b.
Proof. unfold set_add, s_add. rewrite map_upd, proj_add, !proj_vget. reflexivity. Qed.
Lemma map_set_addm l v m k a b :
  map (proj l) (set_addm v m k a b) = s_addm (map (proj l) v) (map (proj l) m) k a b.
Proof. unfold set_addm, s_addm, s_addx. rewrite map_upd, proj_add, !proj_vget. reflexivity. Qed.
Lemma map_set_xor l v k a b : map (proj l) (set_xor v k a b) = s_xor (map (proj l) v) k a b.
Proof. unfold set_xor, s_xor. rewrite map_upd, proj_xor, !proj_vget. reflexivity. Qed.
Lemma map_set_rot16 l v k a : map (proj l) (set_rot16 v k a) = s_rot16 (map (proj l) v) k a.
Proof. unfold set_rot16, s_rot16. rewrite map_upd, proj_rot16, !proj_vget. reflexivity. Qed.
Lemma map_set_rot12 l v k a : map (proj l) (set_rot12 v k a) = s_rot12 (map (proj l) v) k a.
Proof. unfold set_rot12, s_rot12. rewrite map_upd, proj_rot12, !proj_vget. reflexivity. Qed.
Lemma map_set_rot8 l v k a : map (proj l) (set_rot8 v k a) = s_rot8 (map (proj l) v) k a.
Proof. unfold set_rot8, s_rot8. rewrite map_upd, proj_rot8, !proj_vget. reflexivity. Qed.
Lemma map_set_rot7 l v k a : map (proj l) (set_rot7 v k a) = s_rot7 (map (proj l) v) k a.
Proof. unfold set_rot7, s_rot7. rewrite map_upd, proj_rot7, !proj_vget. reflexivity. Qed.

Lemma map_round l v m r : length v = 16%nat ->
  map (proj l) (blake2s_round_8x v m r) = round r (map (proj l) m) (map (proj l) v).
Proof.
  intros Hl. rewrite <- s_round_ok by (rewrite map_length; exact Hl). clear Hl.
  cbv beta delta [blake2s_round_8x s_round].
  repeat match goal with
  | |- map (proj l) (let v := ?e in @?k v) = (let w := ?e' in @?k' w) =>
      let H := fresh in
      assert (H : e' = map (proj l) e)
        by (symmetry; lazymatch e with
            | set_rot7 _ _ _ => exact (map_set_rot7 _ _ _ _)
            | set_rot8 _ _ _ => exact (map_set_rot8 _ _ _ _)
            | set_rot12 _ _ _ => exact (map_set_rot12 _ _ _ _)
            | set_rot16 _ _ _ => exact (map_set_rot16 _ _ _ _)
            | set_xor _ _ _ _ => exact (map_set_xor _ _ _ _ _)
            | set_add _ _ _ _ => exact (map_set_add _ _ _ _ _)
            | set_addm _ _ _ _ _ => exact (map_set_addm _ _ _ _ _ _)
            end);
      change (map (proj l) (k e) = k' e'); rewrite H; clear H; generalize e; cbv beta;
      clear v; intro v
  end.
  reflexivity.
Qed.

Lemma round_8x_length v m r : length (blake2s_round_8x v m r) = length v.
Proof.
  cbv beta delta [blake2s_round_8x].
  repeat match goal with
  | |- length (let v := ?e in @?k v) = length ?w =>
      let H := fresh in
      assert (H : length e = length w) by apply upd_length;
      rewrite <- H; clear H; change (length (k e) = length e); generalize e; cbv beta;
      clear v; intro v
  end.
  reflexivity.
Qed.

(** ** Transposition *)
Lemma transpose_spec vecs :
  forall l k, proj l (proj k (transpose_vecs vecs)) = proj k (proj l vecs).
Proof.
  destruct vecs as [a b c d e f g h].
  destruct a, b, c, d, e, f, g, h. intros l k. destruct l, k; reflexivity.
Qed.

Lemma transpose_involutive vecs : transpose_vecs (transpose_vecs vecs) = vecs.
Proof.
  apply oct_ext; intro k. apply oct_ext; intro l. rewrite !transpose_spec. reflexivity.
Qed.

(** ** Message loading *)
Lemma nth_sub {A} (d : A) xs off len i : (i < len)%nat -> nth i (sub xs off len) d = nth (off + i) xs d.
Proof.
  intros Hi. unfold sub. revert xs len i Hi. induction off as [|off IH]; intros xs len i Hi; cbn [skipn].
  - revert len i Hi. induction xs as [|x t IHt]; intros len i Hi.
    + rewrite firstn_nil. destruct i; reflexivity.
    + destruct len as [|len]; [lia|]. destruct i as [|i]; cbn; [reflexivity|]. apply IHt. lia.
  - destruct xs as [|x t]; cbn [skipn Nat.add].
    + rewrite firstn_nil. destruct i; reflexivity.
    + apply IH, Hi.
Qed.

Lemma read_u32_nth bs off : (off + 4 <= length bs)%nat ->
  read_u32 bs off = u32_of_bytes (nth off bs x00) (nth (off + 1) bs x00)
                                 (nth (off + 2) bs x00) (nth (off + 3) bs x00).
Proof.
  intros H. unfold read_u32.
  pose proof (nth_sub x00 bs off 4 0 ltac:(lia)) as E0.
  pose proof (nth_sub x00 bs off 4 1 ltac:(lia)) as E1.
  pose proof (nth_sub x00 bs off 4 2 ltac:(lia)) as E2.
  pose proof (nth_sub x00 bs off 4 3 ltac:(lia)) as E3.
  assert (Hl : length (sub bs off 4) = 4%nat).
  { unfold sub. rewrite firstn_length, skipn_length. lia. }
  destruct (sub bs off 4) as [|b0 [|b1 [|b2 [|b3 [|b4 t]]]]]; try discriminate Hl.
  cbn [nth] in *. rewrite Nat.add_0_r in E0. congruence.
Qed.

Lemma word_at_read msg off len k : (off + len <= length msg)%nat -> (k + 4 <= len)%nat ->
  word_at (sub msg off len) k = read_u32 msg (off + k).
Proof.
  intros H Hk. unfold word_at, bget. rewrite !nth_sub by lia. rewrite read_u32_nth by lia.
  repeat (f_equal; try lia).
Qed.

Lemma load_2x256_spec msg : length msg = 64%nat -> 
  load_2x256 msg = 
  (Oct (read_u32 msg 0) (read_u32 msg 4) (read_u32 msg 8) (read_u32 msg 12)
       (read_u32 msg 16) (read_u32 msg 20) (read_u32 msg 24) (read_u32 msg 28),
   Oct (read_u32 msg 32) (read_u32 msg 36) (read_u32 msg 40) (read_u32 msg 44)
       (read_u32 msg 48) (read_u32 msg 52) (read_u32 msg 56) (read_u32 msg 60)).
Proof.
  intros H. unfold load_2x256, _mm256_loadu_si256, m256_of_bytes.
  rewrite !word_at_read by lia. reflexivity.
Qed.

Definition blocks_ok (msg : oct Block) : Prop := forall l, length (proj l msg) = 64%nat.

Lemma load_msg_spec msg l : blocks_ok msg ->
  map (proj l) (load_msg_vecs_interleave msg) = sched (proj l msg).
Proof.
  intros H. unfold load_msg_vecs_interleave.
  rewrite (load_2x256_spec (o0 msg) (H L0)), (load_2x256_spec (o1 msg) (H L1)),
    (load_2x256_spec (o2 msg) (H L2)), (load_2x256_spec (o3 msg) (H L3)),
    (load_2x256_spec (o4 msg) (H L4)), (load_2x256_spec (o5 msg) (H L5)),
    (load_2x256_spec (o6 msg) (H L6)), (load_2x256_spec (o7 msg) (H L7)).
  destruct msg as [a b c d e f g h]. cbn [o0 o1 o2 o3 o4 o5 o6 o7].
  unfold sched. destruct l; reflexivity.
Qed.

(** ** The compression, lane by lane *)

Lemma lane_state_transpose w l : lane_state (transpose_vecs w) l = proj l w.
Proof.
  unfold lane_state. apply oct_ext; intro k. rewrite proj_map. apply transpose_spec.
Qed.

Lemma compress8_transposed_lane h_vecs msg_vecs lo hi lb ln l :
  lane_state (compress8_transposed h_vecs msg_vecs lo hi lb ln) l =
  feed_forward (lane_state h_vecs l)
    (rounds (map (proj l) msg_vecs)
       (init_v (lane_state h_vecs l) (proj l lo) (proj l hi) (proj l lb) (proj l ln))).
Proof.
  unfold compress8_transposed.
  set (v0 := [o0 h_vecs; _; _; _; _; _; _; _; _; _; _; _; _; _; _; _]).
  assert (Ev0 : map (proj l) v0 =
     init_v (lane_state h_vecs l) (proj l lo) (proj l hi) (proj l lb) (proj l ln)).
  { subst v0. cbn [map]. rewrite !proj_xor, !proj_set1. destruct h_vecs; reflexivity. }
  assert (Hl0 : length v0 = 16%nat) by reflexivity.
  clearbody v0. cbv zeta. unfold rounds.
  rewrite <- Ev0. 
  rewrite <- !map_round by (rewrite ?round_8x_length; exact Hl0).
  generalize (blake2s_round_8x
          (blake2s_round_8x
             (blake2s_round_8x
                (blake2s_round_8x
                   (blake2s_round_8x
                      (blake2s_round_8x
                         (blake2s_round_8x
                            (blake2s_round_8x
                               (blake2s_round_8x (blake2s_round_8x v0 msg_vecs 0) msg_vecs 1)
                               msg_vecs 2) msg_vecs 3) msg_vecs 4) msg_vecs 5) msg_vecs 6) msg_vecs 7)
             msg_vecs 8) msg_vecs 9). intro v.
  unfold lane_state at 1, feed_forward. cbn [oct_map]. rewrite !proj_xor, !proj_vget.
  unfold lane_state. destruct h_vecs; reflexivity.
Qed.

Lemma compress8_transposed_ok h_vecs msg lo hi lb ln l : blocks_ok msg ->
  lane_state (compress8_transposed h_vecs (load_msg_vecs_interleave msg) lo hi lb ln) l =
  compress_words (lane_state h_vecs l) (proj l msg) (proj l lo) (proj l hi) (proj l lb) (proj l ln).
Proof.
  intros H. rewrite compress8_transposed_lane, (load_msg_spec msg l H). reflexivity.
Qed.

Theorem compress8_lane h msg count lb ln l : blocks_ok msg ->
  proj l (compress8 h msg count lb ln) =
  Portable.compress (proj l h) (proj l msg) (proj l count) (proj l lb) (proj l ln).
Proof.
  intros H. rewrite compress_eq. unfold compress8. cbv zeta.
  set (hv := Oct (loadu (o0 h)) _ _ _ _ _ _ _).
  set (r := compress8_transposed _ _ _ _ _ _).
  assert (E : proj l (transpose_vecs r) = lane_state r l).
  { unfold lane_state. apply oct_ext; intro k. rewrite transpose_spec, proj_map. reflexivity. }
  etransitivity; [exact E|]. subst r. rewrite compress8_transposed_ok by exact H.
  rewrite lane_state_transpose.
  assert (Ehv : proj l hv = proj l h) by (destruct l; reflexivity). rewrite Ehv.
  destruct h, msg, count, lb, ln, l; reflexivity.
Qed.

Theorem compress8_portable_ok h msg count lb ln : blocks_ok msg ->
  compress8 h msg count lb ln = Portable.compress8 h msg count lb ln.
Proof.
  intros H. apply oct_ext; intro l. rewrite compress8_lane by exact H. destruct l; reflexivity.
Qed.

Theorem compress8_vectorized_lane w blk lo hi lb ln l : blocks_ok blk ->
  lane_state (compress8_vectorized w blk lo hi lb ln) l =
  Portable.compress (lane_state w l) (proj l blk) (join_count (proj l lo) (proj l hi))
                    (proj l lb) (proj l ln).
Proof.
  intros H. unfold compress8_vectorized. rewrite compress8_transposed_ok by exact H.
  rewrite compress_eq, join_count_lo, join_count_hi. reflexivity.
Qed.
