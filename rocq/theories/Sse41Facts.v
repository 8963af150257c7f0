(** * Sse41Facts: sse41.rs computes the portable compression. *)
From Verif Require Export Views.
From Verif Require Import Base BaseFacts Consts Portable PortableFacts ScalarRound Intrinsics Sse41.
From Verif Require Import Avx2Facts.
From Coq Require Import ZArith Lia.
Local Open Scope N_scope.

(** ** Lanes *)
Lemma quad_ext {A} (a b : quad A) : (forall l, qproj l a = qproj l b) -> a = b.
Proof.
  destruct a, b; intros H.
  pose proof (H M0); pose proof (H M1); pose proof (H M2); pose proof (H M3).
  cbn in *; congruence.
Qed.

Lemma qproj_map {A B} (f : A -> B) l q : qproj l (quad_map f q) = f (qproj l q).
Proof. destruct l, q; reflexivity. Qed.
Lemma qproj_map2 {A B C} (f : A -> B -> C) l q q' :
  qproj l (quad_map2 f q q') = f (qproj l q) (qproj l q').
Proof. destruct l, q, q'; reflexivity. Qed.

Lemma qproj_add l a b : qproj l (add a b) = wrapping_add (qproj l a) (qproj l b).
Proof. apply qproj_map2. Qed.
Lemma qproj_xor l a b : qproj l (xor a b) = uxor (qproj l a) (qproj l b).
Proof. apply qproj_map2. Qed.
Lemma qproj_rot16 l a : qproj l (rot16 a) = rotate_right (qproj l a) 16.
Proof. rewrite <- rot16_bytes. destruct l, a; cbv -[u32_byte u32_of_bytes]; reflexivity. Qed.
Lemma qproj_rot8 l a : qproj l (rot8 a) = rotate_right (qproj l a) 8.
Proof. rewrite <- rot8_bytes. destruct l, a; cbv -[u32_byte u32_of_bytes]; reflexivity. Qed.
Lemma qproj_rot12 l a : qproj l (rot12 a) = rotate_right (qproj l a) 12.
Proof.
  rewrite <- rot_xor_shifts by discriminate. unfold rot12. rewrite qproj_xor.
  unfold _mm_srli_epi32, _mm_slli_epi32. rewrite !qproj_map. reflexivity.
Qed.
Lemma qproj_rot7 l a : qproj l (rot7 a) = rotate_right (qproj l a) 7.
Proof.
  rewrite <- rot_xor_shifts by discriminate. unfold rot7. rewrite qproj_xor.
  unfold _mm_srli_epi32, _mm_slli_epi32. rewrite !qproj_map. reflexivity.
Qed.
Lemma qproj_set1 l x : qproj l (set1 x) = x.
Proof. destruct l; reflexivity. Qed.

Lemma rot_quad (a : m128) :
  rot16 a = quad_map (fun x => rotate_right x 16) a /\
  rot12 a = quad_map (fun x => rotate_right x 12) a /\
  rot8 a = quad_map (fun x => rotate_right x 8) a /\
  rot7 a = quad_map (fun x => rotate_right x 7) a.
Proof.
  repeat split; apply quad_ext; intro l; rewrite qproj_map;
    [apply qproj_rot16|apply qproj_rot12|apply qproj_rot8|apply qproj_rot7].
Qed.

(** ** The row-based round *)

(** One round, given the four message vectors. *)
Definition gen_round (row1 row2 row3 row4 b1 b2 b3 b4 : m128) : rows :=
  let '(row1, row2, row3, row4) := g1 row1 row2 row3 row4 b1 in
  let '(row1, row2, row3, row4) := g2 row1 row2 row3 row4 b2 in
  let '(row2, row3, row4) := diagonalize row2 row3 row4 in
  let '(row1, row2, row3, row4) := g1 row1 row2 row3 row4 b3 in
  let '(row1, row2, row3, row4) := g2 row1 row2 row3 row4 b4 in
  let '(row2, row3, row4) := undiagonalize row2 row3 row4 in
  (row1, row2, row3, row4).

Definition rows_v (r : rows) : list u32 :=
  let '(a, b, c, d) := r in quad_list a ++ quad_list b ++ quad_list c ++ quad_list d.

(** The message vectors round [r] must use. *)
Definition sched_vec (r : nat) (m : list u32) (a b c d : nat) : m128 :=
  Quad (wget m (sigma r a)) (wget m (sigma r b)) (wget m (sigma r c)) (wget m (sigma r d)).

(** [g1] and [g2] with the rotations on words. *)
Definition g1' (row1 row2 row3 row4 m : m128) : rows :=
  let row1 := add (add row1 m) row2 in
  let row4 := quad_map (fun x => rotate_right x 16) (xor row4 row1) in
  let row3 := add row3 row4 in
  let row2 := quad_map (fun x => rotate_right x 12) (xor row2 row3) in
  (row1, row2, row3, row4).
Definition g2' (row1 row2 row3 row4 m : m128) : rows :=
  let row1 := add (add row1 m) row2 in
  let row4 := quad_map (fun x => rotate_right x 8) (xor row4 row1) in
  let row3 := add row3 row4 in
  let row2 := quad_map (fun x => rotate_right x 7) (xor row2 row3) in
  (row1, row2, row3, row4).
Lemma g1_eq row1 row2 row3 row4 m : g1 row1 row2 row3 row4 m = g1' row1 row2 row3 row4 m.
Proof.
  unfold g1, g1'. cbv zeta. rewrite (proj1 (rot_quad _)).
  rewrite (proj1 (proj2 (rot_quad _))). reflexivity.
Qed.
Lemma g2_eq row1 row2 row3 row4 m : g2 row1 row2 row3 row4 m = g2' row1 row2 row3 row4 m.
Proof.
  unfold g2, g2'. cbv zeta. rewrite (proj1 (proj2 (proj2 (rot_quad _)))).
  rewrite (proj2 (proj2 (proj2 (rot_quad _)))). reflexivity.
Qed.

Definition gen_round' (row1 row2 row3 row4 b1 b2 b3 b4 : m128) : rows :=
  let '(row1, row2, row3, row4) := g1' row1 row2 row3 row4 b1 in
  let '(row1, row2, row3, row4) := g2' row1 row2 row3 row4 b2 in
  let '(row2, row3, row4) := diagonalize row2 row3 row4 in
  let '(row1, row2, row3, row4) := g1' row1 row2 row3 row4 b3 in
  let '(row1, row2, row3, row4) := g2' row1 row2 row3 row4 b4 in
  let '(row2, row3, row4) := undiagonalize row2 row3 row4 in
  (row1, row2, row3, row4).

Lemma gen_round_eq row1 row2 row3 row4 b1 b2 b3 b4 :
  gen_round row1 row2 row3 row4 b1 b2 b3 b4 = gen_round' row1 row2 row3 row4 b1 b2 b3 b4.
Proof.
  unfold gen_round, gen_round'. rewrite g1_eq.
  destruct (g1' row1 row2 row3 row4 b1) as [[[? ?] ?] ?]. rewrite g2_eq.
  destruct (g2' _ _ _ _ b2) as [[[? ?] ?] ?]. destruct (diagonalize _ _ _) as [[? ?] ?]. rewrite g1_eq.
  destruct (g1' _ _ _ _ b3) as [[[? ?] ?] ?]. rewrite g2_eq. reflexivity.
Qed.

Lemma gen_round_ok row1 row2 row3 row4 m r :
  rows_v (gen_round row1 row2 row3 row4 (sched_vec r m 0 2 4 6) (sched_vec r m 1 3 5 7)
                    (sched_vec r m 8 10 12 14) (sched_vec r m 9 11 13 15)) =
  round r m (rows_v (row1, row2, row3, row4)).
Proof.
  rewrite gen_round_eq. cbv beta zeta delta [round]. rewrite !g_g'.
  unfold sched_vec.
  generalize (wget m (sigma r 0)) as x0; intro x0.
  generalize (wget m (sigma r 1)) as x1; intro x1.
  generalize (wget m (sigma r 2)) as x2; intro x2.
  generalize (wget m (sigma r 3)) as x3; intro x3.
  generalize (wget m (sigma r 4)) as x4; intro x4.
  generalize (wget m (sigma r 5)) as x5; intro x5.
  generalize (wget m (sigma r 6)) as x6; intro x6.
  generalize (wget m (sigma r 7)) as x7; intro x7.
  generalize (wget m (sigma r 8)) as x8; intro x8.
  generalize (wget m (sigma r 9)) as x9; intro x9.
  generalize (wget m (sigma r 10)) as x10; intro x10.
  generalize (wget m (sigma r 11)) as x11; intro x11.
  generalize (wget m (sigma r 12)) as x12; intro x12.
  generalize (wget m (sigma r 13)) as x13; intro x13.
  generalize (wget m (sigma r 14)) as x14; intro x14.
  generalize (wget m (sigma r 15)) as x15; intro x15.
  destruct row1, row2, row3, row4.
  cbv -[wrapping_add uxor rotate_right].
  reflexivity.
Qed.

(** ** The ten message schedules *)
Definition m4 (m0 m1 m2 m3 : m128) : list u32 :=
  quad_list m0 ++ quad_list m1 ++ quad_list m2 ++ quad_list m3.

Ltac buf_tac :=
  cbv -[u32_byte u32_of_bytes]; rewrite ?u32_of_bytes_roundtrip; reflexivity.

Lemma compress_round1_ok row1 row2 row3 row4 m0 m1 m2 m3 :
  rows_v (compress_round1 row1 row2 row3 row4 m0 m1 m2 m3) =
  round 0 (m4 m0 m1 m2 m3) (rows_v (row1, row2, row3, row4)).
Proof.
  rewrite <- gen_round_ok.
  assert (H : exists b1 b2 b3 b4,
    compress_round1 row1 row2 row3 row4 m0 m1 m2 m3 = gen_round row1 row2 row3 row4 b1 b2 b3 b4 /\
    b1 = sched_vec 0 (m4 m0 m1 m2 m3) 0 2 4 6 /\ b2 = sched_vec 0 (m4 m0 m1 m2 m3) 1 3 5 7 /\
    b3 = sched_vec 0 (m4 m0 m1 m2 m3) 8 10 12 14 /\ b4 = sched_vec 0 (m4 m0 m1 m2 m3) 9 11 13 15).
  { do 4 eexists. split; [cbv beta zeta delta [compress_round1 gen_round]; reflexivity|].
    destruct m0, m1, m2, m3. repeat split; buf_tac. }
  destruct H as (b1 & b2 & b3 & b4 & -> & -> & -> & -> & ->). reflexivity.
Qed.

Lemma compress_round2_ok row1 row2 row3 row4 m0 m1 m2 m3 :
  rows_v (compress_round2 row1 row2 row3 row4 m0 m1 m2 m3) =
  round 1 (m4 m0 m1 m2 m3) (rows_v (row1, row2, row3, row4)).
Proof.
  rewrite <- gen_round_ok.
  assert (H : exists b1 b2 b3 b4,
    compress_round2 row1 row2 row3 row4 m0 m1 m2 m3 = gen_round row1 row2 row3 row4 b1 b2 b3 b4 /\
    b1 = sched_vec 1 (m4 m0 m1 m2 m3) 0 2 4 6 /\ b2 = sched_vec 1 (m4 m0 m1 m2 m3) 1 3 5 7 /\
    b3 = sched_vec 1 (m4 m0 m1 m2 m3) 8 10 12 14 /\ b4 = sched_vec 1 (m4 m0 m1 m2 m3) 9 11 13 15).
  { do 4 eexists. split; [cbv beta zeta delta [compress_round2 gen_round]; reflexivity|].
    destruct m0, m1, m2, m3. repeat split; buf_tac. }
  destruct H as (b1 & b2 & b3 & b4 & -> & -> & -> & -> & ->). reflexivity.
Qed.

Lemma compress_round3_ok row1 row2 row3 row4 m0 m1 m2 m3 :
  rows_v (compress_round3 row1 row2 row3 row4 m0 m1 m2 m3) =
  round 2 (m4 m0 m1 m2 m3) (rows_v (row1, row2, row3, row4)).
Proof.
  rewrite <- gen_round_ok.
  assert (H : exists b1 b2 b3 b4,
    compress_round3 row1 row2 row3 row4 m0 m1 m2 m3 = gen_round row1 row2 row3 row4 b1 b2 b3 b4 /\
    b1 = sched_vec 2 (m4 m0 m1 m2 m3) 0 2 4 6 /\ b2 = sched_vec 2 (m4 m0 m1 m2 m3) 1 3 5 7 /\
    b3 = sched_vec 2 (m4 m0 m1 m2 m3) 8 10 12 14 /\ b4 = sched_vec 2 (m4 m0 m1 m2 m3) 9 11 13 15).
  { do 4 eexists. split; [cbv beta zeta delta [compress_round3 gen_round]; reflexivity|].
    destruct m0, m1, m2, m3. repeat split; buf_tac. }
  destruct H as (b1 & b2 & b3 & b4 & -> & -> & -> & -> & ->). reflexivity.
Qed.

Lemma compress_round4_ok row1 row2 row3 row4 m0 m1 m2 m3 :
  rows_v (compress_round4 row1 row2 row3 row4 m0 m1 m2 m3) =
  round 3 (m4 m0 m1 m2 m3) (rows_v (row1, row2, row3, row4)).
Proof.
  rewrite <- gen_round_ok.
  assert (H : exists b1 b2 b3 b4,
    compress_round4 row1 row2 row3 row4 m0 m1 m2 m3 = gen_round row1 row2 row3 row4 b1 b2 b3 b4 /\
    b1 = sched_vec 3 (m4 m0 m1 m2 m3) 0 2 4 6 /\ b2 = sched_vec 3 (m4 m0 m1 m2 m3) 1 3 5 7 /\
    b3 = sched_vec 3 (m4 m0 m1 m2 m3) 8 10 12 14 /\ b4 = sched_vec 3 (m4 m0 m1 m2 m3) 9 11 13 15).
  { do 4 eexists. split; [cbv beta zeta delta [compress_round4 gen_round]; reflexivity|].
    destruct m0, m1, m2, m3. repeat split; buf_tac. }
  destruct H as (b1 & b2 & b3 & b4 & -> & -> & -> & -> & ->). reflexivity.
Qed.

Lemma compress_round5_ok row1 row2 row3 row4 m0 m1 m2 m3 :
  rows_v (compress_round5 row1 row2 row3 row4 m0 m1 m2 m3) =
  round 4 (m4 m0 m1 m2 m3) (rows_v (row1, row2, row3, row4)).
Proof.
  rewrite <- gen_round_ok.
  assert (H : exists b1 b2 b3 b4,
    compress_round5 row1 row2 row3 row4 m0 m1 m2 m3 = gen_round row1 row2 row3 row4 b1 b2 b3 b4 /\
    b1 = sched_vec 4 (m4 m0 m1 m2 m3) 0 2 4 6 /\ b2 = sched_vec 4 (m4 m0 m1 m2 m3) 1 3 5 7 /\
    b3 = sched_vec 4 (m4 m0 m1 m2 m3) 8 10 12 14 /\ b4 = sched_vec 4 (m4 m0 m1 m2 m3) 9 11 13 15).
  { do 4 eexists. split; [cbv beta zeta delta [compress_round5 gen_round]; reflexivity|].
    destruct m0, m1, m2, m3. repeat split; buf_tac. }
  destruct H as (b1 & b2 & b3 & b4 & -> & -> & -> & -> & ->). reflexivity.
Qed.

Lemma compress_round6_ok row1 row2 row3 row4 m0 m1 m2 m3 :
  rows_v (compress_round6 row1 row2 row3 row4 m0 m1 m2 m3) =
  round 5 (m4 m0 m1 m2 m3) (rows_v (row1, row2, row3, row4)).
Proof.
  rewrite <- gen_round_ok.
  assert (H : exists b1 b2 b3 b4,
    compress_round6 row1 row2 row3 row4 m0 m1 m2 m3 = gen_round row1 row2 row3 row4 b1 b2 b3 b4 /\
    b1 = sched_vec 5 (m4 m0 m1 m2 m3) 0 2 4 6 /\ b2 = sched_vec 5 (m4 m0 m1 m2 m3) 1 3 5 7 /\
    b3 = sched_vec 5 (m4 m0 m1 m2 m3) 8 10 12 14 /\ b4 = sched_vec 5 (m4 m0 m1 m2 m3) 9 11 13 15).
  { do 4 eexists. split; [cbv beta zeta delta [compress_round6 gen_round]; reflexivity|].
    destruct m0, m1, m2, m3. repeat split; buf_tac. }
  destruct H as (b1 & b2 & b3 & b4 & -> & -> & -> & -> & ->). reflexivity.
Qed.

Lemma compress_round7_ok row1 row2 row3 row4 m0 m1 m2 m3 :
  rows_v (compress_round7 row1 row2 row3 row4 m0 m1 m2 m3) =
  round 6 (m4 m0 m1 m2 m3) (rows_v (row1, row2, row3, row4)).
Proof.
  rewrite <- gen_round_ok.
  assert (H : exists b1 b2 b3 b4,
    compress_round7 row1 row2 row3 row4 m0 m1 m2 m3 = gen_round row1 row2 row3 row4 b1 b2 b3 b4 /\
    b1 = sched_vec 6 (m4 m0 m1 m2 m3) 0 2 4 6 /\ b2 = sched_vec 6 (m4 m0 m1 m2 m3) 1 3 5 7 /\
    b3 = sched_vec 6 (m4 m0 m1 m2 m3) 8 10 12 14 /\ b4 = sched_vec 6 (m4 m0 m1 m2 m3) 9 11 13 15).
  { do 4 eexists. split; [cbv beta zeta delta [compress_round7 gen_round]; reflexivity|].
    destruct m0, m1, m2, m3. repeat split; buf_tac. }
  destruct H as (b1 & b2 & b3 & b4 & -> & -> & -> & -> & ->). reflexivity.
Qed.

Lemma compress_round8_ok row1 row2 row3 row4 m0 m1 m2 m3 :
  rows_v (compress_round8 row1 row2 row3 row4 m0 m1 m2 m3) =
  round 7 (m4 m0 m1 m2 m3) (rows_v (row1, row2, row3, row4)).
Proof.
  rewrite <- gen_round_ok.
  assert (H : exists b1 b2 b3 b4,
    compress_round8 row1 row2 row3 row4 m0 m1 m2 m3 = gen_round row1 row2 row3 row4 b1 b2 b3 b4 /\
    b1 = sched_vec 7 (m4 m0 m1 m2 m3) 0 2 4 6 /\ b2 = sched_vec 7 (m4 m0 m1 m2 m3) 1 3 5 7 /\
    b3 = sched_vec 7 (m4 m0 m1 m2 m3) 8 10 12 14 /\ b4 = sched_vec 7 (m4 m0 m1 m2 m3) 9 11 13 15).
  { do 4 eexists. split; [cbv beta zeta delta [compress_round8 gen_round]; reflexivity|].
    destruct m0, m1, m2, m3. repeat split; buf_tac. }
  destruct H as (b1 & b2 & b3 & b4 & -> & -> & -> & -> & ->). reflexivity.
Qed.

Lemma compress_round9_ok row1 row2 row3 row4 m0 m1 m2 m3 :
  rows_v (compress_round9 row1 row2 row3 row4 m0 m1 m2 m3) =
  round 8 (m4 m0 m1 m2 m3) (rows_v (row1, row2, row3, row4)).
Proof.
  rewrite <- gen_round_ok.
  assert (H : exists b1 b2 b3 b4,
    compress_round9 row1 row2 row3 row4 m0 m1 m2 m3 = gen_round row1 row2 row3 row4 b1 b2 b3 b4 /\
    b1 = sched_vec 8 (m4 m0 m1 m2 m3) 0 2 4 6 /\ b2 = sched_vec 8 (m4 m0 m1 m2 m3) 1 3 5 7 /\
    b3 = sched_vec 8 (m4 m0 m1 m2 m3) 8 10 12 14 /\ b4 = sched_vec 8 (m4 m0 m1 m2 m3) 9 11 13 15).
  { do 4 eexists. split; [cbv beta zeta delta [compress_round9 gen_round]; reflexivity|].
    destruct m0, m1, m2, m3. repeat split; buf_tac. }
  destruct H as (b1 & b2 & b3 & b4 & -> & -> & -> & -> & ->). reflexivity.
Qed.

Lemma compress_round10_ok row1 row2 row3 row4 m0 m1 m2 m3 :
  rows_v (compress_round10 row1 row2 row3 row4 m0 m1 m2 m3) =
  round 9 (m4 m0 m1 m2 m3) (rows_v (row1, row2, row3, row4)).
Proof.
  rewrite <- gen_round_ok.
  assert (H : exists b1 b2 b3 b4,
    compress_round10 row1 row2 row3 row4 m0 m1 m2 m3 = gen_round row1 row2 row3 row4 b1 b2 b3 b4 /\
    b1 = sched_vec 9 (m4 m0 m1 m2 m3) 0 2 4 6 /\ b2 = sched_vec 9 (m4 m0 m1 m2 m3) 1 3 5 7 /\
    b3 = sched_vec 9 (m4 m0 m1 m2 m3) 8 10 12 14 /\ b4 = sched_vec 9 (m4 m0 m1 m2 m3) 9 11 13 15).
  { do 4 eexists. split; [cbv beta zeta delta [compress_round10 gen_round]; reflexivity|].
    destruct m0, m1, m2, m3. repeat split; buf_tac. }
  destruct H as (b1 & b2 & b3 & b4 & -> & -> & -> & -> & ->). reflexivity.
Qed.


(** ** The whole compression *)
Lemma loadu_read msg off : (off + 16 <= length msg)%nat ->
  _mm_loadu_si128 msg off =
  Quad (read_u32 msg off) (read_u32 msg (off + 4)) (read_u32 msg (off + 8)) (read_u32 msg (off + 12)).
Proof.
  intros H. unfold _mm_loadu_si128, m128_of_bytes. rewrite !word_at_read by lia.
  rewrite Nat.add_0_r. reflexivity.
Qed.

Opaque round.
Theorem compress_portable_ok h msg count lastblock lastnode : length msg = 64%nat ->
  compress h msg count lastblock lastnode = Portable.compress h msg count lastblock lastnode.
Proof.
  intros Hm. rewrite compress_eq. unfold compress_words.
  cbv beta delta [compress].
  rewrite !loadu_read by lia. cbn [Nat.add].
  set (m0 := Quad (read_u32 msg 0) _ _ _). set (m1 := Quad (read_u32 msg 16) _ _ _).
  set (m2 := Quad (read_u32 msg 32) _ _ _). set (m3 := Quad (read_u32 msg 48) _ _ _).
  assert (Em : sched msg = m4 m0 m1 m2 m3) by reflexivity.
  rewrite Em.
  set (row3 := loadu_lo IV).
  set (row4 := xor (loadu_hi IV) _).
  assert (Ev : init_v h (cast 32 count) (cast 32 (ushr count 32)) lastblock lastnode =
               rows_v (loadu_lo h, loadu_hi h, row3, row4)) by (destruct h; reflexivity).
  rewrite Ev. clear Ev Em. clearbody m0 m1 m2 m3 row3 row4. cbv zeta.
  unfold rounds.
  rewrite <- (compress_round1_ok (loadu_lo h) (loadu_hi h) row3 row4 m0 m1 m2 m3).
  destruct (compress_round1 (loadu_lo h) (loadu_hi h) row3 row4 m0 m1 m2 m3) as [[[r1_1 r2_1] r3_1] r4_1].
  rewrite <- (compress_round2_ok r1_1 r2_1 r3_1 r4_1 m0 m1 m2 m3).
  destruct (compress_round2 r1_1 r2_1 r3_1 r4_1 m0 m1 m2 m3) as [[[r1_2 r2_2] r3_2] r4_2].
  rewrite <- (compress_round3_ok r1_2 r2_2 r3_2 r4_2 m0 m1 m2 m3).
  destruct (compress_round3 r1_2 r2_2 r3_2 r4_2 m0 m1 m2 m3) as [[[r1_3 r2_3] r3_3] r4_3].
  rewrite <- (compress_round4_ok r1_3 r2_3 r3_3 r4_3 m0 m1 m2 m3).
  destruct (compress_round4 r1_3 r2_3 r3_3 r4_3 m0 m1 m2 m3) as [[[r1_4 r2_4] r3_4] r4_4].
  rewrite <- (compress_round5_ok r1_4 r2_4 r3_4 r4_4 m0 m1 m2 m3).
  destruct (compress_round5 r1_4 r2_4 r3_4 r4_4 m0 m1 m2 m3) as [[[r1_5 r2_5] r3_5] r4_5].
  rewrite <- (compress_round6_ok r1_5 r2_5 r3_5 r4_5 m0 m1 m2 m3).
  destruct (compress_round6 r1_5 r2_5 r3_5 r4_5 m0 m1 m2 m3) as [[[r1_6 r2_6] r3_6] r4_6].
  rewrite <- (compress_round7_ok r1_6 r2_6 r3_6 r4_6 m0 m1 m2 m3).
  destruct (compress_round7 r1_6 r2_6 r3_6 r4_6 m0 m1 m2 m3) as [[[r1_7 r2_7] r3_7] r4_7].
  rewrite <- (compress_round8_ok r1_7 r2_7 r3_7 r4_7 m0 m1 m2 m3).
  destruct (compress_round8 r1_7 r2_7 r3_7 r4_7 m0 m1 m2 m3) as [[[r1_8 r2_8] r3_8] r4_8].
  rewrite <- (compress_round9_ok r1_8 r2_8 r3_8 r4_8 m0 m1 m2 m3).
  destruct (compress_round9 r1_8 r2_8 r3_8 r4_8 m0 m1 m2 m3) as [[[r1_9 r2_9] r3_9] r4_9].
  rewrite <- (compress_round10_ok r1_9 r2_9 r3_9 r4_9 m0 m1 m2 m3).
  destruct (compress_round10 r1_9 r2_9 r3_9 r4_9 m0 m1 m2 m3) as [[[r1_10 r2_10] r3_10] r4_10].
  destruct h, r1_10, r2_10, r3_10, r4_10. reflexivity.
Qed.
Transparent round.

(** ** The 4-way code *)
Lemma qproj_vget l v i : qproj l (vget v i) = wget (map (qproj l) v) i.
Proof.
  unfold vget, wget, get. rewrite <- (qproj_set1 l (uzero 32)).
  symmetry; apply (map_nth (qproj l)).
Qed.

Lemma map4_set_add l v k a b : map (qproj l) (set_add v k a b) = s_add (map (qproj l) v) k a b.
Proof. unfold set_add, s_add. rewrite map_upd, qproj_add, !qproj_vget. reflexivity. Qed.
Lemma map4_set_xor l v k a b : map (qproj l) (set_xor v k a b) = s_xor (map (qproj l) v) k a b.
Proof. unfold set_xor, s_xor. rewrite map_upd, qproj_xor, !qproj_vget. reflexivity. Qed.
Lemma map4_set_rot16 l v k a : map (qproj l) (set_rot16 v k a) = s_rot16 (map (qproj l) v) k a.
Proof. unfold set_rot16, s_rot16. rewrite map_upd, qproj_rot16, !qproj_vget. reflexivity. Qed.
Lemma map4_set_rot12 l v k a : map (qproj l) (set_rot12 v k a) = s_rot12 (map (qproj l) v) k a.
Proof. unfold set_rot12, s_rot12. rewrite map_upd, qproj_rot12, !qproj_vget. reflexivity. Qed.
Lemma map4_set_rot8 l v k a : map (qproj l) (set_rot8 v k a) = s_rot8 (map (qproj l) v) k a.
Proof. unfold set_rot8, s_rot8. rewrite map_upd, qproj_rot8, !qproj_vget. reflexivity. Qed.
Lemma map4_set_rot7 l v k a : map (qproj l) (set_rot7 v k a) = s_rot7 (map (qproj l) v) k a.
Proof. unfold set_rot7, s_rot7. rewrite map_upd, qproj_rot7, !qproj_vget. reflexivity. Qed.
Lemma map4_set_addm l v m k a b :
  map (qproj l) (set_addm v m k a b) = s_addm (map (qproj l) v) (map (qproj l) m) k a b.
Proof. unfold set_addm, s_addm, s_addx. rewrite map_upd, qproj_add, !qproj_vget. reflexivity. Qed.

Lemma map4_round l v m r : length v = 16%nat ->
  map (qproj l) (round_4 v m r) = round r (map (qproj l) m) (map (qproj l) v).
Proof.
  intros Hl. rewrite <- s_round_ok by (rewrite map_length; exact Hl). clear Hl.
  cbv beta delta [round_4 s_round].
  repeat match goal with
  | |- map (qproj l) (let v := ?e in @?k v) = (let w := ?e' in @?k' w) =>
      let H := fresh in
      assert (H : e' = map (qproj l) e)
        by (symmetry; lazymatch e with
            | set_rot7 _ _ _ => exact (map4_set_rot7 _ _ _ _)
            | set_rot8 _ _ _ => exact (map4_set_rot8 _ _ _ _)
            | set_rot12 _ _ _ => exact (map4_set_rot12 _ _ _ _)
            | set_rot16 _ _ _ => exact (map4_set_rot16 _ _ _ _)
            | set_xor _ _ _ _ => exact (map4_set_xor _ _ _ _ _)
            | set_add _ _ _ _ => exact (map4_set_add _ _ _ _ _)
            | set_addm _ _ _ _ _ => exact (map4_set_addm _ _ _ _ _ _)
            end);
      change (map (qproj l) (k e) = k' e'); rewrite H; clear H; generalize e; cbv beta;
      clear v; intro v
  end.
  reflexivity.
Qed.

Lemma round_4_length v m r : length (round_4 v m r) = length v.
Proof.
  cbv beta delta [round_4].
  repeat match goal with
  | |- length (let v := ?e in @?k v) = length ?w =>
      let H := fresh in
      assert (H : length e = length w) by apply upd_length;
      rewrite <- H; clear H; change (length (k e) = length e); generalize e; cbv beta;
      clear v; intro v
  end.
  reflexivity.
Qed.

Lemma transpose4_spec a b c d :
  forall l k, qproj l (qproj k (transpose_vecs a b c d)) = qproj k (qproj l (Quad a b c d)).
Proof. destruct a, b, c, d. intros l k. destruct l, k; reflexivity. Qed.

Lemma transpose_message_spec a b c d l :
  (forall k, length (qproj k (Quad a b c d)) = 64%nat) ->
  map (qproj l) (transpose_message_blocks a b c d) = sched (qproj l (Quad a b c d)).
Proof.
  intros H. pose proof (H M0) as Ha; pose proof (H M1) as Hb; pose proof (H M2) as Hc;
  pose proof (H M3) as Hd. cbn [qproj q0 q1 q2 q3] in *.
  unfold transpose_message_blocks, loadu_4. rewrite !loadu_read by lia. cbn [Nat.add].
  destruct l; reflexivity.
Qed.

Lemma compress4_transposed_lane h_vecs a b c d lo hi lb ln l :
  (forall k, length (qproj k (Quad a b c d)) = 64%nat) ->
  qlane_state (compress4_transposed h_vecs a b c d lo hi lb ln) l =
  compress_words (qlane_state h_vecs l) (qproj l (Quad a b c d))
                 (qproj l lo) (qproj l hi) (qproj l lb) (qproj l ln).
Proof.
  intros Hlen. unfold compress_words. rewrite <- (transpose_message_spec a b c d l Hlen).
  unfold compress4_transposed.
  set (v0 := [o0 h_vecs; _; _; _; _; _; _; _; _; _; _; _; _; _; _; _]).
  assert (Ev0 : map (qproj l) v0 =
     init_v (qlane_state h_vecs l) (qproj l lo) (qproj l hi) (qproj l lb) (qproj l ln)).
  { subst v0. cbn [map]. rewrite !qproj_xor, !qproj_set1. destruct h_vecs; reflexivity. }
  assert (Hl0 : length v0 = 16%nat) by reflexivity.
  clearbody v0. generalize (transpose_message_blocks a b c d). intro mv. cbv zeta. unfold rounds.
  rewrite <- Ev0.
  rewrite <- !map4_round by (rewrite ?round_4_length; exact Hl0).
  generalize (round_4 (round_4 (round_4 (round_4 (round_4 (round_4 (round_4 (round_4 (round_4
               (round_4 v0 mv 0) mv 1) mv 2) mv 3) mv 4) mv 5) mv 6) mv 7) mv 8) mv 9). intro v.
  unfold qlane_state at 1, feed_forward. cbn [oct_map].
  rewrite !qproj_xor, !qproj_vget, !uxor_assoc.
  unfold qlane_state. destruct h_vecs; reflexivity.
Qed.
