(** * Property C46: a round loses nothing of the working vector or of the message. *)
From Verif Require Import Base Consts Portable Intrinsics Views Mixing.
From Verif Require Avx2 Sse41.
Local Open Scope N_scope.

(** C46: for a fixed message a round is a permutation of the 16-word vectors; for a fixed
    vector different messages have different results. *)
Theorem C46_round : forall r m, permutes (round r m).
Proof. exact round_permutes. Qed.
Print Assumptions C46_round.
Theorem C46_round_message : forall r m m' v,
  (r < 12)%nat -> length v = 16%nat -> length m = 16%nat -> length m' = 16%nat ->
  round r m v = round r m' v -> m = m'.
Proof. exact round_message. Qed.
Print Assumptions C46_round_message.
(** The same for the rounds on eight and on four vectors at once. *)
Theorem C46_round_8x : forall m r, permutes (fun v => Avx2.blake2s_round_8x v m r).
Proof. exact round_8x_permutes. Qed.
Print Assumptions C46_round_8x.
Theorem C46_round_8x_message : forall r m m' v,
  (r < 12)%nat -> length v = 16%nat -> length m = 16%nat -> length m' = 16%nat ->
  Avx2.blake2s_round_8x v m r = Avx2.blake2s_round_8x v m' r -> m = m'.
Proof. exact round_8x_message. Qed.
Print Assumptions C46_round_8x_message.
Theorem C46_round_4 : forall m r, permutes (fun v => Sse41.round_4 v m r).
Proof. exact round_4_permutes. Qed.
Print Assumptions C46_round_4.
Theorem C46_round_4_message : forall r m m' v,
  (r < 12)%nat -> length v = 16%nat -> length m = 16%nat -> length m' = 16%nat ->
  Sse41.round_4 v m r = Sse41.round_4 v m' r -> m = m'.
Proof. exact round_4_message. Qed.
Print Assumptions C46_round_4_message.
(** And for each of the ten unrolled rounds on rows. *)
Theorem C46_row_rounds : Forall (fun f =>
    (forall m0 m1 m2 m3, bijective (fun '(row1, row2, row3, row4) => f row1 row2 row3 row4 m0 m1 m2 m3)) /\
    (forall row1 row2 row3 row4 m0 m1 m2 m3 m0' m1' m2' m3',
      f row1 row2 row3 row4 m0 m1 m2 m3 = f row1 row2 row3 row4 m0' m1' m2' m3' ->
      m0 = m0' /\ m1 = m1' /\ m2 = m2' /\ m3 = m3'))
  [Sse41.compress_round1; Sse41.compress_round2; Sse41.compress_round3; Sse41.compress_round4; Sse41.compress_round5;
   Sse41.compress_round6; Sse41.compress_round7; Sse41.compress_round8; Sse41.compress_round9; Sse41.compress_round10].
Proof. exact row_rounds_keep_all. Qed.
Print Assumptions C46_row_rounds.
(** So [compress] is the usual construction: a permutation chosen by the block, applied to
    the chaining value, constants, counter and flags, then folded into the chaining value. *)
Theorem C46_compress : forall msg, exists P, permutes P /\ forall h count f0 f1,
  nums (compress h msg count f0 f1) =
  let v := P (oct_list h ++ [o0 IV; o1 IV; o2 IV; o3 IV; uxor (o4 IV) (cast 32 count);
                             uxor (o5 IV) (cast 32 (ushr count 32)); uxor (o6 IV) f0; uxor (o7 IV) f1]) in
  map (fun i => val (uxor (nth i (oct_list h) (uzero 32)) (uxor (wget v i) (wget v (i + 8))))) (seq 0 8).
Proof. exact compress_is_permutation. Qed.
Print Assumptions C46_compress.

(** Two messages that differ in one bit, and a vector. *)
Example C46_example :
  let v := repeat (of_N 32 5) 16 in
  let m := repeat (uzero 32) 16 in
  let m' := repeat (uzero 32) 15 ++ [of_N 32 1] in
  length v = 16%nat /\ length m = 16%nat /\ length m' = 16%nat /\
  map val (round 3 m v) <> map val (round 3 m' v) /\ map val (round 3 m v) <> map val v.
Proof. repeat split; vm_compute; intros H; discriminate H. Qed.
