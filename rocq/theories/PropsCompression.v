(** * Properties C05-C09: the compression functions.

    [Spec.F] is the compression function of RFC 7693 on plain numbers.  [nums] reads
    eight machine words as numbers; [proj] and [qproj] pick one lane of eight or four;
    [qlane_state] reads one lane of a transposed state (PortableFacts, Avx2Facts,
    Sse41Facts). *)
From Verif Require Import Base Consts PortableFacts Avx2Facts Sse41Facts Clients Witness Corollaries.
From Verif Require Spec Portable Sse41 Avx2.
Local Open Scope N_scope.

(** C05: the portable compression function is F. *)
Theorem C05_portable_compress : forall h block count lastblock lastnode,
  length block = 64%nat ->
  nums (Portable.compress h block count lastblock lastnode) =
  Spec.F (nums h) block (val count) (val lastblock) (val lastnode).
Proof. exact compress_ok. Qed.
Print Assumptions C05_portable_compress.
(** A whole block, a counter above 2^32, both flags set. *)
Example C05_example :
  length (ramp 64) = 64%nat /\
  nums (Portable.compress IV (ramp 64) (of_N 64 (2 ^ 40 + 64)) (umax 32) (umax 32)) =
  Spec.F Spec.IV (ramp 64) (2 ^ 40 + 64) Spec.ones Spec.ones.
Proof. vm_compute. split; reflexivity. Qed.

(** C06: the SSE4.1 compression function is the same function. *)
Theorem C06_sse41_compress : forall h block count lastblock lastnode,
  length block = 64%nat ->
  Sse41.compress h block count lastblock lastnode = Portable.compress h block count lastblock lastnode.
Proof. exact compress_portable_ok. Qed.
Print Assumptions C06_sse41_compress.
Theorem C06_sse41_compress_F : forall h block count lastblock lastnode,
  length block = 64%nat ->
  nums (Sse41.compress h block count lastblock lastnode) =
  Spec.F (nums h) block (val count) (val lastblock) (val lastnode).
Proof. exact sse41_compress_F. Qed.
Print Assumptions C06_sse41_compress_F.
Example C06_example :
  length (ramp 64) = 64%nat /\
  nums (Sse41.compress IV (ramp 64) (of_N 64 (2 ^ 40 + 64)) (umax 32) (uzero 32)) =
  Spec.F Spec.IV (ramp 64) (2 ^ 40 + 64) Spec.ones 0.
Proof. vm_compute. split; reflexivity. Qed.

(** C07: the AVX2 8-way compression function acts on every lane as F does on that
    lane's arguments alone; so it is the portable 8-way function. *)
Theorem C07_avx2_compress8 : forall h blocks counts lastblocks lastnodes l,
  (forall k, length (proj k blocks) = 64%nat) ->
  nums (proj l (Avx2.compress8 h blocks counts lastblocks lastnodes)) =
  Spec.F (nums (proj l h)) (proj l blocks) (val (proj l counts)) (val (proj l lastblocks)) (val (proj l lastnodes)).
Proof. exact avx2_compress8_F. Qed.
Print Assumptions C07_avx2_compress8.
Theorem C07_portable_compress8 : forall h blocks counts lastblocks lastnodes l,
  (forall k, length (proj k blocks) = 64%nat) ->
  nums (proj l (Portable.compress8 h blocks counts lastblocks lastnodes)) =
  Spec.F (nums (proj l h)) (proj l blocks) (val (proj l counts)) (val (proj l lastblocks)) (val (proj l lastnodes)).
Proof. exact portable_compress8_F. Qed.
Print Assumptions C07_portable_compress8.
Theorem C07_compress8_agree : forall h blocks counts lastblocks lastnodes,
  (forall k, length (proj k blocks) = 64%nat) ->
  Avx2.compress8 h blocks counts lastblocks lastnodes = Portable.compress8 h blocks counts lastblocks lastnodes.
Proof. exact compress8_portable_ok. Qed.
Print Assumptions C07_compress8_agree.
(** Eight different blocks and counters, flags on some lanes only. *)
Definition shifted (n : nat) : list byte := firstn 64 (skipn n (ramp 128)).
Definition eight_shifted : oct (list byte) :=
  Oct (shifted 0) (shifted 1) (shifted 2) (shifted 3) (shifted 4) (shifted 5) (shifted 6) (shifted 7).
Definition eight_counts : oct u64 :=
  oct_map (of_N 64) (Oct 64 128 (2 ^ 32) (2 ^ 33 + 64) 7 0 (2 ^ 64 - 1) 1).
Definition eight_flags : oct u32 :=
  Oct (umax 32) (uzero 32) (umax 32) (uzero 32) (uzero 32) (umax 32) (uzero 32) (uzero 32).
Example C07_example :
  (forall k, length (proj k eight_shifted) = 64%nat) /\
  nums (proj L3 (Avx2.compress8 (oct_const IV) eight_shifted eight_counts eight_flags eight_flags)) =
  Spec.F Spec.IV (shifted 3) (2 ^ 33 + 64) 0 0.
Proof. split; [intros []; reflexivity|vm_compute; reflexivity]. Qed.

(** C08: transposing twice is the identity; transpose, compress any number of 8-tuples
    of blocks, transpose back: every lane has been compressed by F with its own
    arguments, in both implementations. *)
Theorem C08_vectorize_twice : forall words,
  Avx2.vectorize_words8 (Avx2.vectorize_words8 words) = words.
Proof. exact vectorize_twice. Qed.
Print Assumptions C08_vectorize_twice.
Theorem C08_avx2_session : forall words calls l, Forall vcall_ok calls ->
  nums (proj l (avx2_session words calls)) = lane_session l (nums (proj l words)) calls.
Proof. exact avx2_session_ok. Qed.
Print Assumptions C08_avx2_session.
Theorem C08_portable_session : forall words calls l, Forall vcall_ok calls ->
  nums (proj l (portable_session words calls)) = lane_session l (nums (proj l words)) calls.
Proof. exact portable_session_ok. Qed.
Print Assumptions C08_portable_session.
Theorem C08_sessions_agree : forall words calls, Forall vcall_ok calls ->
  avx2_session words calls = portable_session words calls.
Proof. exact sessions_agree. Qed.
Print Assumptions C08_sessions_agree.
Definition two_calls : list vcall :=
  [mk_vcall eight_shifted (oct_const (of_N 32 64)) (oct_const (uzero 32)) (oct_const (uzero 32)) (oct_const (uzero 32));
   mk_vcall (oct_const (ramp 64)) (oct_const (of_N 32 128)) (oct_const (of_N 32 3)) eight_flags eight_flags].
Example C08_example :
  Forall vcall_ok two_calls /\
  nums (proj L2 (avx2_session (oct_const IV) two_calls)) =
  Spec.F (Spec.F Spec.IV (shifted 2) 64 0 0) (ramp 64) (3 * 2 ^ 32 + 128) Spec.ones Spec.ones /\
  Avx2.vectorize_words8 (oct_const IV) <> oct_const IV.
Proof.
  split; [repeat constructor; intros []; reflexivity|]. split; [vm_compute; reflexivity|].
  intros H. apply (f_equal (fun w => val (o1 (o0 w)))) in H. vm_compute in H. discriminate.
Qed.

(** C09: the SSE4.1 4-way transposed compression, lane by lane; the two halves of the
    counter are given separately. *)
Theorem C09_sse41_compress4 : forall h a b c d low high lastblock lastnode l,
  length a = 64%nat -> length b = 64%nat -> length c = 64%nat -> length d = 64%nat ->
  nums (qlane_state (Sse41.compress4_transposed h a b c d low high lastblock lastnode) l) =
  Spec.F (nums (qlane_state h l)) (qproj l (Quad a b c d))
    (val (qproj l low) + 2 ^ 32 * val (qproj l high)) (val (qproj l lastblock)) (val (qproj l lastnode)).
Proof. exact sse41_compress4_F. Qed.
Print Assumptions C09_sse41_compress4.
Definition four_words (w : N) : quad u32 := quad_map (of_N 32) (Quad w (w + 1) (w + 2) (w + 3)).
Example C09_example :
  nums (qlane_state (Sse41.compress4_transposed (oct_map (fun x => Quad x x x x) IV)
         (shifted 0) (shifted 1) (shifted 2) (shifted 3)
         (four_words 64) (four_words 9) (four_words 1) (four_words 2)) M1) =
  Spec.F Spec.IV (shifted 1) (65 + 2 ^ 32 * 10) 2 3.
Proof. vm_compute. reflexivity. Qed.
