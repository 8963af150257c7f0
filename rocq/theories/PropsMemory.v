(** * Properties C58 and C59: the unsafe code on memory. *)
From Verif Require Import Base Consts Intrinsics Portable Params ParamsSpec Views Clients Memory MemoryFacts MemoryNeeds MemoryUse Witness.
From Verif Require Sse41 Avx2 Spec.
Local Open Scope nat_scope.

(** C58: called with references as Rust guarantees them, the routines make no access outside
    an allocation and none that is not aligned as its type wants; they write the state they
    were given and nothing else; and what they write is the result of F (and what the
    functions on values say).
    [rules] is [Allocation] where a pointer may access its whole allocation. *)
Theorem C58_sse41_compress : forall m iv h msg w b count lastblock lastnode,
  reference m iv StateWords_ty false -> reference m h StateWords_ty true -> reference m msg Block_ty false ->
  contents m iv 32 = words_bytes IV -> contents m h 32 = words_bytes w -> contents m msg 64 = b ->
  exists w', compress Allocation iv h msg count lastblock lastnode m = Ok (tt, stored m h (words_bytes w')) /\
  w' = Sse41.compress w b count lastblock lastnode /\
  nums w' = Spec.F (nums w) b (val count) (val lastblock) (val lastnode).
Proof. exact compress_memory_F. Qed.
Print Assumptions C58_sse41_compress.
Theorem C58_avx2_compress8 : forall r m h msg count lastblock lastnode w b,
  (forall l, reference m (proj l h) StateWords_ty true) -> (forall l, reference m (proj l msg) Block_ty false) ->
  (forall l, contents m (proj l h) 32 = words_bytes (proj l w)) -> (forall l, contents m (proj l msg) 64 = proj l b) ->
  (forall l l', l <> l' -> apart (proj l h) 32 (proj l' h) 32) ->
  exists m' w', compress8 r h msg count lastblock lastnode m = Ok (tt, m') /\
  (forall l, contents m' (proj l h) 32 = words_bytes (proj l w')) /\
  (forall q n, (forall l, apart q n (proj l h) 32) -> contents m' q n = contents m q n) /\
  w' = Avx2.compress8 w b count lastblock lastnode /\
  forall l, nums (proj l w') = Spec.F (nums (proj l w)) (proj l b) (val (proj l count)) (val (proj l lastblock)) (val (proj l lastnode)).
Proof. exact compress8_memory_F. Qed.
Print Assumptions C58_avx2_compress8.
Theorem C58_avx2_vectorize_words8 : forall r m p w, reference m p Words8_ty true -> contents m p 256 = states_bytes w ->
  exists w', vectorize_words8 r p m = Ok (tt, stored m p (states_bytes w')) /\
  w' = Avx2.vectorize_words8 w /\ forall l k, proj k (proj l w') = proj l (proj k w).
Proof. exact vectorize_words8_memory_F. Qed.
Print Assumptions C58_avx2_vectorize_words8.
Theorem C58_avx2_compress8_vectorized : forall r m p msg cl ch lb ln w b wl wh wb wn, reference m p Words8_ty true ->
  (forall l, reference m (proj l msg) Block_ty false) ->
  reference m cl AlignedWords8_ty false -> reference m ch AlignedWords8_ty false ->
  reference m lb AlignedWords8_ty false -> reference m ln AlignedWords8_ty false ->
  contents m p 256 = states_bytes w -> (forall l, contents m (proj l msg) 64 = proj l b) ->
  contents m cl 32 = words_bytes wl -> contents m ch 32 = words_bytes wh ->
  contents m lb 32 = words_bytes wb -> contents m ln 32 = words_bytes wn ->
  exists w', compress8_vectorized r p msg cl ch lb ln m = Ok (tt, stored m p (states_bytes w')) /\
  w' = Avx2.compress8_vectorized w b wl wh wb wn /\
  forall l, nums (lane_state w' l) =
    Spec.F (nums (lane_state w l)) (proj l b) (val (proj l wl) + 2 ^ 32 * val (proj l wh)) (val (proj l wb)) (val (proj l wn)).
Proof. exact compress8_vectorized_memory_F. Qed.
Print Assumptions C58_avx2_compress8_vectorized.
(** The functions that read whole inputs through pointers; with inputs of different lengths
    [hash8_exact] reads outside a slice exactly when the function on values says so. *)
Theorem C58_sse41_hash4_exact : forall m places params i0 i1 i2 i3 x0 x1 x2 x3 res,
  reference m i0 (Array U8 (length x0)) false -> reference m i1 (Array U8 (length x1)) false ->
  reference m i2 (Array U8 (length x2)) false -> reference m i3 (Array U8 (length x3)) false ->
  contents m i0 (length x0) = x0 -> contents m i1 (length x1) = x1 -> contents m i2 (length x2) = x2 -> contents m i3 (length x3) = x3 ->
  Sse41.hash4_exact params x0 x1 x2 x3 = Ok res ->
  hash4_exact Allocation places params i0 i1 i2 i3 (length x0) m = Ok (res, m).
Proof. exact hash4_exact_memory_allocation. Qed.
Print Assumptions C58_sse41_hash4_exact.
Theorem C58_avx2_hash8_exact : forall r m params input x,
  (forall l, reference m (proj l input) (Array U8 (length (proj l x))) false) ->
  (forall l, upto (proj l input) = offset (proj l input) + length (proj l x)) ->
  (forall l, contents m (proj l input) (length (proj l x)) = proj l x) ->
  (r = Borrow \/ exists y, Avx2.hash8_exact params x = Ok y) ->
  hash8_exact r params input (length (o0 x)) m = with_memory m (Avx2.hash8_exact params x).
Proof. exact hash8_exact_memory_stated. Qed.
Print Assumptions C58_avx2_hash8_exact.
(** So they compute BLAKE2s of the inputs in memory (keys: C20). *)
Theorem C58_sse41_hash4_exact_digests : forall m places l p i0 i1 i2 i3 x0 x1 x2 x3, build l = Ok p -> Spec.key (spec_params l) = [] ->
  whole_blocks [length x0; length x1; length x2; length x3] -> (N.of_nat (length x0) < 2 ^ 64)%N ->
  reference m i0 (Array U8 (length x0)) false -> reference m i1 (Array U8 (length x1)) false ->
  reference m i2 (Array U8 (length x2)) false -> reference m i3 (Array U8 (length x3)) false ->
  contents m i0 (length x0) = x0 -> contents m i1 (length x1) = x1 -> contents m i2 (length x2) = x2 -> contents m i3 (length x3) = x3 ->
  exists hs, hash4_exact Allocation places p i0 i1 i2 i3 (length x0) m = Ok (hs, m) /\
  forall k, as_bytes (qproj k hs) = Ok (Spec.blake2s (spec_params l) (spec_last_node l) (qproj k (Quad x0 x1 x2 x3))).
Proof. exact hash4_exact_digests. Qed.
Print Assumptions C58_sse41_hash4_exact_digests.
Theorem C58_avx2_hash8_exact_digests : forall r m l p input x, build l = Ok p -> Spec.key (spec_params l) = [] ->
  whole_blocks (map (@length byte) (oct_list x)) -> (forall k, (N.of_nat (length (proj k x)) < 2 ^ 64)%N) ->
  (forall k, reference m (proj k input) (Array U8 (length (proj k x))) false) ->
  (forall k, upto (proj k input) = offset (proj k input) + length (proj k x)) ->
  (forall k, contents m (proj k input) (length (proj k x)) = proj k x) ->
  exists hs, hash8_exact r p input (length (o0 x)) m = Ok (hs, m) /\
  forall k, as_bytes (proj k hs) = Ok (Spec.blake2s (spec_params l) (spec_last_node l) (proj k x)).
Proof. exact hash8_exact_digests. Qed.
Print Assumptions C58_avx2_hash8_exact_digests.
(** What [stored] means: the bytes are there, and bytes elsewhere are as before. *)
Theorem C58_stored : forall m p bs q n, within Allocation m p (length bs) = true -> apart q n p (length bs) ->
  contents (stored m p bs) p (length bs) = bs /\ contents (stored m p bs) q n = contents m q n.
Proof. exact stored_frame. Qed.
Print Assumptions C58_stored.
(** All of this is needed: a state that is out of bounds, not aligned, or not mutable, or a
    message block that is too short, is undefined behaviour.  In particular the alignment
    of [AlignedWords8] is. *)
Theorem C58_sse41_compress_needs : forall r m iv h msg count lastblock lastnode,
  within Allocation m h 32 && aligned m h 4 && mutable h &&
  within Allocation m iv 32 && aligned m iv 4 && within Allocation m msg 64 = false ->
  compress r iv h msg count lastblock lastnode m = UB.
Proof. exact compress_needs. Qed.
Print Assumptions C58_sse41_compress_needs.
Theorem C58_avx2_compress8_needs : forall r m h msg count lastblock lastnode l,
  within r m (proj l h) 32 && aligned m (proj l h) 4 && mutable (proj l h) && within Allocation m (proj l msg) 64 = false ->
  compress8 r h msg count lastblock lastnode m = UB.
Proof. exact compress8_needs. Qed.
Print Assumptions C58_avx2_compress8_needs.
Theorem C58_avx2_vectorize_words8_needs : forall r m p,
  within r m p 256 && aligned m p 32 && mutable p = false -> vectorize_words8 r p m = UB.
Proof. exact vectorize_words8_needs. Qed.
Print Assumptions C58_avx2_vectorize_words8_needs.
Theorem C58_avx2_compress8_vectorized_needs : forall r m p msg cl ch lb ln,
  within r m p 256 && aligned m p 32 && mutable p &&
  (within r m cl 32 && aligned m cl 32) && (within r m ch 32 && aligned m ch 32) &&
  (within r m lb 32 && aligned m lb 32) && (within r m ln 32 && aligned m ln 32) = false \/
  (exists l, within Allocation m (proj l msg) 64 = false) ->
  compress8_vectorized r p msg cl ch lb ln m = UB.
Proof. exact compress8_vectorized_needs. Qed.
Print Assumptions C58_avx2_compress8_vectorized_needs.

(** A state at an address that is a multiple of 4 only, a block at an odd address. *)
Definition small_memory : memory :=
  [mk_object 4096 (words_bytes IV); mk_object 8196 (words_bytes IV ++ words_bytes IV); mk_object 12288 (ramp 80)].
Definition small_iv : pointer := mk_pointer 0 0 0 32 false.
Definition small_h : pointer := mk_pointer 1 32 32 64 true.
Definition small_msg : pointer := mk_pointer 2 1 0 80 false.
Example C58_example_compress :
  reference small_memory small_iv StateWords_ty false /\ reference small_memory small_h StateWords_ty true /\
  reference small_memory small_msg Block_ty false /\ contents small_memory small_iv 32 = words_bytes IV /\
  contents small_memory small_h 32 = words_bytes IV /\ contents small_memory small_msg 64 = firstn 64 (skipn 1 (ramp 80)).
Proof.
  split; [|split; [|split; [|split; [|split]]]]; try (lazy; reflexivity).
  - exists (mk_object 4096 (words_bytes IV)). split; [reflexivity|]. split; [apply Nat.leb_le; reflexivity|]. split; [exists 1024%N; reflexivity|].
    split; [|split; [|discriminate]]; apply Nat.leb_le; reflexivity.
  - exists (mk_object 8196 (words_bytes IV ++ words_bytes IV)). split; [reflexivity|]. split; [apply Nat.leb_le; reflexivity|]. split; [exists 2057%N; reflexivity|].
    split; [|split; [|reflexivity]]; apply Nat.leb_le; reflexivity.
  - exists (mk_object 12288 (ramp 80)). split; [reflexivity|]. split; [apply Nat.leb_le; reflexivity|]. split; [exists 12289%N; reflexivity|].
    split; [|split; [|discriminate]]; apply Nat.leb_le; reflexivity.
Qed.
(** Eight transposed states at a multiple of 32; and at an address that is none. *)
Definition states_at (a : N) : memory := [mk_object a (states_bytes (oct_const IV))].
Definition the_states : pointer := mk_pointer 0 0 0 256 true.
Example C58_example_vectorize :
  reference (states_at 64) the_states Words8_ty true /\
  vectorize_words8 Borrow the_states (states_at 64) =
  Ok (tt, [mk_object 64 (states_bytes (oct_map (fun x => oct_const x) IV))]) /\
  vectorize_words8 Allocation the_states (states_at 68) = UB.
Proof.
  split; [|split].
  - exists (mk_object 64 (states_bytes (oct_const IV))). split; [reflexivity|]. split; [apply Nat.leb_le; reflexivity|]. split; [exists 2%N; reflexivity|].
    split; [|split; [|reflexivity]]; apply Nat.leb_le; reflexivity.
  - lazy. reflexivity.
  - lazy. reflexivity.
Qed.

(** The state behind a shared reference; a message of 63 bytes. *)
Example C58_example_needs :
  within Allocation small_memory small_h 32 && aligned small_memory small_h 4 = true /\
  mutable (mk_pointer 1 32 32 64 false) = false /\
  within Allocation small_memory (mk_pointer 2 17 0 80 false) 63 = true /\
  within Allocation small_memory (mk_pointer 2 17 0 80 false) 64 = false.
Proof. repeat split; reflexivity. Qed.
(** Four and eight overlapping inputs of one block each. *)
Definition input_memory : memory := [mk_object 12288 (ramp 80)].
Definition input_at (i : nat) : pointer := mk_pointer 0 i i (i + 64) false.
Definition block_from (i : nat) : list byte := firstn 64 (skipn i (ramp 80)).
Example C58_example_exact :
  (forall i, In i (seq 0 9) -> reference input_memory (input_at i) (Array U8 (length (block_from i))) false /\
     contents input_memory (input_at i) (length (block_from i)) = block_from i) /\
  (exists res, Sse41.hash4_exact Params_new (block_from 0) (block_from 3) (block_from 3) (block_from 7) = Ok res) /\
  exists y, Avx2.hash8_exact Params_new (Oct (block_from 0) (block_from 1) (block_from 2) (block_from 3)
     (block_from 4) (block_from 5) (block_from 6) (block_from 8)) = Ok y.
Proof.
  split; [|split].
  - intros i Hi. cbn in Hi. repeat (destruct Hi as [<-|Hi]; [|]); [..|contradiction];
      (split; [|lazy; reflexivity]; exists (mk_object 12288 (ramp 80)); split; [reflexivity|]; split; [apply Nat.leb_le; reflexivity|];
       split; [apply N.divide_1_l|]; split; [|split; [|discriminate]]; apply Nat.leb_le; reflexivity).
  - eexists. lazy. reflexivity.
  - eexists. lazy. reflexivity.
Qed.

(** C59: that every pointer made from a reference stays within what the reference points
    to (the rule of Miri) is true of the AVX2 routines (C58, for every [r]) and false of the
    SSE4.1 ones: [compress] reads and writes 16 bytes through references to single words,
    whatever its arguments, and [export_hashes], hence every [hash4_exact] that should
    succeed, writes 16 bytes through references to single bytes. *)
Theorem C59_sse41_compress_refuted : forall m iv h msg count lastblock lastnode w, reference m h StateWords_ty w ->
  compress Borrow iv h msg count lastblock lastnode m = UB.
Proof. exact compress_borrow. Qed.
Print Assumptions C59_sse41_compress_refuted.
Theorem C59_sse41_export_hashes_refuted : forall m places h hash_length,
  body (export_hashes Borrow places h hash_length) m = UB.
Proof. exact export_hashes_borrow. Qed.
Print Assumptions C59_sse41_export_hashes_refuted.
Theorem C59_sse41_hash4_exact_refuted : forall m places params i0 i1 i2 i3 x0 x1 x2 x3 res,
  reference m i0 (Array U8 (length x0)) false -> reference m i1 (Array U8 (length x1)) false ->
  reference m i2 (Array U8 (length x2)) false -> reference m i3 (Array U8 (length x3)) false ->
  contents m i0 (length x0) = x0 -> contents m i1 (length x1) = x1 -> contents m i2 (length x2) = x2 -> contents m i3 (length x3) = x3 ->
  Sse41.hash4_exact params x0 x1 x2 x3 = Ok res ->
  hash4_exact Borrow places params i0 i1 i2 i3 (length x0) m = UB.
Proof. exact hash4_exact_memory_borrow. Qed.
Print Assumptions C59_sse41_hash4_exact_refuted.
(** Its loads of messages obey the rule. *)
Theorem C59_sse41_message_loads : forall r m h m0 m1 m2 m3 a b c d,
  within r m m0 64 = true -> within r m m1 64 = true -> within r m m2 64 = true -> within r m m3 64 = true ->
  compress4_transposed r h m0 m1 m2 m3 a b c d m =
  Ok (Sse41.compress4_transposed h (contents m m0 64) (contents m m1 64) (contents m m2 64) (contents m m3 64) a b c d, m).
Proof. exact compress4_transposed_ok. Qed.
Print Assumptions C59_sse41_message_loads.
(** The AVX2 routines obey it: none of them has undefined behaviour under this rule.
    (What they do is in C58.) *)
Theorem C59_avx2_compress8 : forall m h msg count lastblock lastnode,
  (forall l, reference m (proj l h) StateWords_ty true) -> (forall l, reference m (proj l msg) Block_ty false) ->
  (forall l l', l <> l' -> apart (proj l h) 32 (proj l' h) 32) ->
  exists m', compress8 Borrow h msg count lastblock lastnode m = Ok (tt, m').
Proof. exact compress8_borrow. Qed.
Print Assumptions C59_avx2_compress8.
Theorem C59_avx2_vectorized : forall m p msg cl ch lb ln, reference m p Words8_ty true ->
  (forall l, reference m (proj l msg) Block_ty false) ->
  reference m cl AlignedWords8_ty false -> reference m ch AlignedWords8_ty false ->
  reference m lb AlignedWords8_ty false -> reference m ln AlignedWords8_ty false ->
  (exists m', vectorize_words8 Borrow p m = Ok (tt, m')) /\
  exists m', compress8_vectorized Borrow p msg cl ch lb ln m = Ok (tt, m').
Proof. exact vectorized_borrow. Qed.
Print Assumptions C59_avx2_vectorized.
(** With inputs of the same length, a positive multiple of the block length. *)
Theorem C59_avx2_hash8_exact : forall m params input n, 0 < n ->
  (forall l, reference m (proj l input) (Array U8 (n * 64)) false) ->
  (forall l, upto (proj l input) = offset (proj l input) + n * 64) ->
  exists hs, hash8_exact Borrow params input (n * 64) m = Ok (hs, m).
Proof. exact hash8_exact_borrow. Qed.
Print Assumptions C59_avx2_hash8_exact.
Example C59_example : reference small_memory small_h StateWords_ty true /\ within Borrow small_memory small_msg 64 = true.
Proof.
  split; [|reflexivity].
  exists (mk_object 8196 (words_bytes IV ++ words_bytes IV)). split; [reflexivity|]. split; [apply Nat.leb_le; reflexivity|]. split; [exists 2057%N; reflexivity|].
  split; [|split; [|reflexivity]]; apply Nat.leb_le; reflexivity.
Qed.
