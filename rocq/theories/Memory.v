(** * Memory: the unsafe code of sse41.rs and avx2.rs, on memory.

    In [Sse41] and [Avx2] the vector routines are functions on values.  Here are the
    routines that take pointers once more, on a memory of bytes at addresses, with every
    load, store, pointer cast and pointer addition they make.  [MemoryFacts] proves that,
    on memory, they do what the functions on values say.

    Locals are values, except the byte arrays of [sse41::export_hashes], which the code
    writes through raw pointers.  [Params] is read by field and is a value here. *)
From Verif Require Import Base Consts Intrinsics Portable Params.
From Verif Require Sse41 Avx2.
Local Open Scope nat_scope.

(** ** Types and their layout. *)
Inductive ty :=
| U8
| U32
| M128                            (* __m128i *)
| M256                            (* __m256i *)
| Array (t : ty) (n : nat)        (* [t; n] *)
| ReprAlign (n : nat) (t : ty).   (* #[repr(C, align(n))] struct S(t) *)

Fixpoint align_of (t : ty) : nat :=
  match t with
  | U8 => 1
  | U32 => 4
  | M128 => 16
  | M256 => 32
  | Array t _ => align_of t
  | ReprAlign n t => Nat.max n (align_of t)
  end.
(** The size of a struct is a multiple of its alignment. *)
Definition round_up (a n : nat) : nat := (a + (n - 1)) / n * n.
Fixpoint size_of (t : ty) : nat :=
  match t with
  | U8 => 1
  | U32 => 4
  | M128 => 16
  | M256 => 32
  | Array t n => n * size_of t
  | ReprAlign n t => round_up (size_of t) (Nat.max n (align_of t))
  end.

(** lib.rs:137 [StateWords]; lib.rs:138 [Block]; lib.rs:141-143 [AlignedWords8] *)
Definition StateWords_ty : ty := Array U32 8.
Definition Block_ty : ty := Array U8 BLOCKBYTES.
Definition AlignedWords8_ty : ty := ReprAlign 32 (Array U32 8).

(** ** Memory. *)

(** An allocation: its address, and its bytes.  A memory is the list of allocations. *)
Record object := mk_object { address : N; bytes : list byte }.
Definition memory := list object.

(** A pointer or reference: into allocation [alloc] at [offset].  It was made as a
    reference to the bytes [from..upto], mutable or not. *)
Record pointer := mk_pointer { alloc : nat; offset : nat; from : nat; upto : nat; mutable : bool }.

(** What a pointer made from a reference may access: anything in the allocation the
    reference points into, or only what the reference points to.  The Rust reference
    leaves it open; Miri (Stacked Borrows) has the second rule. *)
Inductive rules := Allocation | Borrow.

Definition within (r : rules) (m : memory) (p : pointer) (n : nat) : bool :=
  match nth_error m (alloc p) with
  | None => false
  | Some o =>
      (offset p + n <=? length (bytes o)) &&
      match r with
      | Allocation => true
      | Borrow => (from p <=? offset p) && (offset p + n <=? upto p)
      end
  end.
Definition aligned (m : memory) (p : pointer) (a : nat) : bool :=
  match nth_error m (alloc p) with
  | None => false
  | Some o => N.eqb ((address o + N.of_nat (offset p)) mod N.of_nat a) 0
  end.
(** The [n] bytes at [p], and the memory with [bs] written at [p]. *)
Definition contents (m : memory) (p : pointer) (n : nat) : list byte :=
  match nth_error m (alloc p) with None => [] | Some o => sub (bytes o) (offset p) n end.
Definition stored (m : memory) (p : pointer) (bs : list byte) : memory :=
  match nth_error m (alloc p) with
  | None => m
  | Some o => upd m (alloc p) (mk_object (address o)
                (firstn (offset p) (bytes o) ++ bs ++ skipn (offset p + length bs) (bytes o)))
  end.

(** ** Code on memory. *)
Definition code (A : Type) : Type := memory -> outcome (A * memory).
Definition give {A} (a : A) : code A := fun m => Ok (a, m).
Definition andthen {A B} (x : code A) (f : A -> code B) : code B :=
  fun m => bind (x m) (fun '(a, m) => f a m).
Notation "x <-- e ;; k" := (andthen e (fun x => k))
  (at level 100, e at next level, right associativity).
Notation "' p <-- e ;; k" := (andthen e (fun p => k))
  (at level 100, p pattern, e at next level, right associativity).
Definition check (b : memory -> bool) : code unit := fun m => if b m then Ok (tt, m) else UB.

(** [p.add(n)] on [*const t]: must stay within the allocation (or end where it ends). *)
Definition ptr_add (t : ty) (p : pointer) (n : nat) : code pointer :=
  let q := mk_pointer (alloc p) (offset p + n * size_of t) (from p) (upto p) (mutable p) in
  _ <-- check (fun m => within Allocation m q 0) ;;
  give q.
(** [&*p] ([mut = false]) and [&mut *p] at type [t]: aligned, there, and mutable only if
    [p] is. *)
Definition reborrow (r : rules) (mut : bool) (t : ty) (p : pointer) : code pointer :=
  _ <-- check (fun m => within r m p (size_of t) && aligned m p (align_of t) && (negb mut || mutable p)) ;;
  give (mk_pointer (alloc p) (offset p) (offset p) (offset p + size_of t) mut).
(** [&a[i]] and [&mut a[i]] for a reference [a] to an array of [t]. *)
Definition element (r : rules) (mut : bool) (t : ty) (a : pointer) (i : nat) : code pointer :=
  p <-- ptr_add t a i ;;
  reborrow r mut t p.
(** Reads of [n] bytes at any address, and of a value of type [t] at an aligned one. *)
Definition read_unaligned (r : rules) (p : pointer) (n : nat) : code (list byte) :=
  _ <-- check (fun m => within r m p n) ;;
  (fun m => Ok (contents m p n, m)).
Definition read (r : rules) (t : ty) (p : pointer) : code (list byte) :=
  _ <-- check (fun m => aligned m p (align_of t)) ;;
  read_unaligned r p (size_of t).
(** Writes. *)
Definition write_unaligned (r : rules) (p : pointer) (bs : list byte) : code unit :=
  _ <-- check (fun m => within r m p (length bs) && mutable p) ;;
  (fun m => Ok (tt, stored m p bs)).
Definition write (r : rules) (t : ty) (p : pointer) (bs : list byte) : code unit :=
  _ <-- check (fun m => aligned m p (align_of t)) ;;
  write_unaligned r p bs.
(** A local variable at address [a], and a function body, whose locals end with it. *)
Definition local (a : N) (bs : list byte) : code pointer :=
  fun m => Ok (mk_pointer (length m) 0 0 (length bs) true, m ++ [mk_object a bs]).
Definition body {A} (x : code A) : code A :=
  fun m => bind (x m) (fun '(a, m') => Ok (a, firstn (length m) m')).

(** ** Values in memory: x86 is little-endian.  [m128_bytes] and [m256_bytes] are the
    bytes of vectors; a [u32] is four bytes. *)
Definition words_bytes (w : StateWords) : list byte := flat_map u32_to_bytes (oct_list w).
(** [mem::transmute] of an [AlignedWords8] or [__m256i]: the same bytes. *)
Definition transmute_m256 (bs : list byte) : m256 := m256_of_bytes bs.

(** ** sse41.rs *)

(** The [_mm_loadu_si128] and [_mm_storeu_si128] instructions *)
Definition _mm_loadu (r : rules) (p : pointer) : code m128 :=
  bs <-- read_unaligned r p 16 ;;
  give (m128_of_bytes bs).
Definition _mm_storeu (r : rules) (p : pointer) (x : m128) : code unit :=
  write_unaligned r p (m128_bytes x).

(** sse41.rs:9-11 [loadu], 14-21 [loadu_4], 24-26 [storeu] *)
Definition loadu (r : rules) (p : pointer) : code m128 := _mm_loadu r p.
Definition loadu_4 (r : rules) (p : pointer) : code (quad m128) :=
  p0 <-- ptr_add M128 p 0 ;;
  a0 <-- _mm_loadu r p0 ;;
  p1 <-- ptr_add M128 p 1 ;;
  a1 <-- _mm_loadu r p1 ;;
  p2 <-- ptr_add M128 p 2 ;;
  a2 <-- _mm_loadu r p2 ;;
  p3 <-- ptr_add M128 p 3 ;;
  a3 <-- _mm_loadu r p3 ;;
  give (Quad a0 a1 a2 a3).
Definition storeu (r : rules) (p : pointer) (x : m128) : code unit := _mm_storeu r p x.

(** sse41.rs:142-367, the ten rounds of [compress], on vectors *)
Definition compress_rounds (row1 row2 row3 row4 m0 m1 m2 m3 : m128) : Sse41.rows :=
  let '(row1, row2, row3, row4) := Sse41.compress_round1 row1 row2 row3 row4 m0 m1 m2 m3 in
  let '(row1, row2, row3, row4) := Sse41.compress_round2 row1 row2 row3 row4 m0 m1 m2 m3 in
  let '(row1, row2, row3, row4) := Sse41.compress_round3 row1 row2 row3 row4 m0 m1 m2 m3 in
  let '(row1, row2, row3, row4) := Sse41.compress_round4 row1 row2 row3 row4 m0 m1 m2 m3 in
  let '(row1, row2, row3, row4) := Sse41.compress_round5 row1 row2 row3 row4 m0 m1 m2 m3 in
  let '(row1, row2, row3, row4) := Sse41.compress_round6 row1 row2 row3 row4 m0 m1 m2 m3 in
  let '(row1, row2, row3, row4) := Sse41.compress_round7 row1 row2 row3 row4 m0 m1 m2 m3 in
  let '(row1, row2, row3, row4) := Sse41.compress_round8 row1 row2 row3 row4 m0 m1 m2 m3 in
  let '(row1, row2, row3, row4) := Sse41.compress_round9 row1 row2 row3 row4 m0 m1 m2 m3 in
  Sse41.compress_round10 row1 row2 row3 row4 m0 m1 m2 m3.

(** sse41.rs:127-371 [compress]; [IV] is a constant (lib.rs:41-44), [iv] points to it *)
Definition compress (r : rules) (iv h msg : pointer) (count : u64) (lastblock lastnode : u32) : code unit :=
  p <-- element r false U32 h 0 ;;
  row1 <-- loadu r p ;;
  p <-- element r false U32 h 4 ;;
  row2 <-- loadu r p ;;
  p <-- element r false U32 iv 0 ;;
  row3 <-- loadu r p ;;
  p <-- element r false U32 iv 4 ;;
  iv4 <-- loadu r p ;;
  let row4 := Sse41.xor iv4 (Sse41.setr (cast 32 count) (cast 32 (ushr count 32)) lastblock lastnode) in
  p <-- ptr_add U8 msg 0 ;;
  m0 <-- loadu r p ;;
  p <-- ptr_add U8 msg 16 ;;
  m1 <-- loadu r p ;;
  p <-- ptr_add U8 msg 32 ;;
  m2 <-- loadu r p ;;
  p <-- ptr_add U8 msg 48 ;;
  m3 <-- loadu r p ;;
  let '(row1, row2, row3, row4) := compress_rounds row1 row2 row3 row4 m0 m1 m2 m3 in
  q <-- element r true U32 h 0 ;;
  p <-- element r false U32 h 0 ;;
  x <-- loadu r p ;;
  _ <-- storeu r q (Sse41.xor x (Sse41.xor row1 row3)) ;;
  q <-- element r true U32 h 4 ;;
  p <-- element r false U32 h 4 ;;
  x <-- loadu r p ;;
  storeu r q (Sse41.xor x (Sse41.xor row2 row4)).

(** sse41.rs:442-476 [transpose_message_blocks] *)
Definition transpose_message_blocks (r : rules) (msg_a msg_b msg_c msg_d : pointer) : code (list m128) :=
  '(Quad a0 a1 a2 a3) <-- loadu_4 r msg_a ;;
  '(Quad b0 b1 b2 b3) <-- loadu_4 r msg_b ;;
  '(Quad c0 c1 c2 c3) <-- loadu_4 r msg_c ;;
  '(Quad d0 d1 d2 d3) <-- loadu_4 r msg_d ;;
  let transposed0 := Sse41.transpose_vecs a0 b0 c0 d0 in
  let transposed1 := Sse41.transpose_vecs a1 b1 c1 d1 in
  let transposed2 := Sse41.transpose_vecs a2 b2 c2 d2 in
  let transposed3 := Sse41.transpose_vecs a3 b3 c3 d3 in
  give
  [q0 transposed0; q1 transposed0; q2 transposed0; q3 transposed0;
   q0 transposed1; q1 transposed1; q2 transposed1; q3 transposed1;
   q0 transposed2; q1 transposed2; q2 transposed2; q3 transposed2;
   q0 transposed3; q1 transposed3; q2 transposed3; q3 transposed3].

(** sse41.rs:607-646, [compress4_transposed_inline] after the loads of the message: on vectors *)
Definition compress4_rounds (h_vecs : oct m128) (msg_vecs : list m128)
    (count_low count_high lastblock lastnode : m128) : oct m128 :=
  let v := [o0 h_vecs; o1 h_vecs; o2 h_vecs; o3 h_vecs; o4 h_vecs; o5 h_vecs; o6 h_vecs; o7 h_vecs;
            Sse41.set1 (o0 IV); Sse41.set1 (o1 IV); Sse41.set1 (o2 IV); Sse41.set1 (o3 IV);
            Sse41.xor (Sse41.set1 (o4 IV)) count_low;
            Sse41.xor (Sse41.set1 (o5 IV)) count_high;
            Sse41.xor (Sse41.set1 (o6 IV)) lastblock;
            Sse41.xor (Sse41.set1 (o7 IV)) lastnode] in
  let v := fold_left (fun v k => Sse41.round_4 v msg_vecs k) (seq 0 10) v in
  Oct (Sse41.xor (Sse41.xor (o0 h_vecs) (Sse41.vget v 0)) (Sse41.vget v 8))
      (Sse41.xor (Sse41.xor (o1 h_vecs) (Sse41.vget v 1)) (Sse41.vget v 9))
      (Sse41.xor (Sse41.xor (o2 h_vecs) (Sse41.vget v 2)) (Sse41.vget v 10))
      (Sse41.xor (Sse41.xor (o3 h_vecs) (Sse41.vget v 3)) (Sse41.vget v 11))
      (Sse41.xor (Sse41.xor (o4 h_vecs) (Sse41.vget v 4)) (Sse41.vget v 12))
      (Sse41.xor (Sse41.xor (o5 h_vecs) (Sse41.vget v 5)) (Sse41.vget v 13))
      (Sse41.xor (Sse41.xor (o6 h_vecs) (Sse41.vget v 6)) (Sse41.vget v 14))
      (Sse41.xor (Sse41.xor (o7 h_vecs) (Sse41.vget v 7)) (Sse41.vget v 15)).

(** sse41.rs:596-647 [compress4_transposed_inline]; the caller's [h_vecs] is a local *)
Definition compress4_transposed (r : rules) (h_vecs : oct m128) (msg0 msg1 msg2 msg3 : pointer)
    (count_low count_high lastblock lastnode : m128) : code (oct m128) :=
  msg_vecs <-- transpose_message_blocks r msg0 msg1 msg2 msg3 ;;
  give (compress4_rounds h_vecs msg_vecs count_low count_high lastblock lastnode).

(** sse41.rs:668-704 [export_hashes]; the four arrays are at the addresses [places] *)
Definition export_hashes (r : rules) (places : quad N) (h_vecs : oct m128) (hash_length : u8)
  : code (quad Hash) :=
  bytes0 <-- local (q0 places) (repeat x00 OUTBYTES) ;;
  bytes1 <-- local (q1 places) (repeat x00 OUTBYTES) ;;
  bytes2 <-- local (q2 places) (repeat x00 OUTBYTES) ;;
  bytes3 <-- local (q3 places) (repeat x00 OUTBYTES) ;;
  let deinterleaved_lo := Sse41.transpose_vecs (o0 h_vecs) (o1 h_vecs) (o2 h_vecs) (o3 h_vecs) in
  p <-- element r true U8 bytes0 0 ;;
  _ <-- storeu r p (q0 deinterleaved_lo) ;;
  p <-- element r true U8 bytes1 0 ;;
  _ <-- storeu r p (q1 deinterleaved_lo) ;;
  p <-- element r true U8 bytes2 0 ;;
  _ <-- storeu r p (q2 deinterleaved_lo) ;;
  p <-- element r true U8 bytes3 0 ;;
  _ <-- storeu r p (q3 deinterleaved_lo) ;;
  let deinterleaved_hi := Sse41.transpose_vecs (o4 h_vecs) (o5 h_vecs) (o6 h_vecs) (o7 h_vecs) in
  p <-- element r true U8 bytes0 16 ;;
  _ <-- storeu r p (q0 deinterleaved_hi) ;;
  p <-- element r true U8 bytes1 16 ;;
  _ <-- storeu r p (q1 deinterleaved_hi) ;;
  p <-- element r true U8 bytes2 16 ;;
  _ <-- storeu r p (q2 deinterleaved_hi) ;;
  p <-- element r true U8 bytes3 16 ;;
  _ <-- storeu r p (q3 deinterleaved_hi) ;;
  b0 <-- read r (Array U8 OUTBYTES) bytes0 ;;
  b1 <-- read r (Array U8 OUTBYTES) bytes1 ;;
  b2 <-- read r (Array U8 OUTBYTES) bytes2 ;;
  b3 <-- read r (Array U8 OUTBYTES) bytes3 ;;
  give (Quad (mk_Hash b0 hash_length) (mk_Hash b1 hash_length)
             (mk_Hash b2 hash_length) (mk_Hash b3 hash_length)).

(** [&*(input.as_ptr().add(count) as *const Block)] *)
Definition block_at (r : rules) (input : pointer) (count : nat) : code pointer :=
  p <-- ptr_add U8 input count ;;
  reborrow r false Block_ty p.

(** sse41.rs:734-765, the loop of [hash4_exact] *)
Fixpoint hash4_exact_loop (fuel : nat) (r : rules) (places : quad N) (params : Params)
    (input0 input1 input2 input3 : pointer) (len : nat) (h_vecs : oct m128) (count : nat)
  : code (quad Hash) :=
  match fuel with
  | O => fun _ => Stuck
  | S fuel =>
      msg0 <-- block_at r input0 count ;;
      msg1 <-- block_at r input1 count ;;
      msg2 <-- block_at r input2 count ;;
      msg3 <-- block_at r input3 count ;;
      let count := (count + BLOCKBYTES)%nat in
      let count_low := Sse41.set1 (of_N 32 (N.of_nat count)) in
      let count_high := Sse41.set1 (cast 32 (ushr (of_N 64 (N.of_nat count)) 32)) in
      let lastblock := Sse41.set1 (if Nat.eqb count len then umax 32 else uzero 32) in
      let lastnode := Sse41.set1 (if p_last_node params && Nat.eqb count len then umax 32 else uzero 32) in
      h_vecs <-- compress4_transposed r h_vecs msg0 msg1 msg2 msg3 count_low count_high lastblock lastnode ;;
      if Nat.eqb count len then body (export_hashes r places h_vecs (p_hash_length params))
      else hash4_exact_loop fuel r places params input0 input1 input2 input3 len h_vecs count
  end.

(** sse41.rs:707-766 [hash4_exact]; [len] is [input0.len()] *)
Definition hash4_exact (r : rules) (places : quad N) (params : Params)
    (input0 input1 input2 input3 : pointer) (len : nat) : code (quad Hash) :=
  let param_words := make_words params in
  let h_vecs := oct_map Sse41.set1 param_words in
  hash4_exact_loop (S len) r places params input0 input1 input2 input3 len h_vecs 0.

(** ** avx2.rs *)

(** The [_mm256_loadu_si256] instruction; avx2.rs:18-20 [loadu] *)
Definition _mm256_loadu (r : rules) (p : pointer) : code m256 :=
  bs <-- read_unaligned r p 32 ;;
  give (m256_of_bytes bs).
Definition loadu256 (r : rules) (p : pointer) : code m256 := _mm256_loadu r p.

(** avx2.rs:368-373 [load_2x256] *)
Definition load_2x256 (r : rules) (msg : pointer) : code (m256 * m256) :=
  a <-- _mm256_loadu r msg ;;
  p <-- ptr_add M256 msg 1 ;;
  b <-- _mm256_loadu r p ;;
  give (a, b).

(** avx2.rs:506-552 [load_msg_vecs_interleave] *)
Definition load_msg_vecs_interleave (r : rules) (msg : oct pointer) : code (list m256) :=
  '(front_a, back_a) <-- load_2x256 r (o0 msg) ;;
  '(front_b, back_b) <-- load_2x256 r (o1 msg) ;;
  '(front_c, back_c) <-- load_2x256 r (o2 msg) ;;
  '(front_d, back_d) <-- load_2x256 r (o3 msg) ;;
  '(front_e, back_e) <-- load_2x256 r (o4 msg) ;;
  '(front_f, back_f) <-- load_2x256 r (o5 msg) ;;
  '(front_g, back_g) <-- load_2x256 r (o6 msg) ;;
  '(front_h, back_h) <-- load_2x256 r (o7 msg) ;;
  let front_interleaved := Avx2.transpose_vecs (Oct front_a front_b front_c front_d front_e front_f front_g front_h) in
  let back_interleaved := Avx2.transpose_vecs (Oct back_a back_b back_c back_d back_e back_f back_g back_h) in
  give (oct_list front_interleaved ++ oct_list back_interleaved).

(** avx2.rs:614-642, the rounds of [compress8_transposed_inline], on vectors *)
Definition rounds8 (h_vecs : oct m256) (msg_vecs : list m256)
    (count_low count_high lastblock lastnode : m256) : list m256 :=
  let v := [o0 h_vecs; o1 h_vecs; o2 h_vecs; o3 h_vecs; o4 h_vecs; o5 h_vecs; o6 h_vecs; o7 h_vecs;
            Avx2.load_256_from_u32 (o0 IV); Avx2.load_256_from_u32 (o1 IV);
            Avx2.load_256_from_u32 (o2 IV); Avx2.load_256_from_u32 (o3 IV);
            Avx2.xor (Avx2.load_256_from_u32 (o4 IV)) count_low;
            Avx2.xor (Avx2.load_256_from_u32 (o5 IV)) count_high;
            Avx2.xor (Avx2.load_256_from_u32 (o6 IV)) lastblock;
            Avx2.xor (Avx2.load_256_from_u32 (o7 IV)) lastnode] in
  fold_left (fun v k => Avx2.blake2s_round_8x v msg_vecs k) (seq 0 10) v.

(** [vecs[i]] and [vecs[i] = x] for [vecs: &mut [__m256i; 8]] *)
Definition vec_get (r : rules) (vecs : pointer) (i : nat) : code m256 :=
  p <-- ptr_add M256 vecs i ;;
  bs <-- read r M256 p ;;
  give (m256_of_bytes bs).
Definition vec_set (r : rules) (vecs : pointer) (i : nat) (x : m256) : code unit :=
  p <-- ptr_add M256 vecs i ;;
  write r M256 p (m256_bytes x).
Definition vecs_get (r : rules) (vecs : pointer) : code (oct m256) :=
  a0 <-- vec_get r vecs 0 ;;
  a1 <-- vec_get r vecs 1 ;;
  a2 <-- vec_get r vecs 2 ;;
  a3 <-- vec_get r vecs 3 ;;
  a4 <-- vec_get r vecs 4 ;;
  a5 <-- vec_get r vecs 5 ;;
  a6 <-- vec_get r vecs 6 ;;
  a7 <-- vec_get r vecs 7 ;;
  give (Oct a0 a1 a2 a3 a4 a5 a6 a7).

(** avx2.rs:606-652 [compress8_transposed_inline] on vectors in memory *)
Definition compress8_transposed (r : rules) (h_vecs : pointer) (msg_vecs : list m256)
    (count_low count_high lastblock lastnode : m256) : code unit :=
  h <-- vecs_get r h_vecs ;;
  let v := rounds8 h msg_vecs count_low count_high lastblock lastnode in
  let step i :=
    (x <-- vec_get r h_vecs i ;;
     vec_set r h_vecs i (Avx2.xor x (Avx2.xor (Avx2.vget v i) (Avx2.vget v (8 + i))))) in
  _ <-- step 0 ;;
  _ <-- step 1 ;;
  _ <-- step 2 ;;
  _ <-- step 3 ;;
  _ <-- step 4 ;;
  _ <-- step 5 ;;
  _ <-- step 6 ;;
  step 7.

(** avx2.rs:440-443 [vectorize_words8], with 402-437 [transpose_vecs] on vectors in memory *)
Definition vectorize_words8 (r : rules) (words : pointer) : code unit :=
  vecs <-- reborrow r true (Array M256 8) words ;;
  v <-- vecs_get r vecs ;;
  let v := Avx2.transpose_vecs v in
  _ <-- vec_set r vecs 0 (o0 v) ;;
  _ <-- vec_set r vecs 1 (o1 v) ;;
  _ <-- vec_set r vecs 2 (o2 v) ;;
  _ <-- vec_set r vecs 3 (o3 v) ;;
  _ <-- vec_set r vecs 4 (o4 v) ;;
  _ <-- vec_set r vecs 5 (o5 v) ;;
  _ <-- vec_set r vecs 6 (o6 v) ;;
  vec_set r vecs 7 (o7 v).

(** avx2.rs:558-585 [compress8_vectorized] *)
Definition compress8_vectorized (r : rules) (states : pointer) (msg : oct pointer)
    (count_low count_high lastblock lastnode : pointer) : code unit :=
  h_vecs <-- reborrow r true (Array M256 8) states ;;
  msg_vecs <-- load_msg_vecs_interleave r msg ;;
  low <-- read r AlignedWords8_ty count_low ;;
  high <-- read r AlignedWords8_ty count_high ;;
  last <-- read r AlignedWords8_ty lastblock ;;
  node <-- read r AlignedWords8_ty lastnode ;;
  compress8_transposed r h_vecs msg_vecs (transmute_m256 low) (transmute_m256 high)
    (transmute_m256 last) (transmute_m256 node).

(** avx2.rs:209-325 [compress8]; its [h_vecs] is a local *)
Definition compress8 (r : rules) (h msg : oct pointer) (count : oct u64) (lastblock lastnode : oct u32)
  : code unit :=
  h0 <-- loadu256 r (o0 h) ;;
  h1 <-- loadu256 r (o1 h) ;;
  h2 <-- loadu256 r (o2 h) ;;
  h3 <-- loadu256 r (o3 h) ;;
  h4 <-- loadu256 r (o4 h) ;;
  h5 <-- loadu256 r (o5 h) ;;
  h6 <-- loadu256 r (o6 h) ;;
  h7 <-- loadu256 r (o7 h) ;;
  let h_vecs := Avx2.transpose_vecs (Oct h0 h1 h2 h3 h4 h5 h6 h7) in
  let vec (x : oct u32) := Avx2.load_256_from_8xu32 (o0 x) (o1 x) (o2 x) (o3 x) (o4 x) (o5 x) (o6 x) (o7 x) in
  msg_vecs <-- load_msg_vecs_interleave r msg ;;
  let h_vecs := Avx2.compress8_transposed h_vecs msg_vecs
                  (vec (oct_map (cast 32) count)) (vec (oct_map (fun x => cast 32 (ushr x 32)) count))
                  (vec lastblock) (vec lastnode) in
  let h_vecs := Avx2.transpose_vecs h_vecs in
  _ <-- write r StateWords_ty (o0 h) (m256_bytes (o0 h_vecs)) ;;
  _ <-- write r StateWords_ty (o1 h) (m256_bytes (o1 h_vecs)) ;;
  _ <-- write r StateWords_ty (o2 h) (m256_bytes (o2 h_vecs)) ;;
  _ <-- write r StateWords_ty (o3 h) (m256_bytes (o3 h_vecs)) ;;
  _ <-- write r StateWords_ty (o4 h) (m256_bytes (o4 h_vecs)) ;;
  _ <-- write r StateWords_ty (o5 h) (m256_bytes (o5 h_vecs)) ;;
  _ <-- write r StateWords_ty (o6 h) (m256_bytes (o6 h_vecs)) ;;
  write r StateWords_ty (o7 h) (m256_bytes (o7 h_vecs)).

(** avx2.rs:730-763, the loop of [hash8_exact] *)
Fixpoint hash8_exact_loop (fuel : nat) (r : rules) (params : Params) (input : oct pointer)
    (len : nat) (h_vecs : oct m256) (count : nat) : code (oct Hash) :=
  match fuel with
  | O => fun _ => Stuck
  | S fuel =>
      msg0 <-- block_at r (o0 input) count ;;
      msg1 <-- block_at r (o1 input) count ;;
      msg2 <-- block_at r (o2 input) count ;;
      msg3 <-- block_at r (o3 input) count ;;
      msg4 <-- block_at r (o4 input) count ;;
      msg5 <-- block_at r (o5 input) count ;;
      msg6 <-- block_at r (o6 input) count ;;
      msg7 <-- block_at r (o7 input) count ;;
      let count := (count + BLOCKBYTES)%nat in
      let count_low := Avx2.load_256_from_u32 (of_N 32 (N.of_nat count)) in
      let count_high := Avx2.load_256_from_u32 (cast 32 (ushr (of_N 64 (N.of_nat count)) 32)) in
      let lastblock := Avx2.load_256_from_u32 (if Nat.eqb count len then umax 32 else uzero 32) in
      let lastnode := Avx2.load_256_from_u32
                        (if p_last_node params && Nat.eqb count len then umax 32 else uzero 32) in
      msg_vecs <-- load_msg_vecs_interleave r (Oct msg0 msg1 msg2 msg3 msg4 msg5 msg6 msg7) ;;
      let h_vecs := Avx2.compress8_transposed h_vecs msg_vecs count_low count_high lastblock lastnode in
      if Nat.eqb count len then give (Avx2.export_hashes h_vecs (p_hash_length params))
      else hash8_exact_loop fuel r params input len h_vecs count
  end.

(** avx2.rs:698-764 [hash8_exact]; [len] is [input0.len()] *)
Definition hash8_exact (r : rules) (params : Params) (input : oct pointer) (len : nat) : code (oct Hash) :=
  let param_words := make_words params in
  let h_vecs := oct_map Avx2.load_256_from_u32 param_words in
  hash8_exact_loop (S len) r params input len h_vecs 0.

(** ** What Rust guarantees of a reference to a [t] (of a slice: [Array U8 len]): it is
    aligned, points to allocated bytes, may access them, and write them if it is mutable. *)
Definition reference (m : memory) (p : pointer) (t : ty) (mut : bool) : Prop :=
  exists o, nth_error m (alloc p) = Some o /\ offset p + size_of t <= length (bytes o) /\
    N.divide (N.of_nat (align_of t)) (address o + N.of_nat (offset p)) /\
    from p <= offset p /\ offset p + size_of t <= upto p /\ (mut = true -> mutable p = true).

(** ** Words for the statements. *)

(** [[AlignedWords8; 8]], and its bytes *)
Definition Words8_ty : ty := Array AlignedWords8_ty 8.
Definition states_bytes (w : oct AlignedWords8) : list byte := flat_map words_bytes (oct_list w).
(** The [n] bytes at [p] and the [k] bytes at [q] do not overlap. *)
Definition apart (p : pointer) (n : nat) (q : pointer) (k : nat) : Prop :=
  alloc p <> alloc q \/ offset p + n <= offset q \/ offset q + k <= offset p.
(** Several writes, one after the other. *)
Definition stored_all (m : memory) (l : list (pointer * list byte)) : memory :=
  fold_left (fun m '(p, bs) => stored m p bs) l m.
Definition oct_zip {A B} (x : oct A) (y : oct B) : list (A * B) := combine (oct_list x) (oct_list y).
Definition octall {A} (P : A -> Prop) (x : oct A) : Prop :=
  P (o0 x) /\ P (o1 x) /\ P (o2 x) /\ P (o3 x) /\ P (o4 x) /\ P (o5 x) /\ P (o6 x) /\ P (o7 x).
(** The outcome of code that leaves the memory as it is. *)
Definition with_memory {A} (m : memory) (x : outcome A) : outcome (A * memory) :=
  match x with Ok a => Ok (a, m) | Panic => Panic | UB => UB | Stuck => Stuck end.
