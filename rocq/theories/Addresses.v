(** * Addresses: the code of [Memory], with a record of its accesses.

    The functions from [ptr_add_t] on are those of [Memory], word for word, with [_t]
    added to their names; [AddressFacts] proves that their results are the same.  What is
    recorded is what the code reads and writes, with addresses and sizes, in order. *)
From Verif Require Import Base Consts Intrinsics Portable Params Memory.
From Verif Require Sse41 Avx2.
Local Open Scope nat_scope.

Inductive direction := Read | Write.
Record access := mk_access { kind : direction; where_ : N; size : nat }.
(** The address a pointer holds. *)
Definition place (m : memory) (p : pointer) : N :=
  match nth_error m (alloc p) with None => 0 | Some o => address o + N.of_nat (offset p) end%N.

Definition tcode (A : Type) : Type := memory -> list access * outcome (A * memory).
Definition give_t {A} (a : A) : tcode A := fun m => ([], Ok (a, m)).
Definition check_t (b : memory -> bool) : tcode unit := fun m => ([], if b m then Ok (tt, m) else UB).
Definition andthen_t {A B} (x : tcode A) (f : A -> tcode B) : tcode B :=
  fun m => match x m with
           | (l, Ok (a, m)) => let '(l', o) := f a m in (l ++ l', o)
           | (l, Panic) => (l, Panic)
           | (l, UB) => (l, UB)
           | (l, Stuck) => (l, Stuck)
           end.
Notation "x <~ e ;; k" := (andthen_t e (fun x => k))
  (at level 100, e at next level, right associativity).
Notation "' p <~ e ;; k" := (andthen_t e (fun p => k))
  (at level 100, p pattern, e at next level, right associativity).

(** [p.add(n)] on [*const t]: must stay within the allocation (or end where it ends). *)
Definition ptr_add_t (t : ty) (p : pointer) (n : nat) : tcode pointer :=
  let q := mk_pointer (alloc p) (offset p + n * size_of t) (from p) (upto p) (mutable p) in
  _ <~ check_t (fun m => within Allocation m q 0) ;;
  give_t q.
(** [&*p] ([mut = false]) and [&mut *p] at type [t]: aligned, there, and mutable only if
    [p] is. *)
Definition reborrow_t (r : rules) (mut : bool) (t : ty) (p : pointer) : tcode pointer :=
  _ <~ check_t (fun m => within r m p (size_of t) && aligned m p (align_of t) && (negb mut || mutable p)) ;;
  give_t (mk_pointer (alloc p) (offset p) (offset p) (offset p + size_of t) mut).
(** [&a[i]] and [&mut a[i]] for a reference [a] to an array of [t]. *)
Definition element_t (r : rules) (mut : bool) (t : ty) (a : pointer) (i : nat) : tcode pointer :=
  p <~ ptr_add_t t a i ;;
  reborrow_t r mut t p.
(** Reads of [n] bytes at any address, and of a value of type [t] at an aligned one. *)
Definition read_unaligned_t (r : rules) (p : pointer) (n : nat) : tcode (list byte) :=
  _ <~ check_t (fun m => within r m p n) ;;
  (fun m => ([mk_access Read (place m p) n], Ok (contents m p n, m))).
Definition read_t (r : rules) (t : ty) (p : pointer) : tcode (list byte) :=
  _ <~ check_t (fun m => aligned m p (align_of t)) ;;
  read_unaligned_t r p (size_of t).
(** Writes. *)
Definition write_unaligned_t (r : rules) (p : pointer) (bs : list byte) : tcode unit :=
  _ <~ check_t (fun m => within r m p (length bs) && mutable p) ;;
  (fun m => ([mk_access Write (place m p) (length bs)], Ok (tt, stored m p bs))).
Definition write_t (r : rules) (t : ty) (p : pointer) (bs : list byte) : tcode unit :=
  _ <~ check_t (fun m => aligned m p (align_of t)) ;;
  write_unaligned_t r p bs.
(** A local variable at address [a], and a function body, whose locals end with it. *)
Definition local_t (a : N) (bs : list byte) : tcode pointer :=
  fun m => ([], Ok (mk_pointer (length m) 0 0 (length bs) true, m ++ [mk_object a bs])).
Definition body_t {A} (x : tcode A) : tcode A :=
  fun m => let '(l, o) := x m in (l, bind o (fun '(a, m') => Ok (a, firstn (length m) m'))).

(** ** sse41.rs *)

(** The [_mm_loadu_si128] and [_mm_storeu_si128] instructions *)
Definition _mm_loadu_t (r : rules) (p : pointer) : tcode m128 :=
  bs <~ read_unaligned_t r p 16 ;;
  give_t (m128_of_bytes bs).
Definition _mm_storeu_t (r : rules) (p : pointer) (x : m128) : tcode unit :=
  write_unaligned_t r p (m128_bytes x).

(** sse41.rs:9-11 [loadu], 14-21 [loadu_4], 24-26 [storeu] *)
Definition loadu_t (r : rules) (p : pointer) : tcode m128 := _mm_loadu_t r p.
Definition loadu_4_t (r : rules) (p : pointer) : tcode (quad m128) :=
  p0 <~ ptr_add_t M128 p 0 ;;
  a0 <~ _mm_loadu_t r p0 ;;
  p1 <~ ptr_add_t M128 p 1 ;;
  a1 <~ _mm_loadu_t r p1 ;;
  p2 <~ ptr_add_t M128 p 2 ;;
  a2 <~ _mm_loadu_t r p2 ;;
  p3 <~ ptr_add_t M128 p 3 ;;
  a3 <~ _mm_loadu_t r p3 ;;
  give_t (Quad a0 a1 a2 a3).
Definition storeu_t (r : rules) (p : pointer) (x : m128) : tcode unit := _mm_storeu_t r p x.

(** sse41.rs:127-371 [compress]; [IV] is a constant (lib.rs:41-44), [iv] points to it *)
Definition compress_t (r : rules) (iv h msg : pointer) (count : u64) (lastblock lastnode : u32) : tcode unit :=
  p <~ element_t r false U32 h 0 ;;
  row1 <~ loadu_t r p ;;
  p <~ element_t r false U32 h 4 ;;
  row2 <~ loadu_t r p ;;
  p <~ element_t r false U32 iv 0 ;;
  row3 <~ loadu_t r p ;;
  p <~ element_t r false U32 iv 4 ;;
  iv4 <~ loadu_t r p ;;
  let row4 := Sse41.xor iv4 (Sse41.setr (cast 32 count) (cast 32 (ushr count 32)) lastblock lastnode) in
  p <~ ptr_add_t U8 msg 0 ;;
  m0 <~ loadu_t r p ;;
  p <~ ptr_add_t U8 msg 16 ;;
  m1 <~ loadu_t r p ;;
  p <~ ptr_add_t U8 msg 32 ;;
  m2 <~ loadu_t r p ;;
  p <~ ptr_add_t U8 msg 48 ;;
  m3 <~ loadu_t r p ;;
  let '(row1, row2, row3, row4) := compress_rounds row1 row2 row3 row4 m0 m1 m2 m3 in
  q <~ element_t r true U32 h 0 ;;
  p <~ element_t r false U32 h 0 ;;
  x <~ loadu_t r p ;;
  _ <~ storeu_t r q (Sse41.xor x (Sse41.xor row1 row3)) ;;
  q <~ element_t r true U32 h 4 ;;
  p <~ element_t r false U32 h 4 ;;
  x <~ loadu_t r p ;;
  storeu_t r q (Sse41.xor x (Sse41.xor row2 row4)).

(** sse41.rs:442-476 [transpose_message_blocks] *)
Definition transpose_message_blocks_t (r : rules) (msg_a msg_b msg_c msg_d : pointer) : tcode (list m128) :=
  '(Quad a0 a1 a2 a3) <~ loadu_4_t r msg_a ;;
  '(Quad b0 b1 b2 b3) <~ loadu_4_t r msg_b ;;
  '(Quad c0 c1 c2 c3) <~ loadu_4_t r msg_c ;;
  '(Quad d0 d1 d2 d3) <~ loadu_4_t r msg_d ;;
  let transposed0 := Sse41.transpose_vecs a0 b0 c0 d0 in
  let transposed1 := Sse41.transpose_vecs a1 b1 c1 d1 in
  let transposed2 := Sse41.transpose_vecs a2 b2 c2 d2 in
  let transposed3 := Sse41.transpose_vecs a3 b3 c3 d3 in
  give_t
  [q0 transposed0; q1 transposed0; q2 transposed0; q3 transposed0;
   q0 transposed1; q1 transposed1; q2 transposed1; q3 transposed1;
   q0 transposed2; q1 transposed2; q2 transposed2; q3 transposed2;
   q0 transposed3; q1 transposed3; q2 transposed3; q3 transposed3].

(** sse41.rs:596-647 [compress4_transposed_inline]; the caller's [h_vecs] is a local *)
Definition compress4_transposed_t (r : rules) (h_vecs : oct m128) (msg0 msg1 msg2 msg3 : pointer)
    (count_low count_high lastblock lastnode : m128) : tcode (oct m128) :=
  msg_vecs <~ transpose_message_blocks_t r msg0 msg1 msg2 msg3 ;;
  give_t (compress4_rounds h_vecs msg_vecs count_low count_high lastblock lastnode).

(** sse41.rs:668-704 [export_hashes]; the four arrays are at the addresses [places] *)
Definition export_hashes_t (r : rules) (places : quad N) (h_vecs : oct m128) (hash_length : u8)
  : tcode (quad Hash) :=
  bytes0 <~ local_t (q0 places) (repeat x00 OUTBYTES) ;;
  bytes1 <~ local_t (q1 places) (repeat x00 OUTBYTES) ;;
  bytes2 <~ local_t (q2 places) (repeat x00 OUTBYTES) ;;
  bytes3 <~ local_t (q3 places) (repeat x00 OUTBYTES) ;;
  let deinterleaved_lo := Sse41.transpose_vecs (o0 h_vecs) (o1 h_vecs) (o2 h_vecs) (o3 h_vecs) in
  p <~ element_t r true U8 bytes0 0 ;;
  _ <~ storeu_t r p (q0 deinterleaved_lo) ;;
  p <~ element_t r true U8 bytes1 0 ;;
  _ <~ storeu_t r p (q1 deinterleaved_lo) ;;
  p <~ element_t r true U8 bytes2 0 ;;
  _ <~ storeu_t r p (q2 deinterleaved_lo) ;;
  p <~ element_t r true U8 bytes3 0 ;;
  _ <~ storeu_t r p (q3 deinterleaved_lo) ;;
  let deinterleaved_hi := Sse41.transpose_vecs (o4 h_vecs) (o5 h_vecs) (o6 h_vecs) (o7 h_vecs) in
  p <~ element_t r true U8 bytes0 16 ;;
  _ <~ storeu_t r p (q0 deinterleaved_hi) ;;
  p <~ element_t r true U8 bytes1 16 ;;
  _ <~ storeu_t r p (q1 deinterleaved_hi) ;;
  p <~ element_t r true U8 bytes2 16 ;;
  _ <~ storeu_t r p (q2 deinterleaved_hi) ;;
  p <~ element_t r true U8 bytes3 16 ;;
  _ <~ storeu_t r p (q3 deinterleaved_hi) ;;
  b0 <~ read_t r (Array U8 OUTBYTES) bytes0 ;;
  b1 <~ read_t r (Array U8 OUTBYTES) bytes1 ;;
  b2 <~ read_t r (Array U8 OUTBYTES) bytes2 ;;
  b3 <~ read_t r (Array U8 OUTBYTES) bytes3 ;;
  give_t (Quad (mk_Hash b0 hash_length) (mk_Hash b1 hash_length)
             (mk_Hash b2 hash_length) (mk_Hash b3 hash_length)).

(** [&*(input.as_ptr().add(count) as *const Block)] *)
Definition block_at_t (r : rules) (input : pointer) (count : nat) : tcode pointer :=
  p <~ ptr_add_t U8 input count ;;
  reborrow_t r false Block_ty p.

(** sse41.rs:734-765, the loop of [hash4_exact] *)
Fixpoint hash4_exact_loop_t (fuel : nat) (r : rules) (places : quad N) (params : Params)
    (input0 input1 input2 input3 : pointer) (len : nat) (h_vecs : oct m128) (count : nat)
  : tcode (quad Hash) :=
  match fuel with
  | O => fun _ => ([], Stuck)
  | S fuel =>
      msg0 <~ block_at_t r input0 count ;;
      msg1 <~ block_at_t r input1 count ;;
      msg2 <~ block_at_t r input2 count ;;
      msg3 <~ block_at_t r input3 count ;;
      let count := (count + BLOCKBYTES)%nat in
      let count_low := Sse41.set1 (of_N 32 (N.of_nat count)) in
      let count_high := Sse41.set1 (cast 32 (ushr (of_N 64 (N.of_nat count)) 32)) in
      let lastblock := Sse41.set1 (if Nat.eqb count len then umax 32 else uzero 32) in
      let lastnode := Sse41.set1 (if p_last_node params && Nat.eqb count len then umax 32 else uzero 32) in
      h_vecs <~ compress4_transposed_t r h_vecs msg0 msg1 msg2 msg3 count_low count_high lastblock lastnode ;;
      if Nat.eqb count len then body_t (export_hashes_t r places h_vecs (p_hash_length params))
      else hash4_exact_loop_t fuel r places params input0 input1 input2 input3 len h_vecs count
  end.

(** sse41.rs:707-766 [hash4_exact]; [len] is [input0.len()] *)
Definition hash4_exact_t (r : rules) (places : quad N) (params : Params)
    (input0 input1 input2 input3 : pointer) (len : nat) : tcode (quad Hash) :=
  let param_words := make_words params in
  let h_vecs := oct_map Sse41.set1 param_words in
  hash4_exact_loop_t (S len) r places params input0 input1 input2 input3 len h_vecs 0.

(** ** avx2.rs *)

(** The [_mm256_loadu_si256] instruction; avx2.rs:18-20 [loadu] *)
Definition _mm256_loadu_t (r : rules) (p : pointer) : tcode m256 :=
  bs <~ read_unaligned_t r p 32 ;;
  give_t (m256_of_bytes bs).
Definition loadu256_t (r : rules) (p : pointer) : tcode m256 := _mm256_loadu_t r p.

(** avx2.rs:368-373 [load_2x256] *)
Definition load_2x256_t (r : rules) (msg : pointer) : tcode (m256 * m256) :=
  a <~ _mm256_loadu_t r msg ;;
  p <~ ptr_add_t M256 msg 1 ;;
  b <~ _mm256_loadu_t r p ;;
  give_t (a, b).

(** avx2.rs:506-552 [load_msg_vecs_interleave] *)
Definition load_msg_vecs_interleave_t (r : rules) (msg : oct pointer) : tcode (list m256) :=
  '(front_a, back_a) <~ load_2x256_t r (o0 msg) ;;
  '(front_b, back_b) <~ load_2x256_t r (o1 msg) ;;
  '(front_c, back_c) <~ load_2x256_t r (o2 msg) ;;
  '(front_d, back_d) <~ load_2x256_t r (o3 msg) ;;
  '(front_e, back_e) <~ load_2x256_t r (o4 msg) ;;
  '(front_f, back_f) <~ load_2x256_t r (o5 msg) ;;
  '(front_g, back_g) <~ load_2x256_t r (o6 msg) ;;
  '(front_h, back_h) <~ load_2x256_t r (o7 msg) ;;
  let front_interleaved := Avx2.transpose_vecs (Oct front_a front_b front_c front_d front_e front_f front_g front_h) in
  let back_interleaved := Avx2.transpose_vecs (Oct back_a back_b back_c back_d back_e back_f back_g back_h) in
  give_t (oct_list front_interleaved ++ oct_list back_interleaved).

(** [vecs[i]] and [vecs[i] = x] for [vecs: &mut [__m256i; 8]] *)
Definition vec_get_t (r : rules) (vecs : pointer) (i : nat) : tcode m256 :=
  p <~ ptr_add_t M256 vecs i ;;
  bs <~ read_t r M256 p ;;
  give_t (m256_of_bytes bs).
Definition vec_set_t (r : rules) (vecs : pointer) (i : nat) (x : m256) : tcode unit :=
  p <~ ptr_add_t M256 vecs i ;;
  write_t r M256 p (m256_bytes x).
Definition vecs_get_t (r : rules) (vecs : pointer) : tcode (oct m256) :=
  a0 <~ vec_get_t r vecs 0 ;;
  a1 <~ vec_get_t r vecs 1 ;;
  a2 <~ vec_get_t r vecs 2 ;;
  a3 <~ vec_get_t r vecs 3 ;;
  a4 <~ vec_get_t r vecs 4 ;;
  a5 <~ vec_get_t r vecs 5 ;;
  a6 <~ vec_get_t r vecs 6 ;;
  a7 <~ vec_get_t r vecs 7 ;;
  give_t (Oct a0 a1 a2 a3 a4 a5 a6 a7).

(** avx2.rs:606-652 [compress8_transposed_inline] on vectors in memory *)
Definition compress8_transposed_t (r : rules) (h_vecs : pointer) (msg_vecs : list m256)
    (count_low count_high lastblock lastnode : m256) : tcode unit :=
  h <~ vecs_get_t r h_vecs ;;
  let v := rounds8 h msg_vecs count_low count_high lastblock lastnode in
  let step i :=
    (x <~ vec_get_t r h_vecs i ;;
     vec_set_t r h_vecs i (Avx2.xor x (Avx2.xor (Avx2.vget v i) (Avx2.vget v (8 + i))))) in
  _ <~ step 0 ;;
  _ <~ step 1 ;;
  _ <~ step 2 ;;
  _ <~ step 3 ;;
  _ <~ step 4 ;;
  _ <~ step 5 ;;
  _ <~ step 6 ;;
  step 7.

(** avx2.rs:440-443 [vectorize_words8], with 402-437 [transpose_vecs] on vectors in memory *)
Definition vectorize_words8_t (r : rules) (words : pointer) : tcode unit :=
  vecs <~ reborrow_t r true (Array M256 8) words ;;
  v <~ vecs_get_t r vecs ;;
  let v := Avx2.transpose_vecs v in
  _ <~ vec_set_t r vecs 0 (o0 v) ;;
  _ <~ vec_set_t r vecs 1 (o1 v) ;;
  _ <~ vec_set_t r vecs 2 (o2 v) ;;
  _ <~ vec_set_t r vecs 3 (o3 v) ;;
  _ <~ vec_set_t r vecs 4 (o4 v) ;;
  _ <~ vec_set_t r vecs 5 (o5 v) ;;
  _ <~ vec_set_t r vecs 6 (o6 v) ;;
  vec_set_t r vecs 7 (o7 v).

(** avx2.rs:558-585 [compress8_vectorized] *)
Definition compress8_vectorized_t (r : rules) (states : pointer) (msg : oct pointer)
    (count_low count_high lastblock lastnode : pointer) : tcode unit :=
  h_vecs <~ reborrow_t r true (Array M256 8) states ;;
  msg_vecs <~ load_msg_vecs_interleave_t r msg ;;
  low <~ read_t r AlignedWords8_ty count_low ;;
  high <~ read_t r AlignedWords8_ty count_high ;;
  last <~ read_t r AlignedWords8_ty lastblock ;;
  node <~ read_t r AlignedWords8_ty lastnode ;;
  compress8_transposed_t r h_vecs msg_vecs (transmute_m256 low) (transmute_m256 high)
    (transmute_m256 last) (transmute_m256 node).

(** avx2.rs:209-325 [compress8]; its [h_vecs] is a local *)
Definition compress8_t (r : rules) (h msg : oct pointer) (count : oct u64) (lastblock lastnode : oct u32)
  : tcode unit :=
  h0 <~ loadu256_t r (o0 h) ;;
  h1 <~ loadu256_t r (o1 h) ;;
  h2 <~ loadu256_t r (o2 h) ;;
  h3 <~ loadu256_t r (o3 h) ;;
  h4 <~ loadu256_t r (o4 h) ;;
  h5 <~ loadu256_t r (o5 h) ;;
  h6 <~ loadu256_t r (o6 h) ;;
  h7 <~ loadu256_t r (o7 h) ;;
  let h_vecs := Avx2.transpose_vecs (Oct h0 h1 h2 h3 h4 h5 h6 h7) in
  let vec (x : oct u32) := Avx2.load_256_from_8xu32 (o0 x) (o1 x) (o2 x) (o3 x) (o4 x) (o5 x) (o6 x) (o7 x) in
  msg_vecs <~ load_msg_vecs_interleave_t r msg ;;
  let h_vecs := Avx2.compress8_transposed h_vecs msg_vecs
                  (vec (oct_map (cast 32) count)) (vec (oct_map (fun x => cast 32 (ushr x 32)) count))
                  (vec lastblock) (vec lastnode) in
  let h_vecs := Avx2.transpose_vecs h_vecs in
  _ <~ write_t r StateWords_ty (o0 h) (m256_bytes (o0 h_vecs)) ;;
  _ <~ write_t r StateWords_ty (o1 h) (m256_bytes (o1 h_vecs)) ;;
  _ <~ write_t r StateWords_ty (o2 h) (m256_bytes (o2 h_vecs)) ;;
  _ <~ write_t r StateWords_ty (o3 h) (m256_bytes (o3 h_vecs)) ;;
  _ <~ write_t r StateWords_ty (o4 h) (m256_bytes (o4 h_vecs)) ;;
  _ <~ write_t r StateWords_ty (o5 h) (m256_bytes (o5 h_vecs)) ;;
  _ <~ write_t r StateWords_ty (o6 h) (m256_bytes (o6 h_vecs)) ;;
  write_t r StateWords_ty (o7 h) (m256_bytes (o7 h_vecs)).

(** avx2.rs:730-763, the loop of [hash8_exact] *)
Fixpoint hash8_exact_loop_t (fuel : nat) (r : rules) (params : Params) (input : oct pointer)
    (len : nat) (h_vecs : oct m256) (count : nat) : tcode (oct Hash) :=
  match fuel with
  | O => fun _ => ([], Stuck)
  | S fuel =>
      msg0 <~ block_at_t r (o0 input) count ;;
      msg1 <~ block_at_t r (o1 input) count ;;
      msg2 <~ block_at_t r (o2 input) count ;;
      msg3 <~ block_at_t r (o3 input) count ;;
      msg4 <~ block_at_t r (o4 input) count ;;
      msg5 <~ block_at_t r (o5 input) count ;;
      msg6 <~ block_at_t r (o6 input) count ;;
      msg7 <~ block_at_t r (o7 input) count ;;
      let count := (count + BLOCKBYTES)%nat in
      let count_low := Avx2.load_256_from_u32 (of_N 32 (N.of_nat count)) in
      let count_high := Avx2.load_256_from_u32 (cast 32 (ushr (of_N 64 (N.of_nat count)) 32)) in
      let lastblock := Avx2.load_256_from_u32 (if Nat.eqb count len then umax 32 else uzero 32) in
      let lastnode := Avx2.load_256_from_u32
                        (if p_last_node params && Nat.eqb count len then umax 32 else uzero 32) in
      msg_vecs <~ load_msg_vecs_interleave_t r (Oct msg0 msg1 msg2 msg3 msg4 msg5 msg6 msg7) ;;
      let h_vecs := Avx2.compress8_transposed h_vecs msg_vecs count_low count_high lastblock lastnode in
      if Nat.eqb count len then give_t (Avx2.export_hashes h_vecs (p_hash_length params))
      else hash8_exact_loop_t fuel r params input len h_vecs count
  end.

(** avx2.rs:698-764 [hash8_exact]; [len] is [input0.len()] *)
Definition hash8_exact_t (r : rules) (params : Params) (input : oct pointer) (len : nat) : tcode (oct Hash) :=
  let param_words := make_words params in
  let h_vecs := oct_map Avx2.load_256_from_u32 param_words in
  hash8_exact_loop_t (S len) r params input len h_vecs 0.

(** ** Words for the statements *)

(** A read or write of [n] bytes, [k] bytes after where [p] points *)
Definition read_at (m : memory) (p : pointer) (k n : nat) : access := mk_access Read (place m p + N.of_nat k) n.
Definition write_at (m : memory) (p : pointer) (k n : nat) : access := mk_access Write (place m p + N.of_nat k) n.
(** The 64 bytes from the [k]th on, 16 or 32 at a time *)
Definition reads16 (m : memory) (p : pointer) (k : nat) : list access := map (fun i => read_at m p (k + 16 * i) 16) (seq 0 4).
Definition reads32 (m : memory) (p : pointer) (k : nat) : list access := map (fun i => read_at m p (k + 32 * i) 32) (seq 0 2).
