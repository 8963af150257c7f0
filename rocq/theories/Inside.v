(** * Inside: the accesses inside the compression routines.

    In [Portable], [Sse41] and [Avx2] an array element is read with a default, and in
    [Traced] a compression is one event.  Here are the routines that index arrays once
    more, with bounds-checked indexing as in Rust (out of range is a panic) and a record
    of every access.  None of them has a condition.

    [sse41::compress] and the vector helpers use no arrays; their loads and stores are in
    [Memory].  So are the loads of the messages of the 4-way and 8-way routines, which
    are arguments here. *)
From Verif Require Import Base Consts Intrinsics Portable Traced.
From Verif Require Sse41 Avx2.
Local Open Scope nat_scope.

(** [xs[i]], and [xs[i] = x] *)
Definition get_i {A} (xs : list A) (i : nat) : traced A :=
  note [Access i (S i) (length xs)] (match nth_error xs i with Some x => Ok x | None => Panic end).
Definition set_i {A} (xs : list A) (i : nat) (x : A) : traced (list A) :=
  note [Access i (S i) (length xs)] (if i <? length xs then Ok (upd xs i x) else Panic).
(** [SIGMA[r][k] as usize] (lib.rs:45-58 [SIGMA]) *)
Definition sigma_i (r k : nat) : traced nat :=
  row <~ get_i SIGMA r ;;
  get_i row k.

(** ** portable.rs *)

(** [v[k] = v[k].wrapping_add(v[b]).wrapping_add(x)], [v[k] = v[k].wrapping_add(v[b])] and
    [v[k] = (v[k] ^ v[b]).rotate_right(n)] *)
Definition add3_i (v : list u32) (k b : nat) (x : u32) : traced (list u32) :=
  y <~ get_i v k ;; z <~ get_i v b ;;
  set_i v k (wrapping_add (wrapping_add y z) x).
Definition add2_i (v : list u32) (k b : nat) : traced (list u32) :=
  y <~ get_i v k ;; z <~ get_i v b ;;
  set_i v k (wrapping_add y z).
Definition xor_rot_i (v : list u32) (k b : nat) (n : N) : traced (list u32) :=
  y <~ get_i v k ;; z <~ get_i v b ;;
  set_i v k (rotate_right (uxor y z) n).

(** portable.rs:11-21 [g] *)
Definition g_i (v : list u32) (a b c d : nat) (x y : u32) : traced (list u32) :=
  v <~ add3_i v a b x ;;
  v <~ xor_rot_i v d a 16 ;;
  v <~ add2_i v c d ;;
  v <~ xor_rot_i v b c 12 ;;
  v <~ add3_i v a b y ;;
  v <~ xor_rot_i v d a 8 ;;
  v <~ add2_i v c d ;;
  v <~ xor_rot_i v b c 7 ;;
  ret v.
(** [g(v, a, b, c, d, m[s[i] as usize], m[s[j] as usize])] *)
Definition g_m_i (s : list nat) (m v : list u32) (a b c d i j : nat) : traced (list u32) :=
  k <~ get_i s i ;; x <~ get_i m k ;;
  k <~ get_i s j ;; y <~ get_i m k ;;
  g_i v a b c d x y.

(** portable.rs:23-39 [round] *)
Definition round_i (r : nat) (m v : list u32) : traced (list u32) :=
  s <~ get_i SIGMA r ;;
  v <~ g_m_i s m v 0 4 8 12 0 1 ;;
  v <~ g_m_i s m v 1 5 9 13 2 3 ;;
  v <~ g_m_i s m v 2 6 10 14 4 5 ;;
  v <~ g_m_i s m v 3 7 11 15 6 7 ;;
  v <~ g_m_i s m v 0 5 10 15 8 9 ;;
  v <~ g_m_i s m v 1 6 11 12 10 11 ;;
  v <~ g_m_i s m v 2 7 8 13 12 13 ;;
  v <~ g_m_i s m v 3 4 9 14 14 15 ;;
  ret v.

(** [LittleEndian::read_u32] of piece [off / 4] of the message *)
Definition read_u32_i (msg : list byte) (off : nat) : traced u32 :=
  bs <~ array_ref_t msg off 4 ;;
  b0 <~ get_i bs 0 ;; b1 <~ get_i bs 1 ;; b2 <~ get_i bs 2 ;; b3 <~ get_i bs 3 ;;
  ret (u32_of_bytes b0 b1 b2 b3).
(** [h[i] ^= v[i] ^ v[i + 8]] *)
Definition feed_i (h v : list u32) (i : nat) : traced (list u32) :=
  x <~ get_i v i ;; y <~ get_i v (8 + i) ;;
  z <~ get_i h i ;;
  set_i h i (uxor z (uxor x y)).

(** portable.rs:45-106 [compress]; [h] is the array of eight words *)
Definition compress_i (h : list u32) (msg : list byte) (count : u64) (lastblock lastnode : u32)
  : traced (list u32) :=
  h0 <~ get_i h 0 ;; h1 <~ get_i h 1 ;; h2 <~ get_i h 2 ;; h3 <~ get_i h 3 ;;
  h4 <~ get_i h 4 ;; h5 <~ get_i h 5 ;; h6 <~ get_i h 6 ;; h7 <~ get_i h 7 ;;
  i0 <~ get_i (oct_list IV) 0 ;; i1 <~ get_i (oct_list IV) 1 ;;
  i2 <~ get_i (oct_list IV) 2 ;; i3 <~ get_i (oct_list IV) 3 ;;
  i4 <~ get_i (oct_list IV) 4 ;; i5 <~ get_i (oct_list IV) 5 ;;
  i6 <~ get_i (oct_list IV) 6 ;; i7 <~ get_i (oct_list IV) 7 ;;
  let v := [h0; h1; h2; h3; h4; h5; h6; h7; i0; i1; i2; i3;
            uxor i4 (cast 32 count); uxor i5 (cast 32 (ushr count 32)); uxor i6 lastblock; uxor i7 lastnode] in
  m0 <~ read_u32_i msg 0 ;;
  m1 <~ read_u32_i msg 4 ;;
  m2 <~ read_u32_i msg 8 ;;
  m3 <~ read_u32_i msg 12 ;;
  m4 <~ read_u32_i msg 16 ;;
  m5 <~ read_u32_i msg 20 ;;
  m6 <~ read_u32_i msg 24 ;;
  m7 <~ read_u32_i msg 28 ;;
  m8 <~ read_u32_i msg 32 ;;
  m9 <~ read_u32_i msg 36 ;;
  m10 <~ read_u32_i msg 40 ;;
  m11 <~ read_u32_i msg 44 ;;
  m12 <~ read_u32_i msg 48 ;;
  m13 <~ read_u32_i msg 52 ;;
  m14 <~ read_u32_i msg 56 ;;
  m15 <~ read_u32_i msg 60 ;;
  let m := [m0; m1; m2; m3; m4; m5; m6; m7; m8; m9; m10; m11; m12; m13; m14; m15] in
  v <~ round_i 0 m v ;;
  v <~ round_i 1 m v ;;
  v <~ round_i 2 m v ;;
  v <~ round_i 3 m v ;;
  v <~ round_i 4 m v ;;
  v <~ round_i 5 m v ;;
  v <~ round_i 6 m v ;;
  v <~ round_i 7 m v ;;
  v <~ round_i 8 m v ;;
  v <~ round_i 9 m v ;;
  h <~ feed_i h v 0 ;;
  h <~ feed_i h v 1 ;;
  h <~ feed_i h v 2 ;;
  h <~ feed_i h v 3 ;;
  h <~ feed_i h v 4 ;;
  h <~ feed_i h v 5 ;;
  h <~ feed_i h v 6 ;;
  h <~ feed_i h v 7 ;;
  ret h.

(** ** sse41.rs *)

(** The statement forms of [round_4]: [v[k] = add(v[a], v[b]);],
    [v[k] = add(v[a], m[SIGMA[r][i] as usize]);] and so on *)
Definition v4_add_i (v : list m128) (k a b : nat) : traced (list m128) :=
  x <~ get_i v a ;;
  y <~ get_i v b ;;
  set_i v k (Sse41.add x y).
Definition v4_xor_i (v : list m128) (k a b : nat) : traced (list m128) :=
  x <~ get_i v a ;;
  y <~ get_i v b ;;
  set_i v k (Sse41.xor x y).
Definition v4_addm_i (v m : list m128) (r k a i : nat) : traced (list m128) :=
  x <~ get_i v a ;;
  j <~ sigma_i r i ;;
  y <~ get_i m j ;;
  set_i v k (Sse41.add x y).
Definition v4_rot16_i (v : list m128) (k a : nat) : traced (list m128) :=
  x <~ get_i v a ;;
  set_i v k (Sse41.rot16 x).
Definition v4_rot12_i (v : list m128) (k a : nat) : traced (list m128) :=
  x <~ get_i v a ;;
  set_i v k (Sse41.rot12 x).
Definition v4_rot8_i (v : list m128) (k a : nat) : traced (list m128) :=
  x <~ get_i v a ;;
  set_i v k (Sse41.rot8 x).
Definition v4_rot7_i (v : list m128) (k a : nat) : traced (list m128) :=
  x <~ get_i v a ;;
  set_i v k (Sse41.rot7 x).

(** sse41.rs:479-593 [round_4] *)
Definition round_4_i (v m : list m128) (r : nat) : traced (list m128) :=
  v <~ v4_addm_i v m r 0 0 0 ;;
  v <~ v4_addm_i v m r 1 1 2 ;;
  v <~ v4_addm_i v m r 2 2 4 ;;
  v <~ v4_addm_i v m r 3 3 6 ;;
  v <~ v4_add_i v 0 0 4 ;;
  v <~ v4_add_i v 1 1 5 ;;
  v <~ v4_add_i v 2 2 6 ;;
  v <~ v4_add_i v 3 3 7 ;;
  v <~ v4_xor_i v 12 12 0 ;;
  v <~ v4_xor_i v 13 13 1 ;;
  v <~ v4_xor_i v 14 14 2 ;;
  v <~ v4_xor_i v 15 15 3 ;;
  v <~ v4_rot16_i v 12 12 ;;
  v <~ v4_rot16_i v 13 13 ;;
  v <~ v4_rot16_i v 14 14 ;;
  v <~ v4_rot16_i v 15 15 ;;
  v <~ v4_add_i v 8 8 12 ;;
  v <~ v4_add_i v 9 9 13 ;;
  v <~ v4_add_i v 10 10 14 ;;
  v <~ v4_add_i v 11 11 15 ;;
  v <~ v4_xor_i v 4 4 8 ;;
  v <~ v4_xor_i v 5 5 9 ;;
  v <~ v4_xor_i v 6 6 10 ;;
  v <~ v4_xor_i v 7 7 11 ;;
  v <~ v4_rot12_i v 4 4 ;;
  v <~ v4_rot12_i v 5 5 ;;
  v <~ v4_rot12_i v 6 6 ;;
  v <~ v4_rot12_i v 7 7 ;;
  v <~ v4_addm_i v m r 0 0 1 ;;
  v <~ v4_addm_i v m r 1 1 3 ;;
  v <~ v4_addm_i v m r 2 2 5 ;;
  v <~ v4_addm_i v m r 3 3 7 ;;
  v <~ v4_add_i v 0 0 4 ;;
  v <~ v4_add_i v 1 1 5 ;;
  v <~ v4_add_i v 2 2 6 ;;
  v <~ v4_add_i v 3 3 7 ;;
  v <~ v4_xor_i v 12 12 0 ;;
  v <~ v4_xor_i v 13 13 1 ;;
  v <~ v4_xor_i v 14 14 2 ;;
  v <~ v4_xor_i v 15 15 3 ;;
  v <~ v4_rot8_i v 12 12 ;;
  v <~ v4_rot8_i v 13 13 ;;
  v <~ v4_rot8_i v 14 14 ;;
  v <~ v4_rot8_i v 15 15 ;;
  v <~ v4_add_i v 8 8 12 ;;
  v <~ v4_add_i v 9 9 13 ;;
  v <~ v4_add_i v 10 10 14 ;;
  v <~ v4_add_i v 11 11 15 ;;
  v <~ v4_xor_i v 4 4 8 ;;
  v <~ v4_xor_i v 5 5 9 ;;
  v <~ v4_xor_i v 6 6 10 ;;
  v <~ v4_xor_i v 7 7 11 ;;
  v <~ v4_rot7_i v 4 4 ;;
  v <~ v4_rot7_i v 5 5 ;;
  v <~ v4_rot7_i v 6 6 ;;
  v <~ v4_rot7_i v 7 7 ;;
  v <~ v4_addm_i v m r 0 0 8 ;;
  v <~ v4_addm_i v m r 1 1 10 ;;
  v <~ v4_addm_i v m r 2 2 12 ;;
  v <~ v4_addm_i v m r 3 3 14 ;;
  v <~ v4_add_i v 0 0 5 ;;
  v <~ v4_add_i v 1 1 6 ;;
  v <~ v4_add_i v 2 2 7 ;;
  v <~ v4_add_i v 3 3 4 ;;
  v <~ v4_xor_i v 15 15 0 ;;
  v <~ v4_xor_i v 12 12 1 ;;
  v <~ v4_xor_i v 13 13 2 ;;
  v <~ v4_xor_i v 14 14 3 ;;
  v <~ v4_rot16_i v 15 15 ;;
  v <~ v4_rot16_i v 12 12 ;;
  v <~ v4_rot16_i v 13 13 ;;
  v <~ v4_rot16_i v 14 14 ;;
  v <~ v4_add_i v 10 10 15 ;;
  v <~ v4_add_i v 11 11 12 ;;
  v <~ v4_add_i v 8 8 13 ;;
  v <~ v4_add_i v 9 9 14 ;;
  v <~ v4_xor_i v 5 5 10 ;;
  v <~ v4_xor_i v 6 6 11 ;;
  v <~ v4_xor_i v 7 7 8 ;;
  v <~ v4_xor_i v 4 4 9 ;;
  v <~ v4_rot12_i v 5 5 ;;
  v <~ v4_rot12_i v 6 6 ;;
  v <~ v4_rot12_i v 7 7 ;;
  v <~ v4_rot12_i v 4 4 ;;
  v <~ v4_addm_i v m r 0 0 9 ;;
  v <~ v4_addm_i v m r 1 1 11 ;;
  v <~ v4_addm_i v m r 2 2 13 ;;
  v <~ v4_addm_i v m r 3 3 15 ;;
  v <~ v4_add_i v 0 0 5 ;;
  v <~ v4_add_i v 1 1 6 ;;
  v <~ v4_add_i v 2 2 7 ;;
  v <~ v4_add_i v 3 3 4 ;;
  v <~ v4_xor_i v 15 15 0 ;;
  v <~ v4_xor_i v 12 12 1 ;;
  v <~ v4_xor_i v 13 13 2 ;;
  v <~ v4_xor_i v 14 14 3 ;;
  v <~ v4_rot8_i v 15 15 ;;
  v <~ v4_rot8_i v 12 12 ;;
  v <~ v4_rot8_i v 13 13 ;;
  v <~ v4_rot8_i v 14 14 ;;
  v <~ v4_add_i v 10 10 15 ;;
  v <~ v4_add_i v 11 11 12 ;;
  v <~ v4_add_i v 8 8 13 ;;
  v <~ v4_add_i v 9 9 14 ;;
  v <~ v4_xor_i v 5 5 10 ;;
  v <~ v4_xor_i v 6 6 11 ;;
  v <~ v4_xor_i v 7 7 8 ;;
  v <~ v4_xor_i v 4 4 9 ;;
  v <~ v4_rot7_i v 5 5 ;;
  v <~ v4_rot7_i v 6 6 ;;
  v <~ v4_rot7_i v 7 7 ;;
  v <~ v4_rot7_i v 4 4 ;;
  ret v.

(** [h_vecs[i] = xor(xor(h_vecs[i], v[i]), v[i + 8]);] *)
Definition feed4_i (h v : list m128) (i : nat) : traced (list m128) :=
  z <~ get_i h i ;; x <~ get_i v i ;; y <~ get_i v (8 + i) ;;
  set_i h i (Sse41.xor (Sse41.xor z x) y).

(** sse41.rs:596-647 [compress4_transposed_inline], after the loads of the message *)
Definition compress4_i (h msg_vecs : list m128) (count_low count_high lastblock lastnode : m128)
  : traced (list m128) :=
  h0 <~ get_i h 0 ;; h1 <~ get_i h 1 ;; h2 <~ get_i h 2 ;; h3 <~ get_i h 3 ;;
  h4 <~ get_i h 4 ;; h5 <~ get_i h 5 ;; h6 <~ get_i h 6 ;; h7 <~ get_i h 7 ;;
  i0 <~ get_i (oct_list IV) 0 ;; i1 <~ get_i (oct_list IV) 1 ;;
  i2 <~ get_i (oct_list IV) 2 ;; i3 <~ get_i (oct_list IV) 3 ;;
  i4 <~ get_i (oct_list IV) 4 ;; i5 <~ get_i (oct_list IV) 5 ;;
  i6 <~ get_i (oct_list IV) 6 ;; i7 <~ get_i (oct_list IV) 7 ;;
  let v := [h0; h1; h2; h3; h4; h5; h6; h7;
            Sse41.set1 i0; Sse41.set1 i1; Sse41.set1 i2; Sse41.set1 i3;
            Sse41.xor (Sse41.set1 i4) count_low; Sse41.xor (Sse41.set1 i5) count_high;
            Sse41.xor (Sse41.set1 i6) lastblock; Sse41.xor (Sse41.set1 i7) lastnode] in
  v <~ round_4_i v msg_vecs 0 ;;
  v <~ round_4_i v msg_vecs 1 ;;
  v <~ round_4_i v msg_vecs 2 ;;
  v <~ round_4_i v msg_vecs 3 ;;
  v <~ round_4_i v msg_vecs 4 ;;
  v <~ round_4_i v msg_vecs 5 ;;
  v <~ round_4_i v msg_vecs 6 ;;
  v <~ round_4_i v msg_vecs 7 ;;
  v <~ round_4_i v msg_vecs 8 ;;
  v <~ round_4_i v msg_vecs 9 ;;
  h <~ feed4_i h v 0 ;;
  h <~ feed4_i h v 1 ;;
  h <~ feed4_i h v 2 ;;
  h <~ feed4_i h v 3 ;;
  h <~ feed4_i h v 4 ;;
  h <~ feed4_i h v 5 ;;
  h <~ feed4_i h v 6 ;;
  h <~ feed4_i h v 7 ;;
  ret h.

(** ** avx2.rs *)

(** The statement forms of [blake2s_round_8x] *)
Definition v8_add_i (v : list m256) (k a b : nat) : traced (list m256) :=
  x <~ get_i v a ;;
  y <~ get_i v b ;;
  set_i v k (Avx2.add x y).
Definition v8_xor_i (v : list m256) (k a b : nat) : traced (list m256) :=
  x <~ get_i v a ;;
  y <~ get_i v b ;;
  set_i v k (Avx2.xor x y).
Definition v8_addm_i (v m : list m256) (r k a i : nat) : traced (list m256) :=
  x <~ get_i v a ;;
  j <~ sigma_i r i ;;
  y <~ get_i m j ;;
  set_i v k (Avx2.add x y).
Definition v8_rot16_i (v : list m256) (k a : nat) : traced (list m256) :=
  x <~ get_i v a ;;
  set_i v k (Avx2.rot16 x).
Definition v8_rot12_i (v : list m256) (k a : nat) : traced (list m256) :=
  x <~ get_i v a ;;
  set_i v k (Avx2.rot12 x).
Definition v8_rot8_i (v : list m256) (k a : nat) : traced (list m256) :=
  x <~ get_i v a ;;
  set_i v k (Avx2.rot8 x).
Definition v8_rot7_i (v : list m256) (k a : nat) : traced (list m256) :=
  x <~ get_i v a ;;
  set_i v k (Avx2.rot7 x).

(** avx2.rs:91-206 [blake2s_round_8x] *)
Definition round_8x_i (v m : list m256) (r : nat) : traced (list m256) :=
  v <~ v8_addm_i v m r 0 0 0 ;;
  v <~ v8_addm_i v m r 1 1 2 ;;
  v <~ v8_addm_i v m r 2 2 4 ;;
  v <~ v8_addm_i v m r 3 3 6 ;;
  v <~ v8_add_i v 0 0 4 ;;
  v <~ v8_add_i v 1 1 5 ;;
  v <~ v8_add_i v 2 2 6 ;;
  v <~ v8_add_i v 3 3 7 ;;
  v <~ v8_xor_i v 12 12 0 ;;
  v <~ v8_xor_i v 13 13 1 ;;
  v <~ v8_xor_i v 14 14 2 ;;
  v <~ v8_xor_i v 15 15 3 ;;
  v <~ v8_rot16_i v 12 12 ;;
  v <~ v8_rot16_i v 13 13 ;;
  v <~ v8_rot16_i v 14 14 ;;
  v <~ v8_rot16_i v 15 15 ;;
  v <~ v8_add_i v 8 8 12 ;;
  v <~ v8_add_i v 9 9 13 ;;
  v <~ v8_add_i v 10 10 14 ;;
  v <~ v8_add_i v 11 11 15 ;;
  v <~ v8_xor_i v 4 4 8 ;;
  v <~ v8_xor_i v 5 5 9 ;;
  v <~ v8_xor_i v 6 6 10 ;;
  v <~ v8_xor_i v 7 7 11 ;;
  v <~ v8_rot12_i v 4 4 ;;
  v <~ v8_rot12_i v 5 5 ;;
  v <~ v8_rot12_i v 6 6 ;;
  v <~ v8_rot12_i v 7 7 ;;
  v <~ v8_addm_i v m r 0 0 1 ;;
  v <~ v8_addm_i v m r 1 1 3 ;;
  v <~ v8_addm_i v m r 2 2 5 ;;
  v <~ v8_addm_i v m r 3 3 7 ;;
  v <~ v8_add_i v 0 0 4 ;;
  v <~ v8_add_i v 1 1 5 ;;
  v <~ v8_add_i v 2 2 6 ;;
  v <~ v8_add_i v 3 3 7 ;;
  v <~ v8_xor_i v 12 12 0 ;;
  v <~ v8_xor_i v 13 13 1 ;;
  v <~ v8_xor_i v 14 14 2 ;;
  v <~ v8_xor_i v 15 15 3 ;;
  v <~ v8_rot8_i v 12 12 ;;
  v <~ v8_rot8_i v 13 13 ;;
  v <~ v8_rot8_i v 14 14 ;;
  v <~ v8_rot8_i v 15 15 ;;
  v <~ v8_add_i v 8 8 12 ;;
  v <~ v8_add_i v 9 9 13 ;;
  v <~ v8_add_i v 10 10 14 ;;
  v <~ v8_add_i v 11 11 15 ;;
  v <~ v8_xor_i v 4 4 8 ;;
  v <~ v8_xor_i v 5 5 9 ;;
  v <~ v8_xor_i v 6 6 10 ;;
  v <~ v8_xor_i v 7 7 11 ;;
  v <~ v8_rot7_i v 4 4 ;;
  v <~ v8_rot7_i v 5 5 ;;
  v <~ v8_rot7_i v 6 6 ;;
  v <~ v8_rot7_i v 7 7 ;;
  v <~ v8_addm_i v m r 0 0 8 ;;
  v <~ v8_addm_i v m r 1 1 10 ;;
  v <~ v8_addm_i v m r 2 2 12 ;;
  v <~ v8_addm_i v m r 3 3 14 ;;
  v <~ v8_add_i v 0 0 5 ;;
  v <~ v8_add_i v 1 1 6 ;;
  v <~ v8_add_i v 2 2 7 ;;
  v <~ v8_add_i v 3 3 4 ;;
  v <~ v8_xor_i v 15 15 0 ;;
  v <~ v8_xor_i v 12 12 1 ;;
  v <~ v8_xor_i v 13 13 2 ;;
  v <~ v8_xor_i v 14 14 3 ;;
  v <~ v8_rot16_i v 15 15 ;;
  v <~ v8_rot16_i v 12 12 ;;
  v <~ v8_rot16_i v 13 13 ;;
  v <~ v8_rot16_i v 14 14 ;;
  v <~ v8_add_i v 10 10 15 ;;
  v <~ v8_add_i v 11 11 12 ;;
  v <~ v8_add_i v 8 8 13 ;;
  v <~ v8_add_i v 9 9 14 ;;
  v <~ v8_xor_i v 5 5 10 ;;
  v <~ v8_xor_i v 6 6 11 ;;
  v <~ v8_xor_i v 7 7 8 ;;
  v <~ v8_xor_i v 4 4 9 ;;
  v <~ v8_rot12_i v 5 5 ;;
  v <~ v8_rot12_i v 6 6 ;;
  v <~ v8_rot12_i v 7 7 ;;
  v <~ v8_rot12_i v 4 4 ;;
  v <~ v8_addm_i v m r 0 0 9 ;;
  v <~ v8_addm_i v m r 1 1 11 ;;
  v <~ v8_addm_i v m r 2 2 13 ;;
  v <~ v8_addm_i v m r 3 3 15 ;;
  v <~ v8_add_i v 0 0 5 ;;
  v <~ v8_add_i v 1 1 6 ;;
  v <~ v8_add_i v 2 2 7 ;;
  v <~ v8_add_i v 3 3 4 ;;
  v <~ v8_xor_i v 15 15 0 ;;
  v <~ v8_xor_i v 12 12 1 ;;
  v <~ v8_xor_i v 13 13 2 ;;
  v <~ v8_xor_i v 14 14 3 ;;
  v <~ v8_rot8_i v 15 15 ;;
  v <~ v8_rot8_i v 12 12 ;;
  v <~ v8_rot8_i v 13 13 ;;
  v <~ v8_rot8_i v 14 14 ;;
  v <~ v8_add_i v 10 10 15 ;;
  v <~ v8_add_i v 11 11 12 ;;
  v <~ v8_add_i v 8 8 13 ;;
  v <~ v8_add_i v 9 9 14 ;;
  v <~ v8_xor_i v 5 5 10 ;;
  v <~ v8_xor_i v 6 6 11 ;;
  v <~ v8_xor_i v 7 7 8 ;;
  v <~ v8_xor_i v 4 4 9 ;;
  v <~ v8_rot7_i v 5 5 ;;
  v <~ v8_rot7_i v 6 6 ;;
  v <~ v8_rot7_i v 7 7 ;;
  v <~ v8_rot7_i v 4 4 ;;
  ret v.

(** [h_vecs[i] = xor(h_vecs[i], xor(v[i], v[i + 8]));] *)
Definition feed8_i (h v : list m256) (i : nat) : traced (list m256) :=
  z <~ get_i h i ;; x <~ get_i v i ;; y <~ get_i v (8 + i) ;;
  set_i h i (Avx2.xor z (Avx2.xor x y)).

(** avx2.rs:606-652 [compress8_transposed_inline] *)
Definition compress8_i (h msg_vecs : list m256) (count_low count_high lastblock lastnode : m256)
  : traced (list m256) :=
  h0 <~ get_i h 0 ;; h1 <~ get_i h 1 ;; h2 <~ get_i h 2 ;; h3 <~ get_i h 3 ;;
  h4 <~ get_i h 4 ;; h5 <~ get_i h 5 ;; h6 <~ get_i h 6 ;; h7 <~ get_i h 7 ;;
  i0 <~ get_i (oct_list IV) 0 ;; i1 <~ get_i (oct_list IV) 1 ;;
  i2 <~ get_i (oct_list IV) 2 ;; i3 <~ get_i (oct_list IV) 3 ;;
  i4 <~ get_i (oct_list IV) 4 ;; i5 <~ get_i (oct_list IV) 5 ;;
  i6 <~ get_i (oct_list IV) 6 ;; i7 <~ get_i (oct_list IV) 7 ;;
  let v := [h0; h1; h2; h3; h4; h5; h6; h7;
            Avx2.load_256_from_u32 i0; Avx2.load_256_from_u32 i1;
            Avx2.load_256_from_u32 i2; Avx2.load_256_from_u32 i3;
            Avx2.xor (Avx2.load_256_from_u32 i4) count_low; Avx2.xor (Avx2.load_256_from_u32 i5) count_high;
            Avx2.xor (Avx2.load_256_from_u32 i6) lastblock; Avx2.xor (Avx2.load_256_from_u32 i7) lastnode] in
  v <~ round_8x_i v msg_vecs 0 ;;
  v <~ round_8x_i v msg_vecs 1 ;;
  v <~ round_8x_i v msg_vecs 2 ;;
  v <~ round_8x_i v msg_vecs 3 ;;
  v <~ round_8x_i v msg_vecs 4 ;;
  v <~ round_8x_i v msg_vecs 5 ;;
  v <~ round_8x_i v msg_vecs 6 ;;
  v <~ round_8x_i v msg_vecs 7 ;;
  v <~ round_8x_i v msg_vecs 8 ;;
  v <~ round_8x_i v msg_vecs 9 ;;
  h <~ feed8_i h v 0 ;;
  h <~ feed8_i h v 1 ;;
  h <~ feed8_i h v 2 ;;
  h <~ feed8_i h v 3 ;;
  h <~ feed8_i h v 4 ;;
  h <~ feed8_i h v 5 ;;
  h <~ feed8_i h v 6 ;;
  h <~ feed8_i h v 7 ;;
  ret h.
