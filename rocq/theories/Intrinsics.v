(** * Intrinsics: the x86 vector instructions used by sse41.rs and avx2.rs.

    An [__m128i] is its four 32-bit lanes, an [__m256i] its eight 32-bit lanes, lane
    0 lowest in memory.  x86 is little-endian, so the 16 (32) bytes of a vector are
    the little-endian bytes of its lanes in order.  Each definition follows the
    operation pseudo-code of the Intel Intrinsics Guide at the granularity (8, 16,
    32, 64 or 128 bits) the instruction works on. *)
From Verif Require Import Base.
Local Open Scope N_scope.

Definition m128 := quad u32.
Definition m256 := oct u32.

(** ** Memory images. *)
Definition m128_bytes (a : m128) : list byte := flat_map u32_to_bytes (quad_list a).
Definition bget (bs : list byte) (i : nat) : byte := nth i bs x00.
Definition word_at (bs : list byte) (i : nat) : u32 :=
  u32_of_bytes (bget bs i) (bget bs (i + 1)) (bget bs (i + 2)) (bget bs (i + 3)).
Definition m128_of_bytes (bs : list byte) : m128 :=
  Quad (word_at bs 0) (word_at bs 4) (word_at bs 8) (word_at bs 12).
Definition m256_bytes (a : m256) : list byte := flat_map u32_to_bytes (oct_list a).
Definition m256_of_bytes (bs : list byte) : m256 :=
  Oct (word_at bs 0) (word_at bs 4) (word_at bs 8) (word_at bs 12)
      (word_at bs 16) (word_at bs 20) (word_at bs 24) (word_at bs 28).

(** The low and high 128-bit halves of a 256-bit vector. *)
Definition lo128 (a : m256) : m128 :=
  match a with Oct x0 x1 x2 x3 _ _ _ _ => Quad x0 x1 x2 x3 end.
Definition hi128 (a : m256) : m128 :=
  match a with Oct _ _ _ _ x4 x5 x6 x7 => Quad x4 x5 x6 x7 end.
Definition join128 (l h : m128) : m256 :=
  match l, h with Quad a b c d, Quad e f g i => Oct a b c d e f g i end.

(** Selection of a 2-bit field of an immediate: bits [2k+1..2k]. *)
Definition imm2 (imm : N) (k : N) : nat := N.to_nat ((imm / 2 ^ (2 * k)) mod 4).
Definition qget (a : m128) (i : nat) : u32 := nth i (quad_list a) (uzero 32).

(** ** 128-bit instructions. *)

(** _mm_loadu_si128 of 16 bytes at byte offset [off] of an array. *)
Definition _mm_loadu_si128 (bs : list byte) (off : nat) : m128 := m128_of_bytes (sub bs off 16).

(** _mm_setr_epi32, _mm_set1_epi32 *)
Definition _mm_setr_epi32 (a b c d : u32) : m128 := Quad a b c d.
Definition _mm_set1_epi32 (a : u32) : m128 := Quad a a a a.

(** _mm_set_epi8: arguments from the most significant byte down. *)
Definition _mm_set_epi8 (e15 e14 e13 e12 e11 e10 e9 e8 e7 e6 e5 e4 e3 e2 e1 e0 : N) : list N :=
  [e0; e1; e2; e3; e4; e5; e6; e7; e8; e9; e10; e11; e12; e13; e14; e15].

(** _mm_xor_si128, _mm_add_epi32, _mm_srli_epi32, _mm_slli_epi32 *)
Definition _mm_xor_si128 (a b : m128) : m128 := quad_map2 uxor a b.
Definition _mm_add_epi32 (a b : m128) : m128 := quad_map2 wrapping_add a b.
Definition _mm_srli_epi32 (a : m128) (n : N) : m128 := quad_map (fun x => ushr x n) a.
Definition _mm_slli_epi32 (a : m128) (n : N) : m128 := quad_map (fun x => ushl x n) a.

(** _mm_shuffle_epi8(a, b): dst byte i is 0 if bit 7 of b[i] is set, else a[b[i] & 15].
    The control vector is given as its list of byte values (see [_mm_set_epi8]). *)
Definition pshufb16 (bs : list byte) (ctl : list N) : list byte :=
  map (fun k => if k <? 128 then bget bs (N.to_nat (k mod 16)) else x00) ctl.
Definition _mm_shuffle_epi8 (a : m128) (ctl : list N) : m128 :=
  m128_of_bytes (pshufb16 (m128_bytes a) ctl).

(** _mm_shuffle_epi32(a, imm): dst lane k is a[imm[2k+1:2k]]. *)
Definition _mm_shuffle_epi32 (a : m128) (imm : N) : m128 :=
  Quad (qget a (imm2 imm 0)) (qget a (imm2 imm 1)) (qget a (imm2 imm 2)) (qget a (imm2 imm 3)).

(** _mm_shuffle_ps(a, b, imm) on the bit patterns (the casts to and from __m128 do
    not change bits): two lanes from a, then two from b. *)
Definition _mm_shuffle_ps (a b : m128) (imm : N) : m128 :=
  Quad (qget a (imm2 imm 0)) (qget a (imm2 imm 1)) (qget b (imm2 imm 2)) (qget b (imm2 imm 3)).

(** The 16-bit lanes of a vector as byte pairs, and back. *)
Definition half (bs : list byte) (k : nat) : list byte := sub bs (2 * k) 2.

(** _mm_blend_epi16(a, b, imm): 16-bit lane k from b if bit k of imm is set, else from a. *)
Definition _mm_blend_epi16 (a b : m128) (imm : N) : m128 :=
  m128_of_bytes
    (flat_map (fun k : nat =>
       if N.testbit imm (N.of_nat k) then half (m128_bytes b) k else half (m128_bytes a) k)
       (seq 0 8)).

(** _mm_shufflehi_epi16(a, imm): low 64 bits unchanged; 16-bit lane 4+k is
    a.16bit[4 + imm[2k+1:2k]]. *)
Definition _mm_shufflehi_epi16 (a : m128) (imm : N) : m128 :=
  m128_of_bytes
    (sub (m128_bytes a) 0 8 ++
     flat_map (fun k : nat => half (m128_bytes a) (4 + imm2 imm (N.of_nat k))) (seq 0 4)).

(** _mm_slli_si128 / _mm_srli_si128(a, n): byte shift of the whole register, zero fill. *)
Definition _mm_slli_si128 (a : m128) (n : nat) : m128 :=
  m128_of_bytes (firstn 16 (repeat x00 n ++ m128_bytes a)).
Definition _mm_srli_si128 (a : m128) (n : nat) : m128 :=
  m128_of_bytes (skipn n (m128_bytes a) ++ repeat x00 n).

(** _mm_unpacklo_epi32, _mm_unpackhi_epi32, _mm_unpacklo_epi64, _mm_unpackhi_epi64 *)
Definition _mm_unpacklo_epi32 (a b : m128) : m128 :=
  match a, b with Quad a0 a1 _ _, Quad b0 b1 _ _ => Quad a0 b0 a1 b1 end.
Definition _mm_unpackhi_epi32 (a b : m128) : m128 :=
  match a, b with Quad _ _ a2 a3, Quad _ _ b2 b3 => Quad a2 b2 a3 b3 end.
Definition _mm_unpacklo_epi64 (a b : m128) : m128 :=
  match a, b with Quad a0 a1 _ _, Quad b0 b1 _ _ => Quad a0 a1 b0 b1 end.
Definition _mm_unpackhi_epi64 (a b : m128) : m128 :=
  match a, b with Quad _ _ a2 a3, Quad _ _ b2 b3 => Quad a2 a3 b2 b3 end.

(** The _MM_SHUFFLE! macro, sse41.rs:107-111. *)
Definition _MM_SHUFFLE (z y x w : N) : N :=
  N.lor (N.lor (N.lor (N.shiftl z 6) (N.shiftl y 4)) (N.shiftl x 2)) w.

(** ** 256-bit instructions: mostly the 128-bit operation in each half. *)
Definition _mm256_loadu_si256 (bs : list byte) (off : nat) : m256 := m256_of_bytes (sub bs off 32).
Definition _mm256_add_epi32 (a b : m256) : m256 := oct_map2 wrapping_add a b.
Definition _mm256_xor_si256 (a b : m256) : m256 := oct_map2 uxor a b.
Definition _mm256_or_si256 (a b : m256) : m256 :=
  oct_map2 (fun x y => of_N 32 (N.lor (val x) (val y))) a b.
Definition _mm256_srli_epi32 (a : m256) (n : N) : m256 := oct_map (fun x => ushr x n) a.
Definition _mm256_slli_epi32 (a : m256) (n : N) : m256 := oct_map (fun x => ushl x n) a.
Definition _mm256_set1_epi32 (a : u32) : m256 := oct_const a.
(** _mm256_set_epi32: arguments from the most significant lane down. *)
Definition _mm256_set_epi32 (e7 e6 e5 e4 e3 e2 e1 e0 : u32) : m256 := Oct e0 e1 e2 e3 e4 e5 e6 e7.
(** _mm256_set_epi8: arguments from the most significant byte down. *)
Definition _mm256_set_epi8
  (e31 e30 e29 e28 e27 e26 e25 e24 e23 e22 e21 e20 e19 e18 e17 e16
   e15 e14 e13 e12 e11 e10 e9 e8 e7 e6 e5 e4 e3 e2 e1 e0 : N) : list N :=
  [e0; e1; e2; e3; e4; e5; e6; e7; e8; e9; e10; e11; e12; e13; e14; e15;
   e16; e17; e18; e19; e20; e21; e22; e23; e24; e25; e26; e27; e28; e29; e30; e31].
(** _mm256_shuffle_epi8: PSHUFB within each 128-bit half. *)
Definition _mm256_shuffle_epi8 (a : m256) (ctl : list N) : m256 :=
  join128 (m128_of_bytes (pshufb16 (m128_bytes (lo128 a)) (firstn 16 ctl)))
          (m128_of_bytes (pshufb16 (m128_bytes (hi128 a)) (skipn 16 ctl))).
Definition _mm256_unpacklo_epi32 (a b : m256) : m256 :=
  join128 (_mm_unpacklo_epi32 (lo128 a) (lo128 b)) (_mm_unpacklo_epi32 (hi128 a) (hi128 b)).
Definition _mm256_unpackhi_epi32 (a b : m256) : m256 :=
  join128 (_mm_unpackhi_epi32 (lo128 a) (lo128 b)) (_mm_unpackhi_epi32 (hi128 a) (hi128 b)).
Definition _mm256_unpacklo_epi64 (a b : m256) : m256 :=
  join128 (_mm_unpacklo_epi64 (lo128 a) (lo128 b)) (_mm_unpacklo_epi64 (hi128 a) (hi128 b)).
Definition _mm256_unpackhi_epi64 (a b : m256) : m256 :=
  join128 (_mm_unpackhi_epi64 (lo128 a) (lo128 b)) (_mm_unpackhi_epi64 (hi128 a) (hi128 b)).
(** _mm256_permute2x128_si256(a, b, imm): each half selected by a 4-bit control:
    bits 1..0 choose a.lo, a.hi, b.lo, b.hi; bit 3 zeroes. *)
Definition perm128 (a b : m256) (ctl : N) : m128 :=
  if N.testbit ctl 3 then Quad (uzero 32) (uzero 32) (uzero 32) (uzero 32)
  else match ctl mod 4 with
       | 0 => lo128 a
       | 1 => hi128 a
       | 2 => lo128 b
       | _ => hi128 b
       end.
Definition _mm256_permute2x128_si256 (a b : m256) (imm : N) : m256 :=
  join128 (perm128 a b (imm mod 16)) (perm128 a b (imm / 16)).
