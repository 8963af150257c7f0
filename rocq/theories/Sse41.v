(** * Sse41: sse41.rs.

    The straight-line bodies were transcribed line by line by tools/gen_simd.py.
    [unsafe fn]s through pointers become functions on values. *)
From Verif Require Import Base Consts Intrinsics Portable Params.
Local Open Scope N_scope.

(** sse41.rs:9-11 [loadu(&h[0])], [loadu(&h[4])] and the same for [IV]: four words of
    an array of eight. *)
Definition loadu_lo (w : StateWords) : m128 := Quad (o0 w) (o1 w) (o2 w) (o3 w).
Definition loadu_hi (w : StateWords) : m128 := Quad (o4 w) (o5 w) (o6 w) (o7 w).

(** sse41.rs:14-21 [loadu_4] *)
Definition loadu_4 (p : Block) : quad m128 :=
  Quad (_mm_loadu_si128 p 0) (_mm_loadu_si128 p 16) (_mm_loadu_si128 p 32) (_mm_loadu_si128 p 48).

(** sse41.rs:24-26 [storeu] of two vectors to [h[0]] and [h[4]] *)
Definition storeu_2 (lo hi : m128) : StateWords :=
  Oct (q0 lo) (q1 lo) (q2 lo) (q3 lo) (q0 hi) (q1 hi) (q2 hi) (q3 hi).

(** sse41.rs:29-31 [setr], 34-36 [set1], 39-41 [xor], 44-46 [add] *)
Definition setr (a b c d : u32) : m128 := _mm_setr_epi32 a b c d.
Definition set1 (a : u32) : m128 := _mm_set1_epi32 a.
Definition xor (a b : m128) : m128 := _mm_xor_si128 a b.
Definition add (a b : m128) : m128 := _mm_add_epi32 a b.

(** sse41.rs:49-51 [rot7], 54-59 [rot8], 62-64 [rot12], 67-72 [rot16] *)
Definition rot7 (a : m128) : m128 := xor (_mm_srli_epi32 a 7) (_mm_slli_epi32 a (32 - 7)).
Definition rot8 (a : m128) : m128 :=
  _mm_shuffle_epi8 a (_mm_set_epi8 12 15 14 13 8 11 10 9 4 7 6 5 0 3 2 1).
Definition rot12 (a : m128) : m128 := xor (_mm_srli_epi32 a 12) (_mm_slli_epi32 a (32 - 12)).
Definition rot16 (a : m128) : m128 :=
  _mm_shuffle_epi8 a (_mm_set_epi8 13 12 15 14 9 8 11 10 5 4 7 6 1 0 3 2).

Definition rows := (m128 * m128 * m128 * m128)%type.

(** sse41.rs:75-88 [g1] *)
Definition g1 (row1 row2 row3 row4 m : m128) : rows :=
  let row1 := add (add row1 m) row2 in
  let row4 := xor row4 row1 in
  let row4 := rot16 row4 in
  let row3 := add row3 row4 in
  let row2 := xor row2 row3 in
  let row2 := rot12 row2 in
  (row1, row2, row3, row4).

(** sse41.rs:91-104 [g2] *)
Definition g2 (row1 row2 row3 row4 m : m128) : rows :=
  let row1 := add (add row1 m) row2 in
  let row4 := xor row4 row1 in
  let row4 := rot8 row4 in
  let row3 := add row3 row4 in
  let row2 := xor row2 row3 in
  let row2 := rot7 row2 in
  (row1, row2, row3, row4).

(** sse41.rs:114-118 [diagonalize] *)
Definition diagonalize (row2 row3 row4 : m128) : m128 * m128 * m128 :=
  let row4 := _mm_shuffle_epi32 row4 (_MM_SHUFFLE 2 1 0 3) in
  let row3 := _mm_shuffle_epi32 row3 (_MM_SHUFFLE 1 0 3 2) in
  let row2 := _mm_shuffle_epi32 row2 (_MM_SHUFFLE 0 3 2 1) in
  (row2, row3, row4).

(** sse41.rs:121-125 [undiagonalize] *)
Definition undiagonalize (row2 row3 row4 : m128) : m128 * m128 * m128 :=
  let row4 := _mm_shuffle_epi32 row4 (_MM_SHUFFLE 0 3 2 1) in
  let row3 := _mm_shuffle_epi32 row3 (_MM_SHUFFLE 1 0 3 2) in
  let row2 := _mm_shuffle_epi32 row2 (_MM_SHUFFLE 2 1 0 3) in
  (row2, row3, row4).

(** sse41.rs:142-168, "round 1" of [compress] (inline code there, a function here). *)
Definition compress_round1 (row1 row2 row3 row4 m0 m1 m2 m3 : m128) : rows :=
  let buf := _mm_shuffle_ps m0 m1 (_MM_SHUFFLE 2 0 2 0) in
  let '(row1, row2, row3, row4) := g1 row1 row2 row3 row4 buf in
  let buf := _mm_shuffle_ps m0 m1 (_MM_SHUFFLE 3 1 3 1) in
  let '(row1, row2, row3, row4) := g2 row1 row2 row3 row4 buf in
  let '(row2, row3, row4) := diagonalize row2 row3 row4 in
  let buf := _mm_shuffle_ps m2 m3 (_MM_SHUFFLE 2 0 2 0) in
  let '(row1, row2, row3, row4) := g1 row1 row2 row3 row4 buf in
  let buf := _mm_shuffle_ps m2 m3 (_MM_SHUFFLE 3 1 3 1) in
  let '(row1, row2, row3, row4) := g2 row1 row2 row3 row4 buf in
  let '(row2, row3, row4) := undiagonalize row2 row3 row4 in
  (row1, row2, row3, row4).

(** sse41.rs:170-192, "round 2" of [compress] (inline code there, a function here). *)
Definition compress_round2 (row1 row2 row3 row4 m0 m1 m2 m3 : m128) : rows :=
  let t0 := _mm_blend_epi16 m1 m2 0x0C in
  let t1 := _mm_slli_si128 m3 4 in
  let t2 := _mm_blend_epi16 t0 t1 0xF0 in
  let buf := _mm_shuffle_epi32 t2 (_MM_SHUFFLE 2 1 0 3) in
  let '(row1, row2, row3, row4) := g1 row1 row2 row3 row4 buf in
  let t0 := _mm_shuffle_epi32 m2 (_MM_SHUFFLE 0 0 2 0) in
  let t1 := _mm_blend_epi16 m1 m3 0xC0 in
  let t2 := _mm_blend_epi16 t0 t1 0xF0 in
  let buf := _mm_shuffle_epi32 t2 (_MM_SHUFFLE 2 3 0 1) in
  let '(row1, row2, row3, row4) := g2 row1 row2 row3 row4 buf in
  let '(row2, row3, row4) := diagonalize row2 row3 row4 in
  let t0 := _mm_slli_si128 m1 4 in
  let t1 := _mm_blend_epi16 m2 t0 0x30 in
  let t2 := _mm_blend_epi16 m0 t1 0xF0 in
  let buf := _mm_shuffle_epi32 t2 (_MM_SHUFFLE 2 3 0 1) in
  let '(row1, row2, row3, row4) := g1 row1 row2 row3 row4 buf in
  let t0 := _mm_unpackhi_epi32 m0 m1 in
  let t1 := _mm_slli_si128 m3 4 in
  let t2 := _mm_blend_epi16 t0 t1 0x0C in
  let buf := _mm_shuffle_epi32 t2 (_MM_SHUFFLE 2 3 0 1) in
  let '(row1, row2, row3, row4) := g2 row1 row2 row3 row4 buf in
  let '(row2, row3, row4) := undiagonalize row2 row3 row4 in
  (row1, row2, row3, row4).

(** sse41.rs:194-216, "round 3" of [compress] (inline code there, a function here). *)
Definition compress_round3 (row1 row2 row3 row4 m0 m1 m2 m3 : m128) : rows :=
  let t0 := _mm_unpackhi_epi32 m2 m3 in
  let t1 := _mm_blend_epi16 m3 m1 0x0C in
  let t2 := _mm_blend_epi16 t0 t1 0x0F in
  let buf := _mm_shuffle_epi32 t2 (_MM_SHUFFLE 3 1 0 2) in
  let '(row1, row2, row3, row4) := g1 row1 row2 row3 row4 buf in
  let t0 := _mm_unpacklo_epi32 m2 m0 in
  let t1 := _mm_blend_epi16 t0 m0 0xF0 in
  let t2 := _mm_slli_si128 m3 8 in
  let buf := _mm_blend_epi16 t1 t2 0xC0 in
  let '(row1, row2, row3, row4) := g2 row1 row2 row3 row4 buf in
  let '(row2, row3, row4) := diagonalize row2 row3 row4 in
  let t0 := _mm_blend_epi16 m0 m2 0x3C in
  let t1 := _mm_srli_si128 m1 12 in
  let t2 := _mm_blend_epi16 t0 t1 0x03 in
  let buf := _mm_shuffle_epi32 t2 (_MM_SHUFFLE 1 0 3 2) in
  let '(row1, row2, row3, row4) := g1 row1 row2 row3 row4 buf in
  let t0 := _mm_slli_si128 m3 4 in
  let t1 := _mm_blend_epi16 m0 m1 0x33 in
  let t2 := _mm_blend_epi16 t1 t0 0xC0 in
  let buf := _mm_shuffle_epi32 t2 (_MM_SHUFFLE 0 1 2 3) in
  let '(row1, row2, row3, row4) := g2 row1 row2 row3 row4 buf in
  let '(row2, row3, row4) := undiagonalize row2 row3 row4 in
  (row1, row2, row3, row4).

(** sse41.rs:218-238, "round 4" of [compress] (inline code there, a function here). *)
Definition compress_round4 (row1 row2 row3 row4 m0 m1 m2 m3 : m128) : rows :=
  let t0 := _mm_unpackhi_epi32 m0 m1 in
  let t1 := _mm_unpackhi_epi32 t0 m2 in
  let t2 := _mm_blend_epi16 t1 m3 0x0C in
  let buf := _mm_shuffle_epi32 t2 (_MM_SHUFFLE 3 1 0 2) in
  let '(row1, row2, row3, row4) := g1 row1 row2 row3 row4 buf in
  let t0 := _mm_slli_si128 m2 8 in
  let t1 := _mm_blend_epi16 m3 m0 0x0C in
  let t2 := _mm_blend_epi16 t1 t0 0xC0 in
  let buf := _mm_shuffle_epi32 t2 (_MM_SHUFFLE 2 0 1 3) in
  let '(row1, row2, row3, row4) := g2 row1 row2 row3 row4 buf in
  let '(row2, row3, row4) := diagonalize row2 row3 row4 in
  let t0 := _mm_blend_epi16 m0 m1 0x0F in
  let t1 := _mm_blend_epi16 t0 m3 0xC0 in
  let buf := _mm_shuffle_epi32 t1 (_MM_SHUFFLE 3 0 1 2) in
  let '(row1, row2, row3, row4) := g1 row1 row2 row3 row4 buf in
  let t0 := _mm_unpacklo_epi32 m0 m2 in
  let t1 := _mm_unpackhi_epi32 m1 m2 in
  let buf := _mm_unpacklo_epi64 t1 t0 in
  let '(row1, row2, row3, row4) := g2 row1 row2 row3 row4 buf in
  let '(row2, row3, row4) := undiagonalize row2 row3 row4 in
  (row1, row2, row3, row4).

(** sse41.rs:240-260, "round 5" of [compress] (inline code there, a function here). *)
Definition compress_round5 (row1 row2 row3 row4 m0 m1 m2 m3 : m128) : rows :=
  let t0 := _mm_unpacklo_epi64 m1 m2 in
  let t1 := _mm_unpackhi_epi64 m0 m2 in
  let t2 := _mm_blend_epi16 t0 t1 0x33 in
  let buf := _mm_shuffle_epi32 t2 (_MM_SHUFFLE 2 0 1 3) in
  let '(row1, row2, row3, row4) := g1 row1 row2 row3 row4 buf in
  let t0 := _mm_unpackhi_epi64 m1 m3 in
  let t1 := _mm_unpacklo_epi64 m0 m1 in
  let buf := _mm_blend_epi16 t0 t1 0x33 in
  let '(row1, row2, row3, row4) := g2 row1 row2 row3 row4 buf in
  let '(row2, row3, row4) := diagonalize row2 row3 row4 in
  let t0 := _mm_unpackhi_epi64 m3 m1 in
  let t1 := _mm_unpackhi_epi64 m2 m0 in
  let buf := _mm_blend_epi16 t1 t0 0x33 in
  let '(row1, row2, row3, row4) := g1 row1 row2 row3 row4 buf in
  let t0 := _mm_blend_epi16 m0 m2 0x03 in
  let t1 := _mm_slli_si128 t0 8 in
  let t2 := _mm_blend_epi16 t1 m3 0x0F in
  let buf := _mm_shuffle_epi32 t2 (_MM_SHUFFLE 1 2 0 3) in
  let '(row1, row2, row3, row4) := g2 row1 row2 row3 row4 buf in
  let '(row2, row3, row4) := undiagonalize row2 row3 row4 in
  (row1, row2, row3, row4).

(** sse41.rs:262-281, "round 6" of [compress] (inline code there, a function here). *)
Definition compress_round6 (row1 row2 row3 row4 m0 m1 m2 m3 : m128) : rows :=
  let t0 := _mm_unpackhi_epi32 m0 m1 in
  let t1 := _mm_unpacklo_epi32 m0 m2 in
  let buf := _mm_unpacklo_epi64 t0 t1 in
  let '(row1, row2, row3, row4) := g1 row1 row2 row3 row4 buf in
  let t0 := _mm_srli_si128 m2 4 in
  let t1 := _mm_blend_epi16 m0 m3 0x03 in
  let buf := _mm_blend_epi16 t1 t0 0x3C in
  let '(row1, row2, row3, row4) := g2 row1 row2 row3 row4 buf in
  let '(row2, row3, row4) := diagonalize row2 row3 row4 in
  let t0 := _mm_blend_epi16 m1 m0 0x0C in
  let t1 := _mm_srli_si128 m3 4 in
  let t2 := _mm_blend_epi16 t0 t1 0x30 in
  let buf := _mm_shuffle_epi32 t2 (_MM_SHUFFLE 1 2 3 0) in
  let '(row1, row2, row3, row4) := g1 row1 row2 row3 row4 buf in
  let t0 := _mm_unpacklo_epi64 m1 m2 in
  let t1 := _mm_shuffle_epi32 m3 (_MM_SHUFFLE 0 2 0 1) in
  let buf := _mm_blend_epi16 t0 t1 0x33 in
  let '(row1, row2, row3, row4) := g2 row1 row2 row3 row4 buf in
  let '(row2, row3, row4) := undiagonalize row2 row3 row4 in
  (row1, row2, row3, row4).

(** sse41.rs:283-302, "round 7" of [compress] (inline code there, a function here). *)
Definition compress_round7 (row1 row2 row3 row4 m0 m1 m2 m3 : m128) : rows :=
  let t0 := _mm_slli_si128 m1 12 in
  let t1 := _mm_blend_epi16 m0 m3 0x33 in
  let buf := _mm_blend_epi16 t1 t0 0xC0 in
  let '(row1, row2, row3, row4) := g1 row1 row2 row3 row4 buf in
  let t0 := _mm_blend_epi16 m3 m2 0x30 in
  let t1 := _mm_srli_si128 m1 4 in
  let t2 := _mm_blend_epi16 t0 t1 0x03 in
  let buf := _mm_shuffle_epi32 t2 (_MM_SHUFFLE 2 1 3 0) in
  let '(row1, row2, row3, row4) := g2 row1 row2 row3 row4 buf in
  let '(row2, row3, row4) := diagonalize row2 row3 row4 in
  let t0 := _mm_unpacklo_epi64 m0 m2 in
  let t1 := _mm_srli_si128 m1 4 in
  let buf := _mm_shuffle_epi32 (_mm_blend_epi16 t0 t1 0x0C) (_MM_SHUFFLE 2 3 1 0) in
  let '(row1, row2, row3, row4) := g1 row1 row2 row3 row4 buf in
  let t0 := _mm_unpackhi_epi32 m1 m2 in
  let t1 := _mm_unpackhi_epi64 m0 t0 in
  let buf := _mm_shuffle_epi32 t1 (_MM_SHUFFLE 3 0 1 2) in
  let '(row1, row2, row3, row4) := g2 row1 row2 row3 row4 buf in
  let '(row2, row3, row4) := undiagonalize row2 row3 row4 in
  (row1, row2, row3, row4).

(** sse41.rs:304-324, "round 8" of [compress] (inline code there, a function here). *)
Definition compress_round8 (row1 row2 row3 row4 m0 m1 m2 m3 : m128) : rows :=
  let t0 := _mm_unpackhi_epi32 m0 m1 in
  let t1 := _mm_blend_epi16 t0 m3 0x0F in
  let buf := _mm_shuffle_epi32 t1 (_MM_SHUFFLE 2 0 3 1) in
  let '(row1, row2, row3, row4) := g1 row1 row2 row3 row4 buf in
  let t0 := _mm_blend_epi16 m2 m3 0x30 in
  let t1 := _mm_srli_si128 m0 4 in
  let t2 := _mm_blend_epi16 t0 t1 0x03 in
  let buf := _mm_shuffle_epi32 t2 (_MM_SHUFFLE 1 0 2 3) in
  let '(row1, row2, row3, row4) := g2 row1 row2 row3 row4 buf in
  let '(row2, row3, row4) := diagonalize row2 row3 row4 in
  let t0 := _mm_unpackhi_epi64 m0 m3 in
  let t1 := _mm_unpacklo_epi64 m1 m2 in
  let t2 := _mm_blend_epi16 t0 t1 0x3C in
  let buf := _mm_shuffle_epi32 t2 (_MM_SHUFFLE 0 2 3 1) in
  let '(row1, row2, row3, row4) := g1 row1 row2 row3 row4 buf in
  let t0 := _mm_unpacklo_epi32 m0 m1 in
  let t1 := _mm_unpackhi_epi32 m1 m2 in
  let buf := _mm_unpacklo_epi64 t0 t1 in
  let '(row1, row2, row3, row4) := g2 row1 row2 row3 row4 buf in
  let '(row2, row3, row4) := undiagonalize row2 row3 row4 in
  (row1, row2, row3, row4).

(** sse41.rs:326-344, "round 9" of [compress] (inline code there, a function here). *)
Definition compress_round9 (row1 row2 row3 row4 m0 m1 m2 m3 : m128) : rows :=
  let t0 := _mm_unpackhi_epi32 m1 m3 in
  let t1 := _mm_unpacklo_epi64 t0 m0 in
  let t2 := _mm_blend_epi16 t1 m2 0xC0 in
  let buf := _mm_shufflehi_epi16 t2 (_MM_SHUFFLE 1 0 3 2) in
  let '(row1, row2, row3, row4) := g1 row1 row2 row3 row4 buf in
  let t0 := _mm_unpackhi_epi32 m0 m3 in
  let t1 := _mm_blend_epi16 m2 t0 0xF0 in
  let buf := _mm_shuffle_epi32 t1 (_MM_SHUFFLE 0 2 1 3) in
  let '(row1, row2, row3, row4) := g2 row1 row2 row3 row4 buf in
  let '(row2, row3, row4) := diagonalize row2 row3 row4 in
  let t0 := _mm_blend_epi16 m2 m0 0x0C in
  let t1 := _mm_slli_si128 t0 4 in
  let buf := _mm_blend_epi16 t1 m3 0x0F in
  let '(row1, row2, row3, row4) := g1 row1 row2 row3 row4 buf in
  let t0 := _mm_blend_epi16 m1 m0 0x30 in
  let buf := _mm_shuffle_epi32 t0 (_MM_SHUFFLE 1 0 3 2) in
  let '(row1, row2, row3, row4) := g2 row1 row2 row3 row4 buf in
  let '(row2, row3, row4) := undiagonalize row2 row3 row4 in
  (row1, row2, row3, row4).

(** sse41.rs:346-367, "round 10" of [compress] (inline code there, a function here). *)
Definition compress_round10 (row1 row2 row3 row4 m0 m1 m2 m3 : m128) : rows :=
  let t0 := _mm_blend_epi16 m0 m2 0x03 in
  let t1 := _mm_blend_epi16 m1 m2 0x30 in
  let t2 := _mm_blend_epi16 t1 t0 0x0F in
  let buf := _mm_shuffle_epi32 t2 (_MM_SHUFFLE 1 3 0 2) in
  let '(row1, row2, row3, row4) := g1 row1 row2 row3 row4 buf in
  let t0 := _mm_slli_si128 m0 4 in
  let t1 := _mm_blend_epi16 m1 t0 0xC0 in
  let buf := _mm_shuffle_epi32 t1 (_MM_SHUFFLE 1 2 0 3) in
  let '(row1, row2, row3, row4) := g2 row1 row2 row3 row4 buf in
  let '(row2, row3, row4) := diagonalize row2 row3 row4 in
  let t0 := _mm_unpackhi_epi32 m0 m3 in
  let t1 := _mm_unpacklo_epi32 m2 m3 in
  let t2 := _mm_unpackhi_epi64 t0 t1 in
  let buf := _mm_shuffle_epi32 t2 (_MM_SHUFFLE 3 0 2 1) in
  let '(row1, row2, row3, row4) := g1 row1 row2 row3 row4 buf in
  let t0 := _mm_blend_epi16 m3 m2 0xC0 in
  let t1 := _mm_unpacklo_epi32 m0 m3 in
  let t2 := _mm_blend_epi16 t0 t1 0x0F in
  let buf := _mm_shuffle_epi32 t2 (_MM_SHUFFLE 0 1 2 3) in
  let '(row1, row2, row3, row4) := g2 row1 row2 row3 row4 buf in
  let '(row2, row3, row4) := undiagonalize row2 row3 row4 in
  (row1, row2, row3, row4).


(** sse41.rs:127-371 [compress] *)
Definition compress (h : StateWords) (msg : Block) (count : u64) (lastblock lastnode : u32)
  : StateWords :=
  let row1 := loadu_lo h in
  let row2 := loadu_hi h in
  let row3 := loadu_lo IV in
  let row4 := xor (loadu_hi IV)
                  (setr (cast 32 count) (cast 32 (ushr count 32)) lastblock lastnode) in
  let m0 := _mm_loadu_si128 msg 0 in
  let m1 := _mm_loadu_si128 msg 16 in
  let m2 := _mm_loadu_si128 msg 32 in
  let m3 := _mm_loadu_si128 msg 48 in
  let '(row1, row2, row3, row4) := compress_round1 row1 row2 row3 row4 m0 m1 m2 m3 in
  let '(row1, row2, row3, row4) := compress_round2 row1 row2 row3 row4 m0 m1 m2 m3 in
  let '(row1, row2, row3, row4) := compress_round3 row1 row2 row3 row4 m0 m1 m2 m3 in
  let '(row1, row2, row3, row4) := compress_round4 row1 row2 row3 row4 m0 m1 m2 m3 in
  let '(row1, row2, row3, row4) := compress_round5 row1 row2 row3 row4 m0 m1 m2 m3 in
  let '(row1, row2, row3, row4) := compress_round6 row1 row2 row3 row4 m0 m1 m2 m3 in
  let '(row1, row2, row3, row4) := compress_round7 row1 row2 row3 row4 m0 m1 m2 m3 in
  let '(row1, row2, row3, row4) := compress_round8 row1 row2 row3 row4 m0 m1 m2 m3 in
  let '(row1, row2, row3, row4) := compress_round9 row1 row2 row3 row4 m0 m1 m2 m3 in
  let '(row1, row2, row3, row4) := compress_round10 row1 row2 row3 row4 m0 m1 m2 m3 in
  storeu_2 (xor (loadu_lo h) (xor row1 row3))
           (xor (loadu_hi h) (xor row2 row4)).

(** sse41.rs:374-395 [transpose_vecs] *)
Definition transpose_vecs (vec_a vec_b vec_c vec_d : m128) : quad m128 :=
  let ab_01 := _mm_unpacklo_epi32 vec_a vec_b in
  let ab_23 := _mm_unpackhi_epi32 vec_a vec_b in
  let cd_01 := _mm_unpacklo_epi32 vec_c vec_d in
  let cd_23 := _mm_unpackhi_epi32 vec_c vec_d in
  let abcd_0 := _mm_unpacklo_epi64 ab_01 cd_01 in
  let abcd_1 := _mm_unpackhi_epi64 ab_01 cd_01 in
  let abcd_2 := _mm_unpacklo_epi64 ab_23 cd_23 in
  let abcd_3 := _mm_unpackhi_epi64 ab_23 cd_23 in
  Quad abcd_0 abcd_1 abcd_2 abcd_3.

(** sse41.rs:442-476 [transpose_message_blocks] *)
Definition transpose_message_blocks (msg_a msg_b msg_c msg_d : Block) : list m128 :=
  let '(Quad a0 a1 a2 a3) := loadu_4 msg_a in
  let '(Quad b0 b1 b2 b3) := loadu_4 msg_b in
  let '(Quad c0 c1 c2 c3) := loadu_4 msg_c in
  let '(Quad d0 d1 d2 d3) := loadu_4 msg_d in
  let transposed0 := transpose_vecs a0 b0 c0 d0 in
  let transposed1 := transpose_vecs a1 b1 c1 d1 in
  let transposed2 := transpose_vecs a2 b2 c2 d2 in
  let transposed3 := transpose_vecs a3 b3 c3 d3 in
  [q0 transposed0; q1 transposed0; q2 transposed0; q3 transposed0;
   q0 transposed1; q1 transposed1; q2 transposed1; q3 transposed1;
   q0 transposed2; q1 transposed2; q2 transposed2; q3 transposed2;
   q0 transposed3; q1 transposed3; q2 transposed3; q3 transposed3].

(** The statement forms of [round_4]: [v[k] = add(v[a], v[b]);] and so on. *)
Definition zero128 : m128 := set1 (uzero 32).
Definition vget (v : list m128) (i : nat) : m128 := get zero128 v i.
Definition set_add (v : list m128) (k a b : nat) : list m128 := upd v k (add (vget v a) (vget v b)).
Definition set_addm (v m : list m128) (k a b : nat) : list m128 := upd v k (add (vget v a) (vget m b)).
Definition set_xor (v : list m128) (k a b : nat) : list m128 := upd v k (xor (vget v a) (vget v b)).
Definition set_rot16 (v : list m128) (k a : nat) : list m128 := upd v k (rot16 (vget v a)).
Definition set_rot12 (v : list m128) (k a : nat) : list m128 := upd v k (rot12 (vget v a)).
Definition set_rot8 (v : list m128) (k a : nat) : list m128 := upd v k (rot8 (vget v a)).
Definition set_rot7 (v : list m128) (k a : nat) : list m128 := upd v k (rot7 (vget v a)).

(** sse41.rs:479-593 [round_4] *)
Definition round_4 (v m : list m128) (r : nat) : list m128 :=
  let v := set_addm v m 0 0 (sigma r 0) in
  let v := set_addm v m 1 1 (sigma r 2) in
  let v := set_addm v m 2 2 (sigma r 4) in
  let v := set_addm v m 3 3 (sigma r 6) in
  let v := set_add v 0 0 4 in
  let v := set_add v 1 1 5 in
  let v := set_add v 2 2 6 in
  let v := set_add v 3 3 7 in
  let v := set_xor v 12 12 0 in
  let v := set_xor v 13 13 1 in
  let v := set_xor v 14 14 2 in
  let v := set_xor v 15 15 3 in
  let v := set_rot16 v 12 12 in
  let v := set_rot16 v 13 13 in
  let v := set_rot16 v 14 14 in
  let v := set_rot16 v 15 15 in
  let v := set_add v 8 8 12 in
  let v := set_add v 9 9 13 in
  let v := set_add v 10 10 14 in
  let v := set_add v 11 11 15 in
  let v := set_xor v 4 4 8 in
  let v := set_xor v 5 5 9 in
  let v := set_xor v 6 6 10 in
  let v := set_xor v 7 7 11 in
  let v := set_rot12 v 4 4 in
  let v := set_rot12 v 5 5 in
  let v := set_rot12 v 6 6 in
  let v := set_rot12 v 7 7 in
  let v := set_addm v m 0 0 (sigma r 1) in
  let v := set_addm v m 1 1 (sigma r 3) in
  let v := set_addm v m 2 2 (sigma r 5) in
  let v := set_addm v m 3 3 (sigma r 7) in
  let v := set_add v 0 0 4 in
  let v := set_add v 1 1 5 in
  let v := set_add v 2 2 6 in
  let v := set_add v 3 3 7 in
  let v := set_xor v 12 12 0 in
  let v := set_xor v 13 13 1 in
  let v := set_xor v 14 14 2 in
  let v := set_xor v 15 15 3 in
  let v := set_rot8 v 12 12 in
  let v := set_rot8 v 13 13 in
  let v := set_rot8 v 14 14 in
  let v := set_rot8 v 15 15 in
  let v := set_add v 8 8 12 in
  let v := set_add v 9 9 13 in
  let v := set_add v 10 10 14 in
  let v := set_add v 11 11 15 in
  let v := set_xor v 4 4 8 in
  let v := set_xor v 5 5 9 in
  let v := set_xor v 6 6 10 in
  let v := set_xor v 7 7 11 in
  let v := set_rot7 v 4 4 in
  let v := set_rot7 v 5 5 in
  let v := set_rot7 v 6 6 in
  let v := set_rot7 v 7 7 in
  let v := set_addm v m 0 0 (sigma r 8) in
  let v := set_addm v m 1 1 (sigma r 10) in
  let v := set_addm v m 2 2 (sigma r 12) in
  let v := set_addm v m 3 3 (sigma r 14) in
  let v := set_add v 0 0 5 in
  let v := set_add v 1 1 6 in
  let v := set_add v 2 2 7 in
  let v := set_add v 3 3 4 in
  let v := set_xor v 15 15 0 in
  let v := set_xor v 12 12 1 in
  let v := set_xor v 13 13 2 in
  let v := set_xor v 14 14 3 in
  let v := set_rot16 v 15 15 in
  let v := set_rot16 v 12 12 in
  let v := set_rot16 v 13 13 in
  let v := set_rot16 v 14 14 in
  let v := set_add v 10 10 15 in
  let v := set_add v 11 11 12 in
  let v := set_add v 8 8 13 in
  let v := set_add v 9 9 14 in
  let v := set_xor v 5 5 10 in
  let v := set_xor v 6 6 11 in
  let v := set_xor v 7 7 8 in
  let v := set_xor v 4 4 9 in
  let v := set_rot12 v 5 5 in
  let v := set_rot12 v 6 6 in
  let v := set_rot12 v 7 7 in
  let v := set_rot12 v 4 4 in
  let v := set_addm v m 0 0 (sigma r 9) in
  let v := set_addm v m 1 1 (sigma r 11) in
  let v := set_addm v m 2 2 (sigma r 13) in
  let v := set_addm v m 3 3 (sigma r 15) in
  let v := set_add v 0 0 5 in
  let v := set_add v 1 1 6 in
  let v := set_add v 2 2 7 in
  let v := set_add v 3 3 4 in
  let v := set_xor v 15 15 0 in
  let v := set_xor v 12 12 1 in
  let v := set_xor v 13 13 2 in
  let v := set_xor v 14 14 3 in
  let v := set_rot8 v 15 15 in
  let v := set_rot8 v 12 12 in
  let v := set_rot8 v 13 13 in
  let v := set_rot8 v 14 14 in
  let v := set_add v 10 10 15 in
  let v := set_add v 11 11 12 in
  let v := set_add v 8 8 13 in
  let v := set_add v 9 9 14 in
  let v := set_xor v 5 5 10 in
  let v := set_xor v 6 6 11 in
  let v := set_xor v 7 7 8 in
  let v := set_xor v 4 4 9 in
  let v := set_rot7 v 5 5 in
  let v := set_rot7 v 6 6 in
  let v := set_rot7 v 7 7 in
  let v := set_rot7 v 4 4 in
  v.

(** sse41.rs:596-647 [compress4_transposed_inline] (and 651-665 [compress4_transposed],
    which just calls it) *)
Definition compress4_transposed (h_vecs : oct m128) (msg0 msg1 msg2 msg3 : Block)
    (count_low count_high lastblock lastnode : m128) : oct m128 :=
  let v := [o0 h_vecs; o1 h_vecs; o2 h_vecs; o3 h_vecs; o4 h_vecs; o5 h_vecs; o6 h_vecs; o7 h_vecs;
            set1 (o0 IV); set1 (o1 IV); set1 (o2 IV); set1 (o3 IV);
            xor (set1 (o4 IV)) count_low;
            xor (set1 (o5 IV)) count_high;
            xor (set1 (o6 IV)) lastblock;
            xor (set1 (o7 IV)) lastnode] in
  let msg_vecs := transpose_message_blocks msg0 msg1 msg2 msg3 in
  let v := round_4 v msg_vecs 0 in
  let v := round_4 v msg_vecs 1 in
  let v := round_4 v msg_vecs 2 in
  let v := round_4 v msg_vecs 3 in
  let v := round_4 v msg_vecs 4 in
  let v := round_4 v msg_vecs 5 in
  let v := round_4 v msg_vecs 6 in
  let v := round_4 v msg_vecs 7 in
  let v := round_4 v msg_vecs 8 in
  let v := round_4 v msg_vecs 9 in
  Oct (xor (xor (o0 h_vecs) (vget v 0)) (vget v 8))
      (xor (xor (o1 h_vecs) (vget v 1)) (vget v 9))
      (xor (xor (o2 h_vecs) (vget v 2)) (vget v 10))
      (xor (xor (o3 h_vecs) (vget v 3)) (vget v 11))
      (xor (xor (o4 h_vecs) (vget v 4)) (vget v 12))
      (xor (xor (o5 h_vecs) (vget v 5)) (vget v 13))
      (xor (xor (o6 h_vecs) (vget v 6)) (vget v 14))
      (xor (xor (o7 h_vecs) (vget v 7)) (vget v 15)).

(** sse41.rs:668-704 [export_hashes]: each hash is 16 bytes from the low group and 16
    from the high group. *)
Definition export_hashes (h_vecs : oct m128) (hash_length : u8) : quad Hash :=
  let deinterleaved_lo := transpose_vecs (o0 h_vecs) (o1 h_vecs) (o2 h_vecs) (o3 h_vecs) in
  let deinterleaved_hi := transpose_vecs (o4 h_vecs) (o5 h_vecs) (o6 h_vecs) (o7 h_vecs) in
  Quad (mk_Hash (m128_bytes (q0 deinterleaved_lo) ++ m128_bytes (q0 deinterleaved_hi)) hash_length)
       (mk_Hash (m128_bytes (q1 deinterleaved_lo) ++ m128_bytes (q1 deinterleaved_hi)) hash_length)
       (mk_Hash (m128_bytes (q2 deinterleaved_lo) ++ m128_bytes (q2 deinterleaved_hi)) hash_length)
       (mk_Hash (m128_bytes (q3 deinterleaved_lo) ++ m128_bytes (q3 deinterleaved_hi)) hash_length).

(** sse41.rs:734-765, the loop of [hash4_exact].  [count] starts at 0 and grows by
    64 until it equals [len]; the blocks are read through raw pointers. *)
Fixpoint hash4_exact_loop (fuel : nat) (params : Params) (input0 input1 input2 input3 : list byte)
    (len : nat) (h_vecs : oct m128) (count : nat) : outcome (quad Hash) :=
  match fuel with
  | O => Stuck
  | S fuel =>
      msg0 <- raw_read input0 count BLOCKBYTES ;;
      msg1 <- raw_read input1 count BLOCKBYTES ;;
      msg2 <- raw_read input2 count BLOCKBYTES ;;
      msg3 <- raw_read input3 count BLOCKBYTES ;;
      let count := (count + BLOCKBYTES)%nat in
      let count_low := set1 (of_N 32 (N.of_nat count)) in
      let count_high := set1 (cast 32 (ushr (of_N 64 (N.of_nat count)) 32)) in
      let lastblock := set1 (if Nat.eqb count len then umax 32 else uzero 32) in
      let lastnode := set1 (if p_last_node params && Nat.eqb count len then umax 32 else uzero 32) in
      let h_vecs := compress4_transposed h_vecs msg0 msg1 msg2 msg3
                      count_low count_high lastblock lastnode in
      if Nat.eqb count len then Ok (export_hashes h_vecs (p_hash_length params))
      else hash4_exact_loop fuel params input0 input1 input2 input3 len h_vecs count
  end.

(** sse41.rs:707-766 [hash4_exact] *)
Definition hash4_exact (params : Params) (input0 input1 input2 input3 : list byte)
  : outcome (quad Hash) :=
  let param_words := make_words params in
  let h_vecs := Oct (set1 (o0 param_words)) (set1 (o1 param_words))
                    (set1 (o2 param_words)) (set1 (o3 param_words))
                    (set1 (o4 param_words)) (set1 (o5 param_words))
                    (set1 (o6 param_words)) (set1 (o7 param_words)) in
  let len := length input0 in
  hash4_exact_loop (S len) params input0 input1 input2 input3 len h_vecs 0.
