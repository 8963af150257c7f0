(** * Avx2: avx2.rs.

    The round was transcribed line by line by tools/gen_simd.py. *)
From Verif Require Import Base Consts Intrinsics Portable Params.
Local Open Scope N_scope.

(** avx2.rs:18-20 [loadu] of a [StateWords]: the eight words become the eight lanes. *)
Definition loadu (w : StateWords) : m256 := w.
(** avx2.rs:23-25 [add], 28-30 [xor] *)
Definition add (a b : m256) : m256 := _mm256_add_epi32 a b.
Definition xor (a b : m256) : m256 := _mm256_xor_si256 a b.
(** avx2.rs:33-41 [rot16], 44-46 [rot12], 49-57 [rot8], 60-62 [rot7] *)
Definition rot16 (x : m256) : m256 :=
  _mm256_shuffle_epi8 x
    (_mm256_set_epi8 13 12 15 14 9 8 11 10 5 4 7 6 1 0 3 2 13 12 15 14 9 8 11 10 5 4 7 6 1 0 3 2).
Definition rot12 (x : m256) : m256 :=
  _mm256_or_si256 (_mm256_srli_epi32 x 12) (_mm256_slli_epi32 x 20).
Definition rot8 (x : m256) : m256 :=
  _mm256_shuffle_epi8 x
    (_mm256_set_epi8 12 15 14 13 8 11 10 9 4 7 6 5 0 3 2 1 12 15 14 13 8 11 10 9 4 7 6 5 0 3 2 1).
Definition rot7 (x : m256) : m256 :=
  _mm256_or_si256 (_mm256_srli_epi32 x 7) (_mm256_slli_epi32 x 25).
(** avx2.rs:65-67 [load_256_from_u32] *)
Definition load_256_from_u32 (x : u32) : m256 := _mm256_set1_epi32 x.
(** avx2.rs:70-85 [load_256_from_8xu32] *)
Definition load_256_from_8xu32 (x1 x2 x3 x4 x5 x6 x7 x8 : u32) : m256 :=
  _mm256_set_epi32 x8 x7 x6 x5 x4 x3 x2 x1.

(** The statement forms of [blake2s_round_8x]: [v[k] = add(v[a], v[b]);] and so on. *)
Definition zero256 : m256 := load_256_from_u32 (uzero 32).
Definition vget (v : list m256) (i : nat) : m256 := get zero256 v i.
Definition set_add (v : list m256) (k a b : nat) : list m256 := upd v k (add (vget v a) (vget v b)).
Definition set_addm (v m : list m256) (k a b : nat) : list m256 := upd v k (add (vget v a) (vget m b)).
Definition set_xor (v : list m256) (k a b : nat) : list m256 := upd v k (xor (vget v a) (vget v b)).
Definition set_rot16 (v : list m256) (k a : nat) : list m256 := upd v k (rot16 (vget v a)).
Definition set_rot12 (v : list m256) (k a : nat) : list m256 := upd v k (rot12 (vget v a)).
Definition set_rot8 (v : list m256) (k a : nat) : list m256 := upd v k (rot8 (vget v a)).
Definition set_rot7 (v : list m256) (k a : nat) : list m256 := upd v k (rot7 (vget v a)).

(** avx2.rs:91-206 [blake2s_round_8x] *)
Definition blake2s_round_8x (v m : list m256) (r : nat) : list m256 :=
  let v := set_addm v m 0 0 (sigma r 0) in
  let v := set_addm v m 1 1 (sigma r 2) in
  let v := set_addm v m 2 2 (sigma r 4) in
  let v := set_addm v m 3 3 (sigma r 6) in
  let v := set_add v 0 0 4 in
  let v := set_add v 1 1 5 in
  let v := set_add v 2 2 6 in
  let v := set_add v 3 3 7 in
  let v := set_xor v 12 12 0 in
  let v := set_xor v 13 13 1 in
  let v := set_xor v 14 14 2 in
  let v := set_xor v 15 15 3 in
  let v := set_rot16 v 12 12 in
  let v := set_rot16 v 13 13 in
  let v := set_rot16 v 14 14 in
  let v := set_rot16 v 15 15 in
  let v := set_add v 8 8 12 in
  let v := set_add v 9 9 13 in
  let v := set_add v 10 10 14 in
  let v := set_add v 11 11 15 in
  let v := set_xor v 4 4 8 in
  let v := set_xor v 5 5 9 in
  let v := set_xor v 6 6 10 in
  let v := set_xor v 7 7 11 in
  let v := set_rot12 v 4 4 in
  let v := set_rot12 v 5 5 in
  let v := set_rot12 v 6 6 in
  let v := set_rot12 v 7 7 in
  let v := set_addm v m 0 0 (sigma r 1) in
  let v := set_addm v m 1 1 (sigma r 3) in
  let v := set_addm v m 2 2 (sigma r 5) in
  let v := set_addm v m 3 3 (sigma r 7) in
  let v := set_add v 0 0 4 in
  let v := set_add v 1 1 5 in
  let v := set_add v 2 2 6 in
  let v := set_add v 3 3 7 in
  let v := set_xor v 12 12 0 in
  let v := set_xor v 13 13 1 in
  let v := set_xor v 14 14 2 in
  let v := set_xor v 15 15 3 in
  let v := set_rot8 v 12 12 in
  let v := set_rot8 v 13 13 in
  let v := set_rot8 v 14 14 in
  let v := set_rot8 v 15 15 in
  let v := set_add v 8 8 12 in
  let v := set_add v 9 9 13 in
  let v := set_add v 10 10 14 in
  let v := set_add v 11 11 15 in
  let v := set_xor v 4 4 8 in
  let v := set_xor v 5 5 9 in
  let v := set_xor v 6 6 10 in
  let v := set_xor v 7 7 11 in
  let v := set_rot7 v 4 4 in
  let v := set_rot7 v 5 5 in
  let v := set_rot7 v 6 6 in
  let v := set_rot7 v 7 7 in
  let v := set_addm v m 0 0 (sigma r 8) in
  let v := set_addm v m 1 1 (sigma r 10) in
  let v := set_addm v m 2 2 (sigma r 12) in
  let v := set_addm v m 3 3 (sigma r 14) in
  let v := set_add v 0 0 5 in
  let v := set_add v 1 1 6 in
  let v := set_add v 2 2 7 in
  let v := set_add v 3 3 4 in
  let v := set_xor v 15 15 0 in
  let v := set_xor v 12 12 1 in
  let v := set_xor v 13 13 2 in
  let v := set_xor v 14 14 3 in
  let v := set_rot16 v 15 15 in
  let v := set_rot16 v 12 12 in
  let v := set_rot16 v 13 13 in
  let v := set_rot16 v 14 14 in
  let v := set_add v 10 10 15 in
  let v := set_add v 11 11 12 in
  let v := set_add v 8 8 13 in
  let v := set_add v 9 9 14 in
  let v := set_xor v 5 5 10 in
  let v := set_xor v 6 6 11 in
  let v := set_xor v 7 7 8 in
  let v := set_xor v 4 4 9 in
  let v := set_rot12 v 5 5 in
  let v := set_rot12 v 6 6 in
  let v := set_rot12 v 7 7 in
  let v := set_rot12 v 4 4 in
  let v := set_addm v m 0 0 (sigma r 9) in
  let v := set_addm v m 1 1 (sigma r 11) in
  let v := set_addm v m 2 2 (sigma r 13) in
  let v := set_addm v m 3 3 (sigma r 15) in
  let v := set_add v 0 0 5 in
  let v := set_add v 1 1 6 in
  let v := set_add v 2 2 7 in
  let v := set_add v 3 3 4 in
  let v := set_xor v 15 15 0 in
  let v := set_xor v 12 12 1 in
  let v := set_xor v 13 13 2 in
  let v := set_xor v 14 14 3 in
  let v := set_rot8 v 15 15 in
  let v := set_rot8 v 12 12 in
  let v := set_rot8 v 13 13 in
  let v := set_rot8 v 14 14 in
  let v := set_add v 10 10 15 in
  let v := set_add v 11 11 12 in
  let v := set_add v 8 8 13 in
  let v := set_add v 9 9 14 in
  let v := set_xor v 5 5 10 in
  let v := set_xor v 6 6 11 in
  let v := set_xor v 7 7 8 in
  let v := set_xor v 4 4 9 in
  let v := set_rot7 v 5 5 in
  let v := set_rot7 v 6 6 in
  let v := set_rot7 v 7 7 in
  let v := set_rot7 v 4 4 in
  v.

(** avx2.rs:328-333 [interleave128] *)
Definition interleave128 (a b : m256) : m256 * m256 :=
  (_mm256_permute2x128_si256 a b 0x20, _mm256_permute2x128_si256 a b 0x31).

(** avx2.rs:368-373 [load_2x256] *)
Definition load_2x256 (msg : Block) : m256 * m256 :=
  (_mm256_loadu_si256 msg 0, _mm256_loadu_si256 msg 32).

(** avx2.rs:402-437 [transpose_vecs] *)
Definition transpose_vecs (vecs : oct m256) : oct m256 :=
  let ab_0145 := _mm256_unpacklo_epi32 (o0 vecs) (o1 vecs) in
  let ab_2367 := _mm256_unpackhi_epi32 (o0 vecs) (o1 vecs) in
  let cd_0145 := _mm256_unpacklo_epi32 (o2 vecs) (o3 vecs) in
  let cd_2367 := _mm256_unpackhi_epi32 (o2 vecs) (o3 vecs) in
  let ef_0145 := _mm256_unpacklo_epi32 (o4 vecs) (o5 vecs) in
  let ef_2367 := _mm256_unpackhi_epi32 (o4 vecs) (o5 vecs) in
  let gh_0145 := _mm256_unpacklo_epi32 (o6 vecs) (o7 vecs) in
  let gh_2367 := _mm256_unpackhi_epi32 (o6 vecs) (o7 vecs) in
  let abcd_04 := _mm256_unpacklo_epi64 ab_0145 cd_0145 in
  let abcd_15 := _mm256_unpackhi_epi64 ab_0145 cd_0145 in
  let abcd_26 := _mm256_unpacklo_epi64 ab_2367 cd_2367 in
  let abcd_37 := _mm256_unpackhi_epi64 ab_2367 cd_2367 in
  let efgh_04 := _mm256_unpacklo_epi64 ef_0145 gh_0145 in
  let efgh_15 := _mm256_unpackhi_epi64 ef_0145 gh_0145 in
  let efgh_26 := _mm256_unpacklo_epi64 ef_2367 gh_2367 in
  let efgh_37 := _mm256_unpackhi_epi64 ef_2367 gh_2367 in
  let '(abcdefg_0, abcdefg_4) := interleave128 abcd_04 efgh_04 in
  let '(abcdefg_1, abcdefg_5) := interleave128 abcd_15 efgh_15 in
  let '(abcdefg_2, abcdefg_6) := interleave128 abcd_26 efgh_26 in
  let '(abcdefg_3, abcdefg_7) := interleave128 abcd_37 efgh_37 in
  Oct abcdefg_0 abcdefg_1 abcdefg_2 abcdefg_3 abcdefg_4 abcdefg_5 abcdefg_6 abcdefg_7.

(** avx2.rs:440-443 [vectorize_words8] (the pointer cast reinterprets the eight
    32-byte arrays as eight vectors) *)
Definition vectorize_words8 (words : oct AlignedWords8) : oct AlignedWords8 := transpose_vecs words.

(** avx2.rs:506-552 [load_msg_vecs_interleave] *)
Definition load_msg_vecs_interleave (msg : oct Block) : list m256 :=
  let '(front_a, back_a) := load_2x256 (o0 msg) in
  let '(front_b, back_b) := load_2x256 (o1 msg) in
  let '(front_c, back_c) := load_2x256 (o2 msg) in
  let '(front_d, back_d) := load_2x256 (o3 msg) in
  let '(front_e, back_e) := load_2x256 (o4 msg) in
  let '(front_f, back_f) := load_2x256 (o5 msg) in
  let '(front_g, back_g) := load_2x256 (o6 msg) in
  let '(front_h, back_h) := load_2x256 (o7 msg) in
  let front_interleaved := transpose_vecs (Oct front_a front_b front_c front_d front_e front_f front_g front_h) in
  let back_interleaved := transpose_vecs (Oct back_a back_b back_c back_d back_e back_f back_g back_h) in
  [o0 front_interleaved; o1 front_interleaved; o2 front_interleaved; o3 front_interleaved; o4 front_interleaved; o5 front_interleaved; o6 front_interleaved; o7 front_interleaved;
   o0 back_interleaved; o1 back_interleaved; o2 back_interleaved; o3 back_interleaved; o4 back_interleaved; o5 back_interleaved; o6 back_interleaved; o7 back_interleaved].

(** avx2.rs:606-652 [compress8_transposed_inline] (and 588-597
    [compress8_transposed_all], which just calls it) *)
Definition compress8_transposed (h_vecs : oct m256) (msg_vecs : list m256)
    (count_low count_high lastblock lastnode : m256) : oct m256 :=
  let v := [o0 h_vecs; o1 h_vecs; o2 h_vecs; o3 h_vecs; o4 h_vecs; o5 h_vecs; o6 h_vecs; o7 h_vecs;
            load_256_from_u32 (o0 IV); load_256_from_u32 (o1 IV);
            load_256_from_u32 (o2 IV); load_256_from_u32 (o3 IV);
            xor (load_256_from_u32 (o4 IV)) count_low;
            xor (load_256_from_u32 (o5 IV)) count_high;
            xor (load_256_from_u32 (o6 IV)) lastblock;
            xor (load_256_from_u32 (o7 IV)) lastnode] in
  let v := blake2s_round_8x v msg_vecs 0 in
  let v := blake2s_round_8x v msg_vecs 1 in
  let v := blake2s_round_8x v msg_vecs 2 in
  let v := blake2s_round_8x v msg_vecs 3 in
  let v := blake2s_round_8x v msg_vecs 4 in
  let v := blake2s_round_8x v msg_vecs 5 in
  let v := blake2s_round_8x v msg_vecs 6 in
  let v := blake2s_round_8x v msg_vecs 7 in
  let v := blake2s_round_8x v msg_vecs 8 in
  let v := blake2s_round_8x v msg_vecs 9 in
  Oct (xor (o0 h_vecs) (xor (vget v 0) (vget v 8)))
      (xor (o1 h_vecs) (xor (vget v 1) (vget v 9)))
      (xor (o2 h_vecs) (xor (vget v 2) (vget v 10)))
      (xor (o3 h_vecs) (xor (vget v 3) (vget v 11)))
      (xor (o4 h_vecs) (xor (vget v 4) (vget v 12)))
      (xor (o5 h_vecs) (xor (vget v 5) (vget v 13)))
      (xor (o6 h_vecs) (xor (vget v 6) (vget v 14)))
      (xor (o7 h_vecs) (xor (vget v 7) (vget v 15))).

(** avx2.rs:209-325 [compress8] *)
Definition compress8 (h : oct StateWords) (msg : oct Block) (count : oct u64)
    (lastblock lastnode : oct u32) : oct StateWords :=
  let h_vecs := Oct (loadu (o0 h)) (loadu (o1 h)) (loadu (o2 h)) (loadu (o3 h)) (loadu (o4 h)) (loadu (o5 h)) (loadu (o6 h)) (loadu (o7 h)) in
  let h_vecs := transpose_vecs h_vecs in
  let count_low := load_256_from_8xu32
    (cast 32 (o0 count))
    (cast 32 (o1 count))
    (cast 32 (o2 count))
    (cast 32 (o3 count))
    (cast 32 (o4 count))
    (cast 32 (o5 count))
    (cast 32 (o6 count))
    (cast 32 (o7 count)) in
  let count_high := load_256_from_8xu32
    (cast 32 (ushr (o0 count) 32))
    (cast 32 (ushr (o1 count) 32))
    (cast 32 (ushr (o2 count) 32))
    (cast 32 (ushr (o3 count) 32))
    (cast 32 (ushr (o4 count) 32))
    (cast 32 (ushr (o5 count) 32))
    (cast 32 (ushr (o6 count) 32))
    (cast 32 (ushr (o7 count) 32)) in
  let lastblock_v := load_256_from_8xu32
    (o0 lastblock) (o1 lastblock) (o2 lastblock) (o3 lastblock) (o4 lastblock) (o5 lastblock) (o6 lastblock) (o7 lastblock) in
  let lastnode_v := load_256_from_8xu32
    (o0 lastnode) (o1 lastnode) (o2 lastnode) (o3 lastnode) (o4 lastnode) (o5 lastnode) (o6 lastnode) (o7 lastnode) in
  let msg_vecs := load_msg_vecs_interleave msg in
  let h_vecs := compress8_transposed h_vecs msg_vecs count_low count_high lastblock_v lastnode_v in
  let h_vecs := transpose_vecs h_vecs in
  Oct (o0 h_vecs) (o1 h_vecs) (o2 h_vecs) (o3 h_vecs) (o4 h_vecs) (o5 h_vecs) (o6 h_vecs) (o7 h_vecs).

(** avx2.rs:558-585 [compress8_vectorized] *)
Definition compress8_vectorized (states : oct AlignedWords8) (msg : oct Block)
    (count_low count_high lastblock lastnode : AlignedWords8) : oct AlignedWords8 :=
  let msg_vecs := load_msg_vecs_interleave msg in
  compress8_transposed states msg_vecs count_low count_high lastblock lastnode.

(** avx2.rs:655-695 [export_hashes] *)
Definition export_hashes (h_vecs : oct m256) (hash_length : u8) : oct Hash :=
  let deinterleaved := transpose_vecs h_vecs in
  Oct (mk_Hash (m256_bytes (o0 deinterleaved)) hash_length)
      (mk_Hash (m256_bytes (o1 deinterleaved)) hash_length)
      (mk_Hash (m256_bytes (o2 deinterleaved)) hash_length)
      (mk_Hash (m256_bytes (o3 deinterleaved)) hash_length)
      (mk_Hash (m256_bytes (o4 deinterleaved)) hash_length)
      (mk_Hash (m256_bytes (o5 deinterleaved)) hash_length)
      (mk_Hash (m256_bytes (o6 deinterleaved)) hash_length)
      (mk_Hash (m256_bytes (o7 deinterleaved)) hash_length).

(** avx2.rs:730-763, the loop of [hash8_exact]; [count] starts at 0 and grows by 64
    until it equals [len]; the blocks are read through raw pointers. *)
Fixpoint hash8_exact_loop (fuel : nat) (params : Params) (input : oct (list byte))
    (len : nat) (h_vecs : oct m256) (count : nat) : outcome (oct Hash) :=
  match fuel with
  | O => Stuck
  | S fuel =>
      msg0 <- raw_read (o0 input) count BLOCKBYTES ;;
      msg1 <- raw_read (o1 input) count BLOCKBYTES ;;
      msg2 <- raw_read (o2 input) count BLOCKBYTES ;;
      msg3 <- raw_read (o3 input) count BLOCKBYTES ;;
      msg4 <- raw_read (o4 input) count BLOCKBYTES ;;
      msg5 <- raw_read (o5 input) count BLOCKBYTES ;;
      msg6 <- raw_read (o6 input) count BLOCKBYTES ;;
      msg7 <- raw_read (o7 input) count BLOCKBYTES ;;
      let count := (count + BLOCKBYTES)%nat in
      let count_low := load_256_from_u32 (of_N 32 (N.of_nat count)) in
      let count_high := load_256_from_u32 (cast 32 (ushr (of_N 64 (N.of_nat count)) 32)) in
      let lastblock := load_256_from_u32 (if Nat.eqb count len then umax 32 else uzero 32) in
      let lastnode := load_256_from_u32
                        (if p_last_node params && Nat.eqb count len then umax 32 else uzero 32) in
      let msg_vecs := load_msg_vecs_interleave (Oct msg0 msg1 msg2 msg3 msg4 msg5 msg6 msg7) in
      let h_vecs := compress8_transposed h_vecs msg_vecs count_low count_high lastblock lastnode in
      if Nat.eqb count len then Ok (export_hashes h_vecs (p_hash_length params))
      else hash8_exact_loop fuel params input len h_vecs count
  end.

(** avx2.rs:698-764 [hash8_exact] *)
Definition hash8_exact (params : Params) (input : oct (list byte)) : outcome (oct Hash) :=
  let param_words := make_words params in
  let h_vecs := Oct (load_256_from_u32 (o0 param_words))
                    (load_256_from_u32 (o1 param_words))
                    (load_256_from_u32 (o2 param_words))
                    (load_256_from_u32 (o3 param_words))
                    (load_256_from_u32 (o4 param_words))
                    (load_256_from_u32 (o5 param_words))
                    (load_256_from_u32 (o6 param_words))
                    (load_256_from_u32 (o7 param_words)) in
  let len := length (o0 input) in
  hash8_exact_loop (S len) params input len h_vecs 0.
