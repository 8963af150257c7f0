(** * Benches: the benchmark programs of benches/.

    What is timed, and the buffers, are modelled; clocks, tick counters, printing and
    [black_box] are not.  [Bencher::iter] calls its closure some number of times, an
    argument here, and so are the buffers, of which the programs use constant ones. *)
From Verif Require Import Base Intrinsics Consts Params State Many Blake2sp Views.
From Verif Require Sse41 Avx2.
Local Open Scope N_scope.

(** A closure that updates what it has borrowed, called [n] times. *)
Fixpoint calls {A} (n : nat) (f : A -> outcome A) (a : A) : outcome A :=
  match n with
  | O => Ok a
  | S n => a <- f a ;; calls n f a
  end.

(** ** benches/cargo_bench/src/lib.rs *)
Definition zero64 : u64 := of_N 64 0.
Definition zero32 : u32 := of_N 32 0.

(** benches/cargo_bench/src/lib.rs:13-18 [bench_blake2s_sse41_compress]: no look at the CPU. *)
Definition bench_sse41_compress (c : cfg) (n : nat) (block : Block) (h : StateWords) : outcome StateWords :=
  calls n (fun h => call_compress c compress_sse41 h block zero64 zero32 zero32) h.
(** benches/cargo_bench/src/lib.rs:20-50 [bench_blake2s_avx2_compress8] *)
Definition bench_avx2_compress8 (c : cfg) (n : nat) (blocks : oct Block) (h : oct StateWords)
  : outcome (oct StateWords) :=
  if has_avx2 c
  then calls n (fun h => call_compress8 c compress8_avx2 h blocks (oct_const zero64) (oct_const zero32) (oct_const zero32)) h
  else Ok h.
(** Calling [benchmarks::compress4_transposed_sse41] and
    [benchmarks::compress8_transposed_all_avx2], lib.rs:1061-1076 *)
Definition call_compress4_transposed (c : cfg) (h : oct m128) (msg : quad Block) (low high last node : m128)
  : outcome (oct m128) :=
  if has_sse41 c
  then Ok (Sse41.compress4_transposed h (q0 msg) (q1 msg) (q2 msg) (q3 msg) low high last node) else UB.
Definition call_compress8_transposed_all (c : cfg) (h : oct m256) (msg_vecs : list m256)
    (low high last node : m256) : outcome (oct m256) :=
  if has_avx2 c then Ok (Avx2.compress8_transposed h msg_vecs low high last node) else UB.
(** benches/cargo_bench/src/lib.rs:52-84 [bench_blake2s_sse41_compress4_transposed] *)
Definition bench_sse41_compress4_transposed (c : cfg) (n : nat) (msg : quad Block) (low high last node : m128)
    (h : oct m128) : outcome (oct m128) :=
  if has_sse41 c then calls n (fun h => call_compress4_transposed c h msg low high last node) h else Ok h.
(** benches/cargo_bench/src/lib.rs:86-126 [bench_blake2s_avx2_compress8_vectorized] *)
Definition bench_avx2_compress8_vectorized (c : cfg) (n : nat) (msg : oct Block) (low high last node : AlignedWords8)
    (h : oct AlignedWords8) : outcome (oct AlignedWords8) :=
  if has_avx2 c
  then calls n (fun h => call_compress8_vectorized c compress8_vectorized_avx2 h msg low high last node) h else Ok h.
(** benches/cargo_bench/src/lib.rs:128-154 [bench_blake2s_avx2_compress8_transposed_all] *)
Definition bench_avx2_compress8_transposed_all (c : cfg) (n : nat) (msg_vecs : list m256)
    (low high last node : m256) (h : oct m256) : outcome (oct m256) :=
  if has_avx2 c then calls n (fun h => call_compress8_transposed_all c h msg_vecs low high last node) h else Ok h.
(** benches/cargo_bench/src/lib.rs:156-161 [bench_blake2s_portable_compress] *)
Definition bench_portable_compress (c : cfg) (n : nat) (block : Block) (h : StateWords) : outcome StateWords :=
  calls n (fun h => call_compress c compress_portable h block zero64 zero32 zero32) h.
(** benches/cargo_bench/src/lib.rs:163-181 [bench_blake2s_portable_compress8] *)
Definition bench_portable_compress8 (c : cfg) (n : nat) (blocks : oct Block) (h : oct StateWords)
  : outcome (oct StateWords) :=
  calls n (fun h => call_compress8 c compress8_portable h blocks (oct_const zero64) (oct_const zero32) (oct_const zero32)) h.
(** benches/cargo_bench/src/lib.rs:183-192 [bench_blake2s_portable_one_block],
    194-203 [bench_blake2s_portable_one_mb]: one call of the closure *)
Definition bench_portable (c : cfg) (input : list byte) : outcome Hash :=
  state <- State_new c ;;
  let state := force_portable state in
  state <- update c state input ;;
  ' (_, hash) <- finalize c state ;;
  Ok hash.
(** benches/cargo_bench/src/lib.rs:205-209 [bench_blake2sp_one_mb] *)
Definition bench_blake2sp (c : cfg) (input : list byte) : outcome Hash := Blake2sp.blake2sp c input.
(** benches/cargo_bench/src/lib.rs:211-248 [do_update8], for the benches of lines 250-260; and
    benches/count_cycles/src/main.rs:129-175 [blake2s_update8_one_mb] *)
Definition update8_of (c : cfg) (inputs : oct (list byte)) : outcome (oct Hash) :=
  state0 <- State_new c ;; state1 <- State_new c ;; state2 <- State_new c ;; state3 <- State_new c ;;
  state4 <- State_new c ;; state5 <- State_new c ;; state6 <- State_new c ;; state7 <- State_new c ;;
  states <- update8 c (Oct state0 state1 state2 state3 state4 state5 state6 state7) inputs ;;
  ' (_, hashes) <- finalize8 c states ;;
  Ok hashes.
Definition do_update8 (c : cfg) (input : list byte) : outcome (oct Hash) := update8_of c (oct_const input).
(** benches/cargo_bench/src/lib.rs:262-281, the three benches of [hash4_exact] *)
Definition bench_hash4 (c : cfg) (buf : list byte) : outcome (quad Hash) :=
  hash4_exact c Params_new (Quad buf buf buf buf).
(** benches/cargo_bench/src/lib.rs:283-338, the three benches of [hash8_exact] *)
Definition bench_hash8_exact (c : cfg) (buf : list byte) : outcome (oct Hash) :=
  hash8_exact c Params_new (oct_const buf).
(** benches/cargo_bench/src/lib.rs:340-416, the three benches of [hash8] *)
Definition bench_hash8 (c : cfg) (buf : list byte) : outcome (oct Hash) :=
  hash8 c (oct_const Params_new) (oct_const buf).

(** ** benches/benchmark_gig/src/main.rs *)
(** benches/benchmark_gig/src/main.rs:55-60 [hash_portable] *)
Definition gig_portable (c : cfg) (input : list byte) : outcome Hash := bench_portable c input.
(** benches/benchmark_gig/src/main.rs:62-108 [hash_update8]: eight slices of one input *)
Definition eighth_slice (input : list byte) (i : nat) : outcome (list byte) :=
  let eighth := (length input / 8)%nat in
  rest <- slice_from input (i * eighth) ;;
  slice_to rest eighth.
Definition gig_update8 (c : cfg) (input : list byte) : outcome (oct Hash) :=
  inputs <- oct_mapM (eighth_slice input) (Oct 0 1 2 3 4 5 6 7)%nat ;;
  update8_of c inputs.
(** benches/benchmark_gig/src/main.rs:110-112 [hash_blake2sp] *)
Definition gig_blake2sp (c : cfg) (input : list byte) : outcome Hash := Blake2sp.blake2sp c input.

(** ** benches/count_cycles/src/main.rs *)
(** benches/count_cycles/src/main.rs:177-202 [main], each case once: lines 12-25
    [blake2s_compression], 27-59 [blake2s_compression_8x], 103-114 [blake2s_one_mb],
    116-127 [blake2sp_one_mb], 129-175 [blake2s_update8_one_mb].  The third case, lines
    61-101 [blake2s_compression_8x_transposed], calls
    [benchmarks::compress8_transposed_avx2], which the crate does not have (lib.rs:1061-1084),
    so this program does not compile; it is modelled without that case. *)
Definition count_cycles (c : cfg) (n : nat) (block : Block) (blocks : oct Block) (h : StateWords) (h8 : oct StateWords)
    (input : list byte) (inputs : oct (list byte)) : outcome unit :=
  assert! has_avx2 c ;;
  _ <- calls n (fun h => call_compress c compress_portable h block zero64 zero32 zero32) h ;;
  _ <- calls n (fun h => call_compress8 c compress8_avx2 h blocks (oct_const zero64) (oct_const zero32) (oct_const zero32)) h8 ;;
  _ <- calls n (fun h => blake2s c input) (mk_Hash [] (of_N 8 0)) ;;
  _ <- calls n (fun h => Blake2sp.blake2sp c input) (mk_Hash [] (of_N 8 0)) ;;
  _ <- calls n (fun hs => update8_of c inputs) (oct_const (mk_Hash [] (of_N 8 0))) ;;
  Ok tt.

(** ** For the statements *)
(** The [i]th of eight equal parts. *)
Definition eighth (input : list byte) (i : nat) : list byte :=
  firstn (length input / 8) (skipn (i * (length input / 8)) input).
Definition lane_index (l : lane8) : nat :=
  match l with L0 => 0 | L1 => 1 | L2 => 2 | L3 => 3 | L4 => 4 | L5 => 5 | L6 => 6 | L7 => 7 end.
