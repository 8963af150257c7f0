(** * Property C51: what the benchmark programs compute. *)
From Verif Require Import Base Intrinsics Params State Many Blake2sp Views PortableFacts Avx2Facts Clients Witness Benches BenchFacts.
From Verif Require Spec.
Local Open Scope N_scope.

(** C51: after [n] calls the benchmarks of compression functions have applied BLAKE2s's
    compression function [n] times, in every lane, and do nothing else; those of SIMD code
    do nothing on CPUs without it, the first one excepted. *)
Theorem C51_compress : forall c n block h, length block = 64%nat ->
  (exists r, bench_portable_compress c n block h = Ok r /\
     nums r = Nat.iter n (fun v => Spec.F v block 0 0 0) (nums h)) /\
  (has_sse41 c = true -> exists r, bench_sse41_compress c n block h = Ok r /\
     nums r = Nat.iter n (fun v => Spec.F v block 0 0 0) (nums h)).
Proof. exact compress_benches. Qed.
Print Assumptions C51_compress.
Theorem C51_compress8 : forall c n blocks h, (forall l, length (proj l blocks) = 64%nat) ->
  (exists r, bench_portable_compress8 c n blocks h = Ok r /\
     forall l, nums (proj l r) = Nat.iter n (fun v => Spec.F v (proj l blocks) 0 0 0) (nums (proj l h))) /\
  (exists r, bench_avx2_compress8 c n blocks h = Ok r /\
     forall l, nums (proj l r) = if has_avx2 c then Nat.iter n (fun v => Spec.F v (proj l blocks) 0 0 0) (nums (proj l h))
                                 else nums (proj l h)).
Proof. exact compress8_benches. Qed.
Print Assumptions C51_compress8.
Theorem C51_compress4_transposed : forall c n msg low high last node h, (forall l, length (qproj l msg) = 64%nat) ->
  exists r, bench_sse41_compress4_transposed c n msg low high last node h = Ok r /\
    forall l, nums (qlane_state r l) = if has_sse41 c then Nat.iter n (fun v => Spec.F v (qproj l msg)
        (val (qproj l low) + 2 ^ 32 * val (qproj l high)) (val (qproj l last)) (val (qproj l node))) (nums (qlane_state h l))
      else nums (qlane_state h l).
Proof. exact compress4_bench. Qed.
Print Assumptions C51_compress4_transposed.
Theorem C51_wide8 : forall c n msg low high last node h, (forall l, length (proj l msg) = 64%nat) ->
  let expect (l : lane8) (h r : oct m256) := nums (lane_state r l) = if has_avx2 c then Nat.iter n (fun v => Spec.F v (proj l msg)
      (val (proj l low) + 2 ^ 32 * val (proj l high)) (val (proj l last)) (val (proj l node))) (nums (lane_state h l))
    else nums (lane_state h l) in
  (exists r, bench_avx2_compress8_vectorized c n msg low high last node h = Ok r /\ forall l, expect l h r) /\
  (forall msg_vecs, (forall l, map (fun v => val (proj l v)) msg_vecs = map (Spec.word (proj l msg)) (seq 0 16)) ->
   exists r, bench_avx2_compress8_transposed_all c n msg_vecs low high last node h = Ok r /\ forall l, expect l h r).
Proof. exact wide8_benches. Qed.
Print Assumptions C51_wide8.

Example C51_compress_example : exists r, bench_sse41_compress debug_avx2 3 (ramp 64) (oct_const (of_N 32 1)) = Ok r /\
  nums r = Spec.F (Spec.F (Spec.F [1; 1; 1; 1; 1; 1; 1; 1] (ramp 64) 0 0 0) (ramp 64) 0 0 0) (ramp 64) 0 0 0.
Proof. eexists. split; [vm_compute; reflexivity|]. vm_compute. reflexivity. Qed.

(** C51, refuted for the first benchmark of cargo_bench on CPUs without SSE4.1: unlike the
    others it does not look, so its first call is undefined behaviour. *)
Theorem C51_unguarded_refuted : forall c n block h, has_sse41 c = false ->
  bench_sse41_compress c n block h = match n with O => Ok h | S _ => UB end.
Proof. exact sse41_bench_unguarded. Qed.
Print Assumptions C51_unguarded_refuted.
Definition old_x86 : cfg := mk_cfg true true false false false false.
Example C51_unguarded_example : cfg_ok old_x86 /\ has_sse41 old_x86 = false /\
  bench_sse41_compress old_x86 1 (ramp 64) (oct_const (of_N 32 1)) = UB /\
  bench_sse41_compress4_transposed old_x86 1 (Quad (ramp 64) (ramp 64) (ramp 64) (ramp 64)) (Quad zero32 zero32 zero32 zero32)
    (Quad zero32 zero32 zero32 zero32) (Quad zero32 zero32 zero32 zero32) (Quad zero32 zero32 zero32 zero32)
    (oct_const (Quad zero32 zero32 zero32 zero32)) = Ok (oct_const (Quad zero32 zero32 zero32 zero32)).
Proof. split; [intros H; discriminate H|]. split; [reflexivity|]. split; reflexivity. Qed.

(** The benchmarks of hashing compute BLAKE2s and BLAKE2sp, for any input. *)
Theorem C51_portable : forall c input, cfg_ok c -> N.of_nat (length input) < 2 ^ 64 ->
  (h <- bench_portable c input ;; as_bytes h) = Ok (Spec.blake2s Spec.default_params false input).
Proof. exact portable_bench. Qed.
Print Assumptions C51_portable.
Theorem C51_do_update8 : forall c input, cfg_ok c -> N.of_nat (length input) < 2 ^ 64 ->
  exists hs, do_update8 c input = Ok hs /\
    forall l, as_bytes (proj l hs) = Ok (Spec.blake2s Spec.default_params false input).
Proof. exact do_update8_bench. Qed.
Print Assumptions C51_do_update8.
Theorem C51_hashes : forall c buf, cfg_ok c -> N.of_nat (length buf) < 2 ^ 64 ->
  (exists hs, bench_hash8 c buf = Ok hs /\
     forall l, as_bytes (proj l hs) = Ok (Spec.blake2s Spec.default_params false buf)) /\
  ((length buf mod 64 = 0)%nat -> buf <> [] ->
   (exists hs, bench_hash4 c buf = Ok hs /\
     forall l, as_bytes (qproj l hs) = Ok (Spec.blake2s Spec.default_params false buf)) /\
   (exists hs, bench_hash8_exact c buf = Ok hs /\
     forall l, as_bytes (proj l hs) = Ok (Spec.blake2s Spec.default_params false buf))) /\
  (h <- bench_blake2sp c buf ;; as_bytes h) = Ok (Spec.blake2sp 32 [] buf).
Proof. exact hash_benches. Qed.
Print Assumptions C51_hashes.
(** benchmark_gig hashes the eight consecutive eighths of its input, which together are the
    input when its length is a multiple of eight. *)
Theorem C51_gig : forall c input, cfg_ok c -> N.of_nat (length input) < 2 ^ 64 ->
  exists hs, gig_update8 c input = Ok hs /\
    forall l, as_bytes (proj l hs) = Ok (Spec.blake2s Spec.default_params false (eighth input (lane_index l))).
Proof. exact gig_update8_ok. Qed.
Print Assumptions C51_gig.
Theorem C51_eighths : forall input, (length input mod 8 = 0)%nat -> concat (map (eighth input) (seq 0 8)) = input.
Proof. exact eighths_cover. Qed.
Print Assumptions C51_eighths.
Example C51_gig_example : cfg_ok debug_avx2 /\ exists hs b, gig_update8 debug_avx2 (ramp 40) = Ok hs /\
  as_bytes (proj L2 hs) = Ok b /\ b = Spec.blake2s Spec.default_params false (firstn 5 (skipn 10 (ramp 40))).
Proof.
  split; [intros _; reflexivity|]. do 2 eexists. split; [vm_compute; reflexivity|].
  split; [vm_compute; reflexivity|]. vm_compute. reflexivity.
Qed.

(** count_cycles stops with its own panic without AVX2, and otherwise runs to its end. *)
Theorem C51_count_cycles : forall c n block blocks h h8 input inputs, cfg_ok c ->
  length block = 64%nat -> (forall l, length (proj l blocks) = 64%nat) ->
  N.of_nat (length input) < 2 ^ 64 -> (forall l, N.of_nat (length (proj l inputs)) < 2 ^ 64) ->
  count_cycles c n block blocks h h8 input inputs = if has_avx2 c then Ok tt else Panic.
Proof. exact count_cycles_ok. Qed.
Print Assumptions C51_count_cycles.
Example C51_count_cycles_example :
  let run c := count_cycles c 2 (ramp 64) (oct_const (ramp 64)) (oct_const (of_N 32 1)) (oct_const (oct_const (of_N 32 1)))
                 (ramp 70) (oct_const (ramp 3)) in
  (run debug_avx2, run old_x86) = (Ok tt, Panic).
Proof. vm_compute. reflexivity. Qed.
