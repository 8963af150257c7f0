(** * PropsTiming: C61, what the benchmark programs report. *)
From Verif Require Import Base Timing TimingFacts Witness.
Local Open Scope N_scope.

(** C61.  benchmark_gig prints the time of every run as the clock showed it, the fastest of
    the nine that count, and their average to within a nanosecond (rounded down), in
    every build, for runs shorter than 2^64 nanoseconds (584 years). *)
Theorem C61_gig : forall c r rs, length rs = 9%nat ->
  Forall (fun r => fst r <= snd r /\ snd r - fst r < 2 ^ 64) (r :: rs) ->
  exists lines average fastest, run c (r :: rs) = Ok lines /\
    map shown lines = (elapsed r, Ignored) :: map (fun r => (elapsed r, Timed)) rs ++ [(average, Average); (fastest, Fastest)] /\
    average <= sum (map elapsed rs) / 9 <= average + 1 /\
    In fastest (map elapsed rs) /\ Forall (fun d => fastest <= d) (map elapsed rs).
Proof. exact run_reports. Qed.
Print Assumptions C61_gig.
(** count_cycles returns the ticks between the readings, added up, and the bytes hashed,
    which are as near to 2^30 as whole iterations get. *)
Theorem C61_cycles : forall c size rs, size <> 0 -> N.of_nat (length rs) = 2 ^ 30 / size ->
  Forall (fun r : u64 * u64 => val (fst r) <= val (snd r)) rs -> sum (map (fun r => val (snd r) - val (fst r)) rs) < 2 ^ 64 ->
  exists t n, cycles c size rs = Ok (t, n) /\ val t = sum (map (fun r => val (snd r) - val (fst r)) rs) /\
    n = N.of_nat (length rs) * size /\ n <= 2 ^ 30 < n + size.
Proof. exact cycles_reports. Qed.
Print Assumptions C61_cycles.
(** bench_libsodium.c: times and average are right; the fastest is never shown as more than
    2^31 - 1 nanoseconds, *)
Theorem C61_libsodium : forall r rs, length rs = 9%nat ->
  Forall (fun r => fst r <= snd r /\ snd r < 2 ^ 63) (r :: rs) -> sum (map elapsed rs) < 2 ^ 64 ->
  exists lines fastest, run_bench (r :: rs) = Ok lines /\
    map shown lines = (elapsed r, Ignored) :: map (fun r => (elapsed r, Timed)) rs ++ [(sum (map elapsed rs) / 9, Average); (fastest, Fastest)] /\
    fastest <= 2 ^ 31 - 1 /\ Forall (fun d => fastest <= d) (map elapsed rs) /\
    (fastest = 2 ^ 31 - 1 \/ In fastest (map elapsed rs)).
Proof. exact run_bench_reports. Qed.
Print Assumptions C61_libsodium.
(** so it need not be the time of any run. *)
Theorem C61_libsodium_fastest_refuted : ~ (forall r rs lines fastest, length rs = 9%nat ->
  Forall (fun r => fst r <= snd r < 2 ^ 63) (r :: rs) -> sum (map elapsed rs) < 2 ^ 64 ->
  run_bench (r :: rs) = Ok lines -> In (fastest, Fastest) (map shown lines) -> In fastest (map elapsed rs)).
Proof. exact run_bench_fastest_wrong. Qed.
Print Assumptions C61_libsodium_fastest_refuted.

(** benchmark_gig works in seconds and nanoseconds.  It stops if the clock goes back during
    one of its runs, and, with overflow checks, if the first run takes 2^64 nanoseconds. *)
Theorem C61_gig_duration : forall before after, before <= after -> after - before < 2 ^ 64 * 1000000000 ->
  exists d, instant_sub after before = Ok d /\ val (secs d) * 1000000000 + val (subsec_nanos d) = after - before /\ val (subsec_nanos d) < 1000000000.
Proof. exact instant_sub_splits. Qed.
Print Assumptions C61_gig_duration.
Theorem C61_gig_back : forall c pre bad post, (length pre <= 9)%nat -> Forall (fun r => fst r <= snd r /\ snd r - fst r < 2 ^ 64) pre -> snd bad < fst bad ->
  run c (pre ++ bad :: post) = Panic.
Proof. exact run_back. Qed.
Print Assumptions C61_gig_back.
Theorem C61_gig_too_long : forall c before after rs, overflow_checks c = true -> before + 2 ^ 64 <= after -> after - before < 2 ^ 64 * 1000000000 ->
  run c ((before, after) :: rs) = Panic.
Proof. exact run_too_long. Qed.
Print Assumptions C61_gig_too_long.
Example C61_ex_stops : instant_sub 5000000007 2999999999 = Ok (mk_Duration (of_N 64 2) (of_N 32 8)) /\
  run release_portable [(0, 4000000000); (7, 8); (9, 3); (10, 11)] = Panic /\ run debug_portable [(5, 5 + 2 ^ 64)] = Panic.
Proof. split; [lazy; reflexivity|]. split; lazy; reflexivity. Qed.

(** Readings of a clock: runs of 4, then 1.5 to 2.3 seconds. *)
Definition readings : list (N * N) := map (fun k => (10000000000 * k, 10000000000 * k + 1400000000 + 100000000 * k)) [1; 2; 3; 4; 5; 6; 7; 8; 9].
Example C61_ex : match run debug_portable ((0, 4000000000) :: readings) with
  | Ok lines => map shown (skipn 10 lines) = [(1899999999, Average); (1500000000, Fastest)]
  | _ => False
  end.
Proof. lazy. reflexivity. Qed.
Example C61_ex_libsodium : match run_bench ((0, 4000000000) :: readings) with
  | Ok lines => map shown (skipn 10 lines) = [(1900000000, Average); (1500000000, Fastest)]
  | _ => False
  end.
Proof. lazy. reflexivity. Qed.
(** In a debug build the third program stops if the tick counter runs backwards. *)
Example C61_ex_cycles : cycles debug_portable (2 ^ 29) [(of_N 64 5, of_N 64 15); (of_N 64 20, of_N 64 41)] = Ok (of_N 64 31, 2 ^ 30)
  /\ cycles debug_portable (2 ^ 29) [(of_N 64 5, of_N 64 15); (of_N 64 20, of_N 64 19)] = Panic.
Proof. split; lazy; reflexivity. Qed.
