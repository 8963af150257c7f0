(** * Timing: the arithmetic on times in the programs of benches/.

    What the programs run between two readings of the clock is in [Benches].  Here is what
    they do with the readings, which are arguments: a reading is a number of nanoseconds
    (or, in count_cycles, of ticks).  What they print is a list of numbers of nanoseconds
    with labels; the two figures printed for each (seconds, and gigabytes per second) are
    floating point quotients of that number and constants, and are not modelled. *)
From Verif Require Import Base.
Local Open Scope N_scope.

Inductive label := Ignored | Timed | Average | Fastest.

(** ** benches/benchmark_gig/src/main.rs *)

(** benches/benchmark_gig/src/main.rs:15 [NS_PER_SEC], 17 [RUNS] *)
Definition NS_PER_SEC : N := 1000000000.
Definition RUNS : N := 10.

(** [std::time::Duration]: seconds, and nanoseconds below [NS_PER_SEC] *)
Record Duration := mk_Duration { secs : u64; subsec_nanos : u32 }.
Definition from_secs (s : u64) : Duration := mk_Duration s (uzero 32).
(** [after - before] on [Instant]s: panics if [after] is earlier.  An [Instant] is a count of
    seconds and nanoseconds. *)
Definition instant_sub (after before : N) : outcome Duration :=
  if after <? before then Panic
  else Ok (mk_Duration (of_N 64 ((after - before) / NS_PER_SEC)) (of_N 32 ((after - before) mod NS_PER_SEC))).
(** [+=]: panics when the seconds overflow, in every build *)
Definition duration_add (a b : Duration) : outcome Duration :=
  let nanos := val (subsec_nanos a) + val (subsec_nanos b) in
  let carry := if NS_PER_SEC <=? nanos then 1 else 0 in
  let s := val (secs a) + val (secs b) + carry in
  if s <? 2 ^ 64 then Ok (mk_Duration (of_N 64 s) (of_N 32 (nanos - carry * NS_PER_SEC))) else Panic.
(** [/ n]: the seconds are divided, the rest of them and the nanoseconds are divided
    separately and then added *)
Definition duration_div (a : Duration) (n : N) : outcome Duration :=
  if n =? 0 then Panic
  else
    let s := val (secs a) / n in
    let carry := val (secs a) - s * n in
    Ok (mk_Duration (of_N 64 s) (of_N 32 (val (subsec_nanos a) / n + carry * NS_PER_SEC / n))).
(** [<], derived: seconds first *)
Definition duration_lt (a b : Duration) : bool :=
  (val (secs a) <? val (secs b)) || ((val (secs a) =? val (secs b)) && (val (subsec_nanos a) <? val (subsec_nanos b))).

(** [*] on [u64] *)
Definition umul64 (c : cfg) (a b : N) : outcome u64 :=
  if a * b <? 2 ^ 64 then Ok (of_N 64 (a * b))
  else if overflow_checks c then Panic else Ok (of_N 64 (a * b)).

(** benches/benchmark_gig/src/main.rs:21-27 [print] *)
Definition print (c : cfg) (d : Duration) (message : label) : outcome (u64 * label) :=
  x <- umul64 c NS_PER_SEC (val (secs d)) ;;
  nanos <- uadd c x (cast 64 (subsec_nanos d)) ;;
  Ok (nanos, message).

(** benches/benchmark_gig/src/main.rs:29-53 [run]; the loop, with the readings [before]
    and [after] of each run *)
Fixpoint run_loop (c : cfg) (first : bool) (readings : list (N * N)) (fastest total : Duration)
  : outcome (list (u64 * label) * Duration * Duration) :=
  match readings with
  | [] => Ok ([], fastest, total)
  | (before, after) :: readings =>
      diff <- instant_sub after before ;;
      if first then
        line <- print c diff Ignored ;;
        '(lines, fastest, total) <- run_loop c false readings fastest total ;;
        Ok (line :: lines, fastest, total)
      else
        line <- print c diff Timed ;;
        total <- duration_add total diff ;;
        let fastest := if duration_lt diff fastest then diff else fastest in
        '(lines, fastest, total) <- run_loop c false readings fastest total ;;
        Ok (line :: lines, fastest, total)
  end.
Definition run (c : cfg) (readings : list (N * N)) : outcome (list (u64 * label)) :=
  let fastest := from_secs (umax 64) in
  let total := from_secs (uzero 64) in
  '(lines, fastest, total) <- run_loop c true readings fastest total ;;
  average <- duration_div total (RUNS - 1) ;;
  a <- print c average Average ;;
  f <- print c fastest Fastest ;;
  Ok (lines ++ [a; f]).

(** ** benches/bench_libsodium.c *)

(** benches/bench_libsodium.c:18-22 [nanosecond_diff].  [tv_sec * NS_PER_SEC + tv_nsec] is
    computed in [long] (64 bits), where overflow is undefined; the difference is unsigned. *)
Definition to_nanos (t : N) : outcome N := if t <? 2 ^ 63 then Ok t else UB.
Definition nanosecond_diff (tstart tend : N) : outcome u64 :=
  start_nanos <- to_nanos tstart ;;
  end_nanos <- to_nanos tend ;;
  Ok (of_N 64 (2 ^ 64 + end_nanos - start_nanos)).
Definition INT_MAX : N := 2 ^ 31 - 1.

(** benches/bench_libsodium.c:32-57 [run_bench] *)
Fixpoint run_bench_loop (first : bool) (readings : list (N * N)) (fastest_nanos total_nanos : u64)
  : outcome (list (u64 * label) * u64 * u64) :=
  match readings with
  | [] => Ok ([], fastest_nanos, total_nanos)
  | (tstart, tend) :: readings =>
      nanos <- nanosecond_diff tstart tend ;;
      if first then
        '(lines, fastest_nanos, total_nanos) <- run_bench_loop false readings fastest_nanos total_nanos ;;
        Ok ((nanos, Ignored) :: lines, fastest_nanos, total_nanos)
      else
        let total_nanos := wrapping_add total_nanos nanos in
        let fastest_nanos := if val nanos <? val fastest_nanos then nanos else fastest_nanos in
        '(lines, fastest_nanos, total_nanos) <- run_bench_loop false readings fastest_nanos total_nanos ;;
        Ok ((nanos, Timed) :: lines, fastest_nanos, total_nanos)
  end.
Definition run_bench (readings : list (N * N)) : outcome (list (u64 * label)) :=
  '(lines, fastest_nanos, total_nanos) <- run_bench_loop true readings (of_N 64 INT_MAX) (uzero 64) ;;
  Ok (lines ++ [(of_N 64 (val total_nanos / (RUNS - 1)), Average); (fastest_nanos, Fastest)]).

(** ** benches/count_cycles/src/main.rs *)

(** [total_ticks += end - start;], and the pair the six functions return
    (benches/count_cycles/src/main.rs:12-25 [blake2s_compression]).  [size] is [SIZE]. *)
Fixpoint ticks_loop (c : cfg) (readings : list (u64 * u64)) (total_ticks : u64) : outcome u64 :=
  match readings with
  | [] => Ok total_ticks
  | (start, stop) :: readings =>
      ticks <- usub c stop start ;;
      total_ticks <- uadd c total_ticks ticks ;;
      ticks_loop c readings total_ticks
  end.
(** benches/count_cycles/src/main.rs:10 [TOTAL_BYTES_PER_TYPE] *)
Definition TOTAL_BYTES_PER_TYPE : N := 2 ^ 30.
Definition iterations (size : N) : N := TOTAL_BYTES_PER_TYPE / size.
Definition cycles (c : cfg) (size : N) (readings : list (u64 * u64)) : outcome (u64 * N) :=
  total_ticks <- ticks_loop c (firstn (N.to_nat (iterations size)) readings) (uzero 64) ;;
  Ok (total_ticks, iterations size * size).

(** ** For the statements *)
(** What the clock showed between two readings; sums; a line of output as numbers. *)
Definition elapsed (r : N * N) : N := snd r - fst r.
Definition sum (l : list N) : N := fold_right N.add 0 l.
Definition shown (x : u64 * label) : N * label := (val (fst x), snd x).
