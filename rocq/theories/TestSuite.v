(** * TestSuite: src/test.rs, and the unit tests of the vector code.

    Each test is modelled with its literal inputs and expected results as arguments. *)
From Verif Require Import Base Consts Intrinsics Params State Many Blake2sp Clients.
From Verif Require Sse41 Avx2.
Local Open Scope N_scope.

(** [assert_eq!] on strings *)
Fixpoint str_eq (a b : list byte) : bool :=
  match a, b with
  | [], [] => true
  | x :: a, y :: b => Byte.eqb x y && str_eq a b
  | _, _ => false
  end.

(** test.rs:20-32 [compress_one].  The test's block is 0, 1, ..., 63. *)
Definition compress_one (c : cfg) (compress_fn : CompressFn) (block : Block) : outcome (list byte) :=
  state <- State_new c ;;
  h <- call_compress c compress_fn (st_h state) block (of_N 64 (N.of_nat BLOCKBYTES)) (umax 32) (uzero 32) ;;
  bytes_to_hex (state_words_to_bytes h).

(** test.rs:34-99 [compress_eight].  The test's blocks are all 1, ..., all 8. *)
Definition compress_eight (c : cfg) (compress_fn : Compress8Fn) (blocks : oct Block) : outcome (oct (list byte)) :=
  states <- oct_mapM (fun _ => State_new c) (oct_const tt) ;;
  hs <- call_compress8 c compress_fn (oct_map st_h states) blocks (oct_const (of_N 64 (N.of_nat BLOCKBYTES)))
          (oct_const (umax 32)) (oct_const (uzero 32)) ;;
  oct_mapM (fun h => bytes_to_hex (state_words_to_bytes h)) hs.

(** [assert_eq!] on arrays of eight strings *)
Definition str8_eq (a b : oct (list byte)) : bool :=
  forallb (fun p => str_eq (fst p) (snd p)) (combine (oct_list a) (oct_list b)).

(** test.rs:101-137 [test_all_compression_impls] *)
Definition test_all_compression_impls (c : cfg) (block : Block) (blocks : oct Block)
    (expected_1 : list byte) (expected_8 : oct (list byte)) : outcome unit :=
  found <- compress_one c compress_portable block ;;
  assert! (str_eq expected_1 found) ;;
  found <- compress_eight c compress8_portable blocks ;;
  assert! (str8_eq expected_8 found) ;;
  _ <- (if arch_x86 c && feature_std c && cpu_sse41 c then
          found <- compress_one c compress_sse41 block ;;
          assert! (str_eq expected_1 found) ;; Ok tt
        else Ok tt) ;;
  if arch_x86 c && feature_std c && cpu_avx2 c then
    found <- compress_eight c compress8_avx2 blocks ;;
    assert! (str8_eq expected_8 found) ;; Ok tt
  else Ok tt.

(** test.rs:167-172, the loop over single bytes in [test_vectors] *)
Fixpoint byte_by_byte (c : cfg) (state : State) (count : u64) (input : list byte) : outcome State :=
  match input with
  | [] => Ok state
  | b :: input =>
      state <- update c state [b] ;;
      count <- uadd c count (of_N 64 1) ;;
      assert! (val count =? val (State.count state)) ;;
      byte_by_byte c state count input
  end.

(** test.rs:139-176 [test_vectors], for one of its pairs.  The test runs the first part for all
    pairs, then the second, then the third. *)
Definition test_vector (c : cfg) (input output : list byte) : outcome unit :=
  hash <- blake2s c input ;;
  hex <- to_hex hash ;;
  assert! (str_eq hex output) ;;
  state <- State_new c ;;
  let split := (length input / 2)%nat in
  first <- slice_to input split ;;
  state <- update c state first ;;
  assert! (val (of_N 64 (N.of_nat split)) =? val (count state)) ;;
  second <- slice_from input split ;;
  state <- update c state second ;;
  assert! (val (of_N 64 (N.of_nat (length input))) =? val (count state)) ;;
  ' (_, hash) <- finalize c state ;;
  hex <- to_hex hash ;;
  assert! (str_eq hex output) ;;
  state <- State_new c ;;
  state <- byte_by_byte c state (of_N 64 0) input ;;
  ' (_, hash) <- finalize c state ;;
  hex <- to_hex hash ;;
  assert! (str_eq hex output) ;;
  Ok tt.

(** [assert_eq!(&state.finalize().to_hex(), expected)] *)
Definition check_finalize (c : cfg) (state : State) (expected : list byte) : outcome State :=
  ' (state, hash) <- finalize c state ;;
  hex <- to_hex hash ;;
  assert! (str_eq hex expected) ;;
  Ok state.
(** test.rs:178-188 [test_multiple_finalizes] *)
Definition test_multiple_finalizes (c : cfg) (input empty_hash hash : list byte) : outcome unit :=
  state <- State_new c ;;
  state <- check_finalize c state empty_hash ;;
  state <- check_finalize c state empty_hash ;;
  state <- check_finalize c state empty_hash ;;
  state <- update c state input ;;
  state <- check_finalize c state hash ;;
  state <- check_finalize c state hash ;;
  state <- check_finalize c state hash ;;
  Ok tt.

(** test.rs:190-199 [test_write]; [write_all] is the standard library's loop (Clients.v) *)
Definition test_write (c : cfg) (input expected : list byte) : outcome unit :=
  state <- State_new c ;;
  r <- write_all (S (S (length input))) c state input ;;
  match r with
  | None => Panic
  | Some state =>
      ' (_, hash) <- finalize c state ;;
      hex <- to_hex hash ;;
      assert! (str_eq hex expected) ;;
      Ok tt
  end.

(** [Params::new()], setters, [.to_state().set_last_node(b).update(input).finalize().to_hex()]
    (test.rs:218-238 [test_all_parameters]) *)
Definition test_all_parameters (c : cfg) (l : list setter) (last_node : bool) (input expected : list byte) : outcome unit :=
  p <- build l ;;
  state <- to_state c p ;;
  state <- update c (set_last_node state last_node) input ;;
  ' (_, hash) <- finalize c state ;;
  hex <- to_hex hash ;;
  assert! (str_eq expected hex) ;;
  Ok tt.
(** test.rs:240-251 [test_all_parameters_blake2sp] *)
Definition test_all_parameters_blake2sp (c : cfg) (l : list sp_setter) (input expected : list byte) : outcome unit :=
  p <- sp_build l ;;
  state <- sp_to_state c p ;;
  state <- sp_update c state input ;;
  hash <- sp_finalize c state ;;
  hex <- to_hex hash ;;
  assert! (str_eq expected hex) ;;
  Ok tt.

(** [#[should_panic]] *)
Definition should_panic {A} (x : outcome A) : outcome unit :=
  match x with Ok _ => Panic | Panic => Ok tt | UB => UB | Stuck => Stuck end.
(** test.rs:253-310, the ten tests of this form: the setter call each makes on new parameters *)
Definition panicking_calls : list setter :=
  [SHashLength 0; SHashLength (N.of_nat OUTBYTES + 1); SKey (repeat x00 (KEYBYTES + 1)); SSalt (repeat x00 (SALTBYTES + 1));
   SPersonal (repeat x00 (PERSONALBYTES + 1)); SMaxDepth (of_N 8 0); SInnerHashLength (N.of_nat OUTBYTES + 1)].
Definition sp_panicking_calls : list sp_setter :=
  [SpHashLength 0; SpHashLength (N.of_nat OUTBYTES + 1); SpKey (repeat x00 (KEYBYTES + 1))].

(** [assert_eq!(expected0, output[0]); ...]; the comparison is [PartialEq for Hash] *)
Definition assert_hashes (expected output : list Hash) : outcome unit :=
  fold_left (fun r p => _ <- r ;; b <- hash_eq (fst p) (snd p) ;; assert! b ;; Ok tt) (combine expected output) (Ok tt).

(** [state.clone().update(input).finalize()] *)
Definition update_finalize (c : cfg) (state : State) (input : list byte) : outcome Hash :=
  state <- update c state input ;;
  ' (_, h) <- finalize c state ;;
  Ok h.
(** test.rs:332-381, [test_run] inside [test_update8].  It takes [&mut State]s, which it
    leaves updated. *)
Definition test_run (c : cfg) (states : oct State) (inputs : oct (list byte)) : outcome (oct State) :=
  expected <- oct_mapM2 (update_finalize c) states inputs ;;
  states <- update8 c states inputs ;;
  ' (states, output) <- finalize8 c states ;;
  _ <- assert_hashes (oct_list expected) (oct_list output) ;;
  Ok states.
(** test.rs:418-591: [test_run] for a sequence of rotations of states and inputs.  The test
    makes 64 calls: the states advance by one place in each, the inputs in each eighth. *)
Definition rotate8 {A} (o : oct A) : oct A :=
  Oct (o1 o) (o2 o) (o3 o) (o4 o) (o5 o) (o6 o) (o7 o) (o0 o).
Fixpoint test_runs (c : cfg) (states : oct State) (runs : list (oct (list byte))) : outcome (oct State) :=
  match runs with
  | [] => Ok states
  | inputs :: runs =>
      states <- test_run c states inputs ;;
      test_runs c (rotate8 states) runs
  end.

(** test.rs:383-591, the rest of [test_update8].  The test's prefix is "foobarbaz", its
    parameters are those of [test_all_parameters] and its inputs are pieces of [paint_input]. *)
Definition update8_runs (inputs : oct (list byte)) : list (oct (list byte)) :=
  flat_map (fun k => repeat (Nat.iter k rotate8 inputs) 8) (seq 0 8).
Definition test_update8 (c : cfg) (prefix : list byte) (wacky : list setter) (inputs : oct (list byte)) : outcome unit :=
  state_a <- State_new c ;;
  state_b <- State_new c ;;
  let state_b := set_last_node state_b true in
  state_c <- State_new c ;;
  state_c <- update c state_c prefix ;;
  p <- build wacky ;;
  state_d <- to_state c p ;;
  state_e <- State_new c ;;
  state_f <- State_new c ;;
  state_g <- State_new c ;;
  state_h <- State_new c ;;
  _ <- test_runs c (Oct state_a state_b state_c state_d state_e state_f state_g state_h) (update8_runs inputs) ;;
  Ok tt.

(** In the tests below, [hash_one] is [params.to_state().update(input).finalize()]. *)

(** test.rs:594-611 [test_hash4_exact] *)
Definition test_hash4_exact (c : cfg) (p : Params) (inputs : quad (list byte)) : outcome unit :=
  expected0 <- hash_one c p (q0 inputs) ;;
  expected1 <- hash_one c p (q1 inputs) ;;
  expected2 <- hash_one c p (q2 inputs) ;;
  expected3 <- hash_one c p (q3 inputs) ;;
  out <- hash4_exact c p inputs ;;
  assert_hashes [expected0; expected1; expected2; expected3] (quad_list out).
(** test.rs:613-644 [test_hash8_exact] *)
Definition test_hash8_exact (c : cfg) (p : Params) (inputs : oct (list byte)) : outcome unit :=
  expected <- oct_mapM (hash_one c p) inputs ;;
  out <- hash8_exact c p inputs ;;
  assert_hashes (oct_list expected) (oct_list out).
(** test.rs:646-692 [test_hash8_with_exact_inputs] and 694-740 [test_hash8_with_inexact_inputs] *)
Definition test_hash8 (c : cfg) (ps : oct Params) (inputs : oct (list byte)) : outcome unit :=
  expected <- oct_mapM2 (hash_one c) ps inputs ;;
  out <- hash8 c ps inputs ;;
  assert_hashes (oct_list expected) (oct_list out).

(** tests/vector_tests.rs:41-51 and 67-77, the body of the loops over the test vectors in the
    JSON file ([hex::decode] and the JSON reader are not modelled: the arguments are bytes) *)
Definition kat_blake2s (c : cfg) (key input out : list byte) : outcome unit :=
  output <- match key with
            | [] => blake2s c input
            | _ :: _ => p <- build [SKey key] ;; hash_one c p input
            end ;;
  hex <- to_hex output ;;
  assert! (str_eq out hex) ;;
  Ok tt.
Definition kat_blake2sp (c : cfg) (key input out : list byte) : outcome unit :=
  output <- match key with
            | [] => blake2sp c input
            | _ :: _ =>
                p <- sp_build [SpKey key] ;;
                state <- sp_to_state c p ;;
                state <- sp_update c state input ;;
                sp_finalize c state
            end ;;
  hex <- to_hex output ;;
  assert! (str_eq out hex) ;;
  Ok tt.

(** ** For the statements *)
(** A test passes if [P] holds, and fails by a panic otherwise. *)
Definition passes_iff (P : Prop) (test : outcome unit) : Prop :=
  (P -> test = Ok tt) /\ (~ P -> test = Panic).
(** The number of bytes in the inputs of a number of runs. *)
Definition run_bytes (runs : list (oct (list byte))) : N :=
  N.of_nat (length (concat (flat_map oct_list runs))).
