(** * TestRun: the crate's tests with their own inputs and expected results. *)
From Verif Require Import Base Consts Params State Many Blake2sp TestCode TestSuite Vectors.
From Coq Require Import String.
Local Notation length := List.length (only parsing).
Local Open Scope N_scope.

(** test.rs:312-324 [paint_input]: what it writes into a buffer of [n] bytes *)
Fixpoint paint_loop (fuel : nat) (counter : N) (n : nat) : list byte :=
  match fuel, n with
  | S fuel, S _ =>
      let take := Nat.min 4 n in
      firstn take (u32_to_bytes (of_N 32 counter)) ++ paint_loop fuel (counter + 1) (n - take)
  | _, _ => []
  end.
Definition paint_input (n : nat) : list byte := paint_loop n 1 n.

(** test.rs:219-235 and 392-404 *)
Definition wacky_parameters : list setter :=
  [SHashLength 18; SKey (text "bar"); SSalt (text "bazbazba"); SPersonal (text "bing bin"); SFanout (of_N 8 2);
   SMaxDepth (of_N 8 3); SMaxLeafLength (of_N 32 0x04050607); SNodeOffset (of_N 64 (2 ^ 48 - 1));
   SNodeDepth (of_N 8 16); SInnerHashLength 17].
Definition blocks_from (buf : list byte) (from to : nat) : list byte := sub buf (64 * from) (64 * (to - from)).
(** test.rs:594-740 *)
Definition f_inputs (extra : nat -> nat) : oct (list byte) :=
  Oct (repeat xf0 (4 * 64 + extra 0%nat)) (repeat xf1 (4 * 64 + extra 1%nat)) (repeat xf2 (4 * 64 + extra 2%nat))
    (repeat xf3 (4 * 64 + extra 3%nat)) (repeat xf4 (4 * 64 + extra 4%nat)) (repeat xf5 (4 * 64 + extra 5%nat))
    (repeat xf6 (4 * 64 + extra 6%nat)) (repeat xf7 (4 * 64 + extra 7%nat)).
Definition f_setters (n : N) (last : bool) : list setter := [SHashLength n; SPersonal (text "foo"); SLastNode last].
Definition with_built {A} (l : list setter) (k : Params -> outcome A) : outcome A := p <- build l ;; k p.
Definition with_built8 {A} (ls : oct (list setter)) (k : oct Params -> outcome A) : outcome A :=
  ps <- oct_mapM build ls ;; k ps.
Definition f_params : oct (list setter) :=
  Oct (f_setters 1 false) (f_setters 2 false) (f_setters 3 false) (f_setters 4 false)
      (f_setters 5 true) (f_setters 6 true) (f_setters 7 true) (f_setters 8 true).

(** test.rs:407-417, the painted buffer and its pieces *)
Definition update8_inputs : oct (list byte) :=
  let input := paint_input (75 * 64) in
  Oct (blocks_from input 0 10) (blocks_from input 10 20) (blocks_from input 20 30) (blocks_from input 30 40)
      (blocks_from input 40 50) (blocks_from input 50 60) (blocks_from input 60 70) (blocks_from input 70 75).

(** Every test of src/test.rs and of src/blake2sp.rs *)
Definition crate_tests (c : cfg) : list (outcome unit) :=
  [test_all_compression_impls c (counting 64)
     (Oct (repeat x01 64) (repeat x02 64) (repeat x03 64) (repeat x04 64)
          (repeat x05 64) (repeat x06 64) (repeat x07 64) (repeat x08 64))
     (text "56f34e8b96557e90c1f24b52d0c89d51086acf1b00f634cf1dde9233b8eaaa3e")
     (Oct (text "dc3c4c7e77f743a2625e771cf71247d0a74821553b38600d0943316d5ff6987f")
          (text "f8b7bb9bd572ec5555592d19b476a5899334a004e9a181fad4b7236990d05329")
          (text "43408522fdef2a8c010093bf726dea07954591677cc4bb0c58421dac49942186")
          (text "9d660d85e5a18fab0223c44932695f27639a73726590b563cf7b6aa09a73d594")
          (text "5bca39cc61c6a7beb4767bf2add509bd46cefe44a7755de72fe55707f88fb10d")
          (text "fc4daaafdd1111282445d562226bb98308b1b2682b66df87857a5ea041d01099")
          (text "e0110d7690b3be39f4d06b37d3ab5352f3a6cbdccf03ae409d0719c88a81c648")
          (text "d9f493e092e69be49af15f25fdbc26c62b62e036b361b4431d33c7236fdeb134"));
   test_vector c [] (text "69217a3079908094e11121d042354a7c1f55b6482ca1a51e1b250dfd1ed0eef9");
   test_vector c (text "abc") (text "508c5e8c327c14e2e1a72ba34eeb452f37458b209ed63a294d999b4c86675982");
   test_vector c (repeat x00 64) (text "ae09db7cd54f42b490ef09b6bc541af688e4959bb8c53f359a6f56e38ab454a3");
   test_vector c (repeat x00 1000) (text "37e9dd47498579c5343fd282c13c62ea824cdfc9b0f4f747a41347414640f62c");
   test_multiple_finalizes c (text "abc")
     (text "69217a3079908094e11121d042354a7c1f55b6482ca1a51e1b250dfd1ed0eef9")
     (text "508c5e8c327c14e2e1a72ba34eeb452f37458b209ed63a294d999b4c86675982");
   test_write c (repeat x00 1000) (text "37e9dd47498579c5343fd282c13c62ea824cdfc9b0f4f747a41347414640f62c");
   test_all_parameters c
     ([SHashLength 18; SKey (text "not the real key"); SKey (text "bar")] ++ skipn 2 wacky_parameters) true
     (text "foo") (text "0d9841e93b8f1d4c0666da56e2bae569c13b");
   test_all_parameters_blake2sp c [SpHashLength 18; SpKey (text "not the real key"); SpKey (text "bar")]
     (text "foo") (text "947d4c671e2794f5e1a57daeca97bb46ed66")] ++
  map (fun s => should_panic (build [s])) panicking_calls ++
  map (fun s => should_panic (sp_build [s])) sp_panicking_calls ++
  [test_update8 c (text "foobarbaz") (wacky_parameters ++ [SLastNode true]) update8_inputs;
   with_built (f_setters 31 true) (fun p =>
     let i := f_inputs (fun _ => 0%nat) in test_hash4_exact c p (Quad (o0 i) (o1 i) (o2 i) (o3 i)));
   with_built (f_setters 31 true) (fun p => test_hash8_exact c p (f_inputs (fun _ => 0%nat)));
   with_built8 f_params (fun ps => test_hash8 c ps (f_inputs (fun _ => 0%nat)));
   with_built8 f_params (fun ps => test_hash8 c ps (f_inputs (fun i => i)))] ++
  map (fun n => test_buffering c (firstn (n * 64) (paint_input (20 * 64))) 1) (seq 1 20).
