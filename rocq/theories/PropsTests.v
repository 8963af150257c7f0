(** * Properties C47 to C49: the crate's tests, for all inputs. *)
From Coq Require Import String List.
From Verif Require Import Base Consts Intrinsics Params ParamsSpec State Many Blake2sp SpecFacts MachineSpec Views Clients ExactFacts TestSuite
  TestSuiteFacts TestRun TestRunFacts TestInputs Vectors Witness.
From Verif Require Spec Avx2 Sse41.
Local Open Scope list_scope.
Local Open Scope N_scope.

(** C47: the tests that compare with an expected result pass exactly when it is the
    specification's. *)
Theorem C47_compression_impls : forall c block blocks e1 e8, cfg_ok c -> length block = 64%nat ->
  (forall l, length (proj l blocks) = 64%nat) ->
  passes_iff (e1 = Spec.hex (Spec.blake2s Spec.default_params false block) /\
              forall l, proj l e8 = Spec.hex (Spec.blake2s Spec.default_params false (proj l blocks)))
    (test_all_compression_impls c block blocks e1 e8).
Proof. exact passes_compression_impls. Qed.
Print Assumptions C47_compression_impls.
Theorem C47_vectors : forall c input output, cfg_ok c -> N.of_nat (length input) < 2 ^ 64 ->
  passes_iff (output = Spec.hex (Spec.blake2s Spec.default_params false input)) (test_vector c input output).
Proof. exact passes_vector. Qed.
Print Assumptions C47_vectors.
Theorem C47_multiple_finalizes : forall c input e0 e1, cfg_ok c -> N.of_nat (length input) < 2 ^ 64 ->
  passes_iff (e0 = Spec.hex (Spec.blake2s Spec.default_params false []) /\
              e1 = Spec.hex (Spec.blake2s Spec.default_params false input)) (test_multiple_finalizes c input e0 e1).
Proof. exact passes_multiple_finalizes. Qed.
Print Assumptions C47_multiple_finalizes.
Theorem C47_write : forall c input e, cfg_ok c -> N.of_nat (length input) < 2 ^ 64 ->
  passes_iff (e = Spec.hex (Spec.blake2s Spec.default_params false input)) (test_write c input e).
Proof. exact passes_write. Qed.
Print Assumptions C47_write.
Theorem C47_all_parameters : forall c l b input e, cfg_ok c -> forallb valid_setter l = true ->
  N.of_nat (length input) + 64 < 2 ^ 64 ->
  passes_iff (e = Spec.hex (Spec.blake2s (spec_params l) b input)) (test_all_parameters c l b input e).
Proof. exact passes_all_parameters. Qed.
Print Assumptions C47_all_parameters.
Theorem C47_all_parameters_blake2sp : forall c l input e, cfg_ok c -> forallb sp_setter_ok l = true ->
  match sp_keyval l with [] => N.of_nat (length input) < 2 ^ 64 | _ => (length input <= 960)%nat end ->
  passes_iff (e = Spec.hex (Spec.blake2sp (sp_dlen l) (sp_keyval l) input)) (test_all_parameters_blake2sp c l input e).
Proof. exact passes_all_parameters_blake2sp. Qed.
Print Assumptions C47_all_parameters_blake2sp.
(** With a key and an input longer than the one it uses, the last test would panic in a debug
    build, whatever it expected (see C23). *)
Theorem C47_blake2sp_long_keyed : forall c l input e, cfg_ok c -> forallb sp_setter_ok l = true ->
  sp_keyval l <> [] -> (960 < length input)%nat -> debug_assertions c = true ->
  test_all_parameters_blake2sp c l input e = Panic.
Proof. exact sp_all_parameters_panics. Qed.
Print Assumptions C47_blake2sp_long_keyed.
Theorem C47_kat_blake2s : forall c key input out, cfg_ok c -> (length key <= 32)%nat -> N.of_nat (length input) + 64 < 2 ^ 64 ->
  passes_iff (out = Spec.hex (Spec.blake2s (Spec.mk_params 32 key 1 1 0 0 0 0 [] []) false input)) (kat_blake2s c key input out).
Proof. exact passes_kat_blake2s. Qed.
Print Assumptions C47_kat_blake2s.
Theorem C47_kat_blake2sp : forall c key input out, cfg_ok c -> (length key <= 32)%nat ->
  match key with [] => N.of_nat (length input) < 2 ^ 64 | _ :: _ => (length input <= 960)%nat end ->
  passes_iff (out = Spec.hex (Spec.blake2sp 32 key input)) (kat_blake2sp c key input out).
Proof. exact passes_kat_blake2sp. Qed.
Print Assumptions C47_kat_blake2sp.
Theorem C47_should_panic : forall s t,
  passes_iff (valid_setter s = false) (should_panic (build [s])) /\
  passes_iff (sp_setter_ok t = false) (should_panic (sp_build [t])).
Proof. exact should_panic_tests. Qed.
Print Assumptions C47_should_panic.
(** The tests as they are, with their own inputs, pass in every configuration. *)
Theorem C47_crate_tests : forall c, cfg_ok c -> Forall (fun t => t = Ok tt) (crate_tests c).
Proof. exact crate_tests_pass. Qed.
Print Assumptions C47_crate_tests.
(** What these inputs are: byte [i] of a painted input is byte [i mod 4] of the little-endian
    word [i / 4 + 1]; the eight inputs of [test_update8] are the consecutive parts of one
    painted input; the eight parameter blocks of [test_hash8] differ. *)
Theorem C47_inputs :
  (forall n i, N.of_nat n < 2 ^ 33 -> (i < n)%nat ->
     nth_error (paint_input n) i = nth_error (Spec.le_bytes 4 (1 + N.of_nat (i / 4))) (i mod 4)) /\
  (forall n, length (paint_input n) = n) /\
  concat (oct_list update8_inputs) = paint_input (75 * 64) /\
  NoDup (map spec_params (oct_list f_params)).
Proof. exact (conj painted (conj painted_length (conj update8_inputs_all f_params_different))). Qed.
Print Assumptions C47_inputs.
(** The calls that should panic are at the limits: [at_limit] says that the call is rejected
    while the same setter accepts an argument one larger or one smaller.  Every limit but that
    of [node_offset] (setter number 7) has its test. *)
Theorem C47_limits :
  (forall s, In (amount s) (map amount panicking_calls) <-> at_limit amount valid_setter s /\ fst (amount s) <> 7%nat) /\
  (forall s, In (sp_amount s) (map sp_amount sp_panicking_calls) <-> at_limit sp_amount sp_setter_ok s) /\
  (forall o, at_limit amount valid_setter (SNodeOffset o) <-> val o = 2 ^ 48).
Proof. exact (conj panicking_calls_limits (conj sp_panicking_calls_limits node_offset_limit)). Qed.
Print Assumptions C47_limits.
Example C47_limits_example :
  at_limit amount valid_setter (SHashLength 33) /\ ~ at_limit amount valid_setter (SHashLength 34) /\
  at_limit sp_amount sp_setter_ok (SpHashLength 0) /\ paint_input 6 = [x01; x00; x00; x00; x02; x00]%byte.
Proof.
  split; [split; [reflexivity|]; exists (SHashLength 32); auto|].
  split; [exact not_at_limit_34|].
  split; [split; [reflexivity|]; exists (SpHashLength 1); auto|]. reflexivity.
Qed.
Example C47_example : cfg_ok debug_avx2 /\ length (crate_tests debug_avx2) = 44%nat /\
  test_vector debug_portable (text "abc") (text "508c5e8c327c14e2e1a72ba34eeb452f37458b209ed63a294d999b4c86675982") = Ok tt /\
  test_vector debug_portable (text "abc") (text "508c5e8c327c14e2e1a72ba34eeb452f37458b209ed63a294d999b4c86675983") = Panic.
Proof.
  split; [intros _; reflexivity|]. split; [reflexivity|]. split; vm_compute; reflexivity.
Qed.

(** C48: the tests that compare two ways of computing the same hashes pass for all inputs. *)
Theorem C48_update8_runs : forall c states runs, cfg_ok c -> (forall l, reachable c (proj l states)) ->
  (overflow_checks c = true -> forall l, val (count (proj l states)) + run_bytes runs < 2 ^ 64) ->
  exists states', test_runs c states runs = Ok states'.
Proof. exact test_runs_pass. Qed.
Print Assumptions C48_update8_runs.
Theorem C48_update8 : forall c prefix wacky inputs, cfg_ok c -> forallb valid_setter wacky = true ->
  (overflow_checks c = true -> N.of_nat (length prefix) + 64 * run_bytes [inputs] + 64 < 2 ^ 64) ->
  test_update8 c prefix wacky inputs = Ok tt.
Proof. exact test_update8_pass. Qed.
Print Assumptions C48_update8.
Theorem C48_hash4_exact : forall c l p inputs, cfg_ok c -> build l = Ok p -> Spec.key (spec_params l) = [] ->
  exact_lengths (map (@length byte) (quad_list inputs)) ->
  (forall k, N.of_nat (length (qproj k inputs)) < 2 ^ 64) -> test_hash4_exact c p inputs = Ok tt.
Proof. exact test_hash4_exact_pass. Qed.
Print Assumptions C48_hash4_exact.
Theorem C48_hash8_exact : forall c l p inputs, cfg_ok c -> build l = Ok p -> Spec.key (spec_params l) = [] ->
  exact_lengths (map (@length byte) (oct_list inputs)) ->
  (forall k, N.of_nat (length (proj k inputs)) < 2 ^ 64) -> test_hash8_exact c p inputs = Ok tt.
Proof. exact test_hash8_exact_pass. Qed.
Print Assumptions C48_hash8_exact.
Theorem C48_hash8 : forall c ls ps inputs, cfg_ok c -> (forall l, build (proj l ls) = Ok (proj l ps)) ->
  (forall l, Spec.key (spec_params (proj l ls)) = []) ->
  (forall l, N.of_nat (length (proj l inputs)) < 2 ^ 64) -> test_hash8 c ps inputs = Ok tt.
Proof. exact test_hash8_pass. Qed.
Print Assumptions C48_hash8.
(** Had the test of [hash4_exact] used a key, it would have found the bug of C20. *)
Example C48_example :
  (p <- build [SHashLength 31] ;; test_hash4_exact debug_avx2 p (Quad (ramp 64) (ramp 64) (ramp 64) (ramp 64))) = Ok tt /\
  (p <- build [SKey key32] ;; test_hash4_exact debug_avx2 p (Quad (ramp 64) (ramp 64) (ramp 64) (ramp 64))) = Panic.
Proof. split; vm_compute; reflexivity. Qed.

(** C49: the helpers with unit tests of their own do what these check, on all lanes. *)
Theorem C49_avx2_units :
  (forall a0 a1 a2 a3 a4 a5 a6 a7 b0 b1 b2 b3 b4 b5 b6 b7 : u32,
     Avx2.interleave128 (Oct a0 a1 a2 a3 a4 a5 a6 a7) (Oct b0 b1 b2 b3 b4 b5 b6 b7) =
     (Oct a0 a1 a2 a3 b0 b1 b2 b3, Oct a4 a5 a6 a7 b4 b5 b6 b7)) /\
  (forall a b : oct u32,
     Avx2.load_2x256 (flat_map u32_to_bytes (oct_list a ++ oct_list b)) = (a, b)) /\
  (forall (vecs : oct m256) l k, proj l (proj k (Avx2.transpose_vecs vecs)) = proj k (proj l vecs)) /\
  (forall vecs : oct m256, Avx2.transpose_vecs (Avx2.transpose_vecs vecs) = vecs).
Proof. exact avx2_units. Qed.
Print Assumptions C49_avx2_units.
Theorem C49_sse41_units :
  (forall (a b c d : m128) l k,
     qproj l (qproj k (Sse41.transpose_vecs a b c d)) = qproj k (qproj l (Quad a b c d))) /\
  (forall a b c d : m128,
     let t := Sse41.transpose_vecs a b c d in Sse41.transpose_vecs (q0 t) (q1 t) (q2 t) (q3 t) = Quad a b c d).
Proof. exact sse41_units. Qed.
Print Assumptions C49_sse41_units.
(** avx2.rs:339-349 and 377-386 *)
Example C49_example :
  (let v (n : N) := oct_map (fun i => of_N 32 (n + i)) (Oct 0 1 2 3 4 5 6 7) in
   let '(a, b) := Avx2.interleave128 (v 10) (v 20) in
   (map val (oct_list a), map val (oct_list b))) = ([10; 11; 12; 13; 20; 21; 22; 23], [14; 15; 16; 17; 24; 25; 26; 27]) /\
  (let '(a, b) := Avx2.load_2x256 (flat_map (fun n => Spec.le_bytes 8 n) [0; 1; 2; 3; 4; 5; 6; 7]) in
   (map (@val 32) (oct_list a), map (@val 32) (oct_list b))) = ([0; 0; 1; 0; 2; 0; 3; 0], [4; 0; 5; 0; 6; 0; 7; 0]).
Proof. vm_compute. auto. Qed.
