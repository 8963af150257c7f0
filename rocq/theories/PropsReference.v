(** * Property C53: the crate computes what the C code of RFC 7693 computes. *)
From Verif Require Import Base Consts Params State Views ParamsSpec Clients Witness Reference ReferenceFacts ReferenceUse.
From Verif Require Spec.
Local Open Scope N_scope.

(** C53: for all lengths, keys and messages, however split, hashing with the crate gives
    what the C code of RFC 7693 gives, whatever its buffer contains at first, and panics
    where the C code reports an error. *)
Theorem C53_reference : forall c junk outlen k pieces l, cfg_ok c -> length junk = 64%nat ->
  l = [SHashLength (N.of_nat outlen); SKey k] \/ l = [SKey k; SHashLength (N.of_nat outlen)] ->
  N.of_nat (length (Spec.key_block k)) + N.of_nat (length (concat pieces)) < 2 ^ 64 ->
  (p <- build l ;; hash_pieces c p pieces) =
  match reference junk outlen k pieces with Some d => Ok d | None => Panic end.
Proof. exact crate_reference. Qed.
Print Assumptions C53_reference.
Example C53_example :
  (p <- build [SHashLength 20; SKey (ramp 7)] ;; hash_pieces release_avx2 p [ramp 100; ramp 61]) =
  match reference (ramp 64) 20 (ramp 7) [ramp 100; ramp 61] with Some d => Ok d | None => Panic end /\
  reference (ramp 64) 20 (ramp 7) [ramp 100; ramp 61] <> None /\
  reference (ramp 64) 33 (ramp 7) [ramp 100] = None /\ reference (ramp 64) 0 (ramp 7) [ramp 100] = None.
Proof. vm_compute. repeat split; discriminate. Qed.

(** The same of the specification: the two definitions agree on all inputs. *)
Theorem C53_specification : forall junk outlen k pieces, length junk = 64%nat ->
  reference junk outlen k pieces =
  if (1 <=? outlen)%nat && (outlen <=? 32)%nat && (length k <=? 32)%nat
  then Some (Spec.blake2s (Spec.mk_params (N.of_nat outlen) k 1 1 0 0 0 0 [] []) false (concat pieces)) else None.
Proof. exact reference_spec. Qed.
Print Assumptions C53_specification.
Example C53_specification_example :
  reference (ramp 64) 3 [] [] <> None /\ reference (ramp 64) 3 (ramp 33) [] = None.
Proof. vm_compute. split; [discriminate|reflexivity]. Qed.

(** The RFC's self-test passes on every platform. *)
Theorem C53_selftest : forall c, cfg_ok c -> selftest (crate_hash c) = blake2s_res.
Proof. exact crate_selftest. Qed.
Print Assumptions C53_selftest.
Example C53_selftest_example : length blake2s_res = 32%nat /\
  selftest (fun o k i => match reference (repeat x00 64) o k [i] with Some d => d | None => [] end) = blake2s_res.
Proof. vm_compute. split; reflexivity. Qed.

(** The initial words are the first 32 bits of the fractional parts of the square roots
    of the first eight primes. *)
Theorem C53_constants : nums IV = map (fun p => N.sqrt (p * 2 ^ 64) mod 2 ^ 32) [2; 3; 5; 7; 11; 13; 17; 19].
Proof. exact constants_sqrt. Qed.
Print Assumptions C53_constants.
