(** * Property C55: the tests with the vectors of the BLAKE2 authors. *)
From Coq Require Import List.
From Coq.Strings Require Import Byte.
From Verif Require Import Base Params State Blake2sp TestSuite TestSuiteFacts VectorTests VectorFacts Witness.
From Verif Require Spec.
Import ListNotations.
Local Open Scope N_scope.

(** C55: the tests of tests/vector_tests.rs pass exactly when the file has 512 cases of the
    function and the digests of these are right. *)
Theorem C55_blake2s : forall c cases, cfg_ok c -> N.of_nat (length cases) < 2 ^ 64 ->
  Forall (fun x => N.of_nat (length (chars (t_in x))) < 2 ^ 64) cases ->
  passes_iff
    (length (filter (named "blake2s") cases) = 512%nat /\
     Forall (case_right (fun key input => Spec.blake2s (Spec.mk_params 32 key 1 1 0 0 0 0 [] []) false input))
       (filter (named "blake2s") cases))
    (blake2s_vectors c cases).
Proof. exact blake2s_vectors_pass. Qed.
Print Assumptions C55_blake2s.
(** With a key and more than 960 bytes the result depends on the build (see C23). *)
Theorem C55_blake2sp : forall c cases, cfg_ok c -> N.of_nat (length cases) < 2 ^ 64 ->
  Forall (fun x => match chars (t_key x) with
                   | [] => N.of_nat (length (chars (t_in x))) < 2 ^ 64
                   | _ :: _ => (length (chars (t_in x)) <= 1920)%nat
                   end) cases ->
  passes_iff
    (length (filter (named "blake2sp") cases) = 512%nat /\
     Forall (case_right (Spec.blake2sp 32)) (filter (named "blake2sp") cases))
    (blake2sp_vectors c cases).
Proof. exact blake2sp_vectors_pass. Qed.
Print Assumptions C55_blake2sp.
(** Cases of other functions make no difference. *)
Theorem C55_others : forall c cases,
  blake2s_vectors c cases = blake2s_vectors c (filter (named "blake2s") cases) /\
  blake2sp_vectors c cases = blake2sp_vectors c (filter (named "blake2sp") cases).
Proof. exact vectors_others. Qed.
Print Assumptions C55_others.
(** The strings that can be decoded are hexadecimal text, in either case. *)
Theorem C55_hex : forall s m, hex_decode s = Some m <-> map lower s = Spec.hex m.
Proof. exact hex_decode_text. Qed.
Print Assumptions C55_hex.
(** The tests count cases, not different ones: 512 times the same will do. *)
Example C55_example :
  case_right (fun key input => Spec.blake2s (Spec.mk_params 32 key 1 1 0 0 0 0 [] []) false input) case_a /\
  case_right (Spec.blake2sp 32) case_b /\
  blake2s_vectors debug_avx2 (case_b :: repeat case_a 512) = Ok tt /\
  blake2s_vectors debug_avx2 (repeat case_a 511) = Panic /\
  blake2sp_vectors release_portable (case_a :: repeat case_b 512) = Ok tt /\
  blake2sp_vectors release_portable (mk_case "blake2sp" "0" "" "" :: repeat case_b 511) = Panic /\
  hex_decode (chars "0aB1") = Some [x0a; xb1] /\ hex_decode (chars "0g") = None.
Proof. exact vectors_example. Qed.
