(** * Property C67: the wrong hashes are wrong for all inputs.

    C20 and C23 each show one wrong hash.  [Spec.truncated_collision d l l'] (C33): two
    different calls of the compression function, one in each list, with the same result
    (or, for the last two, the same first [d] bytes of it). *)
From Verif Require Import Base Params State Many Blake2sp Views ParamsSpec MachineSpec Clients Terms Witness
  Corollaries SpLate WrongTerms WrongFacts.
From Verif Require Spec.
Local Open Scope N_scope.

(** C67: with a key and SIMD, none of the hashes of [hash8_exact] and [hash4_exact] is the
    right one, but for a collision between the calls of the hash without the key block and
    the calls of the hash with it. *)
Theorem C67_hash8_exact : forall c l p inputs, cfg_ok c -> build l = Ok p -> Spec.key (spec_params l) <> [] ->
  uses_simd c = true -> whole_blocks (map (@length byte) (oct_list inputs)) ->
  (forall k, N.of_nat (length (proj k inputs)) + 64 < 2 ^ 64) ->
  exists hs, hash8_exact c p inputs = Ok hs /\ forall k,
  as_bytes (proj k hs) = Ok (Spec.blake2s (spec_params l) (spec_last_node l) (proj k inputs)) ->
  Spec.truncated_collision (N.to_nat (Spec.digest_length (spec_params l)))
    (Spec.hash_calls (Spec.initial (spec_params l)) (proj k inputs) (spec_last_node l))
    (Spec.blake2s_calls (spec_params l) (spec_last_node l) (proj k inputs)).
Proof. exact exact8_right_only. Qed.
Print Assumptions C67_hash8_exact.
Theorem C67_hash4_exact : forall c l p inputs, cfg_ok c -> build l = Ok p -> Spec.key (spec_params l) <> [] ->
  uses_simd c = true -> whole_blocks (map (@length byte) (quad_list inputs)) ->
  (forall k, N.of_nat (length (qproj k inputs)) + 64 < 2 ^ 64) ->
  exists hs, hash4_exact c p inputs = Ok hs /\ forall k,
  as_bytes (qproj k hs) = Ok (Spec.blake2s (spec_params l) (spec_last_node l) (qproj k inputs)) ->
  Spec.truncated_collision (N.to_nat (Spec.digest_length (spec_params l)))
    (Spec.hash_calls (Spec.initial (spec_params l)) (qproj k inputs) (spec_last_node l))
    (Spec.blake2s_calls (spec_params l) (spec_last_node l) (qproj k inputs)).
Proof. exact exact4_right_only. Qed.
Print Assumptions C67_hash4_exact.
(** There the bytes of the key do not matter at all: anyone can compute these hashes.
    ([same_but_key]: equal setters, or two keys of one length.) *)
Theorem C67_hash8_exact_any_key : forall c l l' p p' inputs, cfg_ok c -> build l = Ok p -> build l' = Ok p' ->
  Forall2 same_but_key l l' -> uses_simd c = true -> whole_blocks (map (@length byte) (oct_list inputs)) ->
  (forall k, N.of_nat (length (proj k inputs)) + 64 < 2 ^ 64) ->
  exists hs, hash8_exact c p inputs = Ok hs /\ hash8_exact c p' inputs = Ok hs.
Proof. exact exact8_key_ignored. Qed.
Print Assumptions C67_hash8_exact_any_key.
Theorem C67_hash4_exact_any_key : forall c l l' p p' inputs, cfg_ok c -> build l = Ok p -> build l' = Ok p' ->
  Forall2 same_but_key l l' -> uses_simd c = true -> whole_blocks (map (@length byte) (quad_list inputs)) ->
  (forall k, N.of_nat (length (qproj k inputs)) + 64 < 2 ^ 64) ->
  exists hs, hash4_exact c p inputs = Ok hs /\ hash4_exact c p' inputs = Ok hs.
Proof. exact exact4_key_ignored. Qed.
Print Assumptions C67_hash4_exact_any_key.

(** Keyed BLAKE2sp beyond the histories of [C23_keyed_fit]: no right hash either, but for a
    collision between the calls of what it computes and those of the definition. *)
Theorem C67_sp_keyed : forall c l p pieces, cfg_ok c -> sp_build l = Ok p -> sp_keyval l <> [] ->
  keyed_fit 0 pieces = false -> N.of_nat (length (concat pieces)) + 64 < 2 ^ 64 ->
  sp_hash_pieces c p pieces = Ok (Spec.blake2sp (sp_dlen l) (sp_keyval l) (concat pieces)) ->
  Spec.truncated_collision (N.to_nat (sp_dlen l))
    (late_sp_calls (sp_dlen l) (sp_keyval l) (concat pieces) (early l pieces))
    (Spec.blake2sp_calls (sp_dlen l) (sp_keyval l) (concat pieces)).
Proof. exact sp_late_wrong. Qed.
Print Assumptions C67_sp_keyed.
(** Whatever BLAKE2sp returns, right or wrong, two equal hashes are of the same length, with
    the same key, of the same message and with equally many blocks compressed before the
    key block of a leaf ([early]), but for a collision.  So the hash of a long keyed message
    depends on how it was split; and otherwise the wrong hash is as hard to collide as the
    right one.  (C40 says this for the right ones.) *)
Theorem C67_sp_collision : forall c c' l l' p p' pieces pieces' r, cfg_ok c -> cfg_ok c' ->
  sp_build l = Ok p -> sp_build l' = Ok p' ->
  N.of_nat (length (concat pieces)) + 64 < 2 ^ 64 -> N.of_nat (length (concat pieces')) + 64 < 2 ^ 64 ->
  sp_hash_pieces c p pieces = Ok r -> sp_hash_pieces c' p' pieces' = Ok r ->
  sp_dlen l = sp_dlen l' /\
  (Spec.truncated_collision (N.to_nat (sp_dlen l))
     (late_sp_calls (sp_dlen l) (sp_keyval l) (concat pieces) (early l pieces))
     (late_sp_calls (sp_dlen l) (sp_keyval l') (concat pieces') (early l' pieces')) \/
   (sp_keyval l = sp_keyval l' /\ concat pieces = concat pieces' /\ early l pieces = early l' pieces')).
Proof. exact sp_any_collision. Qed.
Print Assumptions C67_sp_collision.

(** [late_sp_calls] are the calls of the definition if there is no early block, and the last of
    them gives the hash. *)
Theorem C67_calls : forall dlen key D k,
  late_sp_calls dlen key D 0 = Spec.blake2sp_calls dlen key D /\
  exists m x, late_sp_calls dlen key D k = m ++ [x] /\
  late_blake2sp dlen key D k = firstn (N.to_nat dlen) (Spec.words_bytes (Spec.run_call x)).
Proof. exact (fun dlen key D k => conj (late_sp_calls_0 dlen key D) (late_sp_last dlen key D k)). Qed.
Print Assumptions C67_calls.

(** Two keys, one hash; and the hypotheses of the first two theorems are met. *)
Example C67_example : exists p p' hs, build [SKey (ramp 3)] = Ok p /\ build [SKey (repeat x07 3)] = Ok p' /\
  Forall2 same_but_key [SKey (ramp 3)] [SKey (repeat x07 3)] /\ Spec.key (spec_params [SKey (ramp 3)]) <> [] /\
  cfg_ok release_avx2 /\ uses_simd release_avx2 = true /\
  whole_blocks (map (@length byte) (quad_list four_ramps)) /\ whole_blocks (map (@length byte) (oct_list eight_ramps)) /\
  hash4_exact release_avx2 p four_ramps = Ok hs /\ hash4_exact release_avx2 p' four_ramps = Ok hs.
Proof.
  destruct (build [SKey (ramp 3)]) as [p| | |] eqn:E; try discriminate E.
  destruct (build [SKey (repeat x07 3)]) as [p'| | |] eqn:E'; try discriminate E'.
  assert (S : Forall2 same_but_key [SKey (ramp 3)] [SKey (repeat x07 3)]) by (repeat constructor).
  assert (W : whole_blocks (map (@length byte) (quad_list four_ramps)))
    by (exists 1%nat; split; [repeat constructor|]; cbn; intuition).
  destruct (exact4_key_ignored release_avx2 _ _ p p' four_ramps ltac:(intro; reflexivity) E E' S eq_refl W) as (hs & H & H').
  { intros []; reflexivity. }
  exists p, p', hs. refine (conj eq_refl (conj eq_refl (conj S (conj _ (conj _ (conj eq_refl (conj W (conj _ (conj H H'))))))))).
  - discriminate.
  - intro; reflexivity.
  - exists 1%nat; split; [repeat constructor|]; cbn; intuition.
Qed.
(** A message under a key beyond [keyed_fit], hashed in two ways with one early block, and
    in a third way with none. *)
Example C67_sp_example : exists p r, sp_build sp_keyed_params = Ok p /\ sp_keyval sp_keyed_params <> [] /\
  keyed_fit 0 one_piece = false /\
  sp_hash_pieces release_avx2 p one_piece = Ok r /\ sp_hash_pieces release_portable p ([] :: one_piece) = Ok r /\
  early sp_keyed_params one_piece = 1%nat /\ early sp_keyed_params ([] :: one_piece) = 1%nat /\
  early sp_keyed_params two_pieces = 0%nat.
Proof.
  destruct (sp_build sp_keyed_params) as [p| | |] eqn:E; try discriminate E.
  assert (K : sp_keyval sp_keyed_params <> []) by discriminate.
  exists p; eexists. split; [reflexivity|]. split; [exact K|]. split; [vm_compute; reflexivity|].
  split; [exact (sp_hash_late release_avx2 _ p one_piece ltac:(intro; reflexivity) E K eq_refl eq_refl)|].
  split; [exact (sp_hash_late release_portable _ p ([] :: one_piece) ltac:(intro H; discriminate H) E K eq_refl eq_refl)|].
  split; [vm_compute; reflexivity|]. split; vm_compute; reflexivity.
Qed.
