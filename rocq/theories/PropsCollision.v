(** * Properties C33 and C40: a collision of hashes is a collision of compressions.

    [Spec.blake2s_calls] and [Spec.blake2sp_calls] list the compression function calls
    of a hash computation; [Spec.collision]: two different calls, one in each
    computation, with the same result. *)
From Verif Require Import Base Params State Many Blake2sp ParamsSpec MachineSpec Clients Witness Corollaries.
From Verif Require Spec.
Local Open Scope N_scope.

(** C33 *)
Theorem C33_collision : forall c c' l l' p p' x x' h h', cfg_ok c -> cfg_ok c' ->
  build l = Ok p -> build l' = Ok p' ->
  N.of_nat (length x) + 64 < 2 ^ 64 -> N.of_nat (length x') + 64 < 2 ^ 64 ->
  hash_one c p x = Ok h -> hash_one c' p' x' = Ok h' -> as_bytes h = as_bytes h' ->
  last_call sel_hash_length 32 l = 32 ->
  Spec.collision (Spec.blake2s_calls (spec_params l) (spec_last_node l) x)
                 (Spec.blake2s_calls (spec_params l') (spec_last_node l') x') \/
  (Spec.param_block (spec_params l) = Spec.param_block (spec_params l') /\
   Spec.key (spec_params l) = Spec.key (spec_params l') /\ x = x' /\ spec_last_node l = spec_last_node l').
Proof. exact hash_collision. Qed.
Print Assumptions C33_collision.
(** C33 for hashes of any length. *)
Theorem C33_truncated_collision : forall c c' l l' p p' x x' h h', cfg_ok c -> cfg_ok c' ->
  build l = Ok p -> build l' = Ok p' ->
  N.of_nat (length x) + 64 < 2 ^ 64 -> N.of_nat (length x') + 64 < 2 ^ 64 ->
  hash_one c p x = Ok h -> hash_one c' p' x' = Ok h' -> as_bytes h = as_bytes h' ->
  Spec.truncated_collision (N.to_nat (last_call sel_hash_length 32 l))
                 (Spec.blake2s_calls (spec_params l) (spec_last_node l) x)
                 (Spec.blake2s_calls (spec_params l') (spec_last_node l') x') \/
  (Spec.param_block (spec_params l) = Spec.param_block (spec_params l') /\
   Spec.key (spec_params l) = Spec.key (spec_params l') /\ x = x' /\ spec_last_node l = spec_last_node l').
Proof. exact hash_truncated_collision. Qed.
Print Assumptions C33_truncated_collision.
(** Different parameters that do hash alike: the padding of the salt. *)
Example C33_example : exists p p' h h',
  build [SSalt [x01]%byte] = Ok p /\ build [SSalt [x01; x00]%byte] = Ok p' /\
  hash_one release_avx2 p (ramp 70) = Ok h /\ hash_one debug_portable p' (ramp 70) = Ok h' /\
  as_bytes h = as_bytes h' /\ last_call sel_hash_length 32 [SSalt [x01]%byte] = 32.
Proof.
  do 4 eexists. split; [vm_compute; reflexivity|]. split; [vm_compute; reflexivity|].
  split; [vm_compute; reflexivity|]. split; [vm_compute; reflexivity|]. split; vm_compute; reflexivity.
Qed.

(** C40: the same for BLAKE2sp, for the inputs it hashes correctly (see C21-C23). *)
Theorem C40_sp_collision : forall c c' l l' p p' pieces pieces', cfg_ok c -> cfg_ok c' ->
  sp_build l = Ok p -> sp_build l' = Ok p' -> sp_dlen l = 32 -> sp_dlen l' = 32 ->
  sp_keyval l = [] /\ N.of_nat (length (concat pieces)) < 2 ^ 64 \/ sp_keyval l <> [] /\ keyed_fit 0 pieces = true ->
  sp_keyval l' = [] /\ N.of_nat (length (concat pieces')) < 2 ^ 64 \/ sp_keyval l' <> [] /\ keyed_fit 0 pieces' = true ->
  sp_hash_pieces c p pieces = sp_hash_pieces c' p' pieces' ->
  Spec.collision (Spec.blake2sp_calls 32 (sp_keyval l) (concat pieces))
                 (Spec.blake2sp_calls 32 (sp_keyval l') (concat pieces')) \/
  (sp_keyval l = sp_keyval l' /\ concat pieces = concat pieces').
Proof. exact sp_hash_collision. Qed.
Print Assumptions C40_sp_collision.
(** C40 for hashes of any length. *)
Theorem C40_sp_truncated_collision : forall c c' l l' p p' pieces pieces', cfg_ok c -> cfg_ok c' ->
  sp_build l = Ok p -> sp_build l' = Ok p' ->
  sp_keyval l = [] /\ N.of_nat (length (concat pieces)) < 2 ^ 64 \/ sp_keyval l <> [] /\ keyed_fit 0 pieces = true ->
  sp_keyval l' = [] /\ N.of_nat (length (concat pieces')) < 2 ^ 64 \/ sp_keyval l' <> [] /\ keyed_fit 0 pieces' = true ->
  sp_hash_pieces c p pieces = sp_hash_pieces c' p' pieces' ->
  sp_dlen l = sp_dlen l' /\
  (Spec.truncated_collision (N.to_nat (sp_dlen l)) (Spec.blake2sp_calls (sp_dlen l) (sp_keyval l) (concat pieces))
                 (Spec.blake2sp_calls (sp_dlen l) (sp_keyval l') (concat pieces')) \/
   (sp_keyval l = sp_keyval l' /\ concat pieces = concat pieces')).
Proof. exact sp_hash_truncated_collision. Qed.
Print Assumptions C40_sp_truncated_collision.
Example C40_example : exists p, sp_build [SpKey key32] = Ok p /\ sp_dlen [SpKey key32] = 32 /\
  sp_keyval [SpKey key32] <> [] /\ keyed_fit 0 [ramp 960; ramp 64] = true /\ keyed_fit 0 [ramp 960; ramp 65] = false.
Proof.
  eexists. split; [vm_compute; reflexivity|]. split; [reflexivity|]. split; [vm_compute; discriminate|].
  split; vm_compute; reflexivity.
Qed.
