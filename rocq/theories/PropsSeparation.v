(** * Property C57: what was hashed can be read off the compression calls.

    [Spec.blake2s_calls] and [Spec.blake2sp_calls] list the compression calls of a
    computation, with all arguments (C39 and C45 show that the code runs these). *)
From Verif Require Import Base Params State Blake2sp ParamsSpec Clients Terms Witness SpFacts Separation.
From Verif Require Spec.
Local Open Scope N_scope.

(** C57: the calls of a computation give the parameters, the key, the message and the flag,
    even if more calls follow; so the calls of one computation never begin those of
    another. *)
Theorem C57_calls_decode : forall l l' p p' x x' y y', build l = Ok p -> build l' = Ok p' ->
  Spec.blake2s_calls (spec_params l) (spec_last_node l) x ++ y =
  Spec.blake2s_calls (spec_params l') (spec_last_node l') x' ++ y' ->
  Spec.param_block (spec_params l) = Spec.param_block (spec_params l') /\
  Spec.key (spec_params l) = Spec.key (spec_params l') /\ spec_last_node l = spec_last_node l' /\ x = x' /\ y = y'.
Proof. exact blake2s_calls_decode. Qed.
Print Assumptions C57_calls_decode.
Theorem C57_sp_calls_decode : forall l l' p p' x x' y y', sp_build l = Ok p -> sp_build l' = Ok p' ->
  Spec.blake2sp_calls (sp_last_hash_length 32 l) (sp_last_key [] l) x ++ y =
  Spec.blake2sp_calls (sp_last_hash_length 32 l') (sp_last_key [] l') x' ++ y' ->
  sp_last_hash_length 32 l = sp_last_hash_length 32 l' /\ sp_last_key [] l = sp_last_key [] l' /\ x = x' /\ y = y'.
Proof. exact blake2sp_calls_decode. Qed.
Print Assumptions C57_sp_calls_decode.
(** BLAKE2s begins like BLAKE2sp only for those who set the parameters of a leaf. *)
Theorem C57_modes_apart : forall l l' p p' x x' y y', build l = Ok p -> sp_build l' = Ok p' ->
  Spec.blake2s_calls (spec_params l) (spec_last_node l) x ++ y =
  Spec.blake2sp_calls (sp_last_hash_length 32 l') (sp_last_key [] l') x' ++ y' ->
  Spec.fanout (spec_params l) = 8 /\ Spec.depth (spec_params l) = 2 /\ Spec.inner_length (spec_params l) = 32.
Proof. exact modes_apart. Qed.
Print Assumptions C57_modes_apart.
(** The last call of a computation is not a call before the last one of any computation. *)
Theorem C57_last_apart : forall h h' D D' b b' m x m' x',
  Spec.hash_calls h D b = m ++ [x] -> Spec.hash_calls h' D' b' = m' ++ [x'] -> ~ In x m'.
Proof. exact last_apart. Qed.
Print Assumptions C57_last_apart.
(** The nine nodes of the states that [blake2sp] makes start from different words, whatever
    the parameters; and from words that a [State] of BLAKE2s has only if it was given the
    tree parameters of that node. *)
Theorem C57_nodes_apart : forall c c' l l' p p' st st' i j w, cfg_ok c -> cfg_ok c' -> sp_build l = Ok p -> sp_build l' = Ok p' ->
  sp_to_state c p = Ok st -> sp_to_state c' p' = Ok st' ->
  nth_error (node_words st) i = Some w -> nth_error (node_words st') j = Some w ->
  i = j /\ sp_last_hash_length 32 l = sp_last_hash_length 32 l' /\ length (sp_last_key [] l) = length (sp_last_key [] l').
Proof. exact nodes_apart. Qed.
Print Assumptions C57_nodes_apart.
Theorem C57_node_apart_from_state : forall c c' l l' p p' st s i, cfg_ok c -> cfg_ok c' -> sp_build l = Ok p -> build l' = Ok p' ->
  sp_to_state c p = Ok st -> to_state c' p' = Ok s -> nth_error (node_words st) i = Some (st_h s) ->
  let sp := spec_params l' in
  Spec.fanout sp = 8 /\ Spec.depth sp = 2 /\ Spec.leaf_length sp = 0 /\ Spec.inner_length sp = 32 /\
  Spec.digest_length sp = sp_last_hash_length 32 l /\ length (Spec.key sp) = length (sp_last_key [] l) /\
  (i = 8%nat /\ Spec.node_depth sp = 1 /\ Spec.node_offset sp = 0 \/
   (i < 8)%nat /\ Spec.node_depth sp = 0 /\ Spec.node_offset sp = N.of_nat i).
Proof. exact node_apart_from_state. Qed.
Print Assumptions C57_node_apart_from_state.

(** Equal calls: only the padding of the salt may differ. *)
Example C57_example : exists p p', build [SSalt [x01]%byte] = Ok p /\ build [SSalt [x01; x00]%byte] = Ok p' /\
  Spec.blake2s_calls (spec_params [SSalt [x01]%byte]) (spec_last_node [SSalt [x01]%byte]) (ramp 65) ++ [] =
  Spec.blake2s_calls (spec_params [SSalt [x01; x00]%byte]) (spec_last_node [SSalt [x01; x00]%byte]) (ramp 65) ++ [] /\
  List.length (Spec.blake2s_calls (spec_params [SSalt [x01]%byte]) (spec_last_node [SSalt [x01]%byte]) (ramp 65)) = 2%nat.
Proof. eexists; eexists. split; [vm_compute; reflexivity|]. split; [vm_compute; reflexivity|]. split; vm_compute; reflexivity. Qed.
(** The calls of a leaf with the parameters set by hand. *)
Definition leaf0 : list setter :=
  [SFanout (of_N 8 8); SMaxDepth (of_N 8 2); SInnerHashLength 32].
Example C57_modes_example : exists p p', build leaf0 = Ok p /\ sp_build [] = Ok p' /\
  exists y, Spec.blake2s_calls (spec_params leaf0) (spec_last_node leaf0) (ramp 3) ++ y =
            Spec.blake2sp_calls (sp_last_hash_length 32 []) (sp_last_key [] []) (ramp 3) ++ [].
Proof.
  eexists; eexists. split; [vm_compute; reflexivity|]. split; [vm_compute; reflexivity|].
  exists (skipn 1 (Spec.blake2sp_calls 32 [] (ramp 3))). rewrite app_nil_r.
  rewrite <- (firstn_skipn 1 (Spec.blake2sp_calls (sp_last_hash_length 32 []) (sp_last_key [] []) (ramp 3))) at 1.
  apply (f_equal (fun z => z ++ _)). lazy. reflexivity.
Qed.
Example C57_nodes_example : exists p p' st s, sp_build [SpKey (ramp 7)] = Ok p /\
  build (leaf0 ++ [SKey (ramp 7); SNodeOffset (of_N 64 5)]) = Ok p' /\
  sp_to_state debug_avx2 p = Ok st /\ to_state release_portable p' = Ok s /\
  nth_error (node_words st) 5 = Some (st_h s) /\ List.length (node_words st) = 9%nat.
Proof.
  do 4 eexists. split; [vm_compute; reflexivity|]. split; [vm_compute; reflexivity|].
  split; [vm_compute; reflexivity|]. split; [vm_compute; reflexivity|]. split; vm_compute; reflexivity.
Qed.
