(** * Properties C10-C13 and C36: parameters and constructors.

    A chain of setter calls on [Params::new()] is a list; [build] runs it; [spec_params]
    (ParamsSpec) reads off the parameters it should select; [valid_setter] and
    [sp_setter_ok] are the documented ranges. *)
From Verif Require Import Base Consts Params State Blake2sp PortableFacts ParamsSpec MachineSpec Clients
  Behave Witness Corollaries.
From Verif Require Spec.
Local Open Scope N_scope.

(** Every field set, some twice. *)
Definition many_setters : list setter :=
  [SKey (ramp 32); SHashLength 20; SSalt (ramp 8); SPersonal (ramp 3); SFanout (of_N 8 2);
   SMaxDepth (of_N 8 255); SMaxLeafLength (of_N 32 (2 ^ 32 - 1)); SNodeOffset (of_N 64 (2 ^ 48 - 1));
   SNodeDepth (of_N 8 7); SInnerHashLength 32; SLastNode true; SKey (ramp 5); SSalt (ramp 2)].
Example many_setters_ok : forallb valid_setter many_setters = true.
Proof. vm_compute. reflexivity. Qed.

(** C10: the state made from the parameters holds IV xor parameter block. *)
Theorem C10_parameter_block : forall c l, cfg_ok c -> forallb valid_setter l = true ->
  exists p st, build l = Ok p /\ to_state c p = Ok st /\ nums (st_h st) = Spec.initial (spec_params l).
Proof. exact built_initial. Qed.
Print Assumptions C10_parameter_block.
Example C10_example :
  cfg_ok debug_avx2 /\ forallb valid_setter many_setters = true /\
  Spec.param_block (spec_params many_setters) =
  [x14; x05; x02; xff; xff; xff; xff; xff; xff; xff; xff; xff; xff; xff; x07; x20;
   x00; x01; x00; x00; x00; x00; x00; x00; x00; x01; x02; x00; x00; x00; x00; x00]%byte.
Proof. split; [intros _; reflexivity|]. vm_compute. split; reflexivity. Qed.

(** C11: different parameters, different initial chaining values. *)
Theorem C11_parameters_injective : forall c c' l l' p p' st st', cfg_ok c -> cfg_ok c' ->
  build l = Ok p -> build l' = Ok p' -> to_state c p = Ok st -> to_state c' p' = Ok st' ->
  st_h st = st_h st' ->
  let a := spec_params l in let b := spec_params l' in
  Spec.digest_length a = Spec.digest_length b /\ length (Spec.key a) = length (Spec.key b) /\
  Spec.fanout a = Spec.fanout b /\ Spec.depth a = Spec.depth b /\
  Spec.leaf_length a = Spec.leaf_length b /\ Spec.node_offset a = Spec.node_offset b /\
  Spec.node_depth a = Spec.node_depth b /\ Spec.inner_length a = Spec.inner_length b /\
  Spec.pad 8 (Spec.salt a) = Spec.pad 8 (Spec.salt b) /\
  Spec.pad 8 (Spec.personal a) = Spec.pad 8 (Spec.personal b).
Proof. exact to_state_injective. Qed.
Print Assumptions C11_parameters_injective.
(** Two different chains that do give the same chaining value: padding is not encoded,
    nor are the key bytes. *)
Example C11_example : exists p p' st st',
  build [SKey (ramp 1); SSalt [x01]%byte] = Ok p /\ build [SSalt [x01; x00]%byte; SKey [xff]%byte] = Ok p' /\
  to_state release_avx2 p = Ok st /\ to_state debug_portable p' = Ok st' /\ st_h st = st_h st' /\ st <> st'.
Proof.
  do 4 eexists. do 4 (split; [vm_compute; reflexivity|]). split; [reflexivity|].
  intros H. apply (f_equal st_buf) in H. vm_compute in H. discriminate H.
Qed.

(** C12: a setter panics exactly when its argument is outside the documented range. *)
Theorem C12_setters_reject : forall l p s, build l = Ok p ->
  (valid_setter s = true -> exists p', apply_setter p s = Ok p' /\ build (l ++ [s]) = Ok p') /\
  (apply_setter p s = Panic <-> valid_setter s = false).
Proof. exact setter_outcome. Qed.
Print Assumptions C12_setters_reject.
Theorem C12_sp_setters_reject : forall l p s, sp_build l = Ok p ->
  (sp_setter_ok s = true -> exists p', sp_apply_setter p s = Ok p' /\ sp_build (l ++ [s]) = Ok p') /\
  (sp_apply_setter p s = Panic <-> sp_setter_ok s = false).
Proof. exact sp_setter_outcome. Qed.
Print Assumptions C12_sp_setters_reject.
Theorem C12_chains : forall l,
  (forallb valid_setter l = true -> exists p, build l = Ok p) /\
  (forallb valid_setter l = false -> build l = Panic).
Proof. exact build_outcome. Qed.
Print Assumptions C12_chains.
Theorem C12_sp_chains : forall l,
  (forallb sp_setter_ok l = true -> exists p, sp_build l = Ok p) /\
  (forallb sp_setter_ok l = false -> sp_build l = Panic).
Proof. exact sp_build_outcome. Qed.
Print Assumptions C12_sp_chains.
(** The bounds themselves, and the first values past them. *)
Example C12_example :
  map valid_setter [SHashLength 1; SHashLength 32; SKey (ramp 32); SSalt (ramp 8); SPersonal (ramp 8);
                    SMaxDepth (of_N 8 1); SNodeOffset (of_N 64 (2 ^ 48 - 1)); SInnerHashLength 32] = repeat true 8 /\
  map valid_setter [SHashLength 0; SHashLength 33; SKey (ramp 33); SSalt (ramp 9); SPersonal (ramp 9);
                    SMaxDepth (of_N 8 0); SNodeOffset (of_N 64 (2 ^ 48)); SInnerHashLength 33] = repeat false 8 /\
  map sp_setter_ok [SpHashLength 1; SpHashLength 32; SpKey (ramp 32)] = repeat true 3 /\
  map sp_setter_ok [SpHashLength 0; SpHashLength 33; SpKey (ramp 33)] = repeat false 3 /\
  exists p, build many_setters = Ok p.
Proof. do 4 (split; [vm_compute; reflexivity|]). eexists. vm_compute. reflexivity. Qed.

(** C13: every field holds the argument of the last call that set it, or the default;
    byte strings are padded with zeros; calls on different fields commute; of two calls on
    the same field the first has no effect. *)
Theorem C13_last_call_wins : forall l p, build l = Ok p ->
  val (p_hash_length p) = last_call sel_hash_length 32 l /\
  val (p_key_length p) = N.of_nat (length (last_call sel_key [] l)) /\
  p_key p = Spec.pad 32 (last_call sel_key [] l) /\
  p_salt p = Spec.pad 8 (last_call sel_salt [] l) /\
  p_personal p = Spec.pad 8 (last_call sel_personal [] l) /\
  val (p_fanout p) = last_call sel_fanout 1 l /\
  val (p_max_depth p) = last_call sel_max_depth 1 l /\
  val (p_max_leaf_length p) = last_call sel_max_leaf_length 0 l /\
  val (p_node_offset p) = last_call sel_node_offset 0 l /\
  val (p_node_depth p) = last_call sel_node_depth 0 l /\
  val (p_inner_hash_length p) = last_call sel_inner 0 l /\
  p_last_node p = last_call sel_last_node false l.
Proof. exact params_fields. Qed.
Print Assumptions C13_last_call_wins.
Theorem C13_setters_commute : forall l p s t l', build l = Ok p -> same_kind s t = false ->
  apply_setters p (s :: t :: l') = apply_setters p (t :: s :: l').
Proof. exact setters_commute. Qed.
Print Assumptions C13_setters_commute.
Theorem C13_overwrite : forall l p s t l', build l = Ok p -> same_kind s t = true -> valid_setter s = true ->
  apply_setters p (s :: t :: l') = apply_setters p (t :: l').
Proof. exact setters_last_wins. Qed.
Print Assumptions C13_overwrite.
Theorem C13_sp_last_call_wins : forall l p, sp_build l = Ok p ->
  val (Blake2sp.sp_hash_length p) = sp_dlen l /\
  val (Blake2sp.sp_key_length p) = N.of_nat (length (sp_keyval l)) /\
  sp_key p = Spec.pad 32 (sp_keyval l).
Proof. exact sp_fields. Qed.
Print Assumptions C13_sp_last_call_wins.
(** A shorter key fully replaces a longer one. *)
Example C13_example :
  (exists p, build many_setters = Ok p /\ p_key p = Spec.pad 32 (ramp 5) /\ val (p_key_length p) = 5 /\
             p_salt p = Spec.pad 8 (ramp 2)) /\
  same_kind (SKey (ramp 32)) (SSalt (ramp 8)) = false /\ same_kind (SKey (ramp 32)) (SKey (ramp 5)) = true /\
  exists p, sp_build [SpKey (ramp 32); SpHashLength 7; SpKey (ramp 3)] = Ok p.
Proof.
  split; [eexists; split; [vm_compute; reflexivity|split; [|split]; vm_compute; reflexivity]|].
  split; [reflexivity|]. split; [reflexivity|]. eexists. vm_compute. reflexivity.
Qed.

(** C36: the constructors make the same state; an empty key is no key. *)
Theorem C36_constructors : forall c,
  State_new c = to_state c Params_new /\ State_default c = to_state c Params_new /\
  SpState_new c = sp_to_state c SpParams_new /\ SpState_default c = sp_to_state c SpParams_new.
Proof. exact constructors_agree. Qed.
Print Assumptions C36_constructors.
Theorem C36_empty_key : forall l l', forallb no_key l = true -> build (l ++ SKey [] :: l') = build (l ++ l').
Proof. exact empty_key. Qed.
Print Assumptions C36_empty_key.
Theorem C36_sp_empty_key : forall l l', forallb sp_no_key l = true ->
  sp_build (l ++ SpKey [] :: l') = sp_build (l ++ l').
Proof. exact sp_empty_key. Qed.
Print Assumptions C36_sp_empty_key.
(** The new state exists, and is the BLAKE2s-256 state of RFC 7693. *)
Theorem C36_new_state : forall c, cfg_ok c -> exists st,
  State_new c = Ok st /\ nums (st_h st) = Spec.initial Spec.default_params /\
  val (count st) = 0 /\ exists st' h, finalize c st = Ok (st', h) /\
  as_bytes h = Ok (Spec.blake2s Spec.default_params false []).
Proof. exact new_state_value. Qed.
Print Assumptions C36_new_state.
Example C36_example :
  forallb no_key [SHashLength 20; SSalt (ramp 8)] = true /\
  (exists p, build ([SHashLength 20; SSalt (ramp 8)] ++ SKey [] :: [SKey (ramp 3)]) = Ok p) /\
  Spec.initial Spec.default_params = N.lxor 0x6A09E667 0x01010020 :: skipn 1 Spec.IV.
Proof. split; [reflexivity|]. split; [eexists; vm_compute; reflexivity|vm_compute; reflexivity]. Qed.
