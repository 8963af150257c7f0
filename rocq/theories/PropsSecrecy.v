(** * Property C29: what the contents of keys and messages can influence.

    [blank_setter], [blank_sp_setter] and [blank_op] wipe the contents of the byte
    strings in a call, keeping their lengths; [wipe] wipes the bytes of hashes from a
    result, keeping the Debug texts of states and parameters whole. *)
From Verif Require Import Base Params State Many Blake2sp Debug Machine MachineSpec Clients Terms Witness Corollaries NoLeak.
From Coq Require Import String.
Local Notation length := List.length (only parsing).
Local Open Scope N_scope.

(** C29: two programs that make the same calls with byte strings of the same lengths but
    any contents see the same, apart from the bytes of hashes, and end the same way. *)
Theorem C29_programs : forall c ops1 ops2, map blank_op ops1 = map blank_op ops2 ->
  wiped ops1 (fst (run c empty_session ops1)) = wiped ops2 (fst (run c empty_session ops2)) /\
  snd (run c empty_session ops1) = snd (run c empty_session ops2).
Proof. exact no_leak. Qed.
Print Assumptions C29_programs.
(** The Debug texts, one by one. *)
Theorem C29_state : forall c l1 l2 pieces1 pieces2, map blank_setter l1 = map blank_setter l2 ->
  map (@length byte) pieces1 = map (@length byte) pieces2 ->
  (p <- build l1 ;; st <- to_state c p ;; st <- feed c st pieces1 ;; Ok (state_debug st)) =
  (p <- build l2 ;; st <- to_state c p ;; st <- feed c st pieces2 ;; Ok (state_debug st)).
Proof. exact no_leak_text. Qed.
Print Assumptions C29_state.
Theorem C29_sp_state : forall c l1 l2 pieces1 pieces2, map blank_sp_setter l1 = map blank_sp_setter l2 ->
  map (@length byte) pieces1 = map (@length byte) pieces2 ->
  (p <- sp_build l1 ;; st <- sp_to_state c p ;; st <- sp_feed c st pieces1 ;; sp_state_debug c st) =
  (p <- sp_build l2 ;; st <- sp_to_state c p ;; st <- sp_feed c st pieces2 ;; sp_state_debug c st).
Proof. exact no_leak_sp_text. Qed.
Print Assumptions C29_sp_state.
Theorem C29_sp_params : forall l1 l2, map blank_sp_setter l1 = map blank_sp_setter l2 ->
  (p <- sp_build l1 ;; Ok (sp_params_debug p)) = (p <- sp_build l2 ;; Ok (sp_params_debug p)).
Proof. exact no_leak_sp_params. Qed.
Print Assumptions C29_sp_params.

(** Two programs with different keys and messages: their hashes differ, what is left
    after wiping does not, and the Debug texts are among what is left. *)
Definition secret_program (key message : list byte) : list op :=
  [ParamsNew; ParamsSet 0 (SKey key); ToState 0; Update 0 message; StateDebug 0; Finalize 0; HashDebug 0;
   SpParamsNew; SpParamsSet 0 (SpKey key); SpParamsDebug 0; SpToState 0; SpUpdate 0 message; SpDebug 0].
Example C29_example :
  map blank_op (secret_program (ramp 7) (ramp 70)) = map blank_op (secret_program (skipn 3 (ramp 10)) (rev (ramp 70))) /\
  same_bytes
    (match nth 5 (fst (run debug_avx2 empty_session (secret_program (ramp 7) (ramp 70)))) ONone with OBytes b => Ok b | _ => Panic end)
    (match nth 5 (fst (run debug_avx2 empty_session (secret_program (skipn 3 (ramp 10)) (rev (ramp 70))))) ONone with OBytes b => Ok b | _ => Panic end)
    = false /\
  nth 4 (wiped (secret_program (ramp 7) (ramp 70)) (fst (run debug_avx2 empty_session (secret_program (ramp 7) (ramp 70))))) ONone
  = OText "State { count: 134, hash_length: 32, last_node: false }" /\
  nth 9 (wiped (secret_program (ramp 7) (ramp 70)) (fst (run debug_avx2 empty_session (secret_program (ramp 7) (ramp 70))))) ONone
  = OText "Params { hash_length: 32, key_length: 7 }".
Proof.
  split; [vm_compute; reflexivity|]. split; [vm_compute; reflexivity|].
  split; vm_compute; reflexivity.
Qed.
