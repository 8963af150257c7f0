(** * Property C52: [force_portable] keeps states off the SIMD code.

    [trace c s ops] lists the events of the program [ops] that starts with the objects [s],
    and [runs] takes the compression routines from it (Traced.v). *)
From Verif Require Import Base Params State Blake2sp Machine Clients Terms Witness Traced TraceTerms PortableOnly.
Local Open Scope N_scope.

(** C52: where all states have been forced, no SIMD routine runs, whatever the CPU, in any
    program without calls that ask the CPU: those that make states or hash several inputs
    at once, and the one-shot functions. *)
Theorem C52_programs : forall c s ops,
  Forall portable_state (s_states s) -> Forall portable_sstate (s_sstates s) ->
  existsb dispatches ops = false ->
  Forall (fun r => portable_routine r = true) (runs (trace c s ops)).
Proof. exact portable_programs. Qed.
Print Assumptions C52_programs.

(** Making a state runs no routine at all, keyed or not. *)
Theorem C52_creation : forall c s o, creates o = true -> runs (events (step_t c s o)) = [].
Proof. exact creation_runs_nothing. Qed.
Print Assumptions C52_creation.

(** So a state that is forced right after it has been made never runs SIMD code. *)
Theorem C52_forced_at_once : forall c s o rest,
  Forall portable_state (s_states s) -> Forall portable_sstate (s_sstates s) ->
  creates o = true -> existsb dispatches rest = false ->
  Forall (fun r => portable_routine r = true) (runs (trace c s (o :: force_newest s o :: rest))).
Proof. exact forced_at_once. Qed.
Print Assumptions C52_forced_at_once.

(** The same computation with and without [force_portable], on a CPU with AVX2: the number
    of routines, and of portable ones. *)
Definition forced_program (force : bool) : list op :=
  [ParamsNew; ParamsSet 0 (SKey (ramp 32)); ToState 0] ++ (if force then [ForcePortable 0] else []) ++
  [Update 0 (ramp 100); Write 0 (ramp 64); StateClone 0; Finalize 0; Update 1 (ramp 9); Finalize 1].
Definition forced_sp_program (force : bool) : list op :=
  [SpStateNew] ++ (if force then [SpForcePortable 0] else []) ++ [SpUpdate 0 (ramp 600); SpUpdate 0 (ramp 500); SpFinalize 0].
Example C52_example :
  map (fun ops => let r := runs (trace debug_avx2 empty_session ops) in
                  (length r, length (filter portable_routine r)))
      [forced_program true; forced_program false; forced_sp_program true; forced_sp_program false] =
  [(5, 5); (5, 0); (15, 15); (15, 0)]%nat.
Proof. vm_compute. reflexivity. Qed.

(** C52, refuted for the calls on eight states at once: [update8] and [finalize8] run what the
    CPU offers, even if all the states have been forced. *)
Theorem C52_many_refuted : exists c s i inputs, cfg_ok c /\
  Forall portable_state (s_states s) /\ s_sstates s = [] /\
  ~ Forall (fun r => portable_routine r = true) (runs (trace c s [Update8 i inputs; Finalize8 i])).
Proof. exact update8_not_portable. Qed.
Print Assumptions C52_many_refuted.
