(** * Properties C03, C30-C32 and C42: whole programs.

    A program is a list of API calls on any number of objects (Machine).  [run] gives
    what it sees and how it ends; [arun] (MachineSpec) is the abstract machine that knows
    of a [State] only its parameters, its last-node flag and the bytes given to it. *)
From Verif Require Import Base Consts Params State Many Blake2sp ParamsSpec Machine MachineSpec Safety Clients
  Terms Witness Corollaries Robust Benches Features.
From Verif Require Spec.
Local Open Scope N_scope.

(** Two states with different parameters, a clone, every kind of call. *)
Definition indices (i : nat) : oct nat :=
  Oct i (i + 1)%nat (i + 2)%nat (i + 3)%nat (i + 4)%nat (i + 5)%nat (i + 6)%nat (i + 7)%nat.
Definition busy_program : list op :=
  [ParamsNew; ParamsSet 0 (SKey key32); ParamsSet 0 (SHashLength 9); ToState 0; StateNew;
   Update 0 (ramp 100); StateClone 0; Write 1 (ramp 65); SetLastNode 2 true; Count 0; Finalize 0; Update 0 (ramp 30);
   Finalize 0; Finalize 2; Flush 1; ForcePortable 1; StateNew; StateNew; StateNew; StateNew; StateNew;
   Update8 (indices 0) (Oct (ramp 1) (ramp 2) (ramp 64) (ramp 65) (ramp 0) (ramp 3) (ramp 130) (ramp 7));
   Finalize8 (indices 0); Count 6; StateDebug 1; Blake2s (ramp 3); HashHex 0; HashEq 0 3; HashEq 1 4].

(** C03: what a program sees is determined by parameters, flags and bytes.  [Some e]:
    the program ends as [e]; [None]: it leaves the part the abstract machine specifies
    (keyed exact functions, long keyed BLAKE2sp) and everything seen before is right. *)
Theorem C03_programs : forall c ops, cfg_ok c ->
  match snd (arun (overflow_checks c) empty_asession ops) with
  | Some e => map mask (fst (run c empty_session ops)) = map mask (fst (arun (overflow_checks c) empty_asession ops)) /\
              snd (run c empty_session ops) = e
  | None => exists more, map mask (fst (run c empty_session ops)) =
                         map mask (fst (arun (overflow_checks c) empty_asession ops)) ++ more
  end.
Proof. exact program_refines. Qed.
Print Assumptions C03_programs.
(** For programs of less than 2^64 bytes, with no keys where the crate mishandles them. *)
Theorem C03_all_results : forall c ops, cfg_ok c -> total_bytes ops + 64 < 2 ^ 64 ->
  existsb sets_sp_key ops = false -> existsb sets_key ops && existsb calls_exact ops = false ->
  map mask (fst (run c empty_session ops)) = map mask (fst (arun true empty_asession ops)) /\
  Some (snd (run c empty_session ops)) = snd (arun true empty_asession ops).
Proof. exact program_results. Qed.
Print Assumptions C03_all_results.
Example C03_example :
  total_bytes busy_program + 64 < 2 ^ 64 /\ existsb sets_sp_key busy_program = false /\
  existsb sets_key busy_program && existsb calls_exact busy_program = false /\
  snd (arun true empty_asession busy_program) = Some Done /\
  map mask (fst (run release_avx2 empty_session busy_program)) = map mask (fst (arun true empty_asession busy_program)).
Proof.
  split; [vm_compute; reflexivity|]. split; [reflexivity|]. split; [vm_compute; reflexivity|].
  split; vm_compute; reflexivity.
Qed.

(** C30: no program ever does anything undefined (an instruction the CPU lacks, a read
    outside a slice), nor runs forever. *)
Theorem C30_no_undefined_behaviour : forall c ops, cfg_ok c -> Forall mem_ok ops ->
  snd (run c empty_session ops) = Done \/ snd (run c empty_session ops) = Panicked.
Proof. exact run_safe. Qed.
Print Assumptions C30_no_undefined_behaviour.
(** The model does have undefined behaviour to avoid: AVX2 code on a CPU without it. *)
Example C30_example :
  Forall mem_ok busy_program /\
  call_compress8 (mk_cfg true true false true false false) compress8_avx2 (oct_const IV) (oct_const (ramp 64))
    (oct_const (uzero 64)) (oct_const (uzero 32)) (oct_const (uzero 32)) = UB.
Proof. split; [repeat constructor|reflexivity]. Qed.

(** Every guard is needed: without the feature each vector function is undefined, and so
    is a [State] that holds the pointer, whatever it has absorbed. *)
Theorem C30_sse41_needed : forall c, has_sse41 c = false ->
  (forall h m t f g, call_compress c compress_sse41 h m t f g = UB) /\
  (forall p input, call_hash4_exact c hash4_exact_sse41 p input = UB) /\
  (forall h m low high last node, call_compress4_transposed c h m low high last node = UB) /\
  (forall st, st_compress_fn st = compress_sse41 -> finalize c st = UB).
Proof. exact missing_sse41. Qed.
Print Assumptions C30_sse41_needed.
Theorem C30_avx2_needed : forall c, has_avx2 c = false ->
  (forall h m t f g, call_compress8 c compress8_avx2 h m t f g = UB) /\
  (forall p input, call_hash8_exact c hash8_exact_avx2 p input = UB) /\
  (forall w, call_vectorize8 c vectorize_words8_avx2 w = UB) /\
  (forall w m low high last node, call_compress8_vectorized c compress8_vectorized_avx2 w m low high last node = UB) /\
  (forall h m low high last node, call_compress8_transposed_all c h m low high last node = UB).
Proof. exact missing_avx2. Qed.
Print Assumptions C30_avx2_needed.
(** [cfg_ok] is needed: [default_compress_impl] asks for AVX2 and answers with SSE4.1 code
    too, so a CPU with AVX2 and no SSE4.1 would make every hash undefined. *)
Theorem C30_avx2_implies_sse41_needed : forall c data,
  arch_x86 c = true -> feature_std c = true -> cpu_avx2 c = true -> cpu_sse41 c = false ->
  blake2s c data = UB.
Proof. exact avx2_alone. Qed.
Print Assumptions C30_avx2_implies_sse41_needed.
Example C30_needed_example :
  exists c, has_sse41 c = false /\ has_avx2 c = true /\ arch_x86 c = true /\ feature_std c = true /\
            cpu_avx2 c = true /\ cpu_sse41 c = false /\ has_avx2 release_portable = false.
Proof. exists (mk_cfg true true true false false false). repeat split. Qed.

(** C31: only the documented argument checks ([rejects]) panic: in every build for
    programs of less than 2^64 bytes without BLAKE2sp keys; in release builds for every
    program. *)
Theorem C31_only_documented_panics : forall c ops s o, cfg_ok c -> existsb sets_sp_key (ops ++ [o]) = false ->
  total_bytes (ops ++ [o]) + 64 < 2 ^ 64 -> after c empty_session ops = Some s ->
  (step c s o = Panic <-> rejects s o = true) /\
  (rejects s o = false -> exists s' x, step c s o = Ok (s', x)).
Proof. exact bounded_panics. Qed.
Print Assumptions C31_only_documented_panics.
Theorem C31_release_panics : forall c ops s o, cfg_ok c -> overflow_checks c = false -> debug_assertions c = false ->
  Forall mem_ok (ops ++ [o]) -> after c empty_session ops = Some s ->
  (step c s o = Panic <-> rejects s o = true) /\
  (rejects s o = false -> exists s' x, step c s o = Ok (s', x)).
Proof. exact release_panics. Qed.
Print Assumptions C31_release_panics.
Example C31_example : exists s, after debug_avx2 empty_session [ParamsNew; StateNew; Update 0 (ramp 200)] = Some s /\
  rejects s (ParamsSet 0 (SHashLength 33)) = true /\ rejects s (Update 0 (ramp 65)) = false /\
  existsb sets_sp_key ([ParamsNew; StateNew; Update 0 (ramp 200)] ++ [Update 0 (ramp 65)]) = false.
Proof. eexists. split; [vm_compute; reflexivity|]. split; [|split]; vm_compute; reflexivity. Qed.

(** C32: the platform does not matter.  With the same build settings nothing differs for
    programs of any length; between debug and release builds nothing differs below 2^64
    bytes without BLAKE2sp keys.  (Not so for keyed exact functions, C20.) *)
Theorem C32_platforms : forall c1 c2 ops, cfg_ok c1 -> cfg_ok c2 ->
  overflow_checks c1 = overflow_checks c2 -> debug_assertions c1 = debug_assertions c2 ->
  Forall mem_ok ops -> existsb sets_key ops && existsb calls_exact ops = false ->
  run c1 empty_session ops = run c2 empty_session ops.
Proof. exact run_platforms. Qed.
Print Assumptions C32_platforms.
Theorem C32_profiles : forall c1 c2 ops, cfg_ok c1 -> cfg_ok c2 ->
  total_bytes ops + 64 < 2 ^ 64 -> existsb sets_sp_key ops = false ->
  existsb sets_key ops && existsb calls_exact ops = false ->
  map mask (fst (run c1 empty_session ops)) = map mask (fst (run c2 empty_session ops)) /\
  snd (run c1 empty_session ops) = snd (run c2 empty_session ops).
Proof. exact run_profiles. Qed.
Print Assumptions C32_profiles.
(** Long keyed BLAKE2sp is covered by [C32_platforms]: equally wrong everywhere. *)
Definition wrong_program : list op :=
  [SpParamsNew; SpParamsSet 0 (SpKey key32); SpToState 0; SpUpdate 0 (ramp 961); SpFinalize 0].
Example C32_example :
  Forall mem_ok wrong_program /\ existsb sets_key wrong_program && existsb calls_exact wrong_program = false /\
  run release_avx2 empty_session wrong_program = run release_portable empty_session wrong_program /\
  snd (run release_avx2 empty_session wrong_program) = Done.
Proof.
  split; [repeat constructor|]. split; [reflexivity|]. split; vm_compute; reflexivity.
Qed.

(** C42: from any values at all that the types allow ([typed]: arrays have their lengths,
    function pointers point to code the CPU can execute), every call returns such values
    or panics.  So a program that catches panics and goes on with whatever they left
    behind ([catching]) never does anything undefined, nor does one of its calls run
    forever. *)
Theorem C42_any_call : forall c s o, cfg_ok c -> typed c s ->
  step c s o = Panic \/ exists s' x, step c s o = Ok (s', x) /\ typed c s'.
Proof. intros c s o Hc. exact (any_call c Hc s o). Qed.
Print Assumptions C42_any_call.
Theorem C42_after_panics : forall c ops s o, cfg_ok c -> catching c empty_session ops s ->
  step c s o <> UB /\ step c s o <> Stuck.
Proof. intros c ops s o Hc. exact (after_catching c Hc ops s o). Qed.
Print Assumptions C42_after_panics.
(** States no program can build: a full [u8] as fill level, counters out of step.  In a
    debug build the call panics; in a release build [finalize] returns a hash. *)
Definition broken : State :=
  {| st_h := IV; st_buf := ramp 64; st_buflen := umax 8; st_count := umax 64;
     st_compress_fn := compress_sse41; st_last_node := true; st_hash_length := umax 8 |}.
Example C42_example :
  typed release_avx2 (with_states empty_session [broken]) /\
  step debug_avx2 (with_states empty_session [broken]) (Update 0 (ramp 3)) = Panic /\
  (exists x, finalize release_avx2 broken = Ok x) /\
  catching debug_avx2 empty_session [StateNew; ParamsNew; ParamsSet 0 (SHashLength 33)] (with_states empty_session [broken]).
Proof.
  assert (H : forall c, has_sse41 c = true -> typed c (with_states empty_session [broken])).
  { intros c Hc. repeat split; repeat constructor. intros _. exact Hc. }
  split; [apply H; reflexivity|]. split; [vm_compute; reflexivity|].
  split; [eexists; reflexivity|].
  eapply Catch_ok; [reflexivity|]. eapply Catch_ok; [reflexivity|].
  eapply Catch_panic; [vm_compute; reflexivity|apply H; reflexivity|]. apply Catch_end.
Qed.
