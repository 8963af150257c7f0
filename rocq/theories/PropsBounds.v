(** * Properties C50 and C62: every access of a program is within its slice, and no offset is too large for [usize].

    [trace c empty_session ops] lists the events of the program [ops]: conditions, ranges
    accessed with the length of what is accessed, entries of the hex table read, routines
    run (Traced.v). Where the program panics, the trace ends there. *)
From Verif Require Import Base Params State Machine Clients Terms Witness Traced Bounds.
Local Open Scope N_scope.

(** C50: no program makes an access outside a slice or buffer, not even one that Rust would
    stop with a panic; none reads outside the hex table; none runs a routine that the CPU
    does not have. *)
Theorem C50_programs : forall c ops, cfg_ok c ->
  forall e, In e (trace c empty_session ops) ->
  match e with
  | Access lo hi len => (lo <= hi)%nat /\ (hi <= len)%nat
  | Lookup i => (i < 16)%nat
  | Run (Compress compress_sse41 _ _ _) | Run (Compress4Transposed _ _ _) => has_sse41 c = true
  | Run (Compress8 compress8_avx2 _ _ _) | Run (Vectorize8 vectorize_words8_avx2)
  | Run (Compress8Vectorized compress8_vectorized_avx2 _ _ _ _) | Run (Compress8Transposed _ _ _) => has_avx2 c = true
  | Branch _ | Run _ => True
  end.
Proof. exact programs_in_bounds. Qed.
Print Assumptions C50_programs.

(** A program with events of all kinds: how many accesses, how many that reach the end of
    their slice, lookups, and wide compressions. *)
Definition bounds_program : list op :=
  [ParamsNew; ParamsSet 0 (SKey (ramp 32)); ToState 0; Update 0 (ramp 70); Finalize 0; HashHex 0;
   ParamsNew; Hash8Exact 1 (oct_const (ramp 128)); Hash4Exact 1 (Quad (ramp 64) (ramp 64) (ramp 64) (ramp 64));
   OneShotSp (ramp 1100)].
Example C50_example : cfg_ok debug_avx2 /\
  let t := trace debug_avx2 empty_session bounds_program in
  map (fun f => length (filter f t))
    [(fun e => match e with Access _ _ _ => true | _ => false end);
     (fun e => match e with Access lo hi len => Nat.ltb lo hi && Nat.eqb hi len | _ => false end);
     (fun e => match e with Lookup 15 => true | _ => false end);
     (fun e => match e with Run (Compress8Transposed _ _ _) => true | _ => false end);
     (fun e => match e with Run (Compress4Transposed _ _ _) => true | _ => false end)] = [416; 114; 3; 2; 1]%nat.
Proof. split; [intros _; reflexivity|]. vm_compute. reflexivity. Qed.

(** C62: whatever the width [bits] of a pointer, from 12 bits on, if the inputs to be hashed are as
    short as Rust makes every slice, fewer than 2^(bits-1) bytes, then so are all slices and
    buffers that the code accesses, and all offsets into them. [op_inputs] lists the slices of
    any length that a call is given to hash. Nothing is asked of keys, salts, personalizations
    and the slices that hashes are compared with. *)
Theorem C62_offsets : forall bits c ops, 12 <= bits -> cfg_ok c ->
  Forall (fun o => Forall (fun x => N.of_nat (length x) < 2 ^ (bits - 1)) (op_inputs o)) ops ->
  forall lo hi len, In (Access lo hi len) (trace c empty_session ops) ->
  N.of_nat lo <= N.of_nat hi /\ N.of_nat hi <= N.of_nat len /\ N.of_nat len < 2 ^ (bits - 1).
Proof. exact programs_offsets. Qed.
Print Assumptions C62_offsets.

(** The hypotheses hold with [usize] of 12 bits, and with no fewer, for a program that makes
    an access at the end of its longest slice. *)
Example C62_example :
  let program := [StateNew; Update 0 (ramp 1100)] in
  let fits bits := forallb (fun o => forallb (fun x => N.of_nat (length x) <? 2 ^ (bits - 1)) (op_inputs o)) program in
  fits 12 = true /\ fits 11 = false /\
  existsb (fun e => match e with Access _ hi len => Nat.eqb hi 1100 && Nat.eqb len 1100 | _ => false end)
    (trace release_portable empty_session program) = true.
Proof. cbv zeta. repeat split; lazy; reflexivity. Qed.
