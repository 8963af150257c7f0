(** * Property C68: what a caught panic leaves behind.

    [Unwind] has every function with a [&mut] argument once more, one assignment at a time:
    a call returns ([Returned]) or unwinds ([Unwound]) and leaves the object it was working
    on.  Going on after a panic is safe Rust ([catch_unwind] with [AssertUnwindSafe]); C42
    says that it is never undefined, here is what it computes. *)
From Verif Require Import Base Consts Params ParamsSpec State Many Blake2sp Views Machine MachineSpec Safety Clients Witness
  SpFacts Terms Unwind UnwindFacts UnwindUse UnwindTyped UnwindSp UnwindMany.
From Verif Require Spec.
Local Open Scope N_scope.

(** Apart from what is left, these functions are those of the other theorems. *)
Theorem C68_same_calls : forall c o s, forget (step_u c o s) = step c s o.
Proof. exact forget_step. Qed.
Print Assumptions C68_same_calls.
(** Every call that can panic on an object it may change. *)
Example C68_ex_same_calls : exists s,
  after debug_portable empty_session [ParamsNew; ParamsSet 0 (SKey (ramp 5))] = Some s /\
  step_u debug_portable (ParamsSet 0 (SKey (ramp 33))) s = Unwound s /\
  step debug_portable s (ParamsSet 0 (SKey (ramp 33))) = Panic.
Proof. eexists. split; [lazy; reflexivity|]. split; lazy; reflexivity. Qed.

(** Whatever the objects hold (the [typed] of C42: arrays of their lengths, function pointers
    the CPU can execute), a call leaves such values, if it panics too.  So a program that
    catches panics always reaches its end. *)
Theorem C68_types : forall c s o, cfg_ok c -> typed c s ->
  exists s', typed c s' /\ (step_u c o s = Unwound s' \/ exists x, step_u c o s = Returned s' x).
Proof. exact (fun c s o Hc => any_call_u c Hc s o). Qed.
Print Assumptions C68_types.
Theorem C68_every_call : forall c ops, cfg_ok c -> length (caught c empty_session ops) = length ops.
Proof. exact (fun c ops Hc => every_call c Hc ops). Qed.
Print Assumptions C68_every_call.
(** A program where keyed BLAKE2sp panics, and goes on. *)
Example C68_ex_every_call :
  let ops := [SpParamsNew; SpParamsSet 0 (SpKey (ramp 5)); SpToState 0; SpUpdate 0 (ramp 961); SpCount 0; SpUpdate 0 (ramp 512);
              SpUpdate 0 (ramp 1); SpUpdate 0 (ramp 512); SpCount 0] in
  cfg_ok debug_portable /\ typed debug_portable empty_session /\
  caught debug_portable empty_session ops =
    [Some ONone; Some ONone; Some ONone; None; Some (ONumber 512); Some ONone; Some ONone; None; Some (ONumber 1536)].
Proof. split; [lazy; discriminate|]. split; [repeat split; constructor|]. lazy. reflexivity. Qed.

(** A setter that panics has set nothing.  So a program that tries setters and catches the
    panics has the [Params] of the calls that were valid. *)
Theorem C68_setters : 
  (forall s p p', setter_u s p = Unwound p' -> p' = p) /\
  forall l, exists p, persist setter_u Params_new l = Some p /\ build (filter valid_setter l) = Ok p.
Proof. exact (conj setter_unwinds caught_setters). Qed.
Print Assumptions C68_setters.
Theorem C68_sp_setters :
  (forall s p p', sp_setter_u s p = Unwound p' -> p' = p) /\
  forall l, exists p, persist sp_setter_u SpParams_new l = Some p /\ sp_build (filter sp_setter_ok l) = Ok p.
Proof. exact (conj sp_setter_unwinds caught_sp_setters). Qed.
Print Assumptions C68_sp_setters.
Example C68_ex_setters :
  let l := [SKey (ramp 5); SKey (ramp 33); SHashLength 0; SHashLength 7; SSalt (ramp 9); SMaxDepth (of_N 8 0)] in
  filter valid_setter l = [SKey (ramp 5); SHashLength 7] /\
  match persist setter_u Params_new l with Some p => (val (p_key_length p), val (p_hash_length p)) = (5, 7) | None => False end /\
  filter sp_setter_ok [SpKey (ramp 33); SpKey (ramp 2); SpHashLength 33] = [SpKey (ramp 2)].
Proof. split; [lazy; reflexivity|]. split; lazy; reflexivity. Qed.

(** Whole programs that catch every panic ([caught]: what each call shows, [None] for a
    panic).  Every call is made, and what the others show is what the same program shows
    with the panicking calls left out.  In every build for programs of less than 2^64 bytes
    without BLAKE2sp keys, in release builds for all programs. *)
Theorem C68_programs : forall c ops, cfg_ok c -> existsb sets_sp_key ops = false -> total_bytes ops + 64 < 2 ^ 64 ->
  let seen := caught c empty_session ops in
  length seen = length ops /\ run c empty_session (kept seen ops) = (somes seen, Done).
Proof. exact caught_bounded. Qed.
Print Assumptions C68_programs.
Theorem C68_release_programs : forall c ops, cfg_ok c -> overflow_checks c = false -> debug_assertions c = false ->
  Forall mem_ok ops ->
  let seen := caught c empty_session ops in
  length seen = length ops /\ run c empty_session (kept seen ops) = (somes seen, Done).
Proof. exact caught_release. Qed.
Print Assumptions C68_release_programs.
Definition stubborn_program : list op :=
  [ParamsNew; ParamsSet 0 (SHashLength 33); ParamsSet 0 (SHashLength 9); ToState 0; Update 0 (ramp 3);
   ParamsSet 0 (SSalt (ramp 9)); Hash4Exact 0 (Quad [] [] [] []); Count 0; ParamsSet 0 (SKey (ramp 5));
   Hash8 (oct_const 0%nat) (oct_const (ramp 3)); ToState 0; Count 1].
Example C68_ex_programs :
  existsb sets_sp_key stubborn_program = false /\ total_bytes stubborn_program + 64 < 2 ^ 64 /\
  Forall mem_ok stubborn_program /\
  caught debug_portable empty_session stubborn_program =
    [Some ONone; None; Some ONone; Some ONone; Some ONone; None; None; Some (ONumber 3); Some ONone; None; Some ONone;
     Some (ONumber 64)] /\
  kept (caught debug_portable empty_session stubborn_program) stubborn_program =
    [ParamsNew; ParamsSet 0 (SHashLength 9); ToState 0; Update 0 (ramp 3); Count 0; ParamsSet 0 (SKey (ramp 5)); ToState 0; Count 1].
Proof.
  split; [lazy; reflexivity|]. split; [lazy; reflexivity|]. split; [repeat constructor|]. split; lazy; reflexivity.
Qed.

(** The panics left out above do leave something.  When the byte counter overflows,
    [update] has compressed all whole blocks below 2^64 - 64 ([K] of them, all but the last
    that would fit) and stops between two assignments: the fill level of the buffer and
    [count] can disagree by up to 64 bytes.  A later [finalize] does not notice: it returns
    the compression of the block in the buffer (or of zeros) under the old count. *)
Theorem C68_overflow : forall c l p pieces st x, cfg_ok c -> build l = Ok p ->
  (s <- to_state c p ;; feed c s pieces) = Ok st ->
  let sp := spec_params l in
  let D := Spec.key_block (Spec.key sp) ++ concat pieces in
  overflow_checks c = true -> 2 ^ 64 <= N.of_nat (length (D ++ x)) ->
  exists st' K st'' h, update_u c x st = Unwound st' /\ 64 * N.of_nat K + 64 = 2 ^ 64 /\
    let full := (64 * N.of_nat K <? N.of_nat (length D)) || (N.of_nat (length (D ++ x)) =? 2 ^ 64) in
    nums (st_h st') = Spec.chain (Spec.initial sp) (D ++ x) K /\
    val (count st') = N.max (N.of_nat (length D)) (64 * N.of_nat K) /\
    buflen_nat st' = (if full then 64 else 0)%nat /\ (full = true -> st_buf st' = Spec.block (D ++ x) K) /\
    finalize c st' = Ok (st'', h) /\
    as_bytes h = Ok (firstn (N.to_nat (Spec.digest_length sp)) (Spec.words_bytes
      (Spec.F (Spec.chain (Spec.initial sp) (D ++ x) K) (if full then Spec.block (D ++ x) K else repeat x00 64)
              (N.max (N.of_nat (length D)) (64 * N.of_nat K)) Spec.ones (if spec_last_node l then Spec.ones else 0)))).
Proof. exact overflow_left. Qed.
Print Assumptions C68_overflow.
(** Such inputs exist; and the last assignments, seen on a state about to overflow. *)
Example C68_ex_overflow :
  (exists p st, build [] = Ok p /\ (s <- to_state debug_portable p ;; feed debug_portable s [ramp 3]) = Ok st /\
     overflow_checks debug_portable = true /\
     exists x : list byte, 2 ^ 64 <= N.of_nat (length ((Spec.key_block [] ++ concat [ramp 3]) ++ x))) /\
  match to_state debug_portable Params_new with
  | Ok st => match update_u debug_portable (ramp 5) (set_count st (of_N 64 (2 ^ 64 - 3))) with
             | Unwound s => buflen_nat s = 5%nat /\ val (count s) = 2 ^ 64 - 3 /\ firstn 5 (st_buf s) = ramp 5
             | _ => False
             end
  | _ => False
  end.
Proof.
  split.
  - eexists. eexists. split; [reflexivity|]. split; [lazy; reflexivity|]. split; [reflexivity|].
    exists (repeat x00 (N.to_nat (2 ^ 64))). rewrite app_length, repeat_length, Nnat.Nat2N.inj_add, N2Nat.id.
    rewrite N.add_comm. apply N.le_add_r.
  - split; [|split]; lazy; reflexivity.
Qed.

(** [update8] when the counter of one of its states, [j], overflows.  The words of every state
    have [K] blocks of its message and its buffer the next [m] bytes, and that state stops as
    above.  But the loop counts a block in all eight states before it compresses any: if it
    stops there ([e]), the states before [j] have counted 64 bytes that they have not
    compressed, although their own counters are far from overflowing. *)
Theorem C68_update8 : forall c ls pieces sts x, cfg_ok c ->
  (forall l, (p <- build (proj l ls) ;; s <- to_state c p ;; feed c s (proj l pieces)) = Ok (proj l sts)) ->
  update8 c sts x = Panic ->
  let sp l := spec_params (proj l ls) in
  let D l := Spec.key_block (Spec.key (sp l)) ++ concat (proj l pieces) in
  exists sts' j e, update8_u c x sts = Unwound sts' /\ 2 ^ 64 <= N.of_nat (length (D j ++ proj j x)) /\
    forall l, exists K m, let st := proj l sts' in let M := D l ++ proj l x in
      nums (st_h st) = Spec.chain (Spec.initial (sp l)) M K /\ buflen_nat st = m /\ (m <= 64)%nat /\
      firstn m (st_buf st) = sub M (64 * K) m /\ (length (D l) <= 64 * K + m <= length M)%nat /\
      val (count st) = (if Nat.eqb (idx l) (idx j) then N.max (N.of_nat (length (D l))) (64 * N.of_nat K)
                        else 64 * N.of_nat K + N.of_nat m + if e && Nat.ltb (idx l) (idx j) then 64 else 0) /\
      (l = j -> 64 * N.of_nat K + 64 = 2 ^ 64) /\
      (e = true -> m = 0%nat /\ (64 * K + 64 <= length M)%nat).
Proof. exact update8_left. Qed.
Print Assumptions C68_update8.
(** Such inputs exist; and eight states of which the third is about to overflow: the first
    two have counted the block that no state has compressed. *)
Example C68_ex_update8 :
  (exists sts, (forall l : lane8, (p <- build [] ;; s <- to_state debug_portable p ;; feed debug_portable s []) = Ok (proj l sts)) /\
     exists x, update8 debug_portable sts x = Panic) /\
  match to_state debug_portable Params_new with
  | Ok st =>
      let third := set_count st (of_N 64 (2 ^ 64 - 64)) in
      match update8_u debug_portable (oct_const (ramp 65)) (Oct st st third st st st st st) with
      | Unwound sts =>
          sts = Oct (set_count st (of_N 64 64)) (set_count st (of_N 64 64)) third st st st st st
      | _ => False
      end
  | _ => False
  end.
Proof. split; [exact (such_update8 debug_portable ltac:(discriminate) eq_refl)|]. lazy. reflexivity. Qed.

(** BLAKE2sp without a key, when the counters of its leaves overflow in [update].  Every leaf
    has compressed [K] blocks.  The buffer is full, or it counts as half full and starts with
    bytes the leaves have already compressed (the fill level went down after the first half,
    the second half overflowed and was not moved to the front), and [finalize] panics as
    well; or it is empty, and [finalize] returns a value, which hashes a block of zeros in
    every leaf under the count of the block before. *)
Theorem C68_sp_overflow : forall c l p pieces st x, cfg_ok c -> sp_build l = Ok p -> sp_keyval l = [] ->
  (s <- sp_to_state c p ;; sp_feed c s pieces) = Ok st -> sp_update c st x = Panic ->
  let M := concat pieces ++ x in
  exists st' K, sp_update_u c x st = Unwound st' /\ 64 * N.of_nat K + 64 = 2 ^ 64 /\ (512 * K <= length M)%nat /\
    (forall k, let leaf := proj k (sp_leaves st') in
       nums (st_h leaf) = Spec.chain (Spec.initial (Spec.leaf_params (sp_dlen l) [] (idx k))) (Spec.leaf_input (idx k) M) K /\
       val (count leaf) = 64 * N.of_nat K /\ buflen_nat leaf = 0%nat) /\
    (sp_buflen_nat st' = 1024%nat /\ sp_buf st' = sub M (512 * K) 1024 /\ sp_finalize c st' = Panic \/
     sp_buflen_nat st' = 512%nat /\ firstn 512 (sp_buf st') = sub M (512 * K - 512) 512 /\ sp_finalize c st' = Panic \/
     sp_buflen_nat st' = 0%nat /\ exists h, sp_finalize c st' = Ok h /\
       as_bytes h = Ok (firstn (N.to_nat (sp_dlen l)) (Spec.words_bytes (Spec.hash_words
         (Spec.initial (Spec.root_params (sp_dlen l) []))
         (flat_map (fun i => Spec.words_bytes (Spec.F
            (Spec.chain (Spec.initial (Spec.leaf_params (sp_dlen l) [] i)) (Spec.leaf_input i M) K) (repeat x00 64)
            (64 * N.of_nat K) Spec.ones (if Nat.eqb i 7 then Spec.ones else 0))) (seq 0 8)) true)))).
Proof. exact sp_overflow_left. Qed.
Print Assumptions C68_sp_overflow.
(** Such inputs exist; and the three ends, seen on states about to overflow. *)
Definition near_overflow (n : N) (st : SpState) : SpState :=
  sp_set_leaves st (oct_map (fun leaf => set_count leaf (of_N 64 (2 ^ 64 - n))) (sp_leaves st)).
Definition what_is_left (n : N) (first second : nat) : option (nat * bool) :=
  match (s <- sp_to_state debug_portable SpParams_new ;; sp_update debug_portable (near_overflow n s) (ramp first)) with
  | Ok st => match sp_update_u debug_portable (ramp second) st with
             | Unwound s => Some (sp_buflen_nat s, match sp_finalize debug_portable s with Ok _ => true | _ => false end)
             | _ => None
             end
  | _ => None
  end.
Example C68_ex_sp_overflow :
  (exists p st, sp_build [SpHashLength 13] = Ok p /\ sp_keyval [SpHashLength 13] = [] /\
     (s <- sp_to_state debug_portable p ;; sp_feed debug_portable s [ramp 3]) = Ok st /\
     exists x, sp_update debug_portable st x = Panic) /\
  what_is_left 64 900 200 = Some (1024%nat, false) /\
  what_is_left 128 900 600 = Some (512%nat, false) /\
  what_is_left 64 0 961 = Some (0%nat, true).
Proof.
  split; [exact such_update|]. split; [lazy; reflexivity|]. split; lazy; reflexivity.
Qed.

(** Keyed BLAKE2sp in builds with debug assertions panics beyond 1024 bytes (C23).  Caught,
    the panic leaves a message cut short: a first piece of more than 960 bytes is dropped,
    later pieces are cut at 1024 bytes in all ([absorbed]), and [finalize] returns the right
    hash of what is left. *)
Theorem C68_sp_keyed : forall c l p pieces, cfg_ok c -> sp_build l = Ok p -> sp_keyval l <> [] ->
  debug_assertions c = true ->
  exists st0 st h, sp_to_state c p = Ok st0 /\ persist (sp_update_u c) st0 pieces = Some st /\ sp_finalize c st = Ok h /\
    as_bytes h = Ok (Spec.blake2sp (sp_dlen l) (sp_keyval l) (fold_left absorbed pieces [])).
Proof. exact sp_caught. Qed.
Print Assumptions C68_sp_keyed.
Example C68_ex_sp_keyed :
  let pieces := [ramp 961; ramp 500; ramp 600; ramp 3] in
  fold_left absorbed pieces [] = ramp 500 ++ ramp 524 /\
  exists p st, sp_build [SpKey key32] = Ok p /\ sp_to_state debug_portable p = Ok st /\ sp_keyval [SpKey key32] <> [] /\
    sp_update_u debug_portable (ramp 961) st = Unwound st /\
    match persist (sp_update_u debug_portable) st pieces with Some s => sp_buflen_nat s = 1024%nat | None => False end.
Proof.
  split; [lazy; reflexivity|]. eexists. eexists. split; [lazy; reflexivity|]. split; [lazy; reflexivity|].
  split; [discriminate|]. split; lazy; reflexivity.
Qed.
