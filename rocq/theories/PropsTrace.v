(** * Property C44: what the contents of keys and messages can influence in time.

    [Traced] gives every function of the model with the list of its events: conditions,
    ranges accessed, table entries read, compression routines run. *)
From Verif Require Import Base Params State Blake2sp Debug Machine MachineSpec Clients Terms Witness Corollaries NoLeak Traced TracedFacts Oblivious Truthful.
From Coq Require Import String.
Local Notation length := List.length (only parsing).
Local Open Scope N_scope.

(** The traced functions compute what the model's functions compute. *)
Theorem C44_same_results : forall c s o, result (step_t c s o) = step c s o.
Proof. exact erase_step_t. Qed.
Print Assumptions C44_same_results.
(** C44: two programs that make the same calls, with byte strings of the same lengths but
    any contents, and that make no text from hashes, go the same way at every condition
    and access the same addresses. *)
Theorem C44_programs : forall c ops1 ops2, map blank_op ops1 = map blank_op ops2 ->
  existsb makes_text ops1 = false -> trace c empty_session ops1 = trace c empty_session ops2.
Proof. exact same_trace. Qed.
Print Assumptions C44_programs.
(** Any two such programs differ at most in which hex digits they look up. *)
Theorem C44_programs_text : forall c ops1 ops2, map blank_op ops1 = map blank_op ops2 ->
  filter (fun e => negb (is_lookup e)) (trace c empty_session ops1) =
  filter (fun e => negb (is_lookup e)) (trace c empty_session ops2).
Proof. exact same_trace_but_lookups. Qed.
Print Assumptions C44_programs_text.
(** Comparing two hashes: the trace in full. *)
Theorem C44_eq : forall h k b b', as_bytes h = Ok b -> as_bytes k = Ok b' -> events (hash_eq_t h k) =
  [Access 0 (length b) (length (h_bytes h)); Access 0 (length b') (length (h_bytes k))] ++
  (if Nat.eqb (length b) (length b')
   then [Branch true; Access 0 (length b) (length b); Access 0 (length b) (length b)]
        ++ flat_map (fun i => [Branch true; Access i (S i) (length b); Access i (S i) (length b)]) (seq 0 (length b))
        ++ [Branch false]
   else [Branch false]).
Proof. exact eq_events. Qed.
Print Assumptions C44_eq.
(** The table lookups of [to_hex] are the digits of the hash, in order. *)
Theorem C44_hex_lookups : forall c h b, cfg_ok c -> held c h -> as_bytes h = Ok b ->
  filter is_lookup (events (to_hex_t h)) =
  flat_map (fun x => [Lookup (N.to_nat (Byte.to_N x / 16)); Lookup (N.to_nat (Byte.to_N x mod 16))]) b.
Proof. exact held_lookups. Qed.
Print Assumptions C44_hex_lookups.

(** The record is the truth about the operations that can fail: each succeeds exactly if
    every check it records holds and every range it records is inside ([truthful]). *)
Theorem C44_checks : forall c,
  (forall w (a b : uint w), truthful (uadd_t c a b) /\ truthful (usub_t c a b)) /\
  (forall a b, truthful (nsub_t c a b)) /\
  (forall b, truthful (debug_assert_t c b) /\ truthful (assert_t b)) /\
  (forall p s, truthful (apply_setter_t p s)) /\ (forall p s, truthful (sp_apply_setter_t p s)) /\
  (forall s i, truthful (push_digit_t s i)).
Proof. exact checks_truthful. Qed.
Print Assumptions C44_checks.
(** Reading part of a slice: one access is recorded; it succeeds exactly if the access is
    inside, and returns the elements accessed.  Copying likewise. *)
Theorem C44_accesses : forall (A : Type) (xs : list A),
  (forall lo, reads xs (slice_from_t xs lo)) /\ (forall hi, reads xs (slice_to_t xs hi)) /\
  (forall off len, reads xs (array_ref_t xs off len)) /\ (forall off len, reads xs (raw_read_t xs off len)) /\
  (forall lo hi src, length src = (hi - lo)%nat ->
     truthful (copy_into_t xs lo hi src) /\
     events (copy_into_t xs lo hi src) = [Access lo hi (length xs); Access 0 (length src) (length src)] /\
     forall r, result (copy_into_t xs lo hi src) = Ok r -> r = firstn lo xs ++ src ++ skipn hi xs).
Proof. exact accesses_truthful. Qed.
Print Assumptions C44_accesses.
(** The conditions that choose a value are the ones recorded. *)
Theorem C44_choices :
  (forall a b, min_t a b = tif (Nat.leb a b) (ret a) (ret b)) /\
  (forall a b, saturating_sub_t a b = tif (Nat.leb b a) (ret (a - b)%nat) (ret 0%nat)) /\
  (forall b, flag32_t b = tif b (ret (umax 32)) (ret (uzero 32))) /\
  (forall c st x st' rest, result (compress_buffer_if_possible_t c st x) = Ok (st', rest) ->
     events (compress_buffer_if_possible_t c st x) =
     if Nat.eqb (buflen_nat st) 0 then [Branch false]
     else Branch true :: events (fill_buf_t c st x) ++ Branch (negb (Nat.eqb (length rest) 0)) ::
          (if Nat.eqb (length rest) 0 then [] else [Run (Compress (st_compress_fn st) (st_count st') (uzero 32) (uzero 32))])) /\
  (forall c st x st' rest, result (sp_empty_buffer_t c st x) = Ok (st', rest) -> exists more,
     events (sp_empty_buffer_t c st x) =
     if Nat.eqb (sp_buflen_nat st) 0 then [Branch false]
     else Branch true :: events (sp_fill_buf_t c st x) ++ Branch (negb (Nat.eqb (length rest) 0)) :: more).
Proof. exact choices_truthful. Qed.
Print Assumptions C44_choices.
(** An addition that overflows, and a slice that ends past its array. *)
Example C44_ex_truthful :
  uadd_t debug_avx2 (of_N 8 200) (of_N 8 56) = ([Branch false], Panic) /\
  uadd_t debug_avx2 (of_N 8 200) (of_N 8 55) = ([Branch true], Ok (of_N 8 255)) /\
  slice_to_t (ramp 5) 6 = ([Access 0 6 5], Panic) /\ slice_to_t (ramp 5) 2 = ([Access 0 2 5], Ok (ramp 2)).
Proof. split; [|split; [|split]]; reflexivity. Qed.

(** Two programs that differ in their keys and messages, and whose hashes differ: equal
    traces, of which the number of events and of compressions are shown. *)
Definition timed_program (key message : list byte) : list op :=
  [ParamsNew; ParamsSet 0 (SKey key); ToState 0; Update 0 message; Finalize 0; HashEqSlice 0 message; HashEq 0 0].
Definition is_run (e : event) : bool := match e with Run _ => true | _ => false end.
Definition key_a : list byte := ramp 7.
Definition key_b : list byte := skipn 3 (ramp 10).
Example C44_example :
  map blank_op (timed_program key_a (ramp 70)) = map blank_op (timed_program key_b (rev (ramp 70))) /\
  existsb makes_text (timed_program key_a (ramp 70)) = false /\
  same_bytes
    (match nth 4 (fst (run debug_avx2 empty_session (timed_program key_a (ramp 70)))) ONone with OBytes b => Ok b | _ => Panic end)
    (match nth 4 (fst (run debug_avx2 empty_session (timed_program key_b (rev (ramp 70))))) ONone with OBytes b => Ok b | _ => Panic end)
    = false /\
  length (trace debug_avx2 empty_session (timed_program key_a (ramp 70))) = 265%nat /\
  length (filter is_run (trace debug_avx2 empty_session (timed_program key_a (ramp 70)))) = 3%nat.
Proof.
  split; [vm_compute; reflexivity|]. split; [vm_compute; reflexivity|].
  split; [vm_compute; reflexivity|]. split; vm_compute; reflexivity.
Qed.
(** The lookups are there, and do depend on the hash: programs that print hashes are
    rightly excluded above. *)
Theorem C44_text_refuted : exists c ops1 ops2, cfg_ok c /\ map blank_op ops1 = map blank_op ops2 /\
  trace c empty_session ops1 <> trace c empty_session ops2.
Proof. exact printing_traces_differ. Qed.
Print Assumptions C44_text_refuted.
