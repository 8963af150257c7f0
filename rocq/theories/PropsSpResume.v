(** * Property C70: what a [blake2sp::State] computes from any contents. *)
From Verif Require Import Base Consts Params ParamsSpec State Many Blake2sp Views Machine MachineSpec Clients Witness Terms Unwind ResumeTerms SpResume SpLevels.
From Verif Require Spec.
Local Open Scope N_scope.

(** Nothing is assumed of the words of the leaves and of the root, of the count of the leaves
    but that it is the same for all, of the count and the pending bytes of the root, nor of the
    bytes in the buffer.  [leaf_from leaf i data] is what [hash_from] (C69) makes of the blocks
    of [data] that are leaf [i]'s, starting from the words and the count of [leaf].  The root
    hashes these after its own pending bytes.  The counts wrap, or overflow and panic. *)
Theorem C70_any_contents : forall c st C pieces, typed_sstate c st -> (sp_buflen_nat st <= 1024)%nat ->
  (forall l, let leaf := proj l (sp_leaves st) in
     buflen_nat leaf = 0%nat /\ val (count leaf) = C /\ val (st_hash_length leaf) <= 32) ->
  (buflen_nat (sp_root st) <= 64)%nat ->
  let root := sp_root st in
  let data := firstn (sp_buflen_nat st) (sp_buf st) ++ concat pieces in
  let digests := leaves_from (sp_leaves st) data in
  let m := buflen_nat root in
  let total := C + N.of_nat (length (Spec.leaf_input 0 data)) in
  let root_total := val (count root) + N.of_nat (length digests) in
  (overflow_checks c = true /\ (2 ^ 64 <= total \/ 2 ^ 64 <= root_total) -> sp_observed c st pieces = Panic) /\
  (overflow_checks c = false \/ (total < 2 ^ 64 /\ root_total < 2 ^ 64) -> exists h,
     sp_observed c st pieces = Ok h /\ h_len h = st_hash_length root /\
     h_bytes h = Spec.words_bytes
       (hash_from (nums (st_h root)) (val (count root)) m (firstn m (st_buf root) ++ digests) (st_last_node root))).
Proof. exact resume_sp. Qed.
Print Assumptions C70_any_contents.
(** Words no [Params] lead to, leaves that have counted 2^64 - 3 bytes, 7 bytes in the buffer,
    and a root with 5 pending bytes of which it has counted 1. *)
Definition odd_leaf (n : N) (m count : N) : State :=
  {| st_h := oct_const (of_N 32 n); st_buf := ramp 64; st_buflen := of_N 8 m; st_count := of_N 64 count;
     st_compress_fn := compress_portable; st_last_node := false; st_hash_length := of_N 8 (20 + n) |}.
Definition odd_sp : SpState :=
  {| sp_leaves := oct_map (fun n => odd_leaf n 0 (2 ^ 64 - 3)) (Oct 1 2 3 4 5 6 7 8);
     sp_root := odd_leaf 9 5 1;
     sp_buf := ramp 1024; sp_buflen := of_N 16 7; sp_compress8_fn := compress8_portable |}.
Example C70_ex_any_contents :
  typed_sstate debug_portable odd_sp /\ (sp_buflen_nat odd_sp <= 1024)%nat /\
  (forall l, let leaf := proj l (sp_leaves odd_sp) in
     buflen_nat leaf = 0%nat /\ val (count leaf) = 2 ^ 64 - 3 /\ val (st_hash_length leaf) <= 32) /\
  (buflen_nat (sp_root odd_sp) <= 64)%nat /\
  2 ^ 64 <= 2 ^ 64 - 3 + N.of_nat (length (Spec.leaf_input 0 (firstn (sp_buflen_nat odd_sp) (sp_buf odd_sp) ++ concat [ramp 2]))) /\
  sp_observed debug_portable odd_sp [ramp 2] = Panic /\
  typed_sstate release_portable odd_sp /\ overflow_checks release_portable = false.
Proof.
  assert (T : forall c, typed_sstate c odd_sp).
  { intros c. split; [lazy; reflexivity|]. split; [intros l; destruct l|split]; try discriminate;
      (split; [lazy; reflexivity|discriminate]). }
  split; [apply T|]. split; [apply Nat.leb_le; lazy; reflexivity|]. split.
  { intros l. destruct l; (split; [lazy; reflexivity|split; [lazy; reflexivity|lazy; discriminate]]). }
  split; [apply Nat.leb_le; lazy; reflexivity|]. split; [lazy; discriminate|]. split; [lazy; reflexivity|].
  split; [apply T|reflexivity].
Qed.

(** Where the words and the count of a leaf are those after its blocks of [P], 512 [k] bytes,
    it gives the root the hash of its blocks of the whole message. *)
Theorem C70_midway : forall leaf i h P k x, (i < 8)%nat -> length P = (512 * k)%nat ->
  nums (st_h leaf) = Spec.chain h (Spec.leaf_input i P) k -> val (count leaf) = N.of_nat (64 * k) ->
  (k = 0%nat \/ Spec.leaf_input i x <> []) ->
  leaf_from leaf i x =
  firstn (N.to_nat (val (st_hash_length leaf)))
    (Spec.words_bytes (Spec.hash_words h (Spec.leaf_input i (P ++ x)) (st_last_node leaf))).
Proof. exact sp_midway. Qed.
Print Assumptions C70_midway.
(** The second leaf after 512 bytes; 70 more reach it. *)
Example C70_ex_midway : exists w : oct u32,
  length (ramp 512) = (512 * 1)%nat /\
  nums w = Spec.chain Spec.IV (Spec.leaf_input 1 (ramp 512)) 1 /\ Spec.leaf_input 1 (ramp 70) <> [].
Proof.
  eexists (match map (of_N 32) (Spec.chain Spec.IV (Spec.leaf_input 1 (ramp 512)) 1) with
           | [a; b; c; d; e; f; g; h] => Oct a b c d e f g h
           | _ => oct_const (of_N 32 0)
           end).
  split; [lazy; reflexivity|]. split; [lazy; reflexivity|lazy; discriminate].
Qed.

(** The conditions of the first theorem hold in every program, if it catches panics too, except
    that with a key the leaves have a full buffer each: the key block. *)
Theorem C70_every_state : forall c ops s st, cfg_ok c -> persist (step_u c) empty_session ops = Some s ->
  In st (s_sstates s) ->
  typed_sstate c st /\ (sp_buflen_nat st <= 1024)%nat /\
  (exists C m, (m = 0 \/ m = 64)%nat /\ forall l, let leaf := proj l (sp_leaves st) in
     buflen_nat leaf = m /\ val (count leaf) = C /\ val (st_hash_length leaf) = 32) /\
  buflen_nat (sp_root st) = 0%nat /\ val (count (sp_root st)) = 0.
Proof. exact caught_sp. Qed.
Print Assumptions C70_every_state.
(** A program with a panic, a state with a key and one without. *)
Example C70_ex_every_state : cfg_ok debug_portable /\
  match persist (step_u debug_portable) empty_session
    [SpParamsNew; SpParamsSet 0 (SpKey (ramp 33)); SpParamsSet 0 (SpKey (ramp 5)); SpToState 0; SpStateNew; SpUpdate 1 (ramp 3)] with
  | Some s => match s_sstates s with
              | [a; b] => buflen_nat (o7 (sp_leaves a)) = 64%nat /\ sp_buflen_nat a = 0%nat /\
                          buflen_nat (o7 (sp_leaves b)) = 0%nat /\ sp_buflen_nat b = 3%nat
              | _ => False
              end
  | None => False
  end.
Proof. split; [discriminate|]. lazy. repeat split. Qed.

(** Nothing else in the state matters: not the rest of the buffers, nor which implementations
    it calls. *)
Theorem C70_same_contents : forall c a b C pieces, typed_sstate c a -> typed_sstate c b -> (sp_buflen_nat a <= 1024)%nat ->
  (forall l, let leaf := proj l (sp_leaves a) in
     buflen_nat leaf = 0%nat /\ val (count leaf) = C /\ val (st_hash_length leaf) <= 32) ->
  (buflen_nat (sp_root a) <= 64)%nat ->
  (forall l, let x := proj l (sp_leaves a) in let y := proj l (sp_leaves b) in
     st_h x = st_h y /\ count x = count y /\ buflen_nat x = buflen_nat y /\ st_last_node x = st_last_node y /\
     st_hash_length x = st_hash_length y) ->
  (let x := sp_root a in let y := sp_root b in
     st_h x = st_h y /\ count x = count y /\ buflen_nat x = buflen_nat y /\
     firstn (buflen_nat x) (st_buf x) = firstn (buflen_nat y) (st_buf y) /\ st_last_node x = st_last_node y /\
     st_hash_length x = st_hash_length y) ->
  sp_buflen_nat a = sp_buflen_nat b ->
  firstn (sp_buflen_nat a) (sp_buf a) = firstn (sp_buflen_nat b) (sp_buf b) ->
  sp_observed c a pieces = sp_observed c b pieces.
Proof. exact sp_same_contents. Qed.
Print Assumptions C70_same_contents.
(** [odd_sp], and the same with zeros behind its 7 buffered bytes, other bytes in the buffers of
    the leaves, and the AVX2 code. *)
Definition odd_sp' : SpState :=
  {| sp_leaves := oct_map (fun l => set_buf l (repeat x00 64)) (sp_leaves odd_sp);
     sp_root := set_buf (sp_root odd_sp) (ramp 5 ++ repeat x00 59);
     sp_buf := ramp 7 ++ repeat x00 1017; sp_buflen := sp_buflen odd_sp; sp_compress8_fn := compress8_avx2 |}.
Example C70_ex_same_contents :
  let a := odd_sp in let b := odd_sp' in
  typed_sstate release_avx2 a /\ typed_sstate release_avx2 b /\ (sp_buflen_nat a <= 1024)%nat /\
  (forall l, let leaf := proj l (sp_leaves a) in
     buflen_nat leaf = 0%nat /\ val (count leaf) = 2 ^ 64 - 3 /\ val (st_hash_length leaf) <= 32) /\
  (buflen_nat (sp_root a) <= 64)%nat /\
  (forall l, let x := proj l (sp_leaves a) in let y := proj l (sp_leaves b) in
     st_h x = st_h y /\ count x = count y /\ buflen_nat x = buflen_nat y /\ st_last_node x = st_last_node y /\
     st_hash_length x = st_hash_length y /\ st_buf x <> st_buf y) /\
  (let x := sp_root a in let y := sp_root b in
     st_h x = st_h y /\ count x = count y /\ buflen_nat x = buflen_nat y /\
     firstn (buflen_nat x) (st_buf x) = firstn (buflen_nat y) (st_buf y) /\ st_last_node x = st_last_node y /\
     st_hash_length x = st_hash_length y /\ st_buf x <> st_buf y) /\
  sp_buflen_nat a = sp_buflen_nat b /\ firstn (sp_buflen_nat a) (sp_buf a) = firstn (sp_buflen_nat b) (sp_buf b) /\
  sp_buf a <> sp_buf b /\ sp_compress8_fn a <> sp_compress8_fn b.
Proof.
  cbv zeta. split; [|split; [|split; [apply Nat.leb_le; lazy; reflexivity|split; [|split; [apply Nat.leb_le; lazy; reflexivity|split; [|split]]]]]].
  - split; [lazy; reflexivity|]. split; [intros l; destruct l|split]; try discriminate; (split; [lazy; reflexivity|discriminate]).
  - split; [lazy; reflexivity|]. split; [intros l; destruct l|split]; try reflexivity; (split; [lazy; reflexivity|discriminate]).
  - intros l. destruct l; (split; [lazy; reflexivity|split; [lazy; reflexivity|lazy; discriminate]]).
  - intros l. destruct l; (do 5 (split; [reflexivity|]); lazy; discriminate).
  - do 6 (split; [lazy; reflexivity|]). lazy; discriminate.
  - split; [reflexivity|]. split; [lazy; reflexivity|]. split; [lazy; discriminate|discriminate].
Qed.
