(** * Property C69: what a [State] computes from any contents.

    The chaining words, the counter and the pending bytes of a [State] can disagree: a caught
    panic leaves such states (C68).  The other theorems on hashing start from [Params] and
    exclude them.  Here nothing is assumed of the words, the counter and the bytes. *)
From Verif Require Import Base Consts Params State Many Views ParamsSpec Machine MachineSpec Safety Clients Witness Terms Unwind UnwindLevels ResumeTerms Resume ResumeMany.
From Verif Require Spec.
Local Open Scope N_scope.

(** [hash_from h C m data] is the hash of RFC 7693 3.3 with starting words [h] and a counter
    that starts at [C] when [m] bytes of [data] are already counted.  A [State] computes that,
    with its pending bytes in front of what it is fed, in however many calls; the counter
    wraps, or overflows and panics, just when its own total reaches 2^64. *)
Theorem C69_any_contents : forall c st pieces, typed_state c st -> (buflen_nat st <= 64)%nat ->
  let m := buflen_nat st in
  let x := concat pieces in
  let total := val (count st) + N.of_nat (length x) in
  (overflow_checks c = true /\ 2 ^ 64 <= total -> feed c st pieces = Panic) /\
  (overflow_checks c = false \/ total < 2 ^ 64 -> exists st' st'' h,
     feed c st pieces = Ok st' /\ val (count st') = total mod 2 ^ 64 /\ finalize c st' = Ok (st'', h) /\
     h_len h = st_hash_length st /\
     h_bytes h = Spec.words_bytes
       (hash_from (nums (st_h st)) (val (count st)) m (firstn m (st_buf st) ++ x) (st_last_node st))).
Proof. exact resume. Qed.
Print Assumptions C69_any_contents.
(** A state no [Params] lead to: a count of 2^64 - 3, and 7 pending bytes.  With overflow checks
    it takes 2 bytes and not 3; without, it wraps. *)
Definition odd_state (c : cfg) : State :=
  match State_new c with
  | Ok st => set_buflen (set_buf (set_count st (of_N 64 (2 ^ 64 - 3))) (ramp 64)) (of_N 8 7)
  | _ => {| st_h := oct_const (of_N 32 0); st_buf := []; st_buflen := of_N 8 0; st_count := of_N 64 0;
            st_compress_fn := compress_portable; st_last_node := false; st_hash_length := of_N 8 0 |}
  end.
Example C69_ex_any_contents :
  typed_state debug_portable (odd_state debug_portable) /\ (buflen_nat (odd_state debug_portable) <= 64)%nat /\
  val (count (odd_state debug_portable)) + N.of_nat (length (concat [ramp 1; ramp 1])) < 2 ^ 64 /\
  (overflow_checks debug_portable = true /\
   2 ^ 64 <= val (count (odd_state debug_portable)) + N.of_nat (length (concat [ramp 1; ramp 2]))) /\
  feed debug_portable (odd_state debug_portable) [ramp 1; ramp 2] = Panic /\
  overflow_checks release_avx2 = false /\
  match feed release_avx2 (odd_state release_avx2) [ramp 1; ramp 4] with
  | Ok st => val (count st) = 2 /\ buflen_nat st = 12%nat
  | _ => False
  end.
Proof.
  split; [split; [lazy; reflexivity|discriminate]|]. split; [lazy; repeat constructor|]. split; [lazy; reflexivity|].
  split; [split; [reflexivity|lazy; discriminate]|]. split; [lazy; reflexivity|]. split; [reflexivity|].
  lazy. split; reflexivity.
Qed.

(** [update8] and [finalize8] compute the same of each of eight such states; an overflow in one
    of them is enough for a panic. *)
Theorem C69_update8 : forall c sts inputs,
  (forall l, typed_state c (proj l sts)) -> (forall l, (buflen_nat (proj l sts) <= 64)%nat) ->
  let total l := val (count (proj l sts)) + N.of_nat (length (proj l inputs)) in
  (overflow_checks c = true /\ (exists l, 2 ^ 64 <= total l) -> update8 c sts inputs = Panic) /\
  (overflow_checks c = false \/ (forall l, total l < 2 ^ 64) -> exists sts' sts'' hs,
     update8 c sts inputs = Ok sts' /\ finalize8 c sts' = Ok (sts'', hs) /\
     forall l, let st := proj l sts in let m := buflen_nat st in
       val (count (proj l sts')) = total l mod 2 ^ 64 /\ h_len (proj l hs) = st_hash_length st /\
       h_bytes (proj l hs) = Spec.words_bytes
         (hash_from (nums (st_h st)) (val (count st)) m (firstn m (st_buf st) ++ proj l inputs) (st_last_node st))).
Proof. exact resume8. Qed.
Print Assumptions C69_update8.
(** Seven new states and the one above, third. *)
Definition odd_states (c : cfg) (st : State) : oct State := Oct st st (odd_state c) st st st st st.
Example C69_ex_update8 : exists st, State_new debug_portable = Ok st /\
  let sts := odd_states debug_portable st in
  (forall l, typed_state debug_portable (proj l sts)) /\ (forall l, (buflen_nat (proj l sts) <= 64)%nat) /\
  (forall l, val (count (proj l sts)) + N.of_nat (length (proj l (oct_const (ramp 2)))) < 2 ^ 64) /\
  (exists l, 2 ^ 64 <= val (count (proj l sts)) + N.of_nat (length (proj l (oct_const (ramp 3))))) /\
  update8 debug_portable sts (oct_const (ramp 3)) = Panic.
Proof.
  eexists. split; [reflexivity|]. split; [intros []; (split; [lazy; reflexivity|discriminate])|].
  split; [intros []; lazy; repeat constructor|]. split; [intros []; lazy; reflexivity|].
  split; [exists L2; lazy; discriminate|lazy; reflexivity].
Qed.

(** Those two conditions hold in every program, if it catches panics too. *)
Theorem C69_every_state : forall c ops s st, cfg_ok c -> persist (step_u c) empty_session ops = Some s ->
  In st (s_states s) -> typed_state c st /\ (buflen_nat st <= 64)%nat.
Proof. exact caught_state. Qed.
Print Assumptions C69_every_state.
Example C69_ex_every_state : exists s st, cfg_ok debug_portable /\
  persist (step_u debug_portable) empty_session
    [ParamsNew; ParamsSet 0 (SKey (ramp 33)); ParamsSet 0 (SKey (ramp 5)); ToState 0; Update 0 []] = Some s /\
  In st (s_states s) /\ buflen_nat st = 64%nat.
Proof.
  eexists. eexists. split; [discriminate|]. split; [lazy; reflexivity|]. split; [left; reflexivity|]. lazy. reflexivity.
Qed.

(** Where the counter is that of the message so far, [P] with its first [k] blocks compressed,
    [hash_from] is the hash of the whole message. *)
Theorem C69_midway : forall h P k x last, (64 * k <= length P)%nat -> (length P <= 64 * k + 64)%nat ->
  (k = 0 \/ 64 * k < length (P ++ x))%nat ->
  hash_from (Spec.chain h P k) (N.of_nat (length P)) (length P - 64 * k) (skipn (64 * k) P ++ x) last =
  Spec.hash_words h (P ++ x) last.
Proof. exact midway. Qed.
Print Assumptions C69_midway.
(** And otherwise it need not be: a state that has counted 64 bytes it never compressed. *)
Example C69_ex_midway :
  ((64 * 1 <= length (ramp 100))%nat /\ (length (ramp 100) <= 64 * 1 + 64)%nat /\ (1 = 0 \/ 64 * 1 < length (ramp 100 ++ []))%nat) /\
  hash_from Spec.IV 64 0 (ramp 3) false <> Spec.hash_words Spec.IV (ramp 3) false.
Proof.
  split; [|lazy; discriminate].
  split; [apply Nat.leb_le; lazy; reflexivity|]. split; [apply Nat.leb_le; lazy; reflexivity|].
  right. apply Nat.ltb_lt. lazy. reflexivity.
Qed.

(** Where it is not, the first [d] bytes are right only if two different calls of the
    compression function begin alike; so with a state that [update8] left with 64 bytes too
    many counted (C68). *)
Theorem C69_wrong_count : forall h P k x C last d, (64 * k <= length P)%nat -> (length P <= 64 * k + 64)%nat ->
  N.of_nat (length (P ++ x)) < 2 ^ 64 -> C < 2 ^ 64 -> C <> N.of_nat (length P) ->
  let m := (length P - 64 * k)%nat in
  let data := skipn (64 * k) P ++ x in
  firstn d (Spec.words_bytes (hash_from (Spec.chain h P k) C m data last)) =
  firstn d (Spec.words_bytes (Spec.hash_words h (P ++ x) last)) ->
  Spec.truncated_collision d (calls_from (Spec.chain h P k) C m data last) (Spec.hash_calls h (P ++ x) last).
Proof. exact wrong_count. Qed.
Print Assumptions C69_wrong_count.
(** The hypotheses can be met only where hashes collide; here with hashes of no bytes. *)
Example C69_ex_wrong_count :
  let P := ramp 64 in
  (64 * 1 <= length P)%nat /\ (length P <= 64 * 1 + 64)%nat /\ N.of_nat (length (P ++ ramp 3)) < 2 ^ 64 /\ 128 <> N.of_nat (length P) /\
  firstn 0 (Spec.words_bytes (hash_from (Spec.chain Spec.IV P 1) 128 0 (skipn 64 P ++ ramp 3) false)) =
  firstn 0 (Spec.words_bytes (Spec.hash_words Spec.IV (P ++ ramp 3) false)).
Proof.
  split; [apply Nat.leb_le; lazy; reflexivity|]. split; [apply Nat.leb_le; lazy; reflexivity|].
  split; [lazy; reflexivity|]. split; [lazy; discriminate|reflexivity].
Qed.

(** Nothing else in a [State] matters: not what the rest of the buffer holds, nor which
    implementation it calls. *)
Theorem C69_same_contents : forall c a b pieces, typed_state c a -> typed_state c b -> (buflen_nat a <= 64)%nat ->
  st_h a = st_h b -> count a = count b -> buflen_nat a = buflen_nat b ->
  firstn (buflen_nat a) (st_buf a) = firstn (buflen_nat b) (st_buf b) ->
  st_last_node a = st_last_node b -> st_hash_length a = st_hash_length b ->
  observed c a pieces = observed c b pieces.
Proof. exact same_contents. Qed.
Print Assumptions C69_same_contents.
Example C69_ex_same_contents :
  let a := odd_state release_avx2 in
  let b := force_portable (set_buf a (ramp 7 ++ repeat x00 57)) in
  typed_state release_avx2 a /\ typed_state release_avx2 b /\ (buflen_nat a <= 64)%nat /\
  firstn (buflen_nat a) (st_buf a) = firstn (buflen_nat b) (st_buf b) /\
  st_buf a <> st_buf b /\ st_compress_fn a <> st_compress_fn b.
Proof.
  split; [split; [lazy; reflexivity|reflexivity]|]. split; [split; [lazy; reflexivity|discriminate]|].
  split; [lazy; repeat constructor|]. split; [lazy; reflexivity|]. split; lazy; discriminate.
Qed.
