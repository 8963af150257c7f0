(** * Properties C01, C02, C04, C25, C34, C35, C37, C38, C39: hashing with one [State].

    [Spec.blake2s] is BLAKE2s of RFC 7693 with all its parameters.  [feed] updates a
    state with a list of pieces; [reachable] are the states a program can hold;
    [interchangeable] states cannot be told apart by any program (Clients). *)
From Verif Require Import Base Consts Params State Many Blake2sp PortableFacts ParamsSpec Machine MachineSpec
  Clients Terms Behave Witness Corollaries Safety SpDump.
From Verif Require Spec.
Local Open Scope N_scope.

(** Keyed, salted, 20-byte hashes; 164 bytes counted. *)
Definition example_setters : list setter := [SKey (ramp 32); SHashLength 20; SSalt (ramp 3)].
Example example_reachable : exists st, reachable release_avx2 st /\ val (count st) = 164 /\
  val (st_buflen st) = 36.
Proof.
  destruct (build example_setters) as [p| | |] eqn:E; [|vm_compute in E; discriminate..].
  destruct (to_state release_avx2 p) as [s| | |] eqn:Es.
  2-4: vm_compute in E; injection E as <-; vm_compute in Es; discriminate Es.
  destruct (update release_avx2 s (ramp 100)) as [st| | |] eqn:Eu.
  - exists st. split; [eapply R_update; [eapply R_new; [exact E|exact Es]|exact Eu]|].
    assert (H : (s <- to_state release_avx2 p ;; st <- update release_avx2 s (ramp 100) ;;
                 Ok (val (count st), val (st_buflen st))) = Ok (val (count st), val (st_buflen st))).
    { rewrite Es. cbn [bind]. rewrite Eu. reflexivity. }
    clear Eu Es. remember (val (count st)) as a eqn:Ea. remember (val (st_buflen st)) as b eqn:Eb. clear Ea Eb.
    vm_compute in E. injection E as <-. vm_compute in H. injection H as <- <-. split; reflexivity.
  - vm_compute in E. injection E as <-. vm_compute in Es. injection Es as <-. vm_compute in Eu. discriminate Eu.
  - vm_compute in E. injection E as <-. vm_compute in Es. injection Es as <-. vm_compute in Eu. discriminate Eu.
  - vm_compute in E. injection E as <-. vm_compute in Es. injection Es as <-. vm_compute in Eu. discriminate Eu.
Qed.

(** C01: the one-shot function is BLAKE2s-256. *)
Theorem C01_one_shot : forall c input, cfg_ok c -> N.of_nat (length input) < 2 ^ 64 ->
  (h <- blake2s c input ;; as_bytes h) = Ok (Spec.blake2s Spec.default_params false input).
Proof. exact one_shot_value. Qed.
Print Assumptions C01_one_shot.
(** RFC 7693 appendix B: BLAKE2s-256("abc"). *)
Definition abc : list byte := [x61; x62; x63]%byte.
Definition abc_digest : list byte :=
  [x50; x8c; x5e; x8c; x32; x7c; x14; xe2; xe1; xa7; x2b; xa3; x4e; xeb; x45; x2f;
   x37; x45; x8b; x20; x9e; xd6; x3a; x29; x4d; x99; x9b; x4c; x86; x67; x59; x82]%byte.
Example C01_example :
  Spec.blake2s Spec.default_params false abc = abc_digest /\
  (h <- blake2s debug_avx2 abc ;; as_bytes h) = Ok abc_digest.
Proof. vm_compute. split; reflexivity. Qed.

(** C02: how a message is cut into pieces does not matter.  The first theorem is about
    the states, from any state on: both ways panic, or give interchangeable states.  The
    second gives the hash of any split of any message with any parameters. *)
Theorem C02_split_states : forall c st pieces, cfg_ok c -> reachable c st ->
  same_state c (feed c st pieces) (update c st (concat pieces)).
Proof. exact feed_same. Qed.
Print Assumptions C02_split_states.
Theorem C02_split_hashes : forall c l p pieces, cfg_ok c -> build l = Ok p ->
  hash_pieces c p pieces = hash_pieces c p [concat pieces].
Proof. exact hash_pieces_same. Qed.
Print Assumptions C02_split_hashes.
Theorem C02_split_value : forall c l p pieces, cfg_ok c -> build l = Ok p ->
  total (Spec.key (spec_params l)) (concat pieces) < 2 ^ 64 ->
  hash_pieces c p pieces = Ok (Spec.blake2s (spec_params l) (spec_last_node l) (concat pieces)).
Proof. exact hash_pieces_value. Qed.
Print Assumptions C02_split_value.
(** Pieces of 1, 0, 63, 64, 65 and 130 bytes; the key makes the first block. *)
Definition odd_pieces : list (list byte) := [ramp 1; []; ramp 63; ramp 64; ramp 65; ramp 130].
Example C02_example : exists p, build example_setters = Ok p /\
  total (Spec.key (spec_params example_setters)) (concat odd_pieces) = 387 /\
  hash_pieces debug_avx2 p odd_pieces = hash_pieces release_portable p [concat odd_pieces] /\
  exists b, hash_pieces debug_avx2 p odd_pieces = Ok b /\ length b = 20%nat.
Proof.
  eexists. split; [vm_compute; reflexivity|]. split; [vm_compute; reflexivity|]. split; [vm_compute; reflexivity|].
  eexists. split; vm_compute; reflexivity.
Qed.

(** C04: finalize again gives the same hash, and the state is as good as before. *)
Theorem C04_finalize_again : forall c st, cfg_ok c -> reachable c st ->
  exists st' h, finalize c st = Ok (st', h) /\ finalize c st' = Ok (st', h) /\ interchangeable c st st'.
Proof. exact finalize_again. Qed.
Print Assumptions C04_finalize_again.
Example C04_example : exists st, cfg_ok release_avx2 /\ reachable release_avx2 st /\ val (count st) = 164.
Proof. destruct example_reachable as (st & H & E & _). exists st. split; [intros _; reflexivity|auto]. Qed.

(** C25: the counter.  Without a key it is the number of bytes supplied, modulo 2^64;
    with a key 64 more (BLAKE2sp: 512 more), so the documented "total number of bytes
    input so far" is refuted. *)
Theorem C25_count : forall c l p pieces st, cfg_ok c -> build l = Ok p ->
  (s <- to_state c p ;; feed c s pieces) = Ok st ->
  val (count st) = (key_bytes (Spec.key (spec_params l)) + N.of_nat (length (concat pieces))) mod 2 ^ 64.
Proof. exact count_value. Qed.
Print Assumptions C25_count.
Theorem C25_count_is_bytes_input_refuted : exists p st, build keyed_params = Ok p /\
  (s <- to_state release_portable p ;; feed release_portable s [ramp 3]) = Ok st /\
  val (count st) <> N.of_nat (length (concat [ramp 3])).
Proof. exact count_wrong. Qed.
Print Assumptions C25_count_is_bytes_input_refuted.
Theorem C25_sp_count : forall c l p pieces st, cfg_ok c -> sp_build l = Ok p ->
  8 * key_bytes (sp_keyval l) + N.of_nat (length (concat pieces)) < 2 ^ 64 ->
  (s <- sp_to_state c p ;; sp_feed c s pieces) = Ok st ->
  exists n, sp_count c st = Ok n /\ val n = 8 * key_bytes (sp_keyval l) + N.of_nat (length (concat pieces)).
Proof. exact sp_counts_all. Qed.
Print Assumptions C25_sp_count.
Example C25_example : exists p q, build [] = Ok p /\ sp_build [SpKey key32] = Ok q /\
  (s <- to_state debug_avx2 p ;; s <- feed debug_avx2 s odd_pieces ;; Ok (val (count s))) = Ok 323 /\
  (s <- sp_to_state debug_avx2 q ;; s <- sp_feed debug_avx2 s odd_pieces ;; n <- sp_count debug_avx2 s ;; Ok (val n)) = Ok 835.
Proof. do 2 eexists. split; [vm_compute; reflexivity|]. split; [vm_compute; reflexivity|]. split; vm_compute; reflexivity. Qed.

(** C34: one write is one update and takes all bytes; [flush] does nothing; the
    standard [write_all] loop needs one write. *)
Theorem C34_write : forall c st x sst,
  write c st x = (st' <- update c st x ;; Ok (st', length x)) /\ flush st = Ok st /\
  sp_write c sst x = (st' <- sp_update c sst x ;; Ok (st', length x)) /\ sp_flush sst = Ok sst.
Proof. exact writes_are_updates. Qed.
Print Assumptions C34_write.
Theorem C34_write_all : forall c st buf fuel,
  write_all (S (S fuel)) c st buf =
  match buf with [] => Ok (Some st) | _ :: _ => st' <- update c st buf ;; Ok (Some st') end.
Proof. exact write_all_update. Qed.
Print Assumptions C34_write_all.
Theorem C34_sp_write_all : forall c st buf fuel,
  sp_write_all (S (S fuel)) c st buf =
  match buf with [] => Ok (Some st) | _ :: _ => st' <- sp_update c st buf ;; Ok (Some st') end.
Proof. exact sp_write_all_update. Qed.
Print Assumptions C34_sp_write_all.
Example C34_example :
  (s <- State_new debug_avx2 ;; s <- write_all 2 debug_avx2 s (ramp 200) ;;
   match s with Some s => Ok (val (count s)) | None => Panic end) = Ok 200.
Proof. vm_compute. reflexivity. Qed.

(** C35: [set_last_node] in the middle of the updates is [Params::last_node] from the
    start; with any interleaving of the two the last call wins. *)
Theorem C35_set_last_node : forall c l p p' b pieces pieces', cfg_ok c ->
  build l = Ok p -> build (l ++ [SLastNode b]) = Ok p' ->
  same_state c (st <- to_state c p ;; st <- feed c st pieces ;; feed c (set_last_node st b) pieces')
               (st <- to_state c p' ;; feed c st (pieces ++ pieces')).
Proof. exact last_node_same. Qed.
Print Assumptions C35_set_last_node.
Theorem C35_interleaved : forall c l p acts, cfg_ok c -> build l = Ok p ->
  total (Spec.key (spec_params l)) (acts_bytes acts) < 2 ^ 64 ->
  (st <- to_state c p ;; st <- do_acts c st acts ;; ' (_, h) <- finalize c st ;; as_bytes h) =
  Ok (Spec.blake2s (spec_params l) (acts_last (spec_last_node l) acts) (acts_bytes acts)).
Proof. exact acts_value. Qed.
Print Assumptions C35_interleaved.
(** The flag changes the hash. *)
Definition some_acts : list act :=
  [AUpdate (ramp 64); ALastNode false; AUpdate []; AUpdate (ramp 70); ALastNode true; AUpdate (ramp 1)].
Example C35_example : exists p p', build example_setters = Ok p /\ build (example_setters ++ [SLastNode true]) = Ok p' /\
  acts_last false some_acts = true /\ length (acts_bytes some_acts) = 135%nat /\
  Spec.blake2s (spec_params example_setters) true abc <> Spec.blake2s (spec_params example_setters) false abc.
Proof.
  do 2 eexists. split; [vm_compute; reflexivity|]. split; [vm_compute; reflexivity|]. split; [reflexivity|].
  split; [reflexivity|]. vm_compute. discriminate.
Qed.

(** C37: the portable implementation gives the same results. *)
Theorem C37_force_portable : forall c st, cfg_ok c -> reachable c st -> interchangeable c st (force_portable st).
Proof. exact portable_same. Qed.
Print Assumptions C37_force_portable.
Theorem C37_sp_force_portable : forall c st, cfg_ok c -> sp_reachable c st ->
  sp_interchangeable c st (sp_force_portable st).
Proof. exact sp_portable_same. Qed.
Print Assumptions C37_sp_force_portable.
(** On this platform the two states do differ: one calls the SSE4.1 code. *)
Example C37_example : exists st, reachable release_avx2 st /\ st <> force_portable st.
Proof.
  destruct (to_state release_avx2 Params_new) as [s| | |] eqn:Es; [|vm_compute in Es; discriminate Es..].
  exists s. split; [apply (R_new release_avx2 [] Params_new); [reflexivity|exact Es]|].
  intros H. apply (f_equal st_compress_fn) in H. vm_compute in Es. injection Es as <-. vm_compute in H. discriminate H.
Qed.
Example C37_sp_example : exists st, sp_reachable release_avx2 st /\ st <> sp_force_portable st.
Proof.
  destruct (sp_to_state release_avx2 SpParams_new) as [s| | |] eqn:Es; [|vm_compute in Es; discriminate Es..].
  exists s. split; [apply (SR_new release_avx2 [] SpParams_new); [reflexivity|exact Es]|].
  intros H. apply (f_equal sp_compress8_fn) in H. vm_compute in Es. injection Es as <-. vm_compute in H. discriminate H.
Qed.

(** C38: at 2^64 bytes builds with overflow checks panic, and no earlier; the others go
    on, counting modulo 2^64 (C25). *)
Theorem C38_counter_overflow : forall c l p pieces, cfg_ok c -> build l = Ok p ->
  let n := key_bytes (Spec.key (spec_params l)) + N.of_nat (length (concat pieces)) in
  ((s <- to_state c p ;; feed c s pieces) = Panic <-> overflow_checks c = true /\ 2 ^ 64 <= n) /\
  ((exists st, (s <- to_state c p ;; feed c s pieces) = Ok st) <-> overflow_checks c = false \/ n < 2 ^ 64).
Proof. exact feed_panics. Qed.
Print Assumptions C38_counter_overflow.
(** In builds without the checks the hash is that of the whole message, with the byte
    counter of the compression function taken modulo 2^64 (see [Spec.F]). *)
Theorem C38_wrapped_hash : forall c l p pieces st, cfg_ok c -> build l = Ok p ->
  (s <- to_state c p ;; feed c s pieces) = Ok st ->
  exists st' h, finalize c st = Ok (st', h) /\
    as_bytes h = Ok (Spec.blake2s (spec_params l) (spec_last_node l) (concat pieces)).
Proof. exact (fun c l p pieces st => finalize_value c st l pieces p). Qed.
Print Assumptions C38_wrapped_hash.
(** The counter is compared and added as the 64-bit code does it. *)
Example C38_example :
  (n <- uadd debug_portable (of_N 64 (2 ^ 64 - 64)) (of_N 64 63) ;; Ok (val n)) = Ok (2 ^ 64 - 1) /\
  uadd debug_portable (of_N 64 (2 ^ 64 - 64)) (of_N 64 64) = Panic /\
  (n <- uadd release_portable (of_N 64 (2 ^ 64 - 64)) (of_N 64 64) ;; Ok (val n)) = Ok 0 /\
  exists pieces : list (list byte), 2 ^ 64 <= key_bytes [] + N.of_nat (length (concat pieces)).
Proof.
  split; [reflexivity|]. split; [reflexivity|]. split; [reflexivity|].
  exists [repeat x00 (N.to_nat (2 ^ 64))]. cbn [concat key_bytes]. rewrite app_nil_r, repeat_length, N2Nat.id.
  apply N.le_refl.
Qed.

(** C39: after any updates exactly the whole blocks that are followed by more bytes
    have been compressed, each once and in order; the rest is in the buffer.  [Spec.chain]
    is the chaining value after [k] blocks. *)
Theorem C39_blocks_compressed : forall c l p pieces st, cfg_ok c -> build l = Ok p ->
  (s <- to_state c p ;; feed c s pieces) = Ok st ->
  let D := Spec.key_block (Spec.key (spec_params l)) ++ concat pieces in
  let k := blocks_done (length D) in
  nums (st_h st) = Spec.chain (Spec.initial (spec_params l)) D k /\
  buflen_nat st = (length D - 64 * k)%nat /\
  firstn (buflen_nat st) (st_buf st) = skipn (64 * k) D.
Proof. exact feed_structure. Qed.
Print Assumptions C39_blocks_compressed.
(** The same of every state a program can hold, also after [update8] and [finalize8]. *)
Theorem C39_any_state : forall c st, cfg_ok c -> reachable c st -> exists sp msg,
  let D := Spec.key_block (Spec.key sp) ++ msg in
  let k := blocks_done (length D) in
  val (count st) = N.of_nat (length D) mod 2 ^ 64 /\
  nums (st_h st) = Spec.chain (Spec.initial sp) D k /\
  buflen_nat st = (length D - 64 * k)%nat /\
  firstn (buflen_nat st) (st_buf st) = skipn (64 * k) D.
Proof. exact reachable_structure. Qed.
Print Assumptions C39_any_state.
(** No call of any program runs forever ([Wedged] is the ending of a loop that does). *)
Theorem C39_terminates : forall c ops, cfg_ok c -> Forall mem_ok ops ->
  snd (run c empty_session ops) <> Wedged.
Proof. exact run_terminates. Qed.
Print Assumptions C39_terminates.
Example C39_example :
  map blocks_done [0; 1; 64; 65; 128; 129]%nat = [0; 0; 0; 1; 1; 2]%nat /\
  exists st, reachable release_avx2 st /\ val (count st) = 164 /\ val (st_buflen st) = 36.
Proof. split; [reflexivity|exact example_reachable]. Qed.
