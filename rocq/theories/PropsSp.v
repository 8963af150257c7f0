(** * Properties C21-C24, C41 and C43: BLAKE2sp.

    [Spec.blake2sp] is BLAKE2sp; [sp_feed] and [sp_hash_pieces] hash a list of pieces;
    [sp_dlen] and [sp_keyval] read the hash length and the key off a setter chain. *)
From Verif Require Import Base Params State Blake2sp Debug Machine MachineSpec MachineFacts Clients Terms Witness Corollaries SpShape SpLate SpDump TestCode TestFacts.
From Verif Require Spec.
Local Open Scope N_scope.

(** C21: without a key, any hash length, any message, any split. *)
Theorem C21_unkeyed : forall c l p pieces, cfg_ok c -> sp_build l = Ok p -> sp_keyval l = [] ->
  N.of_nat (length (concat pieces)) < 2 ^ 64 ->
  sp_hash_pieces c p pieces = Ok (Spec.blake2sp (sp_dlen l) [] (concat pieces)).
Proof. exact sp_unkeyed_value. Qed.
Print Assumptions C21_unkeyed.
Theorem C21_one_shot : forall c input, cfg_ok c -> N.of_nat (length input) < 2 ^ 64 ->
  (h <- Blake2sp.blake2sp c input ;; as_bytes h) = Ok (Spec.blake2sp 32 [] input).
Proof. exact sp_one_shot_value. Qed.
Print Assumptions C21_one_shot.
(** The buffer holds 1024 bytes: pieces that fill it and overflow it. *)
Definition sp_pieces : list (list byte) := [ramp 1; []; ramp 1023; ramp 100].
Example C21_example : exists p, sp_build [SpHashLength 13] = Ok p /\ sp_keyval [SpHashLength 13] = [] /\
  sp_hash_pieces debug_portable p sp_pieces = Ok (Spec.blake2sp 13 [] (concat sp_pieces)).
Proof. eexists. split; [vm_compute; reflexivity|]. split; [reflexivity|]. vm_compute. reflexivity. Qed.

(** C22: with a key, messages of up to 960 bytes. *)
Theorem C22_keyed_short : forall c l p pieces, cfg_ok c -> sp_build l = Ok p -> sp_keyval l <> [] ->
  (length (concat pieces) <= 960)%nat ->
  sp_hash_pieces c p pieces = Ok (Spec.blake2sp (sp_dlen l) (sp_keyval l) (concat pieces)).
Proof. exact sp_keyed_value. Qed.
Print Assumptions C22_keyed_short.
Example C22_example : exists p, sp_build [SpKey key32; SpHashLength 20] = Ok p /\
  sp_keyval [SpKey key32; SpHashLength 20] <> [] /\ (length (concat [ramp 500; ramp 460]) <= 960)%nat /\
  sp_hash_pieces debug_portable p [ramp 500; ramp 460] = Ok (Spec.blake2sp 20 key32 (ramp 500 ++ ramp 460)).
Proof.
  eexists. split; [vm_compute; reflexivity|]. split; [vm_compute; discriminate|].
  split; [apply Nat.leb_le; vm_compute; reflexivity|]. vm_compute. reflexivity.
Qed.

(** C23: with a key, for all messages and splits: refuted.  In a release build 961
    bytes in one piece hash wrongly, and differently from the same bytes in two pieces;
    1025 bytes hash wrongly too. *)
Theorem C23_keyed_long_refuted : exists p, sp_build sp_keyed_params = Ok p /\
  sp_hash_pieces release_portable p one_piece <> Ok (Spec.blake2sp 32 key32 (concat one_piece)).
Proof. exact sp_keyed_wrong. Qed.
Print Assumptions C23_keyed_long_refuted.
Theorem C23_keyed_split_refuted : exists p, sp_build sp_keyed_params = Ok p /\ concat one_piece = concat two_pieces /\
  sp_hash_pieces release_portable p one_piece <> sp_hash_pieces release_portable p two_pieces.
Proof. exact sp_keyed_split. Qed.
Print Assumptions C23_keyed_split_refuted.
Theorem C23_keyed_1025_refuted : exists p, sp_build sp_keyed_params = Ok p /\
  sp_hash_pieces release_portable p long_message <> Ok (Spec.blake2sp 32 key32 (concat long_message)).
Proof. exact sp_keyed_long. Qed.
Print Assumptions C23_keyed_1025_refuted.
(** Where exactly the crate is right: at most 1024 bytes, of which the first non-empty
    piece has at most 960 ([keyed_fit]).  Beyond that every build with debug assertions
    panics. *)
Theorem C23_keyed_fit : forall c l p pieces, cfg_ok c -> sp_build l = Ok p -> sp_keyval l <> [] ->
  keyed_fit 0 pieces = true ->
  sp_hash_pieces c p pieces = Ok (Spec.blake2sp (sp_dlen l) (sp_keyval l) (concat pieces)).
Proof. exact sp_keyed_fit. Qed.
Print Assumptions C23_keyed_fit.
Theorem C23_keyed_debug_panics : forall c l p pieces, cfg_ok c -> sp_build l = Ok p -> sp_keyval l <> [] ->
  debug_assertions c = true -> keyed_fit 0 pieces = false -> sp_hash_pieces c p pieces = Panic.
Proof. exact sp_keyed_unfit. Qed.
Print Assumptions C23_keyed_debug_panics.
(** What builds without debug assertions return.  [settled] counts the groups of eight
    blocks that [update] compresses before [finalize], from the lengths of the pieces;
    [late_blake2sp ... k] is BLAKE2sp with the key block moved behind the first [k]
    blocks of every leaf, these [k] blocks being counted one block too far.  It is
    BLAKE2sp itself if [k = 0], which is the case for the histories of [C23_keyed_fit]
    and for no others. *)
Theorem C23_keyed_release : forall c l p pieces, cfg_ok c -> sp_build l = Ok p -> sp_keyval l <> [] ->
  debug_assertions c = false -> N.of_nat (length (concat pieces)) + 64 < 2 ^ 64 ->
  sp_hash_pieces c p pieces =
  Ok (late_blake2sp (sp_dlen l) (sp_keyval l) (concat pieces) (settled 0 (map (@length _) pieces))).
Proof. exact sp_hash_late. Qed.
Print Assumptions C23_keyed_release.
Theorem C23_keyed_release_right : forall dlen key D, late_blake2sp dlen key D 0 = Spec.blake2sp dlen key D.
Proof. exact late_blake2sp_0. Qed.
Print Assumptions C23_keyed_release_right.
Theorem C23_keyed_settled : forall pieces,
  keyed_fit 0 pieces = true <-> settled 0 (map (@length _) pieces) = 0%nat.
Proof. exact keyed_fit_settled_0. Qed.
Print Assumptions C23_keyed_settled.
Example C23_release_example : exists p, sp_build sp_keyed_params = Ok p /\
  settled 0 (map (@length _) one_piece) = 1%nat /\
  settled 0 (map (@length _) [ramp 500; ramp 1000; ramp 60; ramp 2000]) = 6%nat /\
  settled 0 (map (@length _) [ramp 500; ramp 525]) = 1%nat /\
  sp_hash_pieces release_portable p [ramp 500; ramp 525] = Ok (late_blake2sp 32 key32 (ramp 500 ++ ramp 525) 1).
Proof.
  eexists. split; [vm_compute; reflexivity|]. split; [vm_compute; reflexivity|].
  split; [vm_compute; reflexivity|]. split; [vm_compute; reflexivity|]. vm_compute. reflexivity.
Qed.
Example C23_example : exists p, sp_build sp_keyed_params = Ok p /\ sp_keyval sp_keyed_params <> [] /\
  keyed_fit 0 two_pieces = true /\ keyed_fit 0 one_piece = false /\
  sp_hash_pieces debug_portable p one_piece = Panic /\
  sp_hash_pieces debug_portable p two_pieces = Ok (Spec.blake2sp 32 key32 (ramp 961)).
Proof.
  eexists. split; [vm_compute; reflexivity|]. split; [vm_compute; discriminate|].
  split; [vm_compute; reflexivity|]. split; [vm_compute; reflexivity|]. split; vm_compute; reflexivity.
Qed.

(** C24: any program that uses BLAKE2sp (and BLAKE2s), without BLAKE2sp keys, sees what
    the abstract machine [arun] says, where a BLAKE2sp state is its hash length and the
    bytes given to it.  ([mask] leaves out the Debug text of BLAKE2sp states; see C41.) *)
Theorem C24_sp_programs : forall c ops, cfg_ok c -> total_bytes ops + 64 < 2 ^ 64 ->
  existsb sets_sp_key ops = false -> existsb sets_key ops && existsb calls_exact ops = false ->
  map mask (fst (run c empty_session ops)) = map mask (fst (arun true empty_asession ops)) /\
  Some (snd (run c empty_session ops)) = snd (arun true empty_asession ops).
Proof. exact program_results. Qed.
Print Assumptions C24_sp_programs.
Definition sp_program : list op :=
  [SpParamsNew; SpParamsSet 0 (SpHashLength 5); SpToState 0; SpUpdate 0 (ramp 300); SpFinalize 0; SpClone 0;
   SpWrite 1 (ramp 30); SpFlush 1; SpForcePortable 1; SpCount 1; SpFinalize 1; SpFinalize 0; SpCount 0; HashEq 0 2; HashEq 0 1].
Example C24_example :
  total_bytes sp_program + 64 < 2 ^ 64 /\ existsb sets_sp_key sp_program = false /\
  existsb sets_key sp_program && existsb calls_exact sp_program = false /\
  (skipn 7 (fst (run debug_avx2 empty_session sp_program))) =
  [ONone; ONone; ONumber 330; OBytes (Spec.blake2sp 5 [] (ramp 300 ++ ramp 30)); OBytes (Spec.blake2sp 5 [] (ramp 300));
   ONumber 300; OBool true; OBool false].
Proof. split; [vm_compute; reflexivity|]. split; [reflexivity|]. split; [reflexivity|]. vm_compute. reflexivity. Qed.

(** C41: the Debug text of a BLAKE2sp state shows the number of bytes supplied (512 more
    with a key), the hash length and how many bytes each leaf has compressed.  The last
    of these follows from the lengths of the pieces ([settled], see C23).  Keyed states
    are covered in builds without debug assertions; with them, see C23 and C29. *)
Theorem C41_sp_debug : forall c l p pieces, cfg_ok c -> sp_build l = Ok p -> sp_keyval l = [] ->
  N.of_nat (length (concat pieces)) < 2 ^ 64 ->
  (st <- sp_to_state c p ;; st <- sp_feed c st pieces ;; sp_state_debug c st) =
  Ok (sp_state_text (N.of_nat (length (concat pieces))) (N.of_nat (64 * settled 0 (map (@length _) pieces))) (sp_dlen l)).
Proof. exact sp_debug_value. Qed.
Print Assumptions C41_sp_debug.
Theorem C41_sp_debug_keyed : forall c l p pieces, cfg_ok c -> sp_build l = Ok p -> sp_keyval l <> [] ->
  debug_assertions c = false -> 512 + N.of_nat (length (concat pieces)) < 2 ^ 64 ->
  (st <- sp_to_state c p ;; st <- sp_feed c st pieces ;; sp_state_debug c st) =
  Ok (sp_state_text (512 + N.of_nat (length (concat pieces)))
                    (64 + N.of_nat (64 * settled 0 (map (@length _) pieces))) (sp_dlen l)).
Proof. exact sp_late_debug. Qed.
Print Assumptions C41_sp_debug_keyed.
Example C41_example :
  exists p, sp_build [SpHashLength 20] = Ok p /\
    (st <- sp_to_state debug_avx2 p ;; st <- sp_feed debug_avx2 st [ramp 500; ramp 1000] ;; sp_state_debug debug_avx2 st) =
    Ok (sp_state_text 1500 128 20).
Proof. eexists. split; [vm_compute; reflexivity|]. vm_compute. reflexivity. Qed.
(** So the text is not determined by the bytes: here the split decides. *)
Theorem C41_sp_debug_split_refuted : concat one_piece = concat two_pieces /\
  last_dump release_portable one_piece <> last_dump release_portable two_pieces.
Proof. exact dump_split. Qed.
Print Assumptions C41_sp_debug_split_refuted.

(** C43: the reference implementation in the crate's tests is BLAKE2sp as well, and the
    test that compares the two passes for every input and every split point. *)
Theorem C43_reference : forall c input, cfg_ok c -> N.of_nat (length input) < 2 ^ 64 ->
  (h <- blake2sp_reference c input ;; as_bytes h) = Ok (Spec.blake2sp 32 [] input).
Proof. exact reference_value. Qed.
Print Assumptions C43_reference.
Theorem C43_test_buffering : forall c input k, cfg_ok c -> N.of_nat (length input) < 2 ^ 64 ->
  (k <= length input)%nat -> test_buffering c input k = Ok tt.
Proof. exact test_buffering_passes. Qed.
Print Assumptions C43_test_buffering.
Example C43_example : (1 <= length (ramp 70))%nat /\ test_buffering debug_portable (ramp 70) 1 = Ok tt.
Proof. split; [apply Nat.leb_le; vm_compute; reflexivity|]. vm_compute. reflexivity. Qed.
