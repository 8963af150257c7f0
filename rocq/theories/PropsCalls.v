(** * Property C45: which compressions a hash computation runs.

    [runs (events x)] are the compression routines that the traced computation [x] runs,
    in order, with their counters and flags (Traced.v). *)
From Verif Require Import Base Consts Params State Many Blake2sp Clients Terms ParamsSpec SpFacts Witness Traced Calls SpCalls.
From Verif Require Spec.
Local Open Scope N_scope.

(** C45: hashing in any pieces runs one compression per block of the key block and
    message, the counter going up by 64 bytes to the total, the final flag in the last. *)
Theorem C45_calls : forall c l p pieces h, build l = Ok p -> result (hash_pieces_t c p pieces) = Ok h ->
  let n := length (Spec.key_block (Spec.key (spec_params l)) ++ concat pieces) in
  let f := fn_compress (default_compress_impl c) in
  runs (events (hash_pieces_t c p pieces)) =
    map (fun i => Compress f (of_N 64 (N.of_nat (64 * S i))) (uzero 32) (uzero 32)) (seq 0 (blocks_done n)) ++
    [Compress f (of_N 64 (N.of_nat n)) (umax 32) (flag32 (spec_last_node l))].
Proof. exact hash_calls_ok. Qed.
Print Assumptions C45_calls.
(** Unkeyed BLAKE2sp in any pieces: groups of eight blocks first, as many as the lengths of
    the pieces make it; then what is left of each leaf, and the root. *)
Theorem C45_sp_calls : forall c l p pieces h, sp_build l = Ok p -> sp_last_key [] l = [] ->
  result (sp_hash_pieces_t c p pieces) = Ok h ->
  let k := settled 0 (map (@length _) pieces) in
  let n i := length (Spec.leaf_input i (concat pieces)) in
  let f := fn_compress (default_compress_impl c) in
  let f8 := fn_compress8 (default_compress_impl c) in
  let block j := Compress f (of_N 64 (N.of_nat (64 * S j))) (uzero 32) (uzero 32) in
  let last m node := Compress f (of_N 64 (N.of_nat m)) (umax 32) (flag32 node) in
  runs (events (sp_hash_pieces_t c p pieces)) =
    map (fun j => Compress8 f8 (oct_const (of_N 64 (N.of_nat (64 * S j)))) (oct_const (uzero 32)) (oct_const (uzero 32)))
      (seq 0 k) ++
    flat_map (fun i => map block (seq k (blocks_done (n i) - k))) (seq 0 8) ++
    flat_map (fun i => last (n i) (Nat.eqb i 7)
                       :: map block (seq (blocks_done (32 * i)) (blocks_done (32 * S i) - blocks_done (32 * i)))) (seq 0 8) ++
    [last 256%nat true] /\
  forall i, (i < 8)%nat -> (k <= blocks_done (n i))%nat.
Proof. exact sp_hash_calls_ok. Qed.
Print Assumptions C45_sp_calls.
(** Keyed BLAKE2sp: the groups are counted one block further, and the key block of each leaf
    follows them, with the counter of the last group (so the counters are those of the
    definition only if [k = 0]; see C23). *)
Theorem C45_sp_keyed_calls : forall c l p pieces h, sp_build l = Ok p -> sp_last_key [] l <> [] ->
  result (sp_hash_pieces_t c p pieces) = Ok h ->
  let k := settled 0 (map (@length _) pieces) in
  let n i := length (Spec.leaf_input i (concat pieces)) in
  let f := fn_compress (default_compress_impl c) in
  let f8 := fn_compress8 (default_compress_impl c) in
  let block j := Compress f (of_N 64 (N.of_nat (64 * S j))) (uzero 32) (uzero 32) in
  let last m node := Compress f (of_N 64 (N.of_nat m)) (umax 32) (flag32 node) in
  runs (events (sp_hash_pieces_t c p pieces)) =
    map (fun j => Compress8 f8 (oct_const (of_N 64 (N.of_nat (64 * S (S j))))) (oct_const (uzero 32)) (oct_const (uzero 32)))
      (seq 0 k) ++
    flat_map (fun i => if Nat.ltb (64 * k) (n i) then [block k] else []) (seq 0 8) ++
    flat_map (fun i => if Nat.ltb (64 * S k) (n i) then [block (S k)] else []) (seq 0 8) ++
    flat_map (fun i => last (64 + n i)%nat (Nat.eqb i 7)
                       :: map block (seq (blocks_done (32 * i)) (blocks_done (32 * S i) - blocks_done (32 * i)))) (seq 0 8) ++
    [last 256%nat true] /\
  forall i, (i < 8)%nat -> (64 * k <= n i <= 64 * S (S k))%nat.
Proof. exact sp_hash_keyed_calls. Qed.
Print Assumptions C45_sp_keyed_calls.
(** The number of blocks compressed is the number of compressions in the definition of the
    hash, whatever the key and however the message is split. *)
Theorem C45_work : forall c l p pieces h, build l = Ok p -> result (hash_pieces_t c p pieces) = Ok h ->
  work (runs (events (hash_pieces_t c p pieces))) =
  length (Spec.blake2s_calls (spec_params l) (spec_last_node l) (concat pieces)).
Proof. exact hash_work. Qed.
Print Assumptions C45_work.
Theorem C45_sp_work : forall c l p pieces h, sp_build l = Ok p ->
  result (sp_hash_pieces_t c p pieces) = Ok h ->
  work (runs (events (sp_hash_pieces_t c p pieces))) =
  length (Spec.blake2sp_calls (sp_last_hash_length 32 l) (sp_last_key [] l) (concat pieces)).
Proof. exact sp_hash_work. Qed.
Print Assumptions C45_sp_work.
(** The exact functions on several inputs of [n] blocks each run [n] wide compressions. *)
Theorem C45_hash8_exact : forall c p inputs hs, fn_hash8_exact (default_compress_impl c) = hash8_exact_avx2 ->
  result (hash8_exact_t c p inputs) = Ok hs ->
  let n := (length (o0 inputs) / 64)%nat in
  runs (events (hash8_exact_t c p inputs)) =
  map (fun i => Compress8Transposed (64 * S i) (flag32 (Nat.eqb (S i) n)) (flag32 (p_last_node p && Nat.eqb (S i) n)))
    (seq 0 n).
Proof. exact hash8_exact_calls. Qed.
Print Assumptions C45_hash8_exact.
Theorem C45_hash4_exact : forall c p inputs hs, fn_hash4_exact (default_compress_impl c) = hash4_exact_sse41 ->
  result (hash4_exact_t c p inputs) = Ok hs ->
  let n := (length (q0 inputs) / 64)%nat in
  runs (events (hash4_exact_t c p inputs)) =
  map (fun i => Compress4Transposed (64 * S i) (flag32 (Nat.eqb (S i) n)) (flag32 (p_last_node p && Nat.eqb (S i) n)))
    (seq 0 n).
Proof. exact hash4_exact_calls. Qed.
Print Assumptions C45_hash4_exact.
(** The traced computations are the model's. *)
Theorem C45_same_results : forall c p pieces,
  (h <- result (hash_pieces_t c p pieces) ;; as_bytes h) = hash_pieces c p pieces.
Proof. exact erase_hash_pieces. Qed.
Print Assumptions C45_same_results.
Theorem C45_sp_same_results : forall c p pieces,
  (h <- result (sp_hash_pieces_t c p pieces) ;; as_bytes h) = sp_hash_pieces c p pieces.
Proof. exact erase_sp_hash_pieces. Qed.
Print Assumptions C45_sp_same_results.

(** Seventy bytes under a key: three compressions, whose counters and final flags are shown. *)
Definition shown (r : routine) : N * bool :=
  match r with Compress _ n last _ => (val n, val last =? 2 ^ 32 - 1) | _ => (0, false) end.
Example C45_example :
  exists p h, build [SKey (ramp 7)] = Ok p /\
    result (hash_pieces_t debug_avx2 p [ramp 3; ramp 67]) = Ok h /\
    map shown (runs (events (hash_pieces_t debug_avx2 p [ramp 3; ramp 67]))) = [(64, false); (128, false); (134, true)].
Proof. eexists; eexists. split; [vm_compute; reflexivity|]. split; vm_compute; reflexivity. Qed.
(** The hypotheses on the dispatch are met. *)
Example C45_dispatch_example :
  fn_hash8_exact (default_compress_impl debug_avx2) = hash8_exact_avx2 /\
  fn_hash4_exact (default_compress_impl debug_avx2) = hash4_exact_sse41.
Proof. split; reflexivity. Qed.
(** Two splits of 1473 bytes for which BLAKE2sp compresses one group or two. *)
Example C45_groups_example :
  settled 0 [1473]%nat = 2%nat /\ settled 0 [1024; 448; 1]%nat = 1%nat /\ settled 0 [960]%nat = 0%nat.
Proof. repeat split; vm_compute; reflexivity. Qed.
Example C45_sp_example : exists p h, sp_build [] = Ok p /\ sp_last_key [] [] = [] /\
  result (sp_hash_pieces_t debug_avx2 p [ramp 1024; ramp 448; ramp 1]) = Ok h.
Proof. exact sp_hash_succeeds. Qed.
Example C45_sp_keyed_example : exists p h, sp_build [SpKey (ramp 7)] = Ok p /\ sp_last_key [] [SpKey (ramp 7)] <> [] /\
  result (sp_hash_pieces_t release_avx2 p [ramp 961]) = Ok h.
Proof. exact sp_hash_keyed_succeeds. Qed.
