(** * Properties C14-C20: many inputs at a time.

    [hash_one] is [params.to_state().update(input).finalize()].  [uses_simd] says that
    the crate picks its SSE4.1 and AVX2 code. *)
From Verif Require Import Base Consts Params State Many ParamsSpec Avx2Facts Sse41Facts Machine MachineSpec Clients
  Behave Witness Corollaries.
From Verif Require Spec.
Local Open Scope N_scope.

(** Any eight reachable states with different counters and parameters. *)
Definition lane_setters (l : lane8) : list setter :=
  match l with
  | L0 => [] | L1 => [SKey (ramp 1)] | L2 => [SKey (ramp 32); SHashLength 1] | L3 => [SHashLength 7]
  | L4 => [SSalt (ramp 8)] | L5 => [SPersonal (ramp 2)] | L6 => [SNodeDepth (of_N 8 3)] | L7 => [SLastNode true]
  end.
Example eight_reachable : forall l, exists p st,
  build (lane_setters l) = Ok p /\ to_state debug_avx2 p = Ok st /\ reachable debug_avx2 st.
Proof.
  intros l. destruct (build (lane_setters l)) as [p| | |] eqn:E.
  2-4: destruct l; vm_compute in E; discriminate E.
  destruct (to_state debug_avx2 p) as [st| | |] eqn:Es.
  - exists p, st. split; [reflexivity|]. split; [exact Es|]. exact (R_new debug_avx2 _ p st E Es).
  - destruct l; vm_compute in E; injection E as <-; vm_compute in Es; discriminate Es.
  - destruct l; vm_compute in E; injection E as <-; vm_compute in Es; discriminate Es.
  - destruct l; vm_compute in E; injection E as <-; vm_compute in Es; discriminate Es.
Qed.
(** Inputs of eight different lengths. *)
Definition uneven : oct (list byte) :=
  Oct (ramp 0) (ramp 1) (ramp 64) (ramp 65) (ramp 128) (ramp 129) (ramp 200) (ramp 300).

(** C14: update8 is eight updates.  Only the 2^64 counter check can panic. *)
Theorem C14_update8 : forall c sts inputs, cfg_ok c -> (forall l, reachable c (proj l sts)) ->
  (exists sts', update8 c sts inputs = Ok sts' /\
     forall l, exists u, update c (proj l sts) (proj l inputs) = Ok u /\ interchangeable c (proj l sts') u) \/
  (update8 c sts inputs = Panic /\ exists l, update c (proj l sts) (proj l inputs) = Panic).
Proof. exact update8_same. Qed.
Print Assumptions C14_update8.

(** C15: finalize8 is eight finalizes, and does not disturb the states. *)
Theorem C15_finalize8 : forall c sts, cfg_ok c -> (forall l, reachable c (proj l sts)) ->
  exists sts' hs, finalize8 c sts = Ok (sts', hs) /\
    forall l, finalize c (proj l sts) = Ok (proj l sts', proj l hs) /\
              interchangeable c (proj l sts) (proj l sts').
Proof. exact finalize8_same. Qed.
Print Assumptions C15_finalize8.
(** Eight states with their own parameters, fed and finalized together. *)
Definition make_eight (c : cfg) : outcome (oct State) :=
  oct_mapM (fun l => p <- build (lane_setters l) ;; to_state c p) (Oct L0 L1 L2 L3 L4 L5 L6 L7).
Definition eight_separately (c : cfg) : outcome (oct (list byte)) :=
  oct_mapM2 (fun l x => p <- build (lane_setters l) ;; hash_pieces c p [x]) (Oct L0 L1 L2 L3 L4 L5 L6 L7) uneven.
Example C14_C15_example :
  (sts <- make_eight debug_avx2 ;; sts <- update8 debug_avx2 sts uneven ;; r <- finalize8 debug_avx2 sts ;;
   oct_mapM as_bytes (snd r)) = eight_separately release_portable.
Proof. vm_compute. reflexivity. Qed.

(** C16: hash8 of unkeyed parameters is eight hashes. *)
Theorem C16_hash8 : forall c ls ps inputs, cfg_ok c -> (forall l, build (proj l ls) = Ok (proj l ps)) ->
  (forall l, Spec.key (spec_params (proj l ls)) = []) ->
  (forall l, N.of_nat (length (proj l inputs)) < 2 ^ 64) ->
  exists hs, hash8 c ps inputs = Ok hs /\ forall l,
    hash_one c (proj l ps) (proj l inputs) = Ok (proj l hs) /\
    as_bytes (proj l hs) = Ok (Spec.blake2s (spec_params (proj l ls)) (spec_last_node (proj l ls)) (proj l inputs)).
Proof. exact hash8_separately. Qed.
Print Assumptions C16_hash8.
Definition unkeyed_lanes : oct (list setter) :=
  Oct [] [SFanout (of_N 8 0)] [SHashLength 1] [SHashLength 7] [SSalt (ramp 8)] [SPersonal (ramp 2)]
      [SNodeDepth (of_N 8 3)] [SLastNode true].
Example C16_example :
  (forall l, exists p, build (proj l unkeyed_lanes) = Ok p) /\
  (forall l, Spec.key (spec_params (proj l unkeyed_lanes)) = []) /\
  (forall l, N.of_nat (length (proj l uneven)) < 2 ^ 64) /\
  (ps <- oct_mapM build unkeyed_lanes ;; hs <- hash8 debug_avx2 ps uneven ;; oct_mapM as_bytes hs) =
  Ok (oct_map2 (fun l => Spec.blake2s (spec_params l) (spec_last_node l)) unkeyed_lanes uneven).
Proof.
  split; [intros []; eexists; vm_compute; reflexivity|]. split; [intros []; reflexivity|].
  split; [intros []; vm_compute; reflexivity|]. vm_compute. reflexivity.
Qed.

(** C17: hash8 panics exactly when some parameters have a key. *)
Theorem C17_hash8_rejects_keys : forall c ls ps inputs, cfg_ok c -> (forall l, build (proj l ls) = Ok (proj l ps)) ->
  (forall l, N.of_nat (length (proj l inputs)) < 2 ^ 64) ->
  (hash8 c ps inputs = Panic <-> exists l, Spec.key (spec_params (proj l ls)) <> []).
Proof. exact hash8_rejects. Qed.
Print Assumptions C17_hash8_rejects_keys.
Example C17_example :
  (ps <- oct_mapM (fun l => build (lane_setters l)) (Oct L0 L2 L0 L0 L0 L0 L0 L0) ;; hash8 release_avx2 ps uneven) = Panic /\
  Spec.key (spec_params (lane_setters L2)) <> [] /\
  (exists ps, oct_mapM (fun l => build (lane_setters l)) (Oct L0 L2 L0 L0 L0 L0 L0 L0) = Ok ps).
Proof. split; [vm_compute; reflexivity|]. split; [discriminate|]. eexists. vm_compute. reflexivity. Qed.

(** C18: hash8_exact and hash4_exact without a key. *)
Theorem C18_hash8_exact : forall c l p inputs, cfg_ok c -> build l = Ok p -> Spec.key (spec_params l) = [] ->
  whole_blocks (map (@length byte) (oct_list inputs)) ->
  (forall k, N.of_nat (length (proj k inputs)) < 2 ^ 64) ->
  exists hs, hash8_exact c p inputs = Ok hs /\ forall k,
    hash_one c p (proj k inputs) = Ok (proj k hs) /\
    as_bytes (proj k hs) = Ok (Spec.blake2s (spec_params l) (spec_last_node l) (proj k inputs)).
Proof. exact hash8_exact_separately. Qed.
Print Assumptions C18_hash8_exact.
Theorem C18_hash4_exact : forall c l p inputs, cfg_ok c -> build l = Ok p -> Spec.key (spec_params l) = [] ->
  whole_blocks (map (@length byte) (quad_list inputs)) ->
  (forall k, N.of_nat (length (qproj k inputs)) < 2 ^ 64) ->
  exists hs, hash4_exact c p inputs = Ok hs /\ forall k,
    hash_one c p (qproj k inputs) = Ok (qproj k hs) /\
    as_bytes (qproj k hs) = Ok (Spec.blake2s (spec_params l) (spec_last_node l) (qproj k inputs)).
Proof. exact hash4_exact_separately. Qed.
Print Assumptions C18_hash4_exact.
Definition cut (n : nat) : list byte := firstn 128 (skipn n (ramp 256)).
Definition eight_cuts : oct (list byte) :=
  Oct (cut 0) (cut 1) (cut 2) (cut 3) (cut 4) (cut 5) (cut 6) (cut 7).
Definition four_cuts : quad (list byte) := Quad (cut 0) (cut 11) (cut 22) (cut 33).
Example C18_example : exists p, build [SHashLength 9; SLastNode true] = Ok p /\
  whole_blocks (map (@length byte) (oct_list eight_cuts)) /\ whole_blocks (map (@length byte) (quad_list four_cuts)) /\
  (hs <- hash8_exact release_avx2 p eight_cuts ;; as_bytes (o5 hs)) = (h <- hash_one debug_portable p (cut 5) ;; as_bytes h) /\
  (hs <- hash4_exact release_avx2 p four_cuts ;; as_bytes (q2 hs)) = (h <- hash_one debug_portable p (cut 22) ;; as_bytes h).
Proof.
  eexists. split; [vm_compute; reflexivity|].
  split; [exists 2%nat; split; [repeat constructor|intros x Hx; repeat (destruct Hx as [<-|Hx]; [vm_compute; reflexivity|]); destruct Hx]|].
  split; [exists 2%nat; split; [repeat constructor|intros x Hx; repeat (destruct Hx as [<-|Hx]; [vm_compute; reflexivity|]); destruct Hx]|].
  split; vm_compute; reflexivity.
Qed.

(** C19: they panic exactly when the inputs are not whole blocks of one length. *)
Theorem C19_hash8_exact_lengths : forall c l p inputs, cfg_ok c -> build l = Ok p ->
  (forall k, N.of_nat (length (proj k inputs)) + 64 < 2 ^ 64) ->
  (whole_blocks (map (@length byte) (oct_list inputs)) -> exists hs, hash8_exact c p inputs = Ok hs) /\
  (~ whole_blocks (map (@length byte) (oct_list inputs)) -> hash8_exact c p inputs = Panic).
Proof. exact hash8_exact_outcome. Qed.
Print Assumptions C19_hash8_exact_lengths.
Theorem C19_hash4_exact_lengths : forall c l p inputs, cfg_ok c -> build l = Ok p ->
  (forall k, N.of_nat (length (qproj k inputs)) + 64 < 2 ^ 64) ->
  (whole_blocks (map (@length byte) (quad_list inputs)) -> exists hs, hash4_exact c p inputs = Ok hs) /\
  (~ whole_blocks (map (@length byte) (quad_list inputs)) -> hash4_exact c p inputs = Panic).
Proof. exact hash4_exact_outcome. Qed.
Print Assumptions C19_hash4_exact_lengths.
Example C19_example : exists p, build [] = Ok p /\
  hash4_exact release_avx2 p (Quad (ramp 64) (ramp 64) (ramp 128) (ramp 64)) = Panic /\
  hash4_exact release_avx2 p (Quad [] [] [] []) = Panic /\
  hash8_exact release_avx2 p (oct_const (ramp 65)) = Panic /\
  (hs <- hash8_exact release_avx2 p (oct_const (ramp 64)) ;; as_bytes (o0 hs)) <> Panic.
Proof.
  eexists. split; [vm_compute; reflexivity|]. split; [vm_compute; reflexivity|]. split; [vm_compute; reflexivity|].
  split; [vm_compute; reflexivity|]. vm_compute. discriminate.
Qed.

(** C20: with a key they do not return the keyed hash on SIMD platforms: refuted. *)
Theorem C20_hash8_exact_keyed_refuted : exists p, build keyed_params = Ok p /\
  (hs <- hash8_exact release_avx2 p eight_ramps ;; as_bytes (o0 hs)) <>
  (h <- hash_one release_avx2 p (o0 eight_ramps) ;; as_bytes h).
Proof. exact exact8_wrong. Qed.
Print Assumptions C20_hash8_exact_keyed_refuted.
Theorem C20_hash4_exact_keyed_refuted : exists p, build keyed_params = Ok p /\
  (hs <- hash4_exact release_avx2 p four_ramps ;; as_bytes (q0 hs)) <>
  (h <- hash_one release_avx2 p (q0 four_ramps) ;; as_bytes h).
Proof. exact exact4_wrong. Qed.
Print Assumptions C20_hash4_exact_keyed_refuted.
(** What they return instead, for all parameters and inputs: with SIMD the hash without
    the key block, otherwise the right one. *)
Theorem C20_hash8_exact_value : forall c l p inputs, cfg_ok c -> build l = Ok p ->
  whole_blocks (map (@length byte) (oct_list inputs)) ->
  (forall k, N.of_nat (length (proj k inputs)) + 64 < 2 ^ 64) ->
  exists hs, hash8_exact c p inputs = Ok hs /\ forall k, as_bytes (proj k hs) =
    Ok (if uses_simd c then without_key_block (spec_params l) (spec_last_node l) (proj k inputs)
        else Spec.blake2s (spec_params l) (spec_last_node l) (proj k inputs)).
Proof. exact hash8_exact_keyed. Qed.
Print Assumptions C20_hash8_exact_value.
Theorem C20_hash4_exact_value : forall c l p inputs, cfg_ok c -> build l = Ok p ->
  whole_blocks (map (@length byte) (quad_list inputs)) ->
  (forall k, N.of_nat (length (qproj k inputs)) + 64 < 2 ^ 64) ->
  exists hs, hash4_exact c p inputs = Ok hs /\ forall k, as_bytes (qproj k hs) =
    Ok (if uses_simd c then without_key_block (spec_params l) (spec_last_node l) (qproj k inputs)
        else Spec.blake2s (spec_params l) (spec_last_node l) (qproj k inputs)).
Proof. exact hash4_exact_keyed. Qed.
Print Assumptions C20_hash4_exact_value.
Example C20_example : exists p, build keyed_params = Ok p /\
  (hs <- hash8_exact release_avx2 p eight_ramps ;; as_bytes (o0 hs)) =
  Ok (without_key_block (spec_params keyed_params) false (ramp 64)).
Proof. eexists. split; [vm_compute; reflexivity|]. vm_compute. reflexivity. Qed.
