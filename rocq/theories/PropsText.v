(** * Properties C26-C28: the [Hash] type.

    [held c h]: some program holds the hash [h].  [as_bytes] are the visible bytes. *)
From Verif Require Import Base Params State Many Debug ParamsSpec Machine MachineSpec Clients Terms Witness Corollaries.
From Verif Require Spec.
From Coq Require Import String.
Local Notation length := List.length (only parsing).
Local Open Scope N_scope.

(** A hash that a program holds. *)
Definition hash_program : list op := [ParamsNew; ParamsSet 0 (SHashLength 5); ToState 0; Update 0 (ramp 70); Finalize 0].
Example some_held : exists h, held release_portable h /\
  as_bytes h = Ok (Spec.blake2s (spec_params [SHashLength 5]) false (ramp 70)).
Proof.
  destruct (after release_portable empty_session hash_program) as [s|] eqn:E; [|vm_compute in E; discriminate E].
  destruct (s_hashes s) as [|h l] eqn:El.
  - vm_compute in E. injection E as <-. vm_compute in El. discriminate El.
  - exists h. split.
    + exists hash_program, s. split; [|split; [exact E|rewrite El; left; reflexivity]].
      repeat constructor.
    + assert (H : match after release_portable empty_session hash_program with
                  | Some s => match s_hashes s with h :: _ => as_bytes h | _ => Panic end | None => Panic end = as_bytes h).
      { rewrite E, El. reflexivity. }
      rewrite <- H. vm_compute. reflexivity.
Qed.

(** C26: a hash shows exactly as many bytes as asked for, the first ones of the final
    state; reading them never fails. *)
Theorem C26_hash_length : forall c l p x h, cfg_ok c -> build l = Ok p -> N.of_nat (length x) + 64 < 2 ^ 64 ->
  hash_one c p x = Ok h ->
  exists b, as_bytes h = Ok b /\ N.of_nat (length b) = last_call sel_hash_length 32 l /\
    val (h_len h) = last_call sel_hash_length 32 l /\ b = firstn (length b) (Params.h_bytes h) /\
    Params.h_bytes h = Spec.words_bytes (Spec.hash_words (Spec.initial (spec_params l))
      (Spec.key_block (Spec.key (spec_params l)) ++ x) (spec_last_node l)).
Proof. exact hash_length_value. Qed.
Print Assumptions C26_hash_length.
Theorem C26_any_hash : forall c h, cfg_ok c -> held c h ->
  exists b, as_bytes h = Ok b /\ N.of_nat (length b) = val (h_len h) /\ 1 <= val (h_len h) <= 32 /\
    length (Params.h_bytes h) = 32%nat /\ b = firstn (length b) (Params.h_bytes h).
Proof. exact held_bytes. Qed.
Print Assumptions C26_any_hash.
Example C26_example : exists p, build [SHashLength 1] = Ok p /\
  exists h, hash_one release_avx2 p (ramp 3) = Ok h /\ as_bytes h = Ok [x69]%byte.
Proof.
  eexists. split; [vm_compute; reflexivity|]. eexists. split; [vm_compute; reflexivity|]. vm_compute. reflexivity.
Qed.

(** C27: equality of hashes is equality of their visible bytes. *)
Theorem C27_hash_eq : forall c h h', cfg_ok c -> held c h -> held c h' ->
  exists b b', as_bytes h = Ok b /\ as_bytes h' = Ok b' /\
    hash_eq h h' = Ok (if list_eq_dec Byte.byte_eq_dec b b' then true else false).
Proof. exact hash_eq_bytes. Qed.
Print Assumptions C27_hash_eq.
Theorem C27_hash_eq_slice : forall c h x, cfg_ok c -> held c h ->
  exists b, as_bytes h = Ok b /\
    hash_eq_slice h x = Ok (if list_eq_dec Byte.byte_eq_dec b x then true else false).
Proof. exact hash_eq_slice_bytes. Qed.
Print Assumptions C27_hash_eq_slice.
Theorem C27_equivalence : forall c, cfg_ok c ->
  (forall h, held c h -> hash_eq h h = Ok true) /\
  (forall h h', held c h -> held c h' -> hash_eq h h' = hash_eq h' h) /\
  (forall h h' h'', held c h -> held c h' -> held c h'' ->
     hash_eq h h' = Ok true -> hash_eq h' h'' = Ok true -> hash_eq h h'' = Ok true).
Proof. exact hash_eq_equivalence. Qed.
Print Assumptions C27_equivalence.
Example C27_example : exists h, held release_portable h /\ hash_eq_slice h [] = Ok false /\
  hash_eq_slice h (Spec.blake2s (spec_params [SHashLength 5]) false (ramp 70)) = Ok true.
Proof.
  destruct some_held as (h & H & E). exists h. split; [exact H|].
  unfold hash_eq_slice. rewrite E. cbn [bind]. vm_compute. split; reflexivity.
Qed.

(** C28: [to_hex] is lowercase hexadecimal, fits its 64-character buffer and is
    injective; the Debug text is built from it. *)
Theorem C28_hex : forall c h, cfg_ok c -> held c h ->
  exists b, as_bytes h = Ok b /\ to_hex h = Ok (Spec.hex b) /\
    (length (Spec.hex b) = 2 * length b)%nat /\ (length (Spec.hex b) <= 64)%nat /\
    hash_debug h = Ok (hash_text b).
Proof. exact to_hex_bytes. Qed.
Print Assumptions C28_hex.
Theorem C28_hex_injective : forall c h h', cfg_ok c -> held c h -> held c h' ->
  to_hex h = to_hex h' -> as_bytes h = as_bytes h'.
Proof. exact hex_injective. Qed.
Print Assumptions C28_hex_injective.
Example C28_example :
  hash_text [x00; xff; x9a]%byte = "Hash(0x00ff9a)"%string /\
  Spec.hex [x00; xff; x9a]%byte = [x30; x30; x66; x66; x39; x61]%byte /\
  exists h, held release_portable h.
Proof. split; [reflexivity|]. split; [reflexivity|]. destruct some_held as (h & H & _). exists h. exact H. Qed.
