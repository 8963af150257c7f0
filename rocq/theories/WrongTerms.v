(** * WrongTerms: the compression calls of the wrong hashes (C20, C23).

    Nothing here models code of the crate: statements of C67 use these definitions. *)
From Verif Require Import Base Params Blake2sp MachineSpec Clients Terms.
From Verif Require Spec.
Local Open Scope N_scope.

(** The calls of [late_words] (Terms.v). *)
Definition late_calls (h : list N) (k : nat) (data : list byte) (last_node : bool) : list Spec.call :=
  let n := Spec.nblocks data in
  map (fun i => Spec.mk_call (late_chain h k data i) (Spec.block data i) (late_count k i) 0 0) (seq 0 (n - 1)%nat)
  ++ [Spec.mk_call (late_chain h k data (n - 1)%nat) (Spec.block data (n - 1)%nat) (N.of_nat (length data))
        Spec.ones (if last_node then Spec.ones else 0)].
(** The calls of [late_blake2sp] (Terms.v): those of the eight leaves, then those of the root. *)
Definition late_sp_calls (dlen : N) (key data : list byte) (k : nat) : list Spec.call :=
  flat_map (fun i => late_calls (Spec.initial (Spec.leaf_params dlen key i)) k
                       (let x := Spec.leaf_input i data in firstn (64 * k) x ++ Spec.key_block key ++ skipn (64 * k) x)
                       (Nat.eqb i 7)) (seq 0 8)
  ++ Spec.hash_calls (Spec.initial (Spec.root_params dlen key))
       (flat_map (late_leaf dlen key data k) (seq 0 8)) true.
(** The number of blocks of each leaf that are compressed before its key block. *)
Definition early (l : list sp_setter) (pieces : list (list byte)) : nat :=
  match sp_keyval l with [] => 0%nat | _ => settled 0 (map (@length _) pieces) end.
(** The same setter, but for the bytes of a key. *)
Definition same_but_key (s s' : setter) : Prop :=
  match s, s' with SKey k, SKey k' => length k = length k' | _, _ => s = s' end.
