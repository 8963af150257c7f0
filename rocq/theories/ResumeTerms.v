(** * ResumeTerms: what the theorems on states with any contents (C69) speak of. *)
From Verif Require Import Base Params State Blake2sp Views Clients.
From Verif Require Spec.
Local Open Scope N_scope.

(** ** What is computed

    The message [data] starts with [m] bytes already counted in [C]. *)

(** The counter after [n] bytes of [data]. *)
Definition tally (C : N) (m n : nat) : N := C + N.of_nat (n - m).
(** RFC 7693 3.3 with this counter: the first [k] blocks. *)
Definition chain_from (h : list N) (C : N) (m : nat) (data : list byte) (k : nat) : list N :=
  fold_left (fun h i => Spec.F h (Spec.block data i) (tally C m (64 * (i + 1))) 0 0) (seq 0 k) h.
(** All blocks. *)
Definition hash_from (h : list N) (C : N) (m : nat) (data : list byte) (last_node : bool) : list N :=
  let n := Spec.nblocks data in
  Spec.F (chain_from h C m data (n - 1)) (Spec.block data (n - 1)) (tally C m (length data))
    Spec.ones (if last_node then Spec.ones else 0).

(** Its calls of the compression function, in the manner of [Spec.hash_calls]; the counters are 64 bits. *)
Definition calls_from (h : list N) (C : N) (m : nat) (data : list byte) (last_node : bool) : list Spec.call :=
  let n := Spec.nblocks data in
  map (fun i => Spec.mk_call (chain_from h C m data i) (Spec.block data i) (tally C m (64 * (i + 1)) mod 2 ^ 64) 0 0)
      (seq 0 (n - 1))
  ++ [Spec.mk_call (chain_from h C m data (n - 1)) (Spec.block data (n - 1)) (tally C m (length data) mod 2 ^ 64)
        Spec.ones (if last_node then Spec.ones else 0)].

(** Feeding [pieces] to a state and finalizing: the count and the hash. *)
Definition observed (c : cfg) (st : State) (pieces : list (list byte)) : outcome (u64 * Hash) :=
  st <- feed c st pieces ;; ' (st, h) <- finalize c st ;; Ok (count st, h).

(** ** BLAKE2sp

    What leaf [i] gives the root, and what all eight give, when the leaves are given [data]. *)
Definition leaf_from (leaf : State) (i : nat) (data : list byte) : list byte :=
  firstn (N.to_nat (val (st_hash_length leaf)))
    (Spec.words_bytes (hash_from (nums (st_h leaf)) (val (count leaf)) 0 (Spec.leaf_input i data) (st_last_node leaf))).
Definition leaves_from (leaves : oct State) (data : list byte) : list byte :=
  leaf_from (o0 leaves) 0 data ++ leaf_from (o1 leaves) 1 data ++ leaf_from (o2 leaves) 2 data ++
  leaf_from (o3 leaves) 3 data ++ leaf_from (o4 leaves) 4 data ++ leaf_from (o5 leaves) 5 data ++
  leaf_from (o6 leaves) 6 data ++ leaf_from (o7 leaves) 7 data.
(** Feeding [pieces] and finalizing. *)
Definition sp_observed (c : cfg) (st : SpState) (pieces : list (list byte)) : outcome Hash :=
  st <- sp_feed c st pieces ;; sp_finalize c st.
