(** * TraceTerms: words for statements about the routines that a program runs. *)
From Verif Require Import Base Params State Blake2sp Machine Views Clients Traced.

(** The routines without SIMD instructions. *)
Definition portable_routine (r : routine) : bool :=
  match r with
  | Compress compress_portable _ _ _ | Compress8 compress8_portable _ _ _
  | Vectorize8 vectorize_words8_portable | Compress8Vectorized compress8_vectorized_portable _ _ _ _ => true
  | _ => false
  end.
(** The function pointers are those [force_portable] puts in a [State], lib.rs:1078-1080, and
    in a [blake2sp::State], blake2sp.rs:438-449. *)
Definition portable_state (st : State) : Prop := st_compress_fn st = compress_portable.
Definition portable_sstate (st : SpState) : Prop :=
  (forall l, portable_state (proj l (sp_leaves st))) /\ portable_state (sp_root st) /\
  sp_compress8_fn st = compress8_portable.
(** The calls that ask the CPU: they make a state, or take functions from
    [default_compress_impl] for their own use. *)
Definition dispatches (o : op) : bool :=
  match o with
  | StateNew | ToState _ | Update8 _ _ | Finalize8 _ | Blake2s _ | Hash8 _ _ | Hash8Exact _ _ | Hash4Exact _ _
  | SpStateNew | SpToState _ | OneShotSp _ => true
  | _ => false
  end.

(** The calls that make a state, and the call that forces the state just made. *)
Definition creates (o : op) : bool :=
  match o with StateNew | ToState _ | SpStateNew | SpToState _ => true | _ => false end.
Definition force_newest (s : session) (o : op) : op :=
  match o with
  | StateNew | ToState _ => ForcePortable (length (s_states s))
  | _ => SpForcePortable (length (s_sstates s))
  end.

(** The lanes of the functions for eight inputs, in order, and one value for each. *)
Definition lanes : list lane8 := [L0; L1; L2; L3; L4; L5; L6; L7].
Definition each {A} (g : lane8 -> A) : oct A := oct_map g (Oct L0 L1 L2 L3 L4 L5 L6 L7).
(** [update8] first compresses the buffer of a state that has taken [m] bytes, if more input
    comes than its block has room for. How many blocks are compressed after that. *)
Definition start (m n : nat) : nat := Nat.min ((m + 63) / 64) (blocks_done (m + n)).
