(** * Terms: definitions that property statements use.

    Nothing here models code of the crate.  Some definitions describe results of it in
    closed form, others take apart what a program does and sees. *)
From Verif Require Import Base Consts Params State Many Blake2sp Views Debug Machine MachineSpec Clients.
From Verif Require Spec.
From Coq Require Import String.
Local Notation length := List.length (only parsing).
Local Open Scope N_scope.

(** ** How many groups of eight blocks [blake2sp::State::update] compresses *)
(** The number of groups the loop takes off an input of [n] bytes. *)
Definition loops (n : nat) : nat := ((n - 960 + 511) / 512)%nat.
(** The number of groups one call compresses, with [b] bytes in the buffer. *)
Definition groups (b n : nat) : nat :=
  if negb (Nat.eqb b 0) && Nat.leb (b + n) 1024 then 0%nat else loops (b + n).
(** Groups compressed by a sequence of calls. *)
Fixpoint settled (b : nat) (pieces : list nat) : nat :=
  match pieces with
  | [] => 0
  | n :: l => groups b n + settled (b + n - 512 * groups b n) l
  end%nat.

(** ** What keyed BLAKE2sp computes in builds without debug assertions *)
(** The counter of block [i] of a stream in which the first [k] blocks are counted
    one block too far. *)
Definition late_count (k i : nat) : N := 64 * N.of_nat (if Nat.ltb i k then i + 2 else i + 1).
Definition late_chain (h : list N) (k : nat) (data : list byte) (n : nat) : list N :=
  fold_left (fun h i => Spec.F h (Spec.block data i) (late_count k i) 0 0) (seq 0 n) h.
Definition late_words (h : list N) (k : nat) (data : list byte) (last_node : bool) : list N :=
  let n := Spec.nblocks data in
  Spec.F (late_chain h k data (n - 1)) (Spec.block data (n - 1)) (N.of_nat (length data))
    Spec.ones (if last_node then Spec.ones else 0).
(** Leaf [i]: the key block comes after the first [k] blocks of the leaf's input. *)
Definition late_leaf (dlen : N) (key data : list byte) (k i : nat) : list byte :=
  let x := Spec.leaf_input i data in
  Spec.words_bytes (late_words (Spec.initial (Spec.leaf_params dlen key i)) k
    (firstn (64 * k) x ++ Spec.key_block key ++ skipn (64 * k) x) (Nat.eqb i 7)).
Definition late_blake2sp (dlen : N) (key data : list byte) (k : nat) : list byte :=
  firstn (N.to_nat dlen)
    (Spec.words_bytes (Spec.hash_words (Spec.initial (Spec.root_params dlen key))
                        (flat_map (late_leaf dlen key data k) (seq 0 8)) true)).

(** ** The Debug text of a BLAKE2sp state *)
(** The text for a state that was given [count] bytes (counting 512 for a key), whose
    leaves have each taken [leaf] of them. *)
Definition sp_state_text (count leaf hash_length : N) : string :=
  ("State { count: " ++ number_text count ++ ", root: " ++ state_text 0 hash_length true ++
   ", leaf0: " ++ state_text leaf 32 false ++ ", leaf1: " ++ state_text leaf 32 false ++
   ", leaf2: " ++ state_text leaf 32 false ++ ", leaf3: " ++ state_text leaf 32 false ++ " }")%string.

(** ** Programs with the contents of byte strings wiped *)
(** The same string with its contents wiped. *)
Definition blank (l : list byte) : list byte := repeat x00 (length l).
Definition blank_setter (s : setter) : setter :=
  match s with
  | SKey k => SKey (blank k)
  | SSalt k => SSalt (blank k)
  | SPersonal k => SPersonal (blank k)
  | s => s
  end.
Definition blank_sp_setter (s : sp_setter) : sp_setter :=
  match s with SpKey k => SpKey (blank k) | s => s end.
(** The same call with the contents of its byte strings wiped. *)
Definition blank_op (o : op) : op :=
  match o with
  | ParamsSet i s => ParamsSet i (blank_setter s)
  | Update i b => Update i (blank b)
  | Write i b => Write i (blank b)
  | Update8 i b => Update8 i (oct_map blank b)
  | Blake2s b => Blake2s (blank b)
  | Hash8 i b => Hash8 i (oct_map blank b)
  | Hash8Exact i b => Hash8Exact i (oct_map blank b)
  | Hash4Exact i b => Hash4Exact i (quad_map blank b)
  | HashEqSlice i b => HashEqSlice i (blank b)
  | SpParamsSet i s => SpParamsSet i (blank_sp_setter s)
  | SpUpdate i b => SpUpdate i (blank b)
  | SpWrite i b => SpWrite i (blank b)
  | OneShotSp b => OneShotSp (blank b)
  | o => o
  end.

(** What is left of a result when the bytes of hashes are wiped from it.  The Debug
    texts of states and parameters are left whole. *)
Definition wipe (o : op) (x : obs) : obs :=
  match o, x with
  | HashDebug _, OText t => ONumber (N.of_nat (String.length t))
  | HashEq _ _, OBool _ | HashEqSlice _ _, OBool _ => ONone
  | _, OBytes b => OBytes (blank b)
  | _, OMany l => OMany (map blank l)
  | _, x => x
  end.
Definition wiped (ops : list op) (xs : list obs) : list obs :=
  map (fun p => wipe (fst p) (snd p)) (combine ops xs).

(** ** The Debug text of a state after some calls *)
Definition text_of (c : cfg) (l : list setter) (pieces : list (list byte)) : outcome string :=
  p <- build l ;; st <- to_state c p ;; st <- feed c st pieces ;; Ok (state_debug st).
Definition sp_text_of (c : cfg) (l : list sp_setter) (pieces : list (list byte)) : outcome string :=
  p <- sp_build l ;; st <- sp_to_state c p ;; st <- sp_feed c st pieces ;; sp_state_debug c st.

(** ** Any values the types allow

    Arrays have their lengths and function pointers point to code that the CPU can
    execute; nothing is said about contents, counters or fill levels. *)
Definition typed_state (c : cfg) (st : State) : Prop :=
  length (st_buf st) = 64%nat /\ (st_compress_fn st = compress_sse41 -> has_sse41 c = true).
Definition typed_params (p : Params) : Prop := length (p_key p) = 32%nat.
Definition typed_hash (h : Hash) : Prop := length (h_bytes h) = 32%nat.
Definition typed_sparams (p : SpParams) : Prop := length (sp_key p) = 32%nat.
Definition typed_sstate (c : cfg) (st : SpState) : Prop :=
  length (sp_buf st) = 1024%nat /\ (forall l, typed_state c (proj l (sp_leaves st))) /\ typed_state c (sp_root st) /\
  (sp_compress8_fn st = compress8_avx2 -> has_avx2 c = true).
Definition typed (c : cfg) (s : session) : Prop :=
  Forall typed_params (s_params s) /\ Forall (typed_state c) (s_states s) /\ Forall typed_hash (s_hashes s) /\
  Forall typed_sparams (s_sparams s) /\ Forall (typed_sstate c) (s_sstates s).

(** A program that catches every panic and goes on with whatever the interrupted call
    left behind, here any values at all. *)
Inductive catching (c : cfg) : session -> list op -> session -> Prop :=
| Catch_end s : catching c s [] s
| Catch_ok s o s' x ops s'' : step c s o = Ok (s', x) -> catching c s' ops s'' -> catching c s (o :: ops) s''
| Catch_panic s o s' ops s'' : step c s o = Panic -> typed c s' -> catching c s' ops s'' -> catching c s (o :: ops) s''.

(** ** The nine nodes of a [blake2sp::State] *)
(** The words of the eight leaves and of the root. *)
Definition node_words (st : SpState) : list (oct u32) := map st_h (oct_list (sp_leaves st)) ++ [st_h (sp_root st)].
