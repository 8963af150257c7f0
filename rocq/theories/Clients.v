(** * Clients: small client programs and notions the property statements use.

    Nothing here models code of the crate; these are ways of calling the model. *)
From Verif Require Import Base Consts Params State Many Blake2sp Views Machine MachineSpec.
From Verif Require Spec Avx2 Portable.
Local Open Scope N_scope.

(** ** Feeding a message in pieces *)
Fixpoint feed (c : cfg) (st : State) (pieces : list (list byte)) : outcome State :=
  match pieces with
  | [] => Ok st
  | x :: l => st <- update c st x ;; feed c st l
  end.
Definition hash_pieces (c : cfg) (p : Params) (pieces : list (list byte)) : outcome (list byte) :=
  st <- to_state c p ;;
  st <- feed c st pieces ;;
  ' (_, h) <- finalize c st ;;
  as_bytes h.

Fixpoint sp_feed (c : cfg) (st : SpState) (pieces : list (list byte)) : outcome SpState :=
  match pieces with
  | [] => Ok st
  | x :: l => st <- sp_update c st x ;; sp_feed c st l
  end.
Definition sp_hash_pieces (c : cfg) (p : SpParams) (pieces : list (list byte)) : outcome (list byte) :=
  st <- sp_to_state c p ;;
  st <- sp_feed c st pieces ;;
  h <- sp_finalize c st ;;
  as_bytes h.

(** ** [std::io::Write::write_all]: write again and again until nothing is left; a
    write of zero bytes is an error ([None]). *)
Fixpoint write_all (fuel : nat) (c : cfg) (st : State) (buf : list byte) : outcome (option State) :=
  match fuel with
  | O => Stuck
  | S fuel =>
      match buf with
      | [] => Ok (Some st)
      | _ :: _ =>
          ' (st, n) <- write c st buf ;;
          if Nat.eqb n 0 then Ok None else write_all fuel c st (skipn n buf)
      end
  end.
Fixpoint sp_write_all (fuel : nat) (c : cfg) (st : SpState) (buf : list byte) : outcome (option SpState) :=
  match fuel with
  | O => Stuck
  | S fuel =>
      match buf with
      | [] => Ok (Some st)
      | _ :: _ =>
          ' (st, n) <- sp_write c st buf ;;
          if Nat.eqb n 0 then Ok None else sp_write_all fuel c st (skipn n buf)
      end
  end.

(** ** The states a program can hold *)
Inductive reachable (c : cfg) : State -> Prop :=
| R_new l p st : build l = Ok p -> to_state c p = Ok st -> reachable c st
| R_update st x st' : reachable c st -> update c st x = Ok st' -> reachable c st'
| R_last st b : reachable c st -> reachable c (set_last_node st b)
| R_portable st : reachable c st -> reachable c (force_portable st)
| R_finalize st st' h : reachable c st -> finalize c st = Ok (st', h) -> reachable c st'
| R_update8 sts x sts' l : (forall l, reachable c (proj l sts)) -> update8 c sts x = Ok sts' ->
    reachable c (proj l sts')
| R_finalize8 sts sts' hs l : (forall l, reachable c (proj l sts)) -> finalize8 c sts = Ok (sts', hs) ->
    reachable c (proj l sts').

Inductive sp_reachable (c : cfg) : SpState -> Prop :=
| SR_new l p st : sp_build l = Ok p -> sp_to_state c p = Ok st -> sp_reachable c st
| SR_update st x st' : sp_reachable c st -> sp_update c st x = Ok st' -> sp_reachable c st'
| SR_portable st : sp_reachable c st -> sp_reachable c (sp_force_portable st).

(** ** No program can tell them apart: put either one into any session any program
    can produce; from there on every program sees the same and ends the same way. *)
Definition interchangeable (c : cfg) (a b : State) : Prop :=
  forall before s ops, after c empty_session before = Some s ->
    Forall mem_ok before -> Forall mem_ok ops ->
    run c (with_states s (s_states s ++ [a])) ops = run c (with_states s (s_states s ++ [b])) ops.
Definition sp_interchangeable (c : cfg) (a b : SpState) : Prop :=
  forall before s ops, after c empty_session before = Some s ->
    Forall mem_ok before -> Forall mem_ok ops ->
    run c (with_sstates s (s_sstates s ++ [a])) ops = run c (with_sstates s (s_sstates s ++ [b])) ops.

(** Two calls that both panic, or both return interchangeable states. *)
Definition same_state (c : cfg) (x y : outcome State) : Prop :=
  match x, y with
  | Ok a, Ok b => interchangeable c a b
  | Panic, Panic => True
  | _, _ => False
  end.

(** ** The vectorized interface of avx2.rs and portable.rs *)
Record vcall := mk_vcall {
  v_blocks : oct (list byte); v_low : oct u32; v_high : oct u32; v_lastblock : oct u32; v_lastnode : oct u32
}.
(** Eight whole blocks. *)
Definition vcall_ok (k : vcall) : Prop := forall l, length (proj l (v_blocks k)) = 64%nat.
(** vectorize; compress8_vectorized, any number of times; vectorize *)
Definition avx2_session (words : oct (oct u32)) (calls : list vcall) : oct (oct u32) :=
  Avx2.vectorize_words8
    (fold_left (fun w k => Avx2.compress8_vectorized w (v_blocks k) (v_low k) (v_high k) (v_lastblock k) (v_lastnode k))
               calls (Avx2.vectorize_words8 words)).
Definition portable_session (words : oct (oct u32)) (calls : list vcall) : oct (oct u32) :=
  Portable.vectorize_words8
    (fold_left (fun w k => Portable.compress8_vectorized w (v_blocks k) (v_low k) (v_high k) (v_lastblock k) (v_lastnode k))
               calls (Portable.vectorize_words8 words)).
(** What each lane should do. *)
Definition lane_session (l : lane8) (h : list N) (calls : list vcall) : list N :=
  fold_left (fun h k => Spec.F h (proj l (v_blocks k))
                          (val (proj l (v_low k)) + 2 ^ 32 * val (proj l (v_high k)))
                          (val (proj l (v_lastblock k))) (val (proj l (v_lastnode k))))
            calls h.

(** ** Setter calls *)
(** Do the two calls set the same field? *)
Definition same_kind (s t : setter) : bool :=
  match s, t with
  | SHashLength _, SHashLength _ | SKey _, SKey _ | SSalt _, SSalt _ | SPersonal _, SPersonal _
  | SMaxDepth _, SMaxDepth _ | SNodeOffset _, SNodeOffset _ | SInnerHashLength _, SInnerHashLength _
  | SFanout _, SFanout _ | SMaxLeafLength _, SMaxLeafLength _ | SNodeDepth _, SNodeDepth _
  | SLastNode _, SLastNode _ => true
  | _, _ => false
  end.
(** Calls other than [key]. *)
Definition no_key (s : setter) : bool := match s with SKey _ => false | _ => true end.
Definition sp_no_key (s : sp_setter) : bool := match s with SpKey _ => false | _ => true end.

(** ** Keys and lengths *)
(** The bytes a key adds to the counter. *)
Definition key_bytes (k : list byte) : N := match k with [] => 0 | _ => 64 end.
(** BLAKE2s of [msg] with the key left out (its length still is in the parameter block). *)
Definition without_key_block (sp : Spec.params) (last_node : bool) (msg : list byte) : list byte :=
  firstn (N.to_nat (Spec.digest_length sp)) (Spec.words_bytes (Spec.hash_words (Spec.initial sp) msg last_node)).
(** The dispatch of lib.rs:1024-1057 picks the SIMD implementations. *)
Definition uses_simd (c : cfg) : bool := arch_x86 c && feature_std c && cpu_avx2 c.
(** Equal lengths, positive multiples of 64. *)
Definition whole_blocks (lens : list nat) : Prop :=
  exists n, (0 < n)%nat /\ forall x, In x lens -> x = (64 * n)%nat.
(** The number of whole blocks followed by at least one more byte. *)
Definition blocks_done (n : nat) : nat := ((n - 1) / 64)%nat.
(** Keyed BLAKE2sp, fed [pieces] after [n] bytes: at most 1024 bytes in all, and no
    first non-empty piece over 960 bytes. *)
Fixpoint keyed_fit (n : nat) (pieces : list (list byte)) : bool :=
  match pieces with
  | [] => true
  | x :: l => Nat.leb (n + length x) 1024 && (negb (Nat.eqb n 0) || Nat.leb (length x) 960) && keyed_fit (n + length x) l
  end.

(** ** The hashes programs hold *)
Definition held (c : cfg) (h : Hash) : Prop :=
  exists ops s, Forall mem_ok ops /\ after c empty_session ops = Some s /\ In h (s_hashes s).

(** ** Updates and [set_last_node] calls, interleaved *)
Inductive act := AUpdate (x : list byte) | ALastNode (b : bool).
Fixpoint do_acts (c : cfg) (st : State) (acts : list act) : outcome State :=
  match acts with
  | [] => Ok st
  | AUpdate x :: l => st <- update c st x ;; do_acts c st l
  | ALastNode b :: l => do_acts c (set_last_node st b) l
  end.
(** The bytes supplied; the flag after the last call. *)
Definition acts_bytes (acts : list act) : list byte :=
  flat_map (fun a => match a with AUpdate x => x | _ => [] end) acts.
Definition acts_last (d : bool) (acts : list act) : bool :=
  fold_left (fun d a => match a with ALastNode b => b | _ => d end) acts d.
