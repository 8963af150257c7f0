(** * Machine: programs using the crate, as sequences of API calls on live objects.

    A program owns any number of [Params], [State] and [Hash] values of the crate
    root and [Params] and [State] values of [blake2sp].  Objects are named by the
    order of their creation.  A call on a name that does not exist, or an 8-way call
    with two equal [&mut] arguments (which the borrow checker rejects), does nothing. *)
From Verif Require Import Base Consts Params State Many Blake2sp Debug.
From Coq Require Import String.
Local Open Scope N_scope.

(** The public API.  Where two API functions have the same body they share an
    operation ([State::new] and [State::default]; [as_bytes] and [as_ref]). *)
Inductive op :=
(* lib.rs *)
| ParamsNew
| ParamsClone (i : nat)
| ParamsSet (i : nat) (s : setter)
| StateNew
| ToState (i : nat)
| StateClone (i : nat)
| Update (i : nat) (input : list byte)
| Write (i : nat) (input : list byte)
| Flush (i : nat)
| SetLastNode (i : nat) (b : bool)
| Count (i : nat)
| StateDebug (i : nat)
| ForcePortable (i : nat)
| Finalize (i : nat)
| Update8 (i : oct nat) (inputs : oct (list byte))
| Finalize8 (i : oct nat)
| Blake2s (input : list byte)
| Hash8 (i : oct nat) (inputs : oct (list byte))
| Hash8Exact (i : nat) (inputs : oct (list byte))
| Hash4Exact (i : nat) (inputs : quad (list byte))
| HashBytes (i : nat)
| HashHex (i : nat)
| HashDebug (i : nat)
| HashEq (i j : nat)
| HashEqSlice (i : nat) (other : list byte)
(* blake2sp.rs *)
| SpParamsNew
| SpParamsClone (i : nat)
| SpParamsSet (i : nat) (s : sp_setter)
| SpParamsDebug (i : nat)
| SpStateNew
| SpToState (i : nat)
| SpClone (i : nat)
| SpUpdate (i : nat) (input : list byte)
| SpWrite (i : nat) (input : list byte)
| SpFlush (i : nat)
| SpCount (i : nat)
| SpDebug (i : nat)
| SpForcePortable (i : nat)
| SpFinalize (i : nat)
| OneShotSp (input : list byte).

(** What the program sees. *)
Inductive obs :=
| ONone                         (* nothing, or a reference or object it already names *)
| OInvalid                      (* no such object *)
| OBytes (b : list byte)        (* the bytes of a hash *)
| OMany (l : list (list byte))  (* the bytes of several hashes *)
| ONumber (n : N)
| OText (s : string)
| ODump (s : string)            (* the Debug text of a [blake2sp] [State] *)
| OBool (b : bool).

Record session := mk_session {
  s_params : list Params;
  s_states : list State;
  s_hashes : list Hash;
  s_sparams : list SpParams;
  s_sstates : list SpState
}.
Definition empty_session : session := mk_session [] [] [] [] [].

Definition with_params_list s l := mk_session l (s_states s) (s_hashes s) (s_sparams s) (s_sstates s).
Definition with_states s l := mk_session (s_params s) l (s_hashes s) (s_sparams s) (s_sstates s).
Definition with_hashes s l := mk_session (s_params s) (s_states s) l (s_sparams s) (s_sstates s).
Definition with_sparams s l := mk_session (s_params s) (s_states s) (s_hashes s) l (s_sstates s).
Definition with_sstates s l := mk_session (s_params s) (s_states s) (s_hashes s) (s_sparams s) l.

(** Run [f] on object number [i]. *)
Definition at_obj {A B} (l : list A) (i : nat) (no : B) (f : A -> B) : B :=
  match nth_error l i with Some x => f x | None => no end.
(** The eight objects, when all the names exist. *)
Definition pick8 {A} (l : list A) (i : oct nat) : option (oct A) :=
  match nth_error l (o0 i), nth_error l (o1 i), nth_error l (o2 i), nth_error l (o3 i),
        nth_error l (o4 i), nth_error l (o5 i), nth_error l (o6 i), nth_error l (o7 i) with
  | Some a, Some b, Some c, Some d, Some e, Some f, Some g, Some h => Some (Oct a b c d e f g h)
  | _, _, _, _, _, _, _, _ => None
  end.
(** Write eight objects back. *)
Definition put8 {A} (l : list A) (i : oct nat) (x : oct A) : list A :=
  upd (upd (upd (upd (upd (upd (upd (upd l (o0 i) (o0 x)) (o1 i) (o1 x)) (o2 i) (o2 x)) (o3 i) (o3 x))
    (o4 i) (o4 x)) (o5 i) (o5 x)) (o6 i) (o6 x)) (o7 i) (o7 x).
(** No two names are equal. *)
Fixpoint distinct (l : list nat) : bool :=
  match l with [] => true | x :: l => negb (existsb (Nat.eqb x) l) && distinct l end.

(** Push a new hash and show its bytes. *)
Definition give_hash (s : session) (h : Hash) : outcome (session * obs) :=
  b <- as_bytes h ;; Ok (with_hashes s (s_hashes s ++ [h]), OBytes b).
Fixpoint all_bytes (l : list Hash) : outcome (list (list byte)) :=
  match l with
  | [] => Ok []
  | h :: l => b <- as_bytes h ;; bs <- all_bytes l ;; Ok (b :: bs)
  end.
Definition give_hashes (s : session) (l : list Hash) : outcome (session * obs) :=
  bs <- all_bytes l ;; Ok (with_hashes s (s_hashes s ++ l), OMany bs).

(** One API call. *)
Definition step (c : cfg) (s : session) (o : op) : outcome (session * obs) :=
  let invalid := Ok (s, OInvalid) in
  let put_state i st := with_states s (upd (s_states s) i st) in
  let put_sstate i st := with_sstates s (upd (s_sstates s) i st) in
  match o with
  | ParamsNew => Ok (with_params_list s (s_params s ++ [Params_new]), ONone)
  | ParamsClone i => at_obj (s_params s) i invalid (fun p =>
      Ok (with_params_list s (s_params s ++ [p]), ONone))
  | ParamsSet i x => at_obj (s_params s) i invalid (fun p =>
      p <- apply_setter p x ;; Ok (with_params_list s (upd (s_params s) i p), ONone))
  | StateNew => st <- State_new c ;; Ok (with_states s (s_states s ++ [st]), ONone)
  | ToState i => at_obj (s_params s) i invalid (fun p =>
      st <- to_state c p ;; Ok (with_states s (s_states s ++ [st]), ONone))
  | StateClone i => at_obj (s_states s) i invalid (fun st =>
      Ok (with_states s (s_states s ++ [st]), ONone))
  | Update i input => at_obj (s_states s) i invalid (fun st =>
      st <- update c st input ;; Ok (put_state i st, ONone))
  | Write i input => at_obj (s_states s) i invalid (fun st =>
      ' (st, n) <- write c st input ;; Ok (put_state i st, ONumber (N.of_nat n)))
  | Flush i => at_obj (s_states s) i invalid (fun st =>
      st <- flush st ;; Ok (put_state i st, ONone))
  | SetLastNode i b => at_obj (s_states s) i invalid (fun st =>
      Ok (put_state i (set_last_node st b), ONone))
  | Count i => at_obj (s_states s) i invalid (fun st => Ok (s, ONumber (val (count st))))
  | StateDebug i => at_obj (s_states s) i invalid (fun st => Ok (s, OText (state_debug st)))
  | ForcePortable i => at_obj (s_states s) i invalid (fun st =>
      Ok (put_state i (force_portable st), ONone))
  | Finalize i => at_obj (s_states s) i invalid (fun st =>
      ' (st, h) <- finalize c st ;; give_hash (put_state i st) h)
  | Update8 i inputs =>
      match pick8 (s_states s) i with
      | Some sts =>
          if distinct (oct_list i) then
            sts <- update8 c sts inputs ;;
            Ok (with_states s (put8 (s_states s) i sts), ONone)
          else invalid
      | None => invalid
      end
  | Finalize8 i =>
      match pick8 (s_states s) i with
      | Some sts =>
          if distinct (oct_list i) then
            ' (sts, hs) <- finalize8 c sts ;;
            give_hashes (with_states s (put8 (s_states s) i sts)) (oct_list hs)
          else invalid
      | None => invalid
      end
  | Blake2s input => h <- blake2s c input ;; give_hash s h
  | Hash8 i inputs =>
      match pick8 (s_params s) i with
      | Some ps => hs <- hash8 c ps inputs ;; give_hashes s (oct_list hs)
      | None => invalid
      end
  | Hash8Exact i inputs => at_obj (s_params s) i invalid (fun p =>
      hs <- hash8_exact c p inputs ;; give_hashes s (oct_list hs))
  | Hash4Exact i inputs => at_obj (s_params s) i invalid (fun p =>
      hs <- hash4_exact c p inputs ;; give_hashes s (quad_list hs))
  | HashBytes i => at_obj (s_hashes s) i invalid (fun h => b <- as_bytes h ;; Ok (s, OBytes b))
  | HashHex i => at_obj (s_hashes s) i invalid (fun h => b <- to_hex h ;; Ok (s, OBytes b))
  | HashDebug i => at_obj (s_hashes s) i invalid (fun h => t <- hash_debug h ;; Ok (s, OText t))
  | HashEq i j => at_obj (s_hashes s) i invalid (fun h => at_obj (s_hashes s) j invalid (fun h' =>
      b <- hash_eq h h' ;; Ok (s, OBool b)))
  | HashEqSlice i x => at_obj (s_hashes s) i invalid (fun h =>
      b <- hash_eq_slice h x ;; Ok (s, OBool b))
  | SpParamsNew => Ok (with_sparams s (s_sparams s ++ [SpParams_new]), ONone)
  | SpParamsClone i => at_obj (s_sparams s) i invalid (fun p =>
      Ok (with_sparams s (s_sparams s ++ [p]), ONone))
  | SpParamsSet i x => at_obj (s_sparams s) i invalid (fun p =>
      p <- sp_apply_setter p x ;; Ok (with_sparams s (upd (s_sparams s) i p), ONone))
  | SpParamsDebug i => at_obj (s_sparams s) i invalid (fun p => Ok (s, OText (sp_params_debug p)))
  | SpStateNew => st <- SpState_new c ;; Ok (with_sstates s (s_sstates s ++ [st]), ONone)
  | SpToState i => at_obj (s_sparams s) i invalid (fun p =>
      st <- sp_to_state c p ;; Ok (with_sstates s (s_sstates s ++ [st]), ONone))
  | SpClone i => at_obj (s_sstates s) i invalid (fun st =>
      Ok (with_sstates s (s_sstates s ++ [st]), ONone))
  | SpUpdate i input => at_obj (s_sstates s) i invalid (fun st =>
      st <- sp_update c st input ;; Ok (put_sstate i st, ONone))
  | SpWrite i input => at_obj (s_sstates s) i invalid (fun st =>
      ' (st, n) <- sp_write c st input ;; Ok (put_sstate i st, ONumber (N.of_nat n)))
  | SpFlush i => at_obj (s_sstates s) i invalid (fun st =>
      st <- sp_flush st ;; Ok (put_sstate i st, ONone))
  | SpCount i => at_obj (s_sstates s) i invalid (fun st =>
      n <- sp_count c st ;; Ok (s, ONumber (val n)))
  | SpDebug i => at_obj (s_sstates s) i invalid (fun st =>
      t <- sp_state_debug c st ;; Ok (s, ODump t))
  | SpForcePortable i => at_obj (s_sstates s) i invalid (fun st =>
      Ok (put_sstate i (sp_force_portable st), ONone))
  | SpFinalize i => at_obj (s_sstates s) i invalid (fun st =>
      h <- sp_finalize c st ;; give_hash s h)
  | OneShotSp input => h <- Blake2sp.blake2sp c input ;; give_hash s h
  end.

(** How a run ends. *)
Inductive ending := Done | Panicked | Undefined | Wedged.

(** Everything the program sees, and how it ends.  A panic ends the program; for
    programs that catch panics see C42. *)
Fixpoint run (c : cfg) (s : session) (ops : list op) : list obs * ending :=
  match ops with
  | [] => ([], Done)
  | o :: ops =>
      match step c s o with
      | Ok (s, x) => let '(xs, e) := run c s ops in (x :: xs, e)
      | Panic => ([], Panicked)
      | UB => ([], Undefined)
      | Stuck => ([], Wedged)
      end
  end.

(** The session a program without panics ends in. *)
Fixpoint after (c : cfg) (s : session) (ops : list op) : option session :=
  match ops with
  | [] => Some s
  | o :: ops => match step c s o with Ok (s, _) => after c s ops | _ => None end
  end.
