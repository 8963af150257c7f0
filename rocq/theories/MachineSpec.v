(** * MachineSpec: what programs using the crate should see.

    The abstract machine knows of each object only:
    - of a [Params], the setter calls made on it;
    - of a [State], its parameters, its last-node flag and the bytes given to it;
    - of a [Hash], its bytes;
    - of a [blake2sp] [State], its hash length, key and the bytes given to it.
    It uses [Spec] and [ParamsSpec], the operations [op], and nothing else of the
    model.  Its only input besides the program is whether integer overflow is checked. *)
From Verif Require Import Base Params Blake2sp ParamsSpec Machine.
From Verif Require Spec.
From Coq Require Import String Decimal DecimalString DecimalN.
Local Notation length := List.length (only parsing).
Local Open Scope N_scope.

(** ** BLAKE2sp parameters: the last call wins; the documented ranges. *)
Definition sp_setter_ok (s : sp_setter) : bool :=
  match s with
  | SpHashLength n => (1 <=? n) && (n <=? 32)
  | SpKey k => N.of_nat (length k) <=? 32
  end.
Definition sp_dlen (l : list sp_setter) : N :=
  fold_left (fun n s => match s with SpHashLength m => m | _ => n end) l 32.
Definition sp_keyval (l : list sp_setter) : list byte :=
  fold_left (fun k s => match s with SpKey k' => k' | _ => k end) l [].

(** ** Text *)
Definition number_text (n : N) : string := NilZero.string_of_uint (N.to_uint n).
Definition bool_text (b : bool) : string := (if b then "true" else "false")%string.
Definition state_text (count hash_length : N) (last_node : bool) : string :=
  ("State { count: " ++ number_text count ++ ", hash_length: " ++ number_text hash_length
   ++ ", last_node: " ++ bool_text last_node ++ " }")%string.
Definition hash_text (b : list byte) : string :=
  ("Hash(0x" ++ string_of_list_byte (Spec.hex b) ++ ")")%string.
Definition sp_params_text (hash_length key_length : N) : string :=
  ("Params { hash_length: " ++ number_text hash_length ++ ", key_length: "
   ++ number_text key_length ++ " }")%string.

(** ** Abstract objects *)
Record astate := mk_astate { a_sp : Spec.params; a_last : bool; a_msg : list byte }.
Record asstate := mk_asstate { a_dlen : N; a_key : list byte; a_data : list byte }.

Record asession := mk_asession {
  a_params : list (list setter);
  a_states : list astate;
  a_hashes : list (list byte);
  a_sparams : list (list sp_setter);
  a_sstates : list asstate
}.
Definition empty_asession : asession := mk_asession [] [] [] [] [].
Definition awith_params s l := mk_asession l (a_states s) (a_hashes s) (a_sparams s) (a_sstates s).
Definition awith_states s l := mk_asession (a_params s) l (a_hashes s) (a_sparams s) (a_sstates s).
Definition awith_hashes s l := mk_asession (a_params s) (a_states s) l (a_sparams s) (a_sstates s).
Definition awith_sparams s l := mk_asession (a_params s) (a_states s) (a_hashes s) l (a_sstates s).
Definition awith_sstates s l := mk_asession (a_params s) (a_states s) (a_hashes s) (a_sparams s) l.

(** Bytes hashed so far, with the key block. *)
Definition total (key : list byte) (msg : list byte) : N :=
  N.of_nat (length (Spec.key_block key)) + N.of_nat (length msg).
Definition add_msg (a : astate) (x : list byte) : astate := mk_astate (a_sp a) (a_last a) (a_msg a ++ x).
Definition add_data (a : asstate) (x : list byte) : asstate := mk_asstate (a_dlen a) (a_key a) (a_data a ++ x).
Definition digest (a : astate) : list byte := Spec.blake2s (a_sp a) (a_last a) (a_msg a).
Definition counter (a : astate) : N := total (Spec.key (a_sp a)) (a_msg a) mod 2 ^ 64.

(** The counter of [a] does not pass 2^64, or nobody checks. *)
Definition room (checks : bool) (a : astate) : bool :=
  negb checks || (total (Spec.key (a_sp a)) (a_msg a) <? 2 ^ 64).
Definition small (key msg : list byte) : bool := total key msg <? 2 ^ 64.

(** The part of keyed BLAKE2sp that the crate gets right: at most 1024 bytes in all,
    the first non-empty piece at most 960 bytes.  Unkeyed: everything countable. *)
Definition sp_scope (a : asstate) (x : list byte) : bool :=
  match a_key a with
  | [] => N.of_nat (length (a_data a ++ x)) <? 2 ^ 64
  | _ :: _ => Nat.leb (length (a_data a ++ x)) 1024
              && (negb (Nat.eqb (length (a_data a)) 0) || Nat.leb (length x) 960)
  end.

(** All equal, positive, a multiple of 64. *)
Definition exact (lens : list nat) : bool :=
  match lens with
  | [] => true
  | n :: l => forallb (Nat.eqb n) l && negb (Nat.eqb n 0) && Nat.eqb (Nat.modulo n 64) 0
  end.

(** ** Steps.  [Out]: outside what this machine specifies. *)
Inductive result := Next (s : asession) (x : obs) | Fail | Out.

Definition ahash (s : asession) (b : list byte) : result :=
  Next (awith_hashes s (a_hashes s ++ [b])) (OBytes b).
Definition ahashes (s : asession) (l : list (list byte)) : result :=
  Next (awith_hashes s (a_hashes s ++ l)) (OMany l).
Definition new_state (l : list setter) : astate := mk_astate (spec_params l) (spec_last_node l) [].
Definition one_shot (l : list setter) (x : list byte) : list byte :=
  Spec.blake2s (spec_params l) (spec_last_node l) x.

Definition astep (checks : bool) (s : asession) (o : op) : result :=
  let invalid := Next s OInvalid in
  let put_state i st x := Next (awith_states s (upd (a_states s) i st)) x in
  let put_sstate i st x := Next (awith_sstates s (upd (a_sstates s) i st)) x in
  match o with
  | ParamsNew => Next (awith_params s (a_params s ++ [[]])) ONone
  | ParamsClone i => at_obj (a_params s) i invalid (fun p => Next (awith_params s (a_params s ++ [p])) ONone)
  | ParamsSet i x => at_obj (a_params s) i invalid (fun p =>
      if valid_setter x then Next (awith_params s (upd (a_params s) i (p ++ [x]))) ONone else Fail)
  | StateNew => Next (awith_states s (a_states s ++ [mk_astate Spec.default_params false []])) ONone
  | ToState i => at_obj (a_params s) i invalid (fun p =>
      Next (awith_states s (a_states s ++ [new_state p])) ONone)
  | StateClone i => at_obj (a_states s) i invalid (fun a =>
      Next (awith_states s (a_states s ++ [a])) ONone)
  | Update i x => at_obj (a_states s) i invalid (fun a =>
      if room checks (add_msg a x) then put_state i (add_msg a x) ONone else Fail)
  | Write i x => at_obj (a_states s) i invalid (fun a =>
      if room checks (add_msg a x) then put_state i (add_msg a x) (ONumber (N.of_nat (length x))) else Fail)
  | Flush i | ForcePortable i => at_obj (a_states s) i invalid (fun a => put_state i a ONone)
  | SetLastNode i b => at_obj (a_states s) i invalid (fun a =>
      put_state i (mk_astate (a_sp a) b (a_msg a)) ONone)
  | Count i => at_obj (a_states s) i invalid (fun a => Next s (ONumber (counter a)))
  | StateDebug i => at_obj (a_states s) i invalid (fun a =>
      Next s (OText (state_text (counter a) (Spec.digest_length (a_sp a)) (a_last a))))
  | Finalize i => at_obj (a_states s) i invalid (fun a => ahash s (digest a))
  | Update8 i x =>
      match pick8 (a_states s) i with
      | Some a =>
          if distinct (oct_list i) then
            let a' := oct_map2 add_msg a x in
            if forallb (room checks) (oct_list a')
            then Next (awith_states s (put8 (a_states s) i a')) ONone else Fail
          else invalid
      | None => invalid
      end
  | Finalize8 i =>
      match pick8 (a_states s) i with
      | Some a => if distinct (oct_list i) then ahashes s (map digest (oct_list a)) else invalid
      | None => invalid
      end
  | Blake2s x => let a := mk_astate Spec.default_params false x in
      if room checks a then ahash s (digest a) else Fail
  | Hash8 i x =>
      match pick8 (a_params s) i with
      | Some p =>
          if forallb (fun l => Nat.eqb (length (Spec.key (spec_params l))) 0) (oct_list p) then
            if forallb (small []) (oct_list x)
            then ahashes s (oct_list (oct_map2 one_shot p x)) else Out
          else Fail
      | None => invalid
      end
  | Hash8Exact i x => at_obj (a_params s) i invalid (fun p =>
      if exact (map (@length byte) (oct_list x)) then
        match Spec.key (spec_params p) with
        | [] => if forallb (small []) (oct_list x) then ahashes s (map (one_shot p) (oct_list x)) else Out
        | _ :: _ => Out
        end
      else Fail)
  | Hash4Exact i x => at_obj (a_params s) i invalid (fun p =>
      if exact (map (@length byte) (quad_list x)) then
        match Spec.key (spec_params p) with
        | [] => if forallb (small []) (quad_list x) then ahashes s (map (one_shot p) (quad_list x)) else Out
        | _ :: _ => Out
        end
      else Fail)
  | HashBytes i => at_obj (a_hashes s) i invalid (fun b => Next s (OBytes b))
  | HashHex i => at_obj (a_hashes s) i invalid (fun b => Next s (OBytes (Spec.hex b)))
  | HashDebug i => at_obj (a_hashes s) i invalid (fun b => Next s (OText (hash_text b)))
  | HashEq i j => at_obj (a_hashes s) i invalid (fun b => at_obj (a_hashes s) j invalid (fun b' =>
      Next s (OBool (if list_eq_dec Byte.byte_eq_dec b b' then true else false))))
  | HashEqSlice i x => at_obj (a_hashes s) i invalid (fun b =>
      Next s (OBool (if list_eq_dec Byte.byte_eq_dec b x then true else false)))
  | SpParamsNew => Next (awith_sparams s (a_sparams s ++ [[]])) ONone
  | SpParamsClone i => at_obj (a_sparams s) i invalid (fun p =>
      Next (awith_sparams s (a_sparams s ++ [p])) ONone)
  | SpParamsSet i x => at_obj (a_sparams s) i invalid (fun p =>
      if sp_setter_ok x then Next (awith_sparams s (upd (a_sparams s) i (p ++ [x]))) ONone else Fail)
  | SpParamsDebug i => at_obj (a_sparams s) i invalid (fun p =>
      Next s (OText (sp_params_text (sp_dlen p) (N.of_nat (length (sp_keyval p))))))
  | SpStateNew => Next (awith_sstates s (a_sstates s ++ [mk_asstate 32 [] []])) ONone
  | SpToState i => at_obj (a_sparams s) i invalid (fun p =>
      Next (awith_sstates s (a_sstates s ++ [mk_asstate (sp_dlen p) (sp_keyval p) []])) ONone)
  | SpClone i => at_obj (a_sstates s) i invalid (fun a =>
      Next (awith_sstates s (a_sstates s ++ [a])) ONone)
  | SpUpdate i x => at_obj (a_sstates s) i invalid (fun a =>
      if sp_scope a x then put_sstate i (add_data a x) ONone else Out)
  | SpWrite i x => at_obj (a_sstates s) i invalid (fun a =>
      if sp_scope a x then put_sstate i (add_data a x) (ONumber (N.of_nat (length x))) else Out)
  | SpFlush i | SpForcePortable i => at_obj (a_sstates s) i invalid (fun a => put_sstate i a ONone)
  | SpCount i => at_obj (a_sstates s) i invalid (fun a =>
      Next s (ONumber (8 * N.of_nat (length (Spec.key_block (a_key a))) + N.of_nat (length (a_data a)))))
  | SpDebug i => at_obj (a_sstates s) i invalid (fun _ => Next s (ODump ""))
  | SpFinalize i => at_obj (a_sstates s) i invalid (fun a =>
      ahash s (Spec.blake2sp (a_dlen a) (a_key a) (a_data a)))
  | OneShotSp x => if small [] x then ahash s (Spec.blake2sp 32 [] x) else Out
  end.

(** The Debug text of a [blake2sp] [State] shows how the bytes were buffered, so it is
    not determined by the bytes supplied; this machine leaves it open. *)
Definition mask (x : obs) : obs := match x with ODump _ => ODump "" | _ => x end.

(** What the program sees, and how it ends ([None]: it left the specified part). *)
Fixpoint arun (checks : bool) (s : asession) (ops : list op) : list obs * option ending :=
  match ops with
  | [] => ([], Some Done)
  | o :: ops =>
      match astep checks s o with
      | Next s x => let '(xs, e) := arun checks s ops in (x :: xs, e)
      | Fail => ([], Some Panicked)
      | Out => ([], None)
      end
  end.

(** The documented argument checks: the calls that must panic.
    lib.rs:173-295, 772-846 and blake2sp.rs:34-60, the doc comments and [assert!]s. *)
Definition rejects (s : session) (o : op) : bool :=
  match o with
  | ParamsSet i x => at_obj (s_params s) i false (fun _ => negb (valid_setter x))
  | SpParamsSet i x => at_obj (s_sparams s) i false (fun _ => negb (sp_setter_ok x))
  | Hash8 i _ =>
      match pick8 (s_params s) i with
      | Some ps => existsb (fun p => negb (val (p_key_length p) =? 0)) (oct_list ps)
      | None => false
      end
  | Hash8Exact i x => at_obj (s_params s) i false (fun _ => negb (exact (map (@length byte) (oct_list x))))
  | Hash4Exact i x => at_obj (s_params s) i false (fun _ => negb (exact (map (@length byte) (quad_list x))))
  | _ => false
  end.

(** ** Classes of programs *)

(** The input slices of a call. *)
Definition slices (o : op) : list (list byte) :=
  match o with
  | Update _ x | Write _ x | Blake2s x | HashEqSlice _ x | SpUpdate _ x | SpWrite _ x | OneShotSp x
  | ParamsSet _ (SKey x) | ParamsSet _ (SSalt x) | ParamsSet _ (SPersonal x)
  | SpParamsSet _ (SpKey x) => [x]
  | Update8 _ x | Hash8 _ x | Hash8Exact _ x => oct_list x
  | Hash4Exact _ x => quad_list x
  | _ => []
  end.
(** Rust guarantees it: no slice has more than [isize::MAX] bytes (64-bit targets). *)
Definition mem_ok (o : op) : Prop := Forall (fun x => N.of_nat (length x) < 2 ^ 63) (slices o).
Definition input_bytes (o : op) : N := fold_right (fun x n => N.of_nat (length x) + n) 0 (slices o).
Definition total_bytes (ops : list op) : N := fold_right (fun o n => input_bytes o + n) 0 ops.

Definition nonempty (x : list byte) : bool := match x with [] => false | _ => true end.
(** Calls that put a key into BLAKE2s or BLAKE2sp parameters, and the exact functions. *)
Definition sets_key (o : op) : bool := match o with ParamsSet _ (SKey k) => nonempty k | _ => false end.
Definition sets_sp_key (o : op) : bool := match o with SpParamsSet _ (SpKey k) => nonempty k | _ => false end.
Definition calls_exact (o : op) : bool :=
  match o with Hash8Exact _ _ | Hash4Exact _ _ => true | _ => false end.
