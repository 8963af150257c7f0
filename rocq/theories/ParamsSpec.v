(** * ParamsSpec: what a chain of setter calls should mean.

    Only the type [setter] (the names of the calls and their arguments) is taken
    from the model. *)
From Verif Require Import Base Params.
From Verif Require Spec.
Local Open Scope N_scope.

(** The documented argument ranges. *)
Definition valid_setter (s : setter) : bool :=
  match s with
  | SHashLength n => (1 <=? n) && (n <=? 32)
  | SKey k => N.of_nat (length k) <=? 32
  | SSalt s => N.of_nat (length s) <=? 8
  | SPersonal s => N.of_nat (length s) <=? 8
  | SMaxDepth d => negb (val d =? 0)
  | SNodeOffset o => val o <? 2 ^ 48
  | SInnerHashLength n => n <=? 32
  | SFanout _ | SMaxLeafLength _ | SNodeDepth _ | SLastNode _ => true
  end.

(** The argument of the last call selected by [sel], or the default. *)
Fixpoint last_call {A} (sel : setter -> option A) (d : A) (l : list setter) : A :=
  match l with
  | [] => d
  | s :: l' => last_call sel (match sel s with Some a => a | None => d end) l'
  end.

Definition sel_hash_length s := match s with SHashLength n => Some n | _ => None end.
Definition sel_key s := match s with SKey k => Some k | _ => None end.
Definition sel_salt s := match s with SSalt k => Some k | _ => None end.
Definition sel_personal s := match s with SPersonal k => Some k | _ => None end.
Definition sel_fanout s := match s with SFanout x => Some (val x) | _ => None end.
Definition sel_max_depth s := match s with SMaxDepth x => Some (val x) | _ => None end.
Definition sel_max_leaf_length s := match s with SMaxLeafLength x => Some (val x) | _ => None end.
Definition sel_node_offset s := match s with SNodeOffset x => Some (val x) | _ => None end.
Definition sel_node_depth s := match s with SNodeDepth x => Some (val x) | _ => None end.
Definition sel_inner s := match s with SInnerHashLength x => Some x | _ => None end.
Definition sel_last_node s := match s with SLastNode b => Some b | _ => None end.

(** The parameters a chain of calls on [Params::new()] selects. *)
Definition spec_params (l : list setter) : Spec.params :=
  let d := Spec.default_params in
  Spec.mk_params
    (last_call sel_hash_length (Spec.digest_length d) l)
    (last_call sel_key (Spec.key d) l)
    (last_call sel_fanout (Spec.fanout d) l)
    (last_call sel_max_depth (Spec.depth d) l)
    (last_call sel_max_leaf_length (Spec.leaf_length d) l)
    (last_call sel_node_offset (Spec.node_offset d) l)
    (last_call sel_node_depth (Spec.node_depth d) l)
    (last_call sel_inner (Spec.inner_length d) l)
    (last_call sel_salt (Spec.salt d) l)
    (last_call sel_personal (Spec.personal d) l).
Definition spec_last_node (l : list setter) : bool := last_call sel_last_node false l.
