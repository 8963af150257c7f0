(** * Views: reading numbers and lanes out of machine data.

    Nothing here models code of the crate; property statements use it. *)
From Verif Require Import Base Consts Portable Intrinsics.
Local Open Scope N_scope.

(** The numbers in a group of words. *)
Definition nums (w : oct u32) : list N := map val (oct_list w).

(** ** One of eight, one of four *)
Inductive lane8 := L0 | L1 | L2 | L3 | L4 | L5 | L6 | L7.
Definition proj {A} (l : lane8) (o : oct A) : A :=
  match l with
  | L0 => o0 o | L1 => o1 o | L2 => o2 o | L3 => o3 o
  | L4 => o4 o | L5 => o5 o | L6 => o6 o | L7 => o7 o
  end.
Inductive lane4 := M0 | M1 | M2 | M3.
Definition qproj {A} (l : lane4) (q : quad A) : A :=
  match l with M0 => q0 q | M1 => q1 q | M2 => q2 q | M3 => q3 q end.

(** Lane [l] of a transposed state: word [k] of the state is lane [l] of vector [k]. *)
Definition lane_state (h_vecs : oct m256) (l : lane8) : StateWords := oct_map (proj l) h_vecs.
(** Lane [l] of a transposed state. *)
Definition qlane_state (h_vecs : oct m128) (l : lane4) : StateWords := oct_map (qproj l) h_vecs.

(** ** Functions that lose nothing *)
(** [f] maps its type one-to-one onto itself. *)
Definition bijective {A} (f : A -> A) : Prop := exists back, (forall x, back (f x) = x) /\ forall x, f (back x) = x.
(** The same for the lists of 16 elements. *)
Definition permutes {A} (f : list A -> list A) : Prop :=
  exists back, forall v, length v = 16%nat ->
    length (f v) = 16%nat /\ length (back v) = 16%nat /\ back (f v) = v /\ f (back v) = v.
