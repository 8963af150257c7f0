(** * IntelViews: a vector register of the model as a number. *)
From Verif Require Import Base Intrinsics.
Local Open Scope N_scope.

(** The number with the digits [l], least significant first, in base [2 ^ w]. *)
Fixpoint digits (w : N) (l : list N) : N :=
  match l with [] => 0 | d :: l => d + 2 ^ w * digits w l end.
Definition num128 (a : m128) : N := digits 32 (map val (quad_list a)).
Definition num256 (a : m256) : N := digits 32 (map val (oct_list a)).
