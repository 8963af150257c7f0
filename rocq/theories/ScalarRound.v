(** * ScalarRound: the straight-line round of the vector code, on one lane. *)
From Verif Require Import Base BaseFacts Consts Portable.
From Coq Require Import Lia.
Local Open Scope N_scope.

(** [g] with the additions in the order of the vector code. *)
Definition g' (v : list u32) (a b c d : nat) (x y : u32) : list u32 :=
  let v := upd v a (wrapping_add (wrapping_add (wget v a) x) (wget v b)) in
  let v := upd v d (rotate_right (uxor (wget v d) (wget v a)) 16) in
  let v := upd v c (wrapping_add (wget v c) (wget v d)) in
  let v := upd v b (rotate_right (uxor (wget v b) (wget v c)) 12) in
  let v := upd v a (wrapping_add (wrapping_add (wget v a) y) (wget v b)) in
  let v := upd v d (rotate_right (uxor (wget v d) (wget v a)) 8) in
  let v := upd v c (wrapping_add (wget v c) (wget v d)) in
  let v := upd v b (rotate_right (uxor (wget v b) (wget v c)) 7) in
  v.

Ltac step_eq tac :=
  match goal with
  | |- (let v := ?e in @?k v) = (let w := ?e' in @?k' w) =>
      let H := fresh in
      assert (H : e' = e) by tac;
      change (k e = k' e'); rewrite H; clear H; generalize e; cbv beta;
      let v := fresh "v" in intro v
  end.

Lemma g_g' v a b c d x y : g v a b c d x y = g' v a b c d x y.
Proof.
  cbv beta delta [g g'].
  step_eq ltac:(rewrite wrapping_add_swap; reflexivity).
  do 3 step_eq reflexivity.
  step_eq ltac:(rewrite wrapping_add_swap; reflexivity).
  do 3 step_eq reflexivity.
  reflexivity.
Qed.

(** The statement forms, on one lane. *)
Definition s_add (v : list u32) (k a b : nat) := upd v k (wrapping_add (wget v a) (wget v b)).
Definition s_addx (v : list u32) (k a : nat) (x : u32) := upd v k (wrapping_add (wget v a) x).
Definition s_addm (v m : list u32) (k a b : nat) := s_addx v k a (wget m b).
Definition s_xor (v : list u32) (k a b : nat) := upd v k (uxor (wget v a) (wget v b)).
Definition s_rot16 (v : list u32) (k a : nat) := upd v k (rotate_right (wget v a) 16).
Definition s_rot12 (v : list u32) (k a : nat) := upd v k (rotate_right (wget v a) 12).
Definition s_rot8 (v : list u32) (k a : nat) := upd v k (rotate_right (wget v a) 8).
Definition s_rot7 (v : list u32) (k a : nat) := upd v k (rotate_right (wget v a) 7).

Definition s_round (v m : list u32) (r : nat) : list u32 :=
  let v := s_addm v m 0 0 (sigma r 0) in
  let v := s_addm v m 1 1 (sigma r 2) in
  let v := s_addm v m 2 2 (sigma r 4) in
  let v := s_addm v m 3 3 (sigma r 6) in
  let v := s_add v 0 0 4 in
  let v := s_add v 1 1 5 in
  let v := s_add v 2 2 6 in
  let v := s_add v 3 3 7 in
  let v := s_xor v 12 12 0 in
  let v := s_xor v 13 13 1 in
  let v := s_xor v 14 14 2 in
  let v := s_xor v 15 15 3 in
  let v := s_rot16 v 12 12 in
  let v := s_rot16 v 13 13 in
  let v := s_rot16 v 14 14 in
  let v := s_rot16 v 15 15 in
  let v := s_add v 8 8 12 in
  let v := s_add v 9 9 13 in
  let v := s_add v 10 10 14 in
  let v := s_add v 11 11 15 in
  let v := s_xor v 4 4 8 in
  let v := s_xor v 5 5 9 in
  let v := s_xor v 6 6 10 in
  let v := s_xor v 7 7 11 in
  let v := s_rot12 v 4 4 in
  let v := s_rot12 v 5 5 in
  let v := s_rot12 v 6 6 in
  let v := s_rot12 v 7 7 in
  let v := s_addm v m 0 0 (sigma r 1) in
  let v := s_addm v m 1 1 (sigma r 3) in
  let v := s_addm v m 2 2 (sigma r 5) in
  let v := s_addm v m 3 3 (sigma r 7) in
  let v := s_add v 0 0 4 in
  let v := s_add v 1 1 5 in
  let v := s_add v 2 2 6 in
  let v := s_add v 3 3 7 in
  let v := s_xor v 12 12 0 in
  let v := s_xor v 13 13 1 in
  let v := s_xor v 14 14 2 in
  let v := s_xor v 15 15 3 in
  let v := s_rot8 v 12 12 in
  let v := s_rot8 v 13 13 in
  let v := s_rot8 v 14 14 in
  let v := s_rot8 v 15 15 in
  let v := s_add v 8 8 12 in
  let v := s_add v 9 9 13 in
  let v := s_add v 10 10 14 in
  let v := s_add v 11 11 15 in
  let v := s_xor v 4 4 8 in
  let v := s_xor v 5 5 9 in
  let v := s_xor v 6 6 10 in
  let v := s_xor v 7 7 11 in
  let v := s_rot7 v 4 4 in
  let v := s_rot7 v 5 5 in
  let v := s_rot7 v 6 6 in
  let v := s_rot7 v 7 7 in
  let v := s_addm v m 0 0 (sigma r 8) in
  let v := s_addm v m 1 1 (sigma r 10) in
  let v := s_addm v m 2 2 (sigma r 12) in
  let v := s_addm v m 3 3 (sigma r 14) in
  let v := s_add v 0 0 5 in
  let v := s_add v 1 1 6 in
  let v := s_add v 2 2 7 in
  let v := s_add v 3 3 4 in
  let v := s_xor v 15 15 0 in
  let v := s_xor v 12 12 1 in
  let v := s_xor v 13 13 2 in
  let v := s_xor v 14 14 3 in
  let v := s_rot16 v 15 15 in
  let v := s_rot16 v 12 12 in
  let v := s_rot16 v 13 13 in
  let v := s_rot16 v 14 14 in
  let v := s_add v 10 10 15 in
  let v := s_add v 11 11 12 in
  let v := s_add v 8 8 13 in
  let v := s_add v 9 9 14 in
  let v := s_xor v 5 5 10 in
  let v := s_xor v 6 6 11 in
  let v := s_xor v 7 7 8 in
  let v := s_xor v 4 4 9 in
  let v := s_rot12 v 5 5 in
  let v := s_rot12 v 6 6 in
  let v := s_rot12 v 7 7 in
  let v := s_rot12 v 4 4 in
  let v := s_addm v m 0 0 (sigma r 9) in
  let v := s_addm v m 1 1 (sigma r 11) in
  let v := s_addm v m 2 2 (sigma r 13) in
  let v := s_addm v m 3 3 (sigma r 15) in
  let v := s_add v 0 0 5 in
  let v := s_add v 1 1 6 in
  let v := s_add v 2 2 7 in
  let v := s_add v 3 3 4 in
  let v := s_xor v 15 15 0 in
  let v := s_xor v 12 12 1 in
  let v := s_xor v 13 13 2 in
  let v := s_xor v 14 14 3 in
  let v := s_rot8 v 15 15 in
  let v := s_rot8 v 12 12 in
  let v := s_rot8 v 13 13 in
  let v := s_rot8 v 14 14 in
  let v := s_add v 10 10 15 in
  let v := s_add v 11 11 12 in
  let v := s_add v 8 8 13 in
  let v := s_add v 9 9 14 in
  let v := s_xor v 5 5 10 in
  let v := s_xor v 6 6 11 in
  let v := s_xor v 7 7 8 in
  let v := s_xor v 4 4 9 in
  let v := s_rot7 v 5 5 in
  let v := s_rot7 v 6 6 in
  let v := s_rot7 v 7 7 in
  let v := s_rot7 v 4 4 in
  v.

Lemma s_round_ok v m r : length v = 16%nat -> s_round v m r = round r m v.
Proof.
  intros Hl.
  destruct v as [|v0 [|v1 [|v2 [|v3 [|v4 [|v5 [|v6 [|v7 [|v8 [|v9 [|v10 [|v11 [|v12 [|v13 [|v14 [|v15 [|]]]]]]]]]]]]]]]]];
    try discriminate Hl. clear Hl.
  cbv beta zeta delta [round s_round s_addm].
  rewrite !g_g'.
  generalize (wget m (sigma r 0)) as x0; intro x0.
  generalize (wget m (sigma r 1)) as x1; intro x1.
  generalize (wget m (sigma r 2)) as x2; intro x2.
  generalize (wget m (sigma r 3)) as x3; intro x3.
  generalize (wget m (sigma r 4)) as x4; intro x4.
  generalize (wget m (sigma r 5)) as x5; intro x5.
  generalize (wget m (sigma r 6)) as x6; intro x6.
  generalize (wget m (sigma r 7)) as x7; intro x7.
  generalize (wget m (sigma r 8)) as x8; intro x8.
  generalize (wget m (sigma r 9)) as x9; intro x9.
  generalize (wget m (sigma r 10)) as x10; intro x10.
  generalize (wget m (sigma r 11)) as x11; intro x11.
  generalize (wget m (sigma r 12)) as x12; intro x12.
  generalize (wget m (sigma r 13)) as x13; intro x13.
  generalize (wget m (sigma r 14)) as x14; intro x14.
  generalize (wget m (sigma r 15)) as x15; intro x15.
  cbv -[wrapping_add uxor rotate_right].
  reflexivity.
Qed.
