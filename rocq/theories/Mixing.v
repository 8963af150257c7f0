(** * Mixing: the rounds of the compression function are a permutation of the working vector. *)
From Verif Require Import Base BaseFacts Consts Portable Intrinsics Views PortableFacts Avx2Facts Sse41Facts.
From Verif Require Avx2 Sse41.
From Coq Require Import ZArith Lia ZifyBool ZifyNat ZifyN.
Local Open Scope N_scope.

Lemma permutes_comp {A} (f g : list A -> list A) : permutes f -> permutes g -> permutes (fun v => g (f v)).
Proof.
  intros (f' & Hf) (g' & Hg). exists (fun v => f' (g' v)). intros v Hv.
  destruct (Hf v Hv) as (F1 & F2 & F3 & F4). destruct (Hg v Hv) as (G1 & G2 & G3 & G4).
  destruct (Hg (f v) F1) as (A1 & A2 & A3 & A4). destruct (Hf (g' v) G2) as (B1 & B2 & B3 & B4).
  split; [exact A1|]. split; [exact B2|]. split; [rewrite A3; exact F3|rewrite B4; exact G4].
Qed.
Lemma permutes_id {A} : @permutes A (fun v => v).
Proof. exists (fun v => v). auto. Qed.

(** ** One word *)
Definition unadd (a b : u32) : u32 := of_N 32 (val a + (2 ^ 32 - val b)).
Lemma unadd_add a b : unadd (wrapping_add a b) b = a.
Proof.
  apply val_inj. unfold unadd, wrapping_add. rewrite !val_of_N, N.add_mod_idemp_l by discriminate.
  pose proof (val_lt a). pose proof (val_lt b).
  replace (val a + val b + (2 ^ 32 - val b)) with (val a + 1 * 2 ^ 32) by lia.
  rewrite N.mod_add by discriminate. apply N.mod_small; assumption.
Qed.
Lemma add_unadd a b : wrapping_add (unadd a b) b = a.
Proof.
  apply val_inj. unfold unadd, wrapping_add. rewrite !val_of_N, N.add_mod_idemp_l by discriminate.
  pose proof (val_lt a). pose proof (val_lt b).
  replace (val a + (2 ^ 32 - val b) + val b) with (val a + 1 * 2 ^ 32) by lia.
  rewrite N.mod_add by discriminate. apply N.mod_small; assumption.
Qed.
Lemma uxor_uxor (a b : u32) : uxor (uxor a b) b = a.
Proof. apply val_inj. rewrite !val_uxor, N.lxor_assoc, N.lxor_nilpotent, N.lxor_0_r. reflexivity. Qed.
Lemma rotval_rotval x n : n <= 32 -> x < 2 ^ 32 -> rotval (rotval x n) (32 - n) = x.
Proof.
  intros Hn Hx. unfold rotval at 1. pose proof (div_pow2_lt x n Hn Hx) as H1.
  assert (P1 : 2 ^ n <> 0) by (apply N.pow_nonzero; discriminate).
  assert (P2 : 2 ^ (32 - n) <> 0) by (apply N.pow_nonzero; discriminate).
  unfold rotval. rewrite (N.div_add _ _ _ P2), (N.mod_add _ _ _ P2), (N.div_small _ _ H1), (N.mod_small _ _ H1).
  replace (32 - (32 - n)) with n by lia. rewrite N.add_0_l, (N.mul_comm (x / 2 ^ n)), N.add_comm.
  symmetry. apply N.div_mod, P1.
Qed.
Lemma rot_back a n m : n <= 32 -> m = 32 - n -> rotate_right (rotate_right a n) m = a.
Proof. intros Hn ->. apply val_inj. rewrite !val_rotate_right by lia. apply rotval_rotval; [exact Hn|apply val_lt]. Qed.

(** ** One assignment of the vector *)
Lemma wget_same v i x : (i < length v)%nat -> wget (upd v i x) i = x.
Proof.
  revert i. induction v as [|y v IH]; intros i Hi; [cbn in Hi; lia|]. destruct i; [reflexivity|].
  cbn [upd]. unfold wget, get in *. cbn [nth]. apply IH. cbn [length] in Hi. lia.
Qed.
Lemma wget_other v i j x : i <> j -> wget (upd v i x) j = wget v j.
Proof.
  revert i j. induction v as [|y v IH]; intros i j Hi; [reflexivity|]. destruct i, j; try reflexivity; [congruence|].
  cbn [upd]. unfold wget, get in *. cbn [nth]. apply IH. congruence.
Qed.
Lemma upd_upd (v : list u32) i x y : upd (upd v i x) i y = upd v i y.
Proof. revert i. induction v as [|z v IH]; intros i; [reflexivity|]. destruct i; [reflexivity|]. cbn [upd]. rewrite IH. reflexivity. Qed.
Lemma upd_wget v i : upd v i (wget v i) = v.
Proof.
  revert i. induction v as [|z v IH]; intros i; [reflexivity|]. destruct i; [reflexivity|].
  cbn [upd]. unfold wget, get in *. cbn [nth]. rewrite IH. reflexivity.
Qed.
(** An assignment to place [i] that can be undone given the other places. *)
Lemma assign_permutes i (f back : list u32 -> u32 -> u32) : (i < 16)%nat ->
  (forall v x y, f (upd v i y) x = f v x) -> (forall v x y, back (upd v i y) x = back v x) ->
  (forall v x, back v (f v x) = x) -> (forall v x, f v (back v x) = x) ->
  permutes (fun v => upd v i (f v (wget v i))).
Proof.
  intros Hi Hf Hb H1 H2. exists (fun v => upd v i (back v (wget v i))). intros v Hv.
  rewrite !upd_length. split; [exact Hv|]. split; [exact Hv|].
  rewrite !wget_same by (rewrite Hv; exact Hi). rewrite Hf, Hb, H1, H2, !upd_upd, upd_wget. split; reflexivity.
Qed.
Lemma add_permutes a b : (a < 16)%nat -> a <> b -> permutes (fun v => upd v a (wrapping_add (wget v a) (wget v b))).
Proof.
  intros Ha Hab.
  apply (assign_permutes a (fun v x => wrapping_add x (wget v b)) (fun v x => unadd x (wget v b)) Ha).
  - intros v x y. rewrite wget_other by exact Hab. reflexivity.
  - intros v x y. rewrite wget_other by exact Hab. reflexivity.
  - intros v x. apply unadd_add.
  - intros v x. apply add_unadd.
Qed.
Lemma add2_permutes a b x : (a < 16)%nat -> a <> b ->
  permutes (fun v => upd v a (wrapping_add (wrapping_add (wget v a) (wget v b)) x)).
Proof.
  intros Ha Hab.
  apply (assign_permutes a (fun v z => wrapping_add (wrapping_add z (wget v b)) x)
                           (fun v z => unadd (unadd z x) (wget v b)) Ha).
  - intros v z y. rewrite wget_other by exact Hab. reflexivity.
  - intros v z y. rewrite wget_other by exact Hab. reflexivity.
  - intros v z. rewrite unadd_add. apply unadd_add.
  - intros v z. rewrite add_unadd. apply add_unadd.
Qed.
Lemma xor_permutes a b n : (a < 16)%nat -> a <> b -> n <= 32 ->
  permutes (fun v => upd v a (rotate_right (uxor (wget v a) (wget v b)) n)).
Proof.
  intros Ha Hab Hn.
  apply (assign_permutes a (fun v z => rotate_right (uxor z (wget v b)) n)
                           (fun v z => uxor (rotate_right z (32 - n)) (wget v b)) Ha).
  - intros v z y. rewrite wget_other by exact Hab. reflexivity.
  - intros v z y. rewrite wget_other by exact Hab. reflexivity.
  - intros v z. rewrite rot_back by (lia || reflexivity). apply uxor_uxor.
  - intros v z. rewrite uxor_uxor. apply rot_back; lia.
Qed.

(** ** [g], rounds *)
Lemma g_permutes a b c d x y : (a < 16)%nat -> (b < 16)%nat -> (c < 16)%nat -> (d < 16)%nat ->
  a <> b -> d <> a -> c <> d -> b <> c -> permutes (fun v => g v a b c d x y).
Proof.
  intros Ha Hb Hc Hd Hab Hda Hcd Hbc.
  pose proof (permutes_comp _ _ (add2_permutes a b x Ha Hab)
    (permutes_comp _ _ (xor_permutes d a 16 Hd Hda ltac:(discriminate))
    (permutes_comp _ _ (add_permutes c d Hc Hcd)
    (permutes_comp _ _ (xor_permutes b c 12 Hb Hbc ltac:(discriminate))
    (permutes_comp _ _ (add2_permutes a b y Ha Hab)
    (permutes_comp _ _ (xor_permutes d a 8 Hd Hda ltac:(discriminate))
    (permutes_comp _ _ (add_permutes c d Hc Hcd)
                       (xor_permutes b c 7 Hb Hbc ltac:(discriminate))))))))) as H.
  exact H.
Qed.
Theorem round_permutes r m : permutes (round r m).
Proof.
  pose (G := fun a b c d x y => g_permutes a b c d x y).
  pose proof (permutes_comp _ _ (G 0 4 8 12 (wget m (sigma r 0)) (wget m (sigma r 1)) ltac:(lia) ltac:(lia) ltac:(lia) ltac:(lia) ltac:(lia) ltac:(lia) ltac:(lia) ltac:(lia))%nat
    (permutes_comp _ _ (G 1 5 9 13 (wget m (sigma r 2)) (wget m (sigma r 3)) ltac:(lia) ltac:(lia) ltac:(lia) ltac:(lia) ltac:(lia) ltac:(lia) ltac:(lia) ltac:(lia))%nat
    (permutes_comp _ _ (G 2 6 10 14 (wget m (sigma r 4)) (wget m (sigma r 5)) ltac:(lia) ltac:(lia) ltac:(lia) ltac:(lia) ltac:(lia) ltac:(lia) ltac:(lia) ltac:(lia))%nat
    (permutes_comp _ _ (G 3 7 11 15 (wget m (sigma r 6)) (wget m (sigma r 7)) ltac:(lia) ltac:(lia) ltac:(lia) ltac:(lia) ltac:(lia) ltac:(lia) ltac:(lia) ltac:(lia))%nat
    (permutes_comp _ _ (G 0 5 10 15 (wget m (sigma r 8)) (wget m (sigma r 9)) ltac:(lia) ltac:(lia) ltac:(lia) ltac:(lia) ltac:(lia) ltac:(lia) ltac:(lia) ltac:(lia))%nat
    (permutes_comp _ _ (G 1 6 11 12 (wget m (sigma r 10)) (wget m (sigma r 11)) ltac:(lia) ltac:(lia) ltac:(lia) ltac:(lia) ltac:(lia) ltac:(lia) ltac:(lia) ltac:(lia))%nat
    (permutes_comp _ _ (G 2 7 8 13 (wget m (sigma r 12)) (wget m (sigma r 13)) ltac:(lia) ltac:(lia) ltac:(lia) ltac:(lia) ltac:(lia) ltac:(lia) ltac:(lia) ltac:(lia))%nat
                       (G 3 4 9 14 (wget m (sigma r 14)) (wget m (sigma r 15)) ltac:(lia) ltac:(lia) ltac:(lia) ltac:(lia) ltac:(lia) ltac:(lia) ltac:(lia) ltac:(lia))%nat))))))) as H.
  exact H.
Qed.

(** The vector before the rounds, and the rounds. *)
Theorem compress_permutes msg : exists P, permutes P /\ forall h count f0 f1,
  Portable.compress h msg count f0 f1 =
  feed_forward h (P (init_v h (cast 32 count) (cast 32 (ushr count 32)) f0 f1)).
Proof.
  exists (rounds (sched msg)). split; [|intros; apply compress_eq].
  unfold rounds. do 9 (apply permutes_comp; [|apply round_permutes]). apply round_permutes.
Qed.
(** ** Messages *)
Definition qa (a b c d x y : u32) : u32 :=
  let a1 := wrapping_add (wrapping_add a b) x in
  let d1 := rotate_right (uxor d a1) 16 in
  let c1 := wrapping_add c d1 in
  let b1 := rotate_right (uxor b c1) 12 in
  wrapping_add (wrapping_add a1 b1) y.
Definition qd (a b c d x y : u32) : u32 :=
  let a1 := wrapping_add (wrapping_add a b) x in
  let d1 := rotate_right (uxor d a1) 16 in
  rotate_right (uxor d1 (qa a b c d x y)) 8.
Definition qc (a b c d x y : u32) : u32 :=
  let a1 := wrapping_add (wrapping_add a b) x in
  let d1 := rotate_right (uxor d a1) 16 in
  wrapping_add (wrapping_add c d1) (qd a b c d x y).
Definition qb (a b c d x y : u32) : u32 :=
  let a1 := wrapping_add (wrapping_add a b) x in
  let d1 := rotate_right (uxor d a1) 16 in
  let c1 := wrapping_add c d1 in
  let b1 := rotate_right (uxor b c1) 12 in
  rotate_right (uxor b1 (qc a b c d x y)) 7.
Lemma rot_inj n a b : n <= 32 -> rotate_right a n = rotate_right b n -> a = b.
Proof.
  intros Hn H. rewrite <- (rot_back a n (32 - n) Hn eq_refl), <- (rot_back b n (32 - n) Hn eq_refl), H. reflexivity.
Qed.
Lemma xor_inj_r (a b c : u32) : uxor a c = uxor b c -> a = b.
Proof. intros H. rewrite <- (uxor_uxor a c), <- (uxor_uxor b c), H. reflexivity. Qed.
Lemma uxor_comm' (a b : u32) : uxor a b = uxor b a.
Proof. apply val_inj. rewrite !val_uxor. apply N.lxor_comm. Qed.
Lemma xor_inj_l (a b c : u32) : uxor c a = uxor c b -> a = b.
Proof. rewrite !(uxor_comm' c). apply xor_inj_r. Qed.
Lemma add_inj_r (a b c : u32) : wrapping_add a c = wrapping_add b c -> a = b.
Proof. intros H. rewrite <- (unadd_add a c), <- (unadd_add b c), H. reflexivity. Qed.
Lemma add_comm' (a b : u32) : wrapping_add a b = wrapping_add b a.
Proof. apply val_inj. unfold wrapping_add. rewrite !val_of_N, N.add_comm. reflexivity. Qed.
Lemma add_inj_l (a b c : u32) : wrapping_add c a = wrapping_add c b -> a = b.
Proof. rewrite !(add_comm' c). apply add_inj_r. Qed.

(** The four outputs determine [b] and [c]. *)
Lemma outputs_bc a b c d x y a' b' c' d' x' y' :
  qa a b c d x y = qa a' b' c' d' x' y' -> qb a b c d x y = qb a' b' c' d' x' y' ->
  qc a b c d x y = qc a' b' c' d' x' y' -> qd a b c d x y = qd a' b' c' d' x' y' -> b = b' /\ c = c'.
Proof.
  intros Ea Eb Ec Ed. unfold qb in Eb. cbv zeta in Eb. rewrite Ec in Eb.
  apply rot_inj in Eb; [|discriminate]. apply xor_inj_r in Eb. apply rot_inj in Eb; [|discriminate].
  unfold qd in Ed. cbv zeta in Ed. rewrite Ea in Ed. apply rot_inj in Ed; [|discriminate]. apply xor_inj_r in Ed.
  pose proof Ec as Ec'. unfold qc in Ec'. cbv zeta in Ec'.
  assert (Q : qd a b c d x y = qd a' b' c' d' x' y') by (unfold qd; cbv zeta; rewrite Ea, Ed; reflexivity).
  rewrite Q in Ec'. apply add_inj_r in Ec'. rewrite Ec' in Eb. apply xor_inj_r in Eb.
  rewrite Ed in Ec'. apply add_inj_r in Ec'. split; assumption.
Qed.
(** With the inputs, [b] and [c] of the outputs determine the message words. *)
Lemma outputs_xy a b c d x y x' y' :
  qb a b c d x y = qb a b c d x' y' -> qc a b c d x y = qc a b c d x' y' -> x = x' /\ y = y'.
Proof.
  intros Eb Ec. unfold qb in Eb. cbv zeta in Eb. rewrite Ec in Eb.
  apply rot_inj in Eb; [|discriminate]. apply xor_inj_r in Eb. apply rot_inj in Eb; [|discriminate].
  apply xor_inj_l, add_inj_l in Eb. apply rot_inj in Eb; [|discriminate]. apply xor_inj_l, add_inj_l in Eb. subst x'.
  split; [reflexivity|]. unfold qc in Ec. cbv zeta in Ec. apply add_inj_l in Ec. unfold qd in Ec. cbv zeta in Ec.
  apply rot_inj in Ec; [|discriminate]. apply xor_inj_l in Ec. unfold qa in Ec. cbv zeta in Ec. apply add_inj_l in Ec.
  exact Ec.
Qed.
Lemma cons_inj {A} (x y : A) l l' : x :: l = y :: l' -> x = y /\ l = l'.
Proof. intros H; injection H; auto. Qed.
Section explicit.
Context (v0 v1 v2 v3 v4 v5 v6 v7 v8 v9 v10 v11 v12 v13 v14 v15 : u32) (r : nat).
Notation v := [v0; v1; v2; v3; v4; v5; v6; v7; v8; v9; v10; v11; v12; v13; v14; v15].
Definition col (q : u32 -> u32 -> u32 -> u32 -> u32 -> u32 -> u32) (m : list u32) (i : nat) : u32 :=
  match i with
  | 0%nat => q v0 v4 v8 v12 (wget m (sigma r 0)) (wget m (sigma r 1))
  | 1%nat => q v1 v5 v9 v13 (wget m (sigma r 2)) (wget m (sigma r 3))
  | 2%nat => q v2 v6 v10 v14 (wget m (sigma r 4)) (wget m (sigma r 5))
  | _ => q v3 v7 v11 v15 (wget m (sigma r 6)) (wget m (sigma r 7))
  end.
Definition diag (q : u32 -> u32 -> u32 -> u32 -> u32 -> u32 -> u32) (m : list u32) (i : nat) : u32 :=
  match i with
  | 0%nat => q (col qa m 0) (col qb m 1) (col qc m 2) (col qd m 3) (wget m (sigma r 8)) (wget m (sigma r 9))
  | 1%nat => q (col qa m 1) (col qb m 2) (col qc m 3) (col qd m 0) (wget m (sigma r 10)) (wget m (sigma r 11))
  | 2%nat => q (col qa m 2) (col qb m 3) (col qc m 0) (col qd m 1) (wget m (sigma r 12)) (wget m (sigma r 13))
  | _ => q (col qa m 3) (col qb m 0) (col qc m 1) (col qd m 2) (wget m (sigma r 14)) (wget m (sigma r 15))
  end.
Lemma round_explicit m : round r m v =
  [diag qa m 0; diag qa m 1; diag qa m 2; diag qa m 3;
   diag qb m 3; diag qb m 0; diag qb m 1; diag qb m 2;
   diag qc m 2; diag qc m 3; diag qc m 0; diag qc m 1;
   diag qd m 1; diag qd m 2; diag qd m 3; diag qd m 0].
Proof.
  cbv beta zeta delta [round]. unfold diag, col.
  generalize (wget m (sigma r 0)) as x0; intro x0.
  generalize (wget m (sigma r 1)) as x1; intro x1.
  generalize (wget m (sigma r 2)) as x2; intro x2.
  generalize (wget m (sigma r 3)) as x3; intro x3.
  generalize (wget m (sigma r 4)) as x4; intro x4.
  generalize (wget m (sigma r 5)) as x5; intro x5.
  generalize (wget m (sigma r 6)) as x6; intro x6.
  generalize (wget m (sigma r 7)) as x7; intro x7.
  generalize (wget m (sigma r 8)) as x8; intro x8.
  generalize (wget m (sigma r 9)) as x9; intro x9.
  generalize (wget m (sigma r 10)) as x10; intro x10.
  generalize (wget m (sigma r 11)) as x11; intro x11.
  generalize (wget m (sigma r 12)) as x12; intro x12.
  generalize (wget m (sigma r 13)) as x13; intro x13.
  generalize (wget m (sigma r 14)) as x14; intro x14.
  generalize (wget m (sigma r 15)) as x15; intro x15.
  cbv -[wrapping_add uxor rotate_right].
  reflexivity.
Qed.
Lemma round_message_words m m' : round r m v = round r m' v ->
  forall k, (k < 16)%nat -> wget m (sigma r k) = wget m' (sigma r k).
Proof.
  rewrite !round_explicit. intros H.
  apply cons_inj in H as [A0 H]. apply cons_inj in H as [A1 H]. apply cons_inj in H as [A2 H]. apply cons_inj in H as [A3 H].
  apply cons_inj in H as [B3 H]. apply cons_inj in H as [B0 H]. apply cons_inj in H as [B1 H]. apply cons_inj in H as [B2 H].
  apply cons_inj in H as [C2 H]. apply cons_inj in H as [C3 H]. apply cons_inj in H as [C0 H]. apply cons_inj in H as [C1 H].
  apply cons_inj in H as [D1 H]. apply cons_inj in H as [D2 H]. apply cons_inj in H as [D3 H]. apply cons_inj in H as [D0 H].
  clear H.
  pose proof (outputs_bc _ _ _ _ _ _ _ _ _ _ _ _ A0 B0 C0 D0) as [P1 Q2].
  pose proof (outputs_bc _ _ _ _ _ _ _ _ _ _ _ _ A1 B1 C1 D1) as [P2 Q3].
  pose proof (outputs_bc _ _ _ _ _ _ _ _ _ _ _ _ A2 B2 C2 D2) as [P3 Q0].
  pose proof (outputs_bc _ _ _ _ _ _ _ _ _ _ _ _ A3 B3 C3 D3) as [P0 Q1].
  pose proof (outputs_xy _ _ _ _ _ _ _ _ P0 Q0) as [X0 X1].
  pose proof (outputs_xy _ _ _ _ _ _ _ _ P1 Q1) as [X2 X3].
  pose proof (outputs_xy _ _ _ _ _ _ _ _ P2 Q2) as [X4 X5].
  pose proof (outputs_xy _ _ _ _ _ _ _ _ P3 Q3) as [X6 X7].
  clear P0 P1 P2 P3 Q0 Q1 Q2 Q3.
  assert (E : forall q i, col q m i = col q m' i).
  { intros q i. unfold col. rewrite X0, X1, X2, X3, X4, X5, X6, X7. reflexivity. }
  unfold diag in B0, B1, B2, B3, C0, C1, C2, C3. rewrite !E in B0, B1, B2, B3, C0, C1, C2, C3.
  pose proof (outputs_xy _ _ _ _ _ _ _ _ B0 C0) as [X8 X9].
  pose proof (outputs_xy _ _ _ _ _ _ _ _ B1 C1) as [X10 X11].
  pose proof (outputs_xy _ _ _ _ _ _ _ _ B2 C2) as [X12 X13].
  pose proof (outputs_xy _ _ _ _ _ _ _ _ B3 C3) as [X14 X15].
  intros k Hk. do 16 (destruct k as [|k]; [assumption|]). lia.
Qed.
End explicit.

Lemma sigma_onto r i : (r < 12)%nat -> (i < 16)%nat -> exists k, (k < 16)%nat /\ sigma r k = i.
Proof.
  intros Hr Hi.
  assert (H : forallb (fun r => forallb (fun i => existsb (fun k => Nat.eqb (sigma r k) i) (seq 0 16)) (seq 0 16)) (seq 0 12) = true)
    by (vm_compute; reflexivity).
  rewrite forallb_forall in H. specialize (H r ltac:(apply in_seq; lia)). rewrite forallb_forall in H.
  specialize (H i ltac:(apply in_seq; lia)). apply existsb_exists in H. destruct H as (k & Hk & E).
  apply in_seq in Hk. exists k. split; [lia|]. apply Nat.eqb_eq, E.
Qed.
Theorem round_message r m m' v : (r < 12)%nat -> length v = 16%nat -> length m = 16%nat -> length m' = 16%nat ->
  round r m v = round r m' v -> m = m'.
Proof.
  intros Hr Hv Hm Hm'.
  do 16 (destruct v as [|? v]; [discriminate Hv|]). destruct v; [|discriminate Hv]. intros H.
  pose proof (round_message_words _ _ _ _ _ _ _ _ _ _ _ _ _ _ _ _ r m m' H) as W.
  apply (nth_ext _ _ (uzero 32) (uzero 32)); [congruence|]. intros i Hi. rewrite Hm in Hi.
  destruct (sigma_onto r i Hr Hi) as (k & Hk & <-). exact (W k Hk).
Qed.

(** ** Eight and four lanes *)
Lemma lanes_choice {A} (P : lane8 -> A -> Prop) : (forall l, exists x, P l x) -> exists f, forall l, P l (f l).
Proof.
  intros H. destruct (H L0), (H L1), (H L2), (H L3), (H L4), (H L5), (H L6), (H L7).
  eexists (fun l => match l with L0 => _ | L1 => _ | L2 => _ | L3 => _ | L4 => _ | L5 => _ | L6 => _ | L7 => _ end).
  intros []; eassumption.
Qed.
Lemma qlanes_choice {A} (P : lane4 -> A -> Prop) : (forall l, exists x, P l x) -> exists f, forall l, P l (f l).
Proof.
  intros H. destruct (H M0), (H M1), (H M2), (H M3).
  eexists (fun l => match l with M0 => _ | M1 => _ | M2 => _ | M3 => _ end). intros []; eassumption.
Qed.
Definition gather (f : lane8 -> list u32) : list (oct u32) :=
  map (fun i => Oct (wget (f L0) i) (wget (f L1) i) (wget (f L2) i) (wget (f L3) i)
                    (wget (f L4) i) (wget (f L5) i) (wget (f L6) i) (wget (f L7) i)) (seq 0 16).
Definition qgather (f : lane4 -> list u32) : list (quad u32) :=
  map (fun i => Quad (wget (f M0) i) (wget (f M1) i) (wget (f M2) i) (wget (f M3) i)) (seq 0 16).
Lemma wget_seq xs : length xs = 16%nat -> map (wget xs) (seq 0 16) = xs.
Proof. intros H. do 16 (destruct xs as [|? xs]; [discriminate H|]). destruct xs; [reflexivity|discriminate H]. Qed.
Lemma map_gather f l : length (f l) = 16%nat -> map (proj l) (gather f) = f l.
Proof. intros H. unfold gather. rewrite map_map. etransitivity; [|exact (wget_seq _ H)]. destruct l; reflexivity. Qed.
Lemma map_qgather f l : length (f l) = 16%nat -> map (qproj l) (qgather f) = f l.
Proof. intros H. unfold qgather. rewrite map_map. etransitivity; [|exact (wget_seq _ H)]. destruct l; reflexivity. Qed.
Lemma lanes_ext {A} (v w : list (oct A)) : (forall l, map (proj l) v = map (proj l) w) -> v = w.
Proof.
  revert w. induction v as [|x v IH]; intros [|y w] H; try reflexivity; try (discriminate (H L0)).
  f_equal; [apply oct_ext; intro l|apply IH; intro l]; specialize (H l); cbn [map] in H; congruence.
Qed.
Lemma qlanes_ext {A} (v w : list (quad A)) : (forall l, map (qproj l) v = map (qproj l) w) -> v = w.
Proof.
  revert w. induction v as [|x v IH]; intros [|y w] H; try reflexivity; try (discriminate (H M0)).
  f_equal; [apply quad_ext; intro l|apply IH; intro l]; specialize (H l); cbn [map] in H; congruence.
Qed.
Lemma lanes_permutes (F : list (oct u32) -> list (oct u32)) (f : lane8 -> list u32 -> list u32) :
  (forall v, length v = 16%nat -> length (F v) = 16%nat) ->
  (forall l v, length v = 16%nat -> map (proj l) (F v) = f l (map (proj l) v)) ->
  (forall l, permutes (f l)) -> permutes F.
Proof.
  intros HL HF Hp. apply lanes_choice in Hp as (back & Hb).
  exists (fun v => gather (fun l => back l (map (proj l) v))). intros v Hv.
  assert (Lv : forall l, length (map (proj l) v) = 16%nat) by (intros; rewrite map_length; exact Hv).
  assert (LF : forall l, length (map (proj l) (F v)) = 16%nat) by (intros; rewrite map_length; apply HL, Hv).
  split; [apply HL, Hv|]. split; [unfold gather; rewrite map_length; reflexivity|]. split; apply lanes_ext; intro l.
  - rewrite map_gather by (destruct (Hb l _ (LF l)) as (_ & B & _); exact B).
    rewrite HF by exact Hv. destruct (Hb l _ (Lv l)) as (_ & _ & B & _). exact B.
  - rewrite HF by (unfold gather; rewrite map_length; reflexivity). destruct (Hb l _ (Lv l)) as (_ & B & _ & B').
    rewrite map_gather by exact B. exact B'.
Qed.
Lemma qlanes_permutes (F : list (quad u32) -> list (quad u32)) (f : lane4 -> list u32 -> list u32) :
  (forall v, length v = 16%nat -> length (F v) = 16%nat) ->
  (forall l v, length v = 16%nat -> map (qproj l) (F v) = f l (map (qproj l) v)) ->
  (forall l, permutes (f l)) -> permutes F.
Proof.
  intros HL HF Hp. apply qlanes_choice in Hp as (back & Hb).
  exists (fun v => qgather (fun l => back l (map (qproj l) v))). intros v Hv.
  assert (Lv : forall l, length (map (qproj l) v) = 16%nat) by (intros; rewrite map_length; exact Hv).
  assert (LF : forall l, length (map (qproj l) (F v)) = 16%nat) by (intros; rewrite map_length; apply HL, Hv).
  split; [apply HL, Hv|]. split; [unfold qgather; rewrite map_length; reflexivity|]. split; apply qlanes_ext; intro l.
  - rewrite map_qgather by (destruct (Hb l _ (LF l)) as (_ & B & _); exact B).
    rewrite HF by exact Hv. destruct (Hb l _ (Lv l)) as (_ & _ & B & _). exact B.
  - rewrite HF by (unfold qgather; rewrite map_length; reflexivity). destruct (Hb l _ (Lv l)) as (_ & B & _ & B').
    rewrite map_qgather by exact B. exact B'.
Qed.
Theorem round_8x_permutes m r : permutes (fun v => Avx2.blake2s_round_8x v m r).
Proof.
  apply (lanes_permutes _ (fun l => round r (map (proj l) m))).
  - intros v Hv. rewrite round_8x_length. exact Hv.
  - intros l v Hv. apply map_round, Hv.
  - intros l. apply round_permutes.
Qed.
Theorem round_4_permutes m r : permutes (fun v => Sse41.round_4 v m r).
Proof.
  apply (qlanes_permutes _ (fun l => round r (map (qproj l) m))).
  - intros v Hv. rewrite round_4_length. exact Hv.
  - intros l v Hv. apply map4_round, Hv.
  - intros l. apply round_permutes.
Qed.
Theorem round_8x_message r m m' v : (r < 12)%nat -> length v = 16%nat -> length m = 16%nat -> length m' = 16%nat ->
  Avx2.blake2s_round_8x v m r = Avx2.blake2s_round_8x v m' r -> m = m'.
Proof.
  intros Hr Hv Hm Hm' H. apply lanes_ext. intros l.
  apply (round_message r _ _ (map (proj l) v) Hr); rewrite ?map_length; try assumption.
  etransitivity; [symmetry; apply map_round, Hv|]. etransitivity; [|apply map_round, Hv]. exact (f_equal (map (proj l)) H).
Qed.
Theorem round_4_message r m m' v : (r < 12)%nat -> length v = 16%nat -> length m = 16%nat -> length m' = 16%nat ->
  Sse41.round_4 v m r = Sse41.round_4 v m' r -> m = m'.
Proof.
  intros Hr Hv Hm Hm' H. apply qlanes_ext. intros l.
  apply (round_message r _ _ (map (qproj l) v) Hr); rewrite ?map_length; try assumption.
  etransitivity; [symmetry; apply map4_round, Hv|]. etransitivity; [|apply map4_round, Hv]. exact (f_equal (map (qproj l)) H).
Qed.

(** ** The rows of the SSE4.1 code *)
Definition v_rows (v : list u32) : Sse41.rows :=
  (Quad (wget v 0) (wget v 1) (wget v 2) (wget v 3), Quad (wget v 4) (wget v 5) (wget v 6) (wget v 7),
   Quad (wget v 8) (wget v 9) (wget v 10) (wget v 11), Quad (wget v 12) (wget v 13) (wget v 14) (wget v 15)).
Lemma v_rows_v x : v_rows (rows_v x) = x.
Proof. destruct x as [[[[] []] []] []]. reflexivity. Qed.
Lemma rows_v_rows v : length v = 16%nat -> rows_v (v_rows v) = v.
Proof. intros H. do 16 (destruct v as [|? v]; [discriminate H|]). destruct v; [reflexivity|discriminate H]. Qed.
Lemma rows_v_length x : length (rows_v x) = 16%nat.
Proof. destruct x as [[[[] []] []] []]. reflexivity. Qed.
Lemma m4_inj m0 m1 m2 m3 m0' m1' m2' m3' : m4 m0 m1 m2 m3 = m4 m0' m1' m2' m3' ->
  m0 = m0' /\ m1 = m1' /\ m2 = m2' /\ m3 = m3'.
Proof. destruct m0, m1, m2, m3, m0', m1', m2', m3'. intros H. injection H. intros; subst. auto. Qed.
Definition uncurried (f : m128 -> m128 -> m128 -> m128 -> m128 -> m128 -> m128 -> m128 -> Sse41.rows)
  (m0 m1 m2 m3 : m128) (x : Sse41.rows) : Sse41.rows :=
  let '(row1, row2, row3, row4) := x in f row1 row2 row3 row4 m0 m1 m2 m3.
Definition keeps_all (f : m128 -> m128 -> m128 -> m128 -> m128 -> m128 -> m128 -> m128 -> Sse41.rows) : Prop :=
  (forall m0 m1 m2 m3, bijective (uncurried f m0 m1 m2 m3)) /\
  (forall row1 row2 row3 row4 m0 m1 m2 m3 m0' m1' m2' m3',
    f row1 row2 row3 row4 m0 m1 m2 m3 = f row1 row2 row3 row4 m0' m1' m2' m3' ->
    m0 = m0' /\ m1 = m1' /\ m2 = m2' /\ m3 = m3').
Lemma row_round_keeps f r : (r < 12)%nat ->
  (forall row1 row2 row3 row4 m0 m1 m2 m3, rows_v (f row1 row2 row3 row4 m0 m1 m2 m3) =
     round r (m4 m0 m1 m2 m3) (rows_v (row1, row2, row3, row4))) -> keeps_all f.
Proof.
  intros Hr Hf. split.
  - intros m0 m1 m2 m3. destruct (round_permutes r (m4 m0 m1 m2 m3)) as (back & B).
    exists (fun x => v_rows (back (rows_v x))).
    assert (E : forall x, rows_v (uncurried f m0 m1 m2 m3 x) = round r (m4 m0 m1 m2 m3) (rows_v x)).
    { intros [[[row1 row2] row3] row4]. apply Hf. }
    split; intros x; destruct (B _ (rows_v_length x)) as (B1 & B2 & B3 & B4).
    + rewrite E, B3. apply v_rows_v.
    + rewrite <- (v_rows_v (uncurried f m0 m1 m2 m3 _)), E, rows_v_rows by exact B2. rewrite B4. apply v_rows_v.
  - intros row1 row2 row3 row4 m0 m1 m2 m3 m0' m1' m2' m3' H. apply m4_inj.
    apply (round_message r _ _ (rows_v (row1, row2, row3, row4)) Hr (rows_v_length _)); [destruct m0, m1, m2, m3; reflexivity|destruct m0', m1', m2', m3'; reflexivity|].
    etransitivity; [symmetry; apply Hf|]. etransitivity; [|apply Hf]. exact (f_equal rows_v H).
Qed.
Theorem row_rounds_keep_all : Forall keeps_all
  [Sse41.compress_round1; Sse41.compress_round2; Sse41.compress_round3; Sse41.compress_round4; Sse41.compress_round5;
   Sse41.compress_round6; Sse41.compress_round7; Sse41.compress_round8; Sse41.compress_round9; Sse41.compress_round10].
Proof.
  constructor; [apply (row_round_keeps _ 0); [lia|exact compress_round1_ok]|].
  constructor; [apply (row_round_keeps _ 1); [lia|exact compress_round2_ok]|].
  constructor; [apply (row_round_keeps _ 2); [lia|exact compress_round3_ok]|].
  constructor; [apply (row_round_keeps _ 3); [lia|exact compress_round4_ok]|].
  constructor; [apply (row_round_keeps _ 4); [lia|exact compress_round5_ok]|].
  constructor; [apply (row_round_keeps _ 5); [lia|exact compress_round6_ok]|].
  constructor; [apply (row_round_keeps _ 6); [lia|exact compress_round7_ok]|].
  constructor; [apply (row_round_keeps _ 7); [lia|exact compress_round8_ok]|].
  constructor; [apply (row_round_keeps _ 8); [lia|exact compress_round9_ok]|].
  constructor; [apply (row_round_keeps _ 9); [lia|exact compress_round10_ok]|]. constructor.
Qed.
Theorem compress_is_permutation msg : exists P, permutes P /\ forall h count f0 f1,
  nums (compress h msg count f0 f1) =
  let v := P (oct_list h ++ [o0 IV; o1 IV; o2 IV; o3 IV; uxor (o4 IV) (cast 32 count);
                             uxor (o5 IV) (cast 32 (ushr count 32)); uxor (o6 IV) f0; uxor (o7 IV) f1]) in
  map (fun i => val (uxor (nth i (oct_list h) (uzero 32)) (uxor (wget v i) (wget v (i + 8))))) (seq 0 8).
Proof.
  destruct (compress_permutes msg) as (P & HP & H). exists P. split; [exact HP|]. intros h count f0 f1.
  rewrite H. destruct h as [e e0 e1 e2 e3 e4 e5 e6]. unfold init_v. cbn [o0 o1 o2 o3 o4 o5 o6 o7 oct_list app].
  cbv zeta. generalize (P [e; e0; e1; e2; e3; e4; e5; e6; o0 IV; o1 IV; o2 IV; o3 IV; uxor (o4 IV) (cast 32 count);
       uxor (o5 IV) (cast 32 (ushr count 32)); uxor (o6 IV) f0; uxor (o7 IV) f1]).
  intros w. reflexivity.
Qed.
