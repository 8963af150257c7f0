(** * LeafFacts: which bytes each BLAKE2sp leaf gets. *)
From Verif Require Import Base SpecFacts.
From Verif Require Spec.
From Coq Require Import Arith Lia.

(** [leaf_input] of data starting at position [off]. *)
Definition leaf_at (i off : nat) (data : list byte) : list byte :=
  map snd (filter (fun pb => Nat.eqb ((fst pb / 64) mod 8) i)
                  (combine (seq off (length data)) data)).

Lemma leaf_input_at i data : Spec.leaf_input i data = leaf_at i 0 data.
Proof. reflexivity. Qed.

Lemma leaf_at_app i a : forall off b,
  leaf_at i off (a ++ b) = leaf_at i off a ++ leaf_at i (off + length a) b.
Proof.
  induction a as [|x a IH]; intros off b.
  - cbn [app length]. rewrite Nat.add_0_r. reflexivity.
  - unfold leaf_at in *. cbn [app length seq combine filter]. specialize (IH (S off) b).
    rewrite Nat.add_succ_r. cbn [Nat.add] in IH.
    destruct (_ =? i)%nat; cbn [map app]; rewrite IH; reflexivity.
Qed.

Lemma leaf_at_shift i data : forall off, leaf_at i (off + 512) data = leaf_at i off data.
Proof.
  induction data as [|x d IH]; intros off; [reflexivity|].
  unfold leaf_at in *. cbn [length seq combine filter fst]. specialize (IH (S off)).
  cbn [Nat.add] in IH.
  assert (E : ((off + 512) / 64 mod 8 = off / 64 mod 8)%nat).
  { change 512%nat with (8 * 64)%nat. rewrite Nat.div_add by discriminate.
    pose proof (Nat.mod_add (off / 64) 1 8) as H. rewrite Nat.mul_1_l in H. apply H. discriminate. }
  rewrite E. destruct (_ =? i)%nat; cbn [map]; rewrite IH; reflexivity.
Qed.
Lemma leaf_at_512 i data k : leaf_at i (512 * k) data = leaf_at i 0 data.
Proof.
  induction k as [|k IH]; [reflexivity|].
  replace (512 * S k)%nat with (512 * k + 512)%nat by lia. rewrite leaf_at_shift. exact IH.
Qed.

Lemma leaf_input_app i P B k : length P = (512 * k)%nat ->
  Spec.leaf_input i (P ++ B) = Spec.leaf_input i P ++ Spec.leaf_input i B.
Proof.
  intros H. rewrite !leaf_input_at, leaf_at_app, H. cbn [Nat.add]. rewrite leaf_at_512. reflexivity.
Qed.

(** A run of bytes inside one block. *)
Lemma leaf_at_run i data : forall off j, (64 * j <= off)%nat -> (off + length data <= 64 * j + 64)%nat ->
  leaf_at i off data = if Nat.eqb (j mod 8) i then data else [].
Proof.
  induction data as [|x d IH]; intros off j H1 H2; cbn [length] in H2.
  - destruct (_ =? i)%nat; reflexivity.
  - assert (E : (off / 64 = j)%nat).
    { symmetry. apply (Nat.div_unique off 64 j (off - 64 * j)); lia. }
    unfold leaf_at in *. cbn [length seq combine filter fst]. specialize (IH (S off) j).
    rewrite E. specialize (IH ltac:(lia) ltac:(lia)).
    destruct (Nat.eqb (j mod 8) i); cbn [map]; rewrite IH; reflexivity.
Qed.

Lemma leaf_at_chunk i j data :
  leaf_at i (64 * j) data =
  (if Nat.eqb (j mod 8) i then firstn 64 data else []) ++ leaf_at i (64 * S j) (skipn 64 data).
Proof.
  rewrite <- (firstn_skipn 64 data) at 1. rewrite leaf_at_app.
  rewrite (leaf_at_run i _ (64 * j) j) by (rewrite ?firstn_length; lia). f_equal.
  rewrite firstn_length. destruct (Nat.le_ge_cases 64 (length data)).
  - f_equal. lia.
  - rewrite skipn_all2 by lia. reflexivity.
Qed.

Lemma skipn_plus {A} n (xs : list A) : forall m, skipn n (skipn m xs) = skipn (n + m) xs.
Proof.
  induction xs as [|x xs IH]; intros m; [rewrite !skipn_nil; reflexivity|].
  destruct m; cbn [skipn]; [rewrite Nat.add_0_r; reflexivity|].
  rewrite IH, Nat.add_succ_r. reflexivity.
Qed.

Lemma leaf_chunks i n : forall j data, (length data <= 64 * n)%nat ->
  leaf_at i (64 * j) data =
  flat_map (fun t => if Nat.eqb ((j + t) mod 8) i then sub data (t * 64) 64 else []) (seq 0 n).
Proof.
  induction n as [|n IH]; intros j data H.
  - destruct data; [reflexivity|cbn [length] in H; lia].
  - rewrite leaf_at_chunk, IH by (rewrite skipn_length; lia).
    cbn [seq flat_map]. rewrite Nat.add_0_r. f_equal.
    rewrite <- seq_shift, !flat_map_concat_map, map_map. f_equal. apply map_ext. intros t.
    replace (S j + t)%nat with (j + S t)%nat by lia. unfold sub. rewrite skipn_plus.
    replace (t * 64 + 64)%nat with (S t * 64)%nat by lia. reflexivity.
Qed.

Lemma leaf_input_two i data : (i < 8)%nat -> (length data <= 1024)%nat ->
  Spec.leaf_input i data = sub data (i * 64) 64 ++ sub data ((i + 8) * 64) 64.
Proof.
  intros Hi Hl. rewrite leaf_input_at. pose proof (leaf_chunks i 16 0 data Hl) as E.
  rewrite Nat.mul_0_r in E. rewrite E. clear E Hl.
  change (seq 0 16) with [0;1;2;3;4;5;6;7;8;9;10;11;12;13;14;15]%nat. cbn [flat_map].
  do 8 (destruct i as [|i]; [repeat match goal with |- context [Nat.eqb ?a ?b] =>
    let v := eval vm_compute in (Nat.eqb a b) in change (Nat.eqb a b) with v; cbv iota end;
    cbn [app]; rewrite ?app_nil_r; reflexivity|]).
  lia.
Qed.

Lemma sub_firstn {A} (xs : list A) n off len : (off + len <= n)%nat ->
  sub (firstn n xs) off len = sub xs off len.
Proof.
  intros H. unfold sub. rewrite skipn_firstn_comm, firstn_firstn. f_equal. lia.
Qed.

Lemma leaf_input_one i data : (i < 8)%nat -> length data = 512%nat ->
  Spec.leaf_input i data = sub data (i * 64) 64.
Proof.
  intros Hi Hl. rewrite leaf_input_two by lia.
  unfold sub at 2. rewrite skipn_all2 by lia. rewrite firstn_nil. apply app_nil_r.
Qed.
Lemma sub_length {A} (xs : list A) off len :
  length (sub xs off len) = Nat.min len (length xs - off).
Proof. unfold sub. rewrite firstn_length, skipn_length. reflexivity. Qed.

Lemma leaf_input_length i k : (i < 8)%nat -> forall P, length P = (512 * k)%nat ->
  length (Spec.leaf_input i P) = (64 * k)%nat.
Proof.
  intros Hi. induction k as [|k IH]; intros P H.
  - destruct P; [reflexivity|cbn [length] in H; lia].
  - rewrite <- (firstn_skipn 512 P).
    assert (H1 : length (firstn 512 P) = 512%nat) by (rewrite firstn_length; lia).
    rewrite (leaf_input_app i _ _ 1) by lia. rewrite app_length, leaf_input_one by assumption.
    rewrite IH by (rewrite skipn_length; lia). rewrite sub_length, H1. lia.
Qed.
Lemma leaf_input_le i data : (length (Spec.leaf_input i data) <= length data)%nat.
Proof.
  unfold Spec.leaf_input. rewrite map_length.
  transitivity (length (combine (seq 0 (length data)) data)).
  - generalize (combine (seq 0 (length data)) data). intros l.
    induction l as [|x l IH]; cbn [filter length]; [lia|]. destruct (_ =? i)%nat; cbn [length]; lia.
  - rewrite combine_length. lia.
Qed.
