(** * TestInputs: the inputs of the crate's tests. *)
From Verif Require Import Base BaseFacts Consts Params ParamsSpec State Blake2sp StateFacts MachineSpec TestSuite TestRun TestRunFacts.
From Verif Require Spec.
From Coq Require Import ZArith Lia ZifyBool ZifyNat ZifyN.
Local Open Scope N_scope.

(** ** [paint_input] *)
Lemma paint_loop_nth fuel : forall k n i, (n <= fuel)%nat -> (i < n)%nat -> k + N.of_nat (i / 4) < 2 ^ 32 ->
  nth_error (paint_loop fuel k n) i = nth_error (Spec.le_bytes 4 (k + N.of_nat (i / 4))) (i mod 4).
Proof.
  induction fuel as [|fuel IH]; intros k n i Hn Hi Hk; [lia|]. destruct n as [|n]; [lia|]. cbn [paint_loop]. cbv zeta.
  assert (L4 : forall x : u32, length (u32_to_bytes x) = 4%nat) by reflexivity.
  assert (Lf : length (firstn (Nat.min 4 (S n)) (u32_to_bytes (of_N 32 k))) = Nat.min 4 (S n)) by (rewrite firstn_length, L4; lia).
  destruct (Nat.ltb_spec i (Nat.min 4 (S n))) as [H|H].
  - rewrite nth_error_app1 by (rewrite Lf; exact H).
    assert (Hq : (i / 4 = 0)%nat) by (apply Nat.div_small; lia). assert (Hm : (i mod 4 = i)%nat) by (apply Nat.mod_small; lia).
    rewrite Hq, Hm in *. rewrite N.add_0_r in *. rewrite <- le_bytes_word, val_of_N_small by exact Hk.
    clear - H. assert (forall (A : Type) (l : list A) j, (i < j)%nat -> nth_error (firstn j l) i = nth_error l i) as ->; [|reflexivity|exact H].
    clear. intros A l j. revert l i. induction j as [|j IH]; intros l i H; [lia|]. destruct l as [|a l]; [reflexivity|].
    destruct i as [|i]; [reflexivity|]. cbn [firstn nth_error]. apply IH. lia.
  - rewrite nth_error_app2 by (rewrite Lf; exact H). rewrite Lf.
    assert (H4 : Nat.min 4 (S n) = 4%nat) by lia. rewrite H4 in *.
    assert (Hq : (i / 4 = S ((i - 4) / 4))%nat).
    { pose proof (Nat.div_add_l 1 4 (i - 4) ltac:(lia)) as D. replace (1 * 4 + (i - 4))%nat with i in D by lia. lia. }
    assert (Hm : (i mod 4 = (i - 4) mod 4)%nat).
    { replace i with (i - 4 + 1 * 4)%nat at 1 by lia. apply Nat.mod_add. lia. }
    rewrite IH by lia. rewrite Hq, Hm. replace (k + 1 + N.of_nat ((i - 4) / 4)) with (k + N.of_nat (S ((i - 4) / 4))) by lia. reflexivity.
Qed.
Theorem painted n i : N.of_nat n < 2 ^ 33 -> (i < n)%nat ->
  nth_error (paint_input n) i = nth_error (Spec.le_bytes 4 (1 + N.of_nat (i / 4))) (i mod 4).
Proof.
  intros Hn Hi. apply paint_loop_nth; [lia|exact Hi|]. pose proof (Nat.div_mod i 4 ltac:(lia)).
  change (2 ^ 33) with 8589934592 in Hn. change (2 ^ 32) with 4294967296. lia.
Qed.
Theorem painted_length n : length (paint_input n) = n.
Proof. apply paint_length. lia. Qed.

(** ** The pieces of [test_update8] *)
Lemma skipn_add {A} (x : list A) i n : skipn (i + n) x = skipn n (skipn i x).
Proof. revert x. induction i as [|i IH]; intros [|a x]; cbn [Nat.add skipn]; try reflexivity; [destruct n; reflexivity|apply IH]. Qed.
Lemma sub_next {A} (x : list A) i n m : sub x i n ++ sub x (i + n) m = sub x i (n + m).
Proof.
  unfold sub. rewrite skipn_add. generalize (skipn i x). clear. intros l. revert l m.
  induction n as [|n IH]; intros l m; [reflexivity|]. destruct l as [|a l]; [destruct m; reflexivity|].
  cbn [firstn skipn app Nat.add]. f_equal. apply IH.
Qed.
Theorem update8_inputs_all : concat (oct_list update8_inputs) = paint_input (75 * 64).
Proof.
  unfold update8_inputs. cbv zeta. pose proof (painted_length (75 * 64)) as L. revert L. generalize (paint_input (75 * 64)). intros x L.
  cbn [oct_list concat]. unfold blocks_from. rewrite app_nil_r.
  rewrite (sub_next x (64 * 60)), (sub_next x (64 * 50)), (sub_next x (64 * 40)), (sub_next x (64 * 30)), (sub_next x (64 * 20)),
    (sub_next x (64 * 10)), (sub_next x (64 * 0)).
  unfold sub. rewrite Nat.mul_0_r. cbn [skipn]. apply firstn_all2. rewrite L. apply Nat.leb_le. reflexivity.
Qed.
Theorem f_params_different : NoDup (map spec_params (oct_list f_params)).
Proof. apply NoDup_map_inv with (f := Spec.digest_length). vm_compute. repeat constructor; cbn; intuition discriminate. Qed.

(** ** The calls that should panic *)
Definition amount (s : setter) : nat * N :=
  match s with
  | SHashLength n => (0%nat, n)
  | SKey k => (1%nat, N.of_nat (length k))
  | SSalt k => (2%nat, N.of_nat (length k))
  | SPersonal k => (3%nat, N.of_nat (length k))
  | SFanout n => (4%nat, val n)
  | SMaxDepth n => (5%nat, val n)
  | SMaxLeafLength n => (6%nat, val n)
  | SNodeOffset n => (7%nat, val n)
  | SNodeDepth n => (8%nat, val n)
  | SInnerHashLength n => (9%nat, n)
  | SLastNode b => (10%nat, if b then 1 else 0)
  end.
Definition sp_amount (s : sp_setter) : nat * N :=
  match s with SpHashLength n => (0%nat, n) | SpKey k => (1%nat, N.of_nat (length k)) end.
(** Rejected, while one more or one less is accepted. *)
Definition at_limit {A} (amount : A -> nat * N) (valid : A -> bool) (s : A) : Prop :=
  valid s = false /\ exists s', valid s' = true /\ fst (amount s') = fst (amount s) /\
    (snd (amount s') = snd (amount s) + 1 \/ snd (amount s) = snd (amount s') + 1).
Lemma rejects_dec (s : setter) : In (amount s) (map amount panicking_calls) <->
  match s with
  | SHashLength n => n = 0 \/ n = 33
  | SKey k => N.of_nat (length k) = 33
  | SSalt k | SPersonal k => N.of_nat (length k) = 9
  | SMaxDepth d => val d = 0
  | SInnerHashLength n => n = 33
  | _ => False
  end.
Proof.
  assert (E : map amount panicking_calls = [(0%nat, 0); (0%nat, 33); (1%nat, 33); (2%nat, 9); (3%nat, 9); (5%nat, 0); (9%nat, 33)]) by (lazy; reflexivity).
  rewrite E. destruct s; cbn [amount In]; split; intros H;
    try (repeat (destruct H as [H|H]; [injection H; intros; try discriminate; subst; auto with nocore; try lia|]); contradiction);
    try contradiction; try (destruct H as [H|H]); try rewrite H; auto 12.
Qed.
Lemma zeros n : exists k : list byte, length k = n.
Proof. exists (repeat x00 n). apply repeat_length. Qed.
Theorem panicking_calls_limits s :
  In (amount s) (map amount panicking_calls) <-> at_limit amount valid_setter s /\ fst (amount s) <> 7%nat.
Proof.
  rewrite rejects_dec. unfold at_limit. split.
  - destruct s as [n|k|k|k|f|d|m|o|d|n|b]; cbn [valid_setter amount fst snd]; intros H; try contradiction.
    + split; [|discriminate]. split; [lia|]. destruct H as [-> | ->]; [exists (SHashLength 1)|exists (SHashLength 32)]; cbn; auto.
    + split; [|discriminate]. split; [lia|]. destruct (zeros 32) as (k' & E). exists (SKey k'). cbn [valid_setter amount fst snd]. rewrite E, H. split; [reflexivity|]. auto.
    + split; [|discriminate]. split; [lia|]. destruct (zeros 8) as (k' & E). exists (SSalt k'). cbn [valid_setter amount fst snd]. rewrite E, H. split; [reflexivity|]. auto.
    + split; [|discriminate]. split; [lia|]. destruct (zeros 8) as (k' & E). exists (SPersonal k'). cbn [valid_setter amount fst snd]. rewrite E, H. split; [reflexivity|]. auto.
    + split; [|discriminate]. rewrite H. split; [reflexivity|]. exists (SMaxDepth (of_N 8 1)). cbn. auto.
    + split; [|discriminate]. split; [lia|]. subst. exists (SInnerHashLength 32). cbn. auto.
  - intros ((V & s' & V' & K & D) & N7).
    destruct s as [n|k|k|k|f|d|m|o|d|n|b], s' as [n'|k'|k'|k'|f'|d'|m'|o'|d'|n'|b']; cbn [valid_setter amount fst snd] in *; try discriminate; lia.
Qed.
Theorem sp_panicking_calls_limits s :
  In (sp_amount s) (map sp_amount sp_panicking_calls) <-> at_limit sp_amount sp_setter_ok s.
Proof.
  assert (E : map sp_amount sp_panicking_calls = [(0%nat, 0); (0%nat, 33); (1%nat, 33)]) by (lazy; reflexivity).
  rewrite E. unfold at_limit. destruct s as [n|k]; cbn [sp_amount sp_setter_ok In fst snd]; split.
  - intros [H|[H|[H|[]]]]; injection H; intros; try discriminate; subst; (split; [reflexivity|]); [exists (SpHashLength 1)|exists (SpHashLength 32)]; cbn; auto.
  - intros (V & s' & V' & K & D). destruct s' as [n'|k']; cbn [sp_amount sp_setter_ok fst snd] in *; try discriminate.
    assert (n = 0 \/ n = 33) as [-> | ->] by lia; auto.
  - intros [H|[H|[H|[]]]]; injection H; intros; try discriminate. split; [lia|].
    destruct (zeros 32) as (k' & L). exists (SpKey k'). cbn [sp_amount sp_setter_ok fst snd]. rewrite L. split; [reflexivity|]. split; [reflexivity|]. lia.
  - intros (V & s' & V' & K & D). destruct s' as [n'|k']; cbn [sp_amount sp_setter_ok fst snd] in *; try discriminate.
    right. right. left. f_equal. lia.
Qed.
(** The one limit with no test. *)
Theorem node_offset_limit o : at_limit amount valid_setter (SNodeOffset o) <-> val o = 2 ^ 48.
Proof.
  unfold at_limit. cbn [valid_setter amount fst snd]. split.
  - intros (V & s' & V' & K & D). destruct s'; cbn [valid_setter amount fst snd] in *; try discriminate. lia.
  - intros H. rewrite H. split; [reflexivity|]. exists (SNodeOffset (of_N 64 (2 ^ 48 - 1))). cbn [valid_setter amount fst snd].
    rewrite val_of_N_small by reflexivity. split; [reflexivity|]. split; [reflexivity|]. right. reflexivity.
Qed.
Lemma not_at_limit_34 : ~ at_limit amount valid_setter (SHashLength 34).
Proof. intros (_ & s' & V & K & D). destruct s'; cbn [valid_setter amount fst snd] in *; try discriminate; lia. Qed.
