(** * UnwindLevels: no call leaves a [State] whose fill level is above 64, if it panics too. *)
From Verif Require Import Base BaseFacts Consts Params ParamsSpec State Many Blake2sp Debug Views Machine MachineSpec StateFacts
  Clients Terms Robust Avx2Facts Unwind UnwindFacts UnwindTyped Resume.
From Verif Require Spec.
From Coq Require Import Lia ZifyBool ZifyNat ZifyN.
Local Open Scope N_scope.

Definition level (st : State) : Prop := (buflen_nat st <= 64)%nat.
Definition levels (s : session) : Prop := Forall level (s_states s).

Section Config.
Context (c : cfg).

(** ** [State] *)
Lemma fill_buf_level input : keeps level (fill_buf_u c input) anything.
Proof.
  unfold fill_buf_u. kp; [apply keeps_this|]; intros st Hs.
  kp; [apply (keeps_eval _ _ (fun room => (room <= 64 - buflen_nat st)%nat))|]; [|intros room Hr; cbv beta in Hr].
  { intros room E. rewrite nsub_ok in E by exact Hs. inversion E. apply le_n. }
  cbv zeta. kp; [apply keeps_any|]; intros src _. kp; [apply keeps_any|]; intros buf _.
  kp; [apply keeps_assign; intros s H; exact H|]; intros _ _.
  kp; [apply (keeps_eval _ _ (fun n => val n <= 64))|]; [|intros n Hn; cbv beta in Hn].
  { intros n E. unfold level, buflen_nat in *. set (t := Nat.min room (length input)) in *.
    assert (Em : val (of_N 8 (N.of_nat t)) = N.of_nat t).
    { apply val_of_N_small. change (2 ^ 8) with 256. unfold t. lia. }
    rewrite uadd_ok in E by (intros _; rewrite Em; change (2 ^ 8) with 256; unfold t; lia).
    assert (E' : n = of_N 8 (val (st_buflen st) + val (of_N 8 (N.of_nat t)))) by congruence.
    rewrite E', val_of_N_small; rewrite Em; [|change (2 ^ 8) with 256]; unfold t; lia. }
  kp; [apply keeps_assign; intros s _; unfold level, buflen_nat; cbn [set_buflen st_buflen]; lia|]; intros _ _.
  kp; [apply keeps_any|]; intros m _. kp; [apply keeps_assign; intros s H; exact H|]; intros _ _. apply keeps_any.
Qed.
Lemma compress_buffer_level input : keeps level (compress_buffer_if_possible_u c input) anything.
Proof.
  unfold compress_buffer_if_possible_u. kp; [apply keeps_this|]; intros st _. apply keeps_if; [|apply keeps_ret; exact I].
  kp; [apply fill_buf_level|]; intros i _. destruct i; [apply keeps_ret; exact I|].
  kp; [apply keeps_this|]; intros st' _. kp; [apply keeps_any|]; intros h _.
  kp; [apply keeps_assign; intros s H; exact H|]; intros _ _.
  kp; [apply keeps_assign; intros s _; unfold level, buflen_nat; cbn [set_buflen st_buflen]; rewrite val_uzero; lia|]; intros _ _.
  apply keeps_ret. exact I.
Qed.
Lemma bump_level : keeps level (bump_count_u c) anything.
Proof.
  unfold bump_count_u. kp; [apply keeps_this|]; intros st _. kp; [apply keeps_any|]; intros n _.
  apply keeps_assign. intros s H. exact H.
Qed.
Lemma update_loop_level fuel : forall input, keeps level (update_loop_u fuel c input) anything.
Proof.
  induction fuel as [|fuel IH]; intros input; cbn [update_loop_u]; [apply keeps_any|].
  apply keeps_if; [|apply keeps_ret; exact I]. kp; [apply bump_level|]; intros _ _. kp; [apply keeps_any|]; intros b _.
  kp; [apply keeps_this|]; intros st _. kp; [apply keeps_any|]; intros h _.
  kp; [apply keeps_assign; intros s H; exact H|]; intros _ _. kp; [apply keeps_any|]; intros r _. apply IH.
Qed.
Lemma update_level input : keeps level (update_u c input) anything.
Proof.
  unfold update_u. kp; [apply compress_buffer_level|]; intros i _. kp; [apply update_loop_level|]; intros r _.
  kp; [apply fill_buf_level|]; intros _ _. apply keeps_ret. exact I.
Qed.
Lemma finalize_level : keeps level (finalize_u c) anything.
Proof.
  unfold finalize_u. kp; [apply keeps_assign; intros s H; exact H|]; intros _ _. kp; [apply keeps_this|]; intros st _.
  kp; [apply keeps_any|]; intros h _. apply keeps_ret. exact I.
Qed.

(** ** Eight states *)
Lemma update8_loop_level fuel f : forall inputs, keeps (all_lanes level) (update8_loop_u fuel c f inputs) anything.
Proof.
  induction fuel as [|fuel IH]; intros inputs; cbn [update8_loop_u]; [apply keeps_any|].
  apply keeps_if; [|apply keeps_ret; exact I].
  kp; [apply each8_keeps; intros _; apply bump_level|]; intros ? _. kp; [apply keeps_any|]; intros b _.
  kp; [apply keeps_this|]; intros sts _. kp; [apply keeps_any|]; intros hs _.
  kp; [apply keeps_assign; intros o H l; rewrite proj_map2; exact (H l)|]; intros _ _.
  kp; [apply keeps_any|]; intros r _. apply IH.
Qed.
Lemma update8_level inputs : keeps (all_lanes level) (update8_u c inputs) anything.
Proof.
  unfold update8_u. kp; [apply each8_keeps; intros l; apply compress_buffer_level|]; intros i _.
  kp; [apply update8_loop_level|]; intros r _. kp; [apply each8_keeps; intros l; apply update_level|]; intros ? _.
  apply keeps_ret. exact I.
Qed.
Lemma finalize8_level : keeps (all_lanes level) (finalize8_u c) anything.
Proof.
  unfold finalize8_u. kp; [apply keeps_assign; intros o H l; rewrite proj_map; exact (H l)|]; intros _ _.
  kp; [apply keeps_this|]; intros sts _. kp; [apply keeps_any|]; intros hs _. apply keeps_ret. exact I.
Qed.

(** ** New states *)
Lemma to_state_level p st : to_state c p = Ok st -> level st.
Proof.
  unfold to_state, with_params. cbv zeta. destruct (0 <? val (p_key_length p)).
  - destruct (copy_into _ _ _ _) as [kb| | |]; try discriminate. cbn [bind].
    match goal with |- update c ?s kb = _ -> _ => set (s0 := s) end. intros E.
    assert (H0 : level s0) by (unfold level, buflen_nat, s0; cbn [st_buflen]; rewrite val_of_N_small; [lia|reflexivity]).
    pose proof (update_level kb s0 H0) as K. pose proof (forget_update c kb s0) as F. rewrite E in F.
    destruct (update_u c kb s0) as [s' u|s'| |]; try discriminate F. cbn [forget] in F. injection F as F1. rewrite <- F1. apply K.
  - intros [= <-]. unfold level, buflen_nat. cbn [st_buflen]. rewrite val_of_N_small; [lia|reflexivity].
Qed.

(** ** Any call *)
Lemma push_levels s st : levels s -> level st -> levels (with_states s (s_states s ++ [st])).
Proof. intros H Hs. apply push_Forall; assumption. Qed.
Lemma put_levels s i st : levels s -> level st -> levels (with_states s (upd (s_states s) i st)).
Proof. intros H Hs. apply upd_Forall; assumption. Qed.
Lemma nth_level s i st : levels s -> nth_error (s_states s) i = Some st -> level st.
Proof. intros H E. unfold levels in H. rewrite Forall_forall in H. eapply H, nth_error_In, E. Qed.
Lemma give_levels s h s' x : levels s -> give_hash s h = Ok (s', x) -> levels s'.
Proof. unfold give_hash. intros H. destruct (as_bytes h); try discriminate. intros [= <- _]. exact H. Qed.
Lemma gives_levels s h s' x : levels s -> give_hashes s h = Ok (s', x) -> levels s'.
Proof. unfold give_hashes. intros H. destruct (all_bytes h); try discriminate. intros [= <- _]. exact H. Qed.

Lemma ok_levels s y s' (x : obs) : levels s -> Ok (s, y) = Ok (s', x) -> levels s'.
Proof. intros H [= <- _]. exact H. Qed.

Theorem step_level o : keeps levels (step_u c o) anything.
Proof.
  assert (other : (forall s s' x, levels s -> step c s o = Ok (s', x) -> levels s') ->
            keeps levels (fun s => match step c s o with
                                   | Ok (s, x) => Returned s x
                                   | Panic => Unwound s
                                   | UB => Undef
                                   | Stuck => Endless
                                   end) anything).
  { intros H s Hs. specialize (H s). destruct (step c s o) as [(s', x)| | |]; [|exact Hs|exact I|exact I].
    exact (conj (H s' x Hs eq_refl) I). }
  assert (one : forall i (x : act State obs), keeps level x anything -> keeps levels (on_object s_states with_states i x) anything).
  { intros i x Hx s Hs. unfold on_object, at_obj. destruct (nth_error (s_states s) i) as [a|] eqn:E; [|exact (conj Hs I)].
    unfold within. specialize (Hx a (nth_level _ _ _ Hs E)). destruct (x a) as [a' y|a'| |]; try exact I.
    - exact (conj (put_levels _ _ _ Hs (proj1 Hx)) I).
    - exact (put_levels _ _ _ Hs Hx). }
  assert (same : forall S (get : session -> list S) put i (x : act S obs),
            (forall s l, s_states (put s l) = s_states s) -> keeps levels (on_object get put i x) anything).
  { intros S get put i x Hp s Hs. unfold on_object, at_obj. destruct (nth_error (get s) i) as [a|]; [|exact (conj Hs I)].
    unfold within. destruct (x a) as [a' y|a'| |]; try exact I; [split; [|exact I]|]; unfold levels; rewrite Hp; exact Hs. }
  assert (eight : forall A i (x : act (oct State) A) k, keeps (all_lanes level) x anything ->
            (forall a, keeps levels (k a) anything) -> keeps levels (on_eight i x k) anything).
  { intros A i x k Hx Hk s Hs. unfold on_eight. destruct (pick8 (s_states s) i) as [sts|] eqn:E; [|exact (conj Hs I)].
    destruct (distinct (oct_list i)); [|exact (conj Hs I)].
    pose proof (pick8_typed _ _ _ _ Hs E) as Hl.
    unfold andthen, within. specialize (Hx sts Hl). destruct (x sts) as [sts' a|sts'| |]; try exact I.
    - apply Hk. apply put8_Forall; [exact Hs|apply Hx].
    - apply put8_Forall; [exact Hs|apply Hx]. }
  assert (hashes : forall f : session -> list Hash, keeps levels (assign (fun s => with_hashes s (f s))) anything).
  { intros f. apply keeps_assign. intros s H. exact H. }
  destruct o; cbn [step_u];
    lazymatch goal with
    | |- keeps levels (on_object s_states _ _ _) _ => apply one
    | |- keeps levels (on_object _ _ _ _) _ => apply same; reflexivity
    | |- keeps levels (on_eight _ _ _) _ => apply eight
    | |- keeps levels (fun s => match step _ _ _ with _ => _ end) _ => apply other; clear; intros s s' x Hs; cbn [step]; unfold at_obj
    | _ => idtac
    end;
    repeat lazymatch goal with
    | |- context [nth_error ?l ?k] => let E := fresh "E" in destruct (nth_error l k) eqn:E
    | |- context [pick8 ?l ?k] => destruct (pick8 l k)
    end;
    try lazymatch goal with
    | |- bind ?e _ = _ -> _ => let y := fresh "y" in let Ey := fresh "Ey" in destruct e as [y| | |] eqn:Ey; try (intros HX; discriminate HX); cbn [bind]
    end;
    try lazymatch goal with
    | |- give_hash _ _ = _ -> _ => apply give_levels; exact Hs
    | |- give_hashes _ _ = _ -> _ => apply gives_levels; exact Hs
    end.
  all: try (lazymatch goal with |- Ok (_, _) = _ -> _ => apply ok_levels end;
            first [exact Hs | apply push_levels; [exact Hs|] | apply put_levels; [exact Hs|]];
            first [eapply to_state_level; eassumption | eapply nth_level; eassumption | idtac]).
  - kp; [apply update_level|]. intros _ _. apply keeps_ret. exact I.
  - unfold write_u. apply (keeps_andthen _ _ _ anything); [|intros n _; apply keeps_ret; exact I].
    kp; [apply update_level|]. intros _ _. apply keeps_ret. exact I.
  - assert (Ey' : s0 = y) by (unfold flush in Ey; congruence). rewrite <- Ey'. eapply nth_level; eassumption.
  - exact (nth_level _ _ _ Hs E).
  - exact (nth_level _ _ _ Hs E).
  - intros s Hs. unfold at_obj. destruct (nth_error (s_states s) i) as [a|] eqn:E; [|exact (conj Hs I)].
    pose proof (finalize_level a (nth_level _ _ _ Hs E)) as Hx. unfold andthen at 1. unfold within.
    destruct (finalize_u c a) as [a' h|a'| |]; try exact I.
    + pose proof (put_levels s i a' Hs (proj1 Hx)) as Hs'. revert Hs'.
      generalize (with_states s (upd (s_states s) i a')).
      change (keeps levels (b <~ eval (as_bytes h) ;;
        _ <~ assign (fun s => with_hashes s (s_hashes s ++ [h])) ;; ret (OBytes b)) anything).
      kp; [apply keeps_any|]. intros b _. kp; [apply hashes|]. intros _ _. apply keeps_ret. exact I.
    + exact (put_levels _ _ _ Hs Hx).
  - apply update8_level.
  - intros _. apply keeps_ret. exact I.
  - apply finalize8_level.
  - intros hs. kp; [apply keeps_any|]. intros b _. kp; [apply hashes|]. intros _ _. apply keeps_ret. exact I.
Qed.

(** ** A program that catches every panic *)
Lemma caught_states ops : cfg_ok c -> forall s s', typed c s -> levels s -> persist (step_u c) s ops = Some s' ->
  typed c s' /\ levels s'.
Proof.
  intros Hc. induction ops as [|o ops IH]; intros s s' Ht Hl; cbn [persist].
  - intros [= <-]. exact (conj Ht Hl).
  - pose proof (step_keeps c Hc o s Ht) as K. pose proof (step_level o s Hl) as L.
    destruct (step_u c o s) as [s1 x|s1| |]; try discriminate; apply IH; [apply K|apply L|exact K|exact L].
Qed.
Theorem caught_state ops s st : cfg_ok c -> persist (step_u c) empty_session ops = Some s -> In st (s_states s) ->
  typed_state c st /\ (buflen_nat st <= 64)%nat.
Proof.
  intros Hc E Hin.
  destruct (caught_states ops Hc empty_session s ltac:(repeat split; constructor) ltac:(constructor) E) as ((_ & H & _) & L).
  unfold levels in L. rewrite Forall_forall in H, L. exact (conj (H st Hin) (L st Hin)).
Qed.
End Config.
