(** * UnwindTyped: what a panicking call leaves are values of the right types. *)
From Verif Require Import Base BaseFacts Consts Params ParamsSpec State Many Blake2sp Debug Views Machine MachineSpec StateFacts
  Clients Terms Robust Avx2Facts Unwind UnwindFacts.
Local Open Scope N_scope.

(** Whether it returns or unwinds, [x] keeps [P]; and what it returns is a [Q]. *)
Definition keeps {S A} (P : S -> Prop) (x : act S A) (Q : A -> Prop) : Prop :=
  forall s, P s -> match x s with Returned s' a => P s' /\ Q a | Unwound s' => P s' | Undef | Endless => True end.
Lemma keeps_ret {S A} (P : S -> Prop) (a : A) (Q : A -> Prop) : Q a -> keeps P (ret a) Q.
Proof. intros H s Hs. exact (conj Hs H). Qed.
Lemma keeps_eval {S A} (P : S -> Prop) (e : outcome A) (Q : A -> Prop) : (forall a, e = Ok a -> Q a) -> keeps P (eval e) Q.
Proof. intros H s Hs. unfold eval. destruct e; try exact I; [|exact Hs]. exact (conj Hs (H a eq_refl)). Qed.
Lemma keeps_any {S A} (P : S -> Prop) (e : outcome A) : keeps P (eval e) anything.
Proof. apply keeps_eval. intros a _. exact I. Qed.
Lemma keeps_safe {S A} (P : S -> Prop) (e : outcome A) (Q : A -> Prop) : safe Q e -> keeps P (eval e) Q.
Proof. intros H. apply keeps_eval. intros a E. rewrite E in H. exact H. Qed.
Lemma keeps_andthen {S A B} (P : S -> Prop) (x : act S A) (f : A -> act S B) (Q : A -> Prop) (R : B -> Prop) :
  keeps P x Q -> (forall a, Q a -> keeps P (f a) R) -> keeps P (andthen x f) R.
Proof.
  intros Hx Hf s Hs. unfold andthen. specialize (Hx s Hs). destruct (x s) as [s' a|s'| |]; try exact Hx.
  apply (Hf a (proj2 Hx) s' (proj1 Hx)).
Qed.
Lemma keeps_this {S} (P : S -> Prop) : keeps P this P.
Proof. intros s Hs. exact (conj Hs Hs). Qed.
Lemma keeps_assign {S} (P : S -> Prop) f : (forall s, P s -> P (f s)) -> keeps P (assign f) anything.
Proof. intros H s Hs. exact (conj (H s Hs) I). Qed.
Lemma keeps_within {S T A} (P : S -> Prop) (R : T -> Prop) get put (x : act S A) (Q : A -> Prop) :
  keeps P x Q -> (forall t, R t -> P (get t)) -> (forall t s, R t -> P s -> R (put t s)) -> keeps R (within get put x) Q.
Proof.
  intros Hx Hg Hp t Ht. unfold within. specialize (Hx (get t) (Hg t Ht)). destruct (x (get t)) as [s a|s| |]; try exact I.
  - exact (conj (Hp t s Ht (proj1 Hx)) (proj2 Hx)).
  - exact (Hp t s Ht Hx).
Qed.
Lemma keeps_if {S A} (P : S -> Prop) (b : bool) (x y : act S A) Q : keeps P x Q -> keeps P y Q -> keeps P (if b then x else y) Q.
Proof. destruct b; auto. Qed.
Lemma keeps_imp {S A} (P : S -> Prop) (x : act S A) (Q R : A -> Prop) : keeps P x Q -> (forall a, Q a -> R a) -> keeps P x R.
Proof. intros Hx H s Hs. specialize (Hx s Hs). destruct (x s); auto. destruct Hx. auto. Qed.

(** ** Setters *)
Ltac kp := eapply keeps_andthen.
Lemma setter_keeps s : keeps typed_params (setter_u s) anything.
Proof.
  assert (E : forall (Q : Params -> Prop) e, keeps Q (eval e) (@anything unit)) by (intros; apply keeps_any).
  destruct s; cbn [setter_u];
    unfold hash_length_u, key_u, salt_u, personal_u, fanout_u, max_depth_u, max_leaf_length_u, node_offset_u, node_depth_u,
      inner_hash_length_u, last_node_u;
    try (apply keeps_assign; intros p Hp; exact Hp);
    try (kp; [apply E|]; intros _ _; apply keeps_assign; intros p Hp; exact Hp).
  - kp; [apply E|]; intros _ _. kp; [apply keeps_assign; intros p Hp; exact Hp|]; intros _ _.
    kp; [apply keeps_assign; intros p Hp; reflexivity|]; intros _ _. kp; [apply keeps_this|]; intros p Hp.
    kp; [apply keeps_safe, copy_into_safe|]; intros k Hk. cbv beta in Hk.
    apply keeps_assign. intros q Hq. unfold typed_params. cbn [put_key p_key]. rewrite Hk. exact Hp.
  - kp; [apply E|]; intros _ _. kp; [apply keeps_assign; intros p Hp; exact Hp|]; intros _ _.
    kp; [apply keeps_this|]; intros p Hp. kp; [apply keeps_any|]; intros k _. apply keeps_assign. intros q Hq. exact Hq.
  - kp; [apply E|]; intros _ _. kp; [apply keeps_assign; intros p Hp; exact Hp|]; intros _ _.
    kp; [apply keeps_this|]; intros p Hp. kp; [apply keeps_any|]; intros k _. apply keeps_assign. intros q Hq. exact Hq.
Qed.
Lemma sp_setter_keeps s : keeps typed_sparams (sp_setter_u s) anything.
Proof.
  destruct s; cbn [sp_setter_u]; unfold sp_hash_length_u, sp_key_u.
  - kp; [apply keeps_any|]; intros _ _. apply keeps_assign. intros p Hp. exact Hp.
  - kp; [apply keeps_any|]; intros _ _. kp; [apply keeps_assign; intros p Hp; exact Hp|]; intros _ _.
    kp; [apply keeps_assign; intros p Hp; reflexivity|]; intros _ _. kp; [apply keeps_this|]; intros p Hp.
    kp; [apply keeps_safe, copy_into_safe|]; intros k Hk. cbv beta in Hk.
    apply keeps_assign. intros q Hq. unfold typed_sparams. cbn [put_sp_key sp_key]. rewrite Hk. exact Hp.
Qed.

Section Config.
Context (c : cfg) (Hc : cfg_ok c).
Notation tst := (typed_state c).
Notation tsp := (typed_sstate c).

(** ** [State] *)
Lemma fill_buf_keeps input : keeps tst (fill_buf_u c input) anything.
Proof.
  unfold fill_buf_u. kp; [apply keeps_this|]; intros st Hs. kp; [apply keeps_any|]; intros room _. cbv zeta.
  kp; [apply keeps_any|]; intros src _. kp; [apply keeps_safe, copy_into_safe|]; intros buf Hb. cbv beta in Hb.
  kp; [apply keeps_assign; intros s (_ & Hf); split; [exact (eq_trans Hb (proj1 Hs))|exact Hf]|]; intros _ _.
  kp; [apply keeps_any|]; intros n _. kp; [apply keeps_assign; intros s H; exact H|]; intros _ _.
  kp; [apply keeps_any|]; intros m _. kp; [apply keeps_assign; intros s H; exact H|]; intros _ _. apply keeps_any.
Qed.
Lemma compress_buffer_keeps input : keeps tst (compress_buffer_if_possible_u c input) anything.
Proof.
  unfold compress_buffer_if_possible_u. kp; [apply keeps_this|]; intros st _. apply keeps_if; [|apply keeps_ret; exact I].
  kp; [apply fill_buf_keeps|]; intros i _. destruct i; [apply keeps_ret; exact I|].
  kp; [apply keeps_this|]; intros st' _. kp; [apply keeps_any|]; intros h _.
  kp; [apply keeps_assign; intros s H; exact H|]; intros _ _. kp; [apply keeps_assign; intros s H; exact H|]; intros _ _.
  apply keeps_ret. exact I.
Qed.
Lemma bump_keeps : keeps tst (bump_count_u c) anything.
Proof.
  unfold bump_count_u. kp; [apply keeps_this|]; intros st _. kp; [apply keeps_any|]; intros n _.
  apply keeps_assign. intros s H. exact H.
Qed.
Lemma update_loop_keeps fuel : forall input, keeps tst (update_loop_u fuel c input) anything.
Proof.
  induction fuel as [|fuel IH]; intros input; cbn [update_loop_u]; [apply keeps_any|].
  apply keeps_if; [|apply keeps_ret; exact I]. kp; [apply bump_keeps|]; intros _ _. kp; [apply keeps_any|]; intros b _.
  kp; [apply keeps_this|]; intros st _. kp; [apply keeps_any|]; intros h _.
  kp; [apply keeps_assign; intros s H; exact H|]; intros _ _. kp; [apply keeps_any|]; intros r _. apply IH.
Qed.
Lemma update_keeps input : keeps tst (update_u c input) anything.
Proof.
  unfold update_u. kp; [apply compress_buffer_keeps|]; intros i _. kp; [apply update_loop_keeps|]; intros r _.
  kp; [apply fill_buf_keeps|]; intros _ _. apply keeps_ret. exact I.
Qed.
Lemma zero_keeps st : tst st -> tst (set_buf st (zero_tail (st_buf st) (buflen_nat st))).
Proof. intros (Hb & Hf). split; [|exact Hf]. cbn [set_buf st_buf]. rewrite zero_tail_length. exact Hb. Qed.
Lemma finalize_keeps : keeps tst (finalize_u c) typed_hash.
Proof.
  unfold finalize_u. kp; [apply keeps_assign, zero_keeps|]; intros _ _. kp; [apply keeps_this|]; intros st _.
  kp; [apply keeps_any|]; intros h _. apply keeps_ret. apply words_bytes_length.
Qed.

(** ** Eight states *)
Definition all_lanes {A} (P : A -> Prop) (o : oct A) : Prop := forall l, P (proj l o).
Lemma put_lane_all {A} (P : A -> Prop) l o x : all_lanes P o -> P x -> all_lanes P (put_lane l o x).
Proof.
  intros H Hx k. pose proof (H L0). pose proof (H L1). pose proof (H L2). pose proof (H L3).
  pose proof (H L4). pose proof (H L5). pose proof (H L6). pose proof (H L7).
  destruct o, l; cbn [put_lane]; destruct k; cbn [proj o0 o1 o2 o3 o4 o5 o6 o7] in *; assumption.
Qed.
Lemma each8_keeps {S A} (P : S -> Prop) (f : lane8 -> act S A) : (forall l, keeps P (f l) anything) ->
  keeps (all_lanes P) (each8 f) anything.
Proof.
  intros H. assert (on : forall l, keeps (all_lanes P) (within (proj l) (put_lane l) (f l)) anything).
  { intros l. apply (keeps_within P); [apply H| |].
    - intros o Ho. apply Ho.
    - intros o x Ho Hx. apply put_lane_all; assumption. }
  unfold each8. cbv zeta. do 8 (kp; [apply on|]; intros ? _). apply keeps_ret. exact I.
Qed.
Lemma update8_loop_keeps fuel f : forall inputs, keeps (all_lanes tst) (update8_loop_u fuel c f inputs) anything.
Proof.
  induction fuel as [|fuel IH]; intros inputs; cbn [update8_loop_u]; [apply keeps_any|].
  apply keeps_if; [|apply keeps_ret; exact I].
  kp; [apply each8_keeps; intros _; apply bump_keeps|]; intros ? _. kp; [apply keeps_any|]; intros b _.
  kp; [apply keeps_this|]; intros sts _. kp; [apply keeps_any|]; intros hs _.
  kp; [apply keeps_assign; intros o H l; rewrite proj_map2; exact (H l)|]; intros _ _.
  kp; [apply keeps_any|]; intros r _. apply IH.
Qed.
Lemma update8_keeps inputs : keeps (all_lanes tst) (update8_u c inputs) anything.
Proof.
  unfold update8_u. kp; [apply each8_keeps; intros l; apply compress_buffer_keeps|]; intros i _.
  kp; [apply update8_loop_keeps|]; intros r _. kp; [apply each8_keeps; intros l; apply update_keeps|]; intros ? _.
  apply keeps_ret. exact I.
Qed.
Lemma finalize8_keeps : keeps (all_lanes tst) (finalize8_u c) (all_lanes typed_hash).
Proof.
  unfold finalize8_u. kp; [apply keeps_assign; intros o H l; rewrite proj_map; apply zero_keeps, H|]; intros _ _.
  kp; [apply keeps_this|]; intros sts _. kp; [apply keeps_any|]; intros hs _. apply keeps_ret.
  intros l. rewrite proj_map2. apply words_bytes_length.
Qed.

(** ** blake2sp.rs *)
Lemma sp_fill_buf_keeps input : keeps tsp (sp_fill_buf_u c input) anything.
Proof.
  unfold sp_fill_buf_u. kp; [apply keeps_this|]; intros st Hs. kp; [apply keeps_any|]; intros room _. cbv zeta.
  kp; [apply keeps_any|]; intros src _. kp; [apply keeps_safe, copy_into_safe|]; intros buf Hb. cbv beta in Hb.
  kp; [apply keeps_assign; intros s (_ & Hf); split; [exact (eq_trans Hb (proj1 Hs))|exact Hf]|]; intros _ _.
  kp; [apply keeps_any|]; intros n _. kp; [apply keeps_assign; intros s H; exact H|]; intros _ _. apply keeps_any.
Qed.
Lemma sp_compress8_keeps b f : keeps (all_lanes tst) (sp_compress8_u c b f) anything.
Proof.
  unfold sp_compress8_u. kp; [apply keeps_this|]; intros ls _. kp; [apply keeps_any|]; intros _ _.
  kp; [apply keeps_any|]; intros _ _. kp; [apply each8_keeps; intros _; apply bump_keeps|]; intros ? _.
  kp; [apply keeps_this|]; intros ls' _. kp; [apply keeps_any|]; intros hs _.
  apply keeps_assign. intros o H l. rewrite proj_map2. exact (H l).
Qed.
Lemma on_leaves b f : keeps tsp (within sp_leaves sp_set_leaves (sp_compress8_u c b f)) anything.
Proof.
  apply (keeps_within (all_lanes tst)); [apply sp_compress8_keeps| |].
  - intros st (_ & Hl & _). exact Hl.
  - intros st ls (Hb & _ & Hr) Hl. exact (conj Hb (conj Hl Hr)).
Qed.
Lemma sp_empty_buffer_keeps input : keeps tsp (sp_empty_buffer_u c input) anything.
Proof.
  unfold sp_empty_buffer_u. kp; [apply keeps_this|]; intros st _. apply keeps_if; [|apply keeps_ret; exact I].
  kp; [apply sp_fill_buf_keeps|]; intros i _. destruct i as [|x i]; [apply keeps_ret; exact I|].
  kp; [apply keeps_this|]; intros s1 H1. kp; [apply keeps_any|]; intros b _. kp; [apply on_leaves|]; intros _ _.
  kp; [apply keeps_any|]; intros n _. kp; [apply keeps_assign; intros s H; exact H|]; intros _ _. apply keeps_if.
  - kp; [apply keeps_this|]; intros s2 _. kp; [apply keeps_any|]; intros b' _. kp; [apply on_leaves|]; intros _ _.
    kp; [apply keeps_assign; intros s H; exact H|]; intros _ _. apply keeps_ret. exact I.
  - kp; [apply keeps_this|]; intros s2 (Hb & _). kp; [apply keeps_safe, slice_to_safe|]; intros left Hleft.
    kp; [apply keeps_safe, slice_from_safe|]; intros right Hright. kp; [apply keeps_any|]; intros src _.
    kp; [apply keeps_safe, copy_into_safe|]; intros left' Hleft'. cbv beta in *.
    kp; [apply keeps_assign|]; [|intros _ _; apply keeps_ret; exact I]. intros s (_ & Hs). split; [|exact Hs].
    cbn [sp_set_buf sp_buf]. rewrite app_length, Hleft', Hleft, Hright, Hb. reflexivity.
Qed.
Lemma sp_update_loop_keeps fuel : forall input, keeps tsp (sp_update_loop_u fuel c input) anything.
Proof.
  induction fuel as [|fuel IH]; intros input; cbn [sp_update_loop_u]; [apply keeps_any|].
  apply keeps_if; [|apply keeps_ret; exact I]. kp; [apply keeps_any|]; intros b _. kp; [apply keeps_this|]; intros st _.
  kp; [apply on_leaves|]; intros _ _. kp; [apply keeps_any|]; intros r _. apply IH.
Qed.
Lemma sp_update_keeps input : keeps tsp (sp_update_u c input) anything.
Proof.
  unfold sp_update_u. kp; [apply sp_empty_buffer_keeps|]; intros i _. kp; [apply sp_update_loop_keeps|]; intros r _.
  kp; [apply sp_fill_buf_keeps|]; intros e _. apply (keeps_any (A:=unit)).
Qed.

(** ** Any call *)
Lemma on_object_keeps {S} (P : S -> Prop) get put i x : 
  keeps P x anything -> (forall s, typed c s -> Forall P (get s)) ->
  (forall s l, typed c s -> Forall P l -> typed c (put s l)) -> keeps (typed c) (on_object get put i x) anything.
Proof.
  intros Hx Hg Hp s Hs. unfold on_object, at_obj. destruct (nth_error (get s) i) as [a|] eqn:E; [|exact (conj Hs I)].
  assert (Ha : P a).
  { pose proof (Hg s Hs) as F. rewrite Forall_forall in F. apply F. eapply nth_error_In, E. }
  unfold within. specialize (Hx a Ha). destruct (x a) as [a' y|a'| |]; try exact I.
  - split; [|exact I]. apply Hp; [exact Hs|]. apply upd_Forall; [apply Hg, Hs|apply Hx].
  - apply Hp; [exact Hs|]. apply upd_Forall; [apply Hg, Hs|apply Hx].
Qed.
Lemma typed_hashes s l : typed c s -> Forall typed_hash l -> typed c (with_hashes s l).
Proof. intros (H1 & H2 & H3 & H4 & H5) H. repeat (split; [assumption|]). exact H5. Qed.
Lemma on_eight_keeps {A} (Q : A -> Prop) i (x : act (oct State) A) k :
  keeps (all_lanes tst) x Q -> (forall a, Q a -> keeps (typed c) (k a) anything) -> keeps (typed c) (on_eight i x k) anything.
Proof.
  intros Hx Hk s Hs. unfold on_eight. destruct (pick8 (s_states s) i) as [sts|] eqn:E; [|exact (conj Hs I)].
  destruct (distinct (oct_list i)); [|exact (conj Hs I)].
  pose proof Hs as (_ & HS & _). pose proof (pick8_typed _ _ _ _ HS E) as Hl.
  unfold andthen, within. specialize (Hx sts Hl). destruct (x sts) as [sts' a|sts'| |]; try exact I.
  - apply Hk; [apply Hx|]. apply typed_states; [exact Hs|]. apply put8_Forall; [exact HS|apply Hx].
  - apply typed_states; [exact Hs|]. apply put8_Forall; [exact HS|apply Hx].
Qed.
Theorem step_keeps o : keeps (typed c) (step_u c o) anything.
Proof.
  assert (other : keeps (typed c) (fun s => match step c s o with
                                            | Ok (s, x) => Returned s x
                                            | Panic => Unwound s
                                            | UB => Undef
                                            | Stuck => Endless
                                            end) anything).
  { intros s Hs. pose proof (step_safe c Hc s o Hs) as H. destruct (step c s o) as [(s', x)| | |]; [|exact Hs|exact I|exact I].
    exact (conj H I). }
  assert (obs_of : forall S (P : S -> Prop) (A : Type) (x : act S A) (f : A -> obs), keeps P x anything ->
            keeps P (andthen x (fun a => ret (f a))) anything).
  { intros S P A x f Hx. kp; [exact Hx|]. intros a _. apply keeps_ret. exact I. }
  destruct o; try exact other; cbn [step_u].
  - apply (on_object_keeps typed_params); [apply obs_of, setter_keeps| |].
    + intros t (H & _). exact H.
    + intros t l Ht. apply typed_params_list, Ht.
  - apply (on_object_keeps tst); [apply obs_of, update_keeps| |].
    + intros t (_ & H & _). exact H.
    + intros t l Ht. apply typed_states, Ht.
  - apply (on_object_keeps tst).
    + unfold write_u. apply obs_of. kp; [apply update_keeps|]. intros _ _. apply keeps_ret. exact I.
    + intros t (_ & H & _). exact H.
    + intros t l Ht. apply typed_states, Ht.
  - intros s Hs. pose proof Hs as (_ & HS & HH & _). unfold at_obj.
    destruct (nth_error (s_states s) _) as [a|] eqn:E; [|exact (conj Hs I)].
    assert (Ha : tst a). { rewrite Forall_forall in HS. apply HS. eapply nth_error_In, E. }
    pose proof (finalize_keeps a Ha) as Hx. unfold andthen at 1. unfold within.
    destruct (finalize_u c a) as [a' h|a'| |]; try exact I.
    + assert (Hs' : typed c (with_states s (upd (s_states s) i a'))).
      { apply typed_states; [exact Hs|]. apply upd_Forall; [exact HS|apply Hx]. }
      revert Hs'. generalize (with_states s (upd (s_states s) i a')). intros s' Hs'.
      revert s' Hs'. change (keeps (typed c) (b <~ eval (as_bytes h) ;;
        _ <~ assign (fun s => with_hashes s (s_hashes s ++ [h])) ;; ret (OBytes b)) anything).
      kp; [apply keeps_any|]. intros b _. apply obs_of. apply keeps_assign. intros t Ht. apply typed_hashes; [exact Ht|].
      apply push_Forall; [apply Ht|apply Hx].
    + apply typed_states; [exact Hs|]. apply upd_Forall; [exact HS|apply Hx].
  - apply (on_eight_keeps anything); [apply update8_keeps|]. intros _ _. apply keeps_ret. exact I.
  - apply (on_eight_keeps (all_lanes typed_hash)); [apply finalize8_keeps|]. intros hs Hh.
    kp; [apply keeps_any|]. intros bs _. apply obs_of. apply keeps_assign. intros t Ht. apply typed_hashes; [exact Ht|].
    apply Forall_app. split; [apply Ht|apply oct_Forall, Hh].
  - apply (on_object_keeps typed_sparams); [apply obs_of, sp_setter_keeps| |].
    + intros t (_ & _ & _ & H & _). exact H.
    + intros t l Ht. apply typed_sparams_list, Ht.
  - apply (on_object_keeps tsp); [apply obs_of, sp_update_keeps| |].
    + intros t (_ & _ & _ & _ & H). exact H.
    + intros t l Ht. apply typed_sstates, Ht.
  - apply (on_object_keeps tsp).
    + unfold sp_write_u. apply obs_of. kp; [apply sp_update_keeps|]. intros _ _. apply keeps_ret. exact I.
    + intros t (_ & _ & _ & _ & H). exact H.
    + intros t l Ht. apply typed_sstates, Ht.
Qed.
(** Objects of the right types are left so, and no call is undefined or endless. *)
Theorem any_call_u s o : typed c s -> exists s', typed c s' /\
  (step_u c o s = Unwound s' \/ exists x, step_u c o s = Returned s' x).
Proof.
  intros Hs. pose proof (step_keeps o s Hs) as H. pose proof (forget_step c o s) as F.
  destruct (any_call c Hc s o Hs) as [E|(s1 & x1 & E & _)]; rewrite E in F;
    destruct (step_u c o s) as [s' x|s'| |]; try discriminate F; exists s'.
  - split; [exact H|]. left. reflexivity.
  - split; [apply H|]. right. exists x. reflexivity.
Qed.
Lemma caught_length s ops : typed c s -> length (caught c s ops) = length ops.
Proof.
  revert s. induction ops as [|o ops IH]; intros s Hs; [reflexivity|]. cbn [caught].
  destruct (any_call_u s o Hs) as (s' & Hs' & [E|(x & E)]); rewrite E; cbn [length]; rewrite (IH s' Hs'); reflexivity.
Qed.
Theorem every_call ops : length (caught c empty_session ops) = length ops.
Proof. apply caught_length. repeat split; constructor. Qed.
End Config.
