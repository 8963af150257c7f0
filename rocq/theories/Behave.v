(** * Behave: states that no program can tell apart. *)
From Verif Require Import Base BaseFacts Consts Portable PortableFacts Params State Many Blake2sp StateFacts
  ParamsSpec ParamsFacts Refine HashFacts Avx2Facts Sse41Facts ManyFacts SpFacts
  Machine MachineSpec MachineFacts Relate Safety Clients.
From Verif Require Spec.
From Coq Require Import ZArith Lia ZifyBool ZifyNat ZifyN.
Local Open Scope N_scope.

(** ** Eight at a time, by parameters, flag and bytes *)
Definition stands (c : cfg) (a : astate) (st : State) : Prop := Models c (a_sp a) (a_last a) (a_msg a) st.

Lemma update8_stands c (a : oct astate) sts x : (forall l, stands c (proj l a) (proj l sts)) ->
  (exists sts', update8 c sts x = Ok sts' /\
     forall l, stands c (add_msg (proj l a) (proj l x)) (proj l sts') /\
       exists u, update c (proj l sts) (proj l x) = Ok u /\ stands c (add_msg (proj l a) (proj l x)) u) \/
  (update8 c sts x = Panic /\ exists l, update c (proj l sts) (proj l x) = Panic).
Proof.
  intros H.
  set (D := fun l => stream (a_sp (proj l a)) (a_msg (proj l a))).
  destruct (lane_choice (fun l k => Rep c (Spec.initial (a_sp (proj l a))) (D l) k (proj l sts) /\ lazy_k (D l) k))
    as (ks & Hks).
  { intros l. apply (mo_rep _ _ _ _ _ (H l)). }
  destruct (lane_dec (fun l => fits c (N.of_nat (length (D l) + length (proj l x))))
                     (fun l => ~ fits c (N.of_nat (length (D l) + length (proj l x)))))
    as [Hf|(l & Hf)].
  { intros l. apply fits_dec. }
  - left. destruct (update8_ok c (fun l => Spec.initial (a_sp (proj l a))) D (fun l => proj l ks) sts x)
      as (sts' & E & H'); [intros l; apply Hks|exact Hf|].
    exists sts'. split; [exact E|]. intros l. split.
    + destruct (H' l) as (k' & R' & (M1 & M2 & M3) & Hz). constructor.
      * apply (mo_valid _ _ _ _ _ (H l)).
      * cbn [add_msg a_last]. rewrite <- (mo_last _ _ _ _ _ (H l)). congruence.
      * cbn [add_msg a_sp]. rewrite <- (mo_hash _ _ _ _ _ (H l)). congruence.
      * exists k'. cbn [add_msg a_sp a_msg]. rewrite stream_app. split; [exact R'|].
        apply Hz. left. apply Hks.
    + apply (models_update c _ _ _ _ _ (H l)). rewrite stream_app, app_length. apply Hf.
  - right. split.
    + apply (update8_overflow c (fun l => Spec.initial (a_sp (proj l a))) D (fun l => proj l ks)).
      * intros k. apply Hks.
      * exists l. exact Hf.
    + exists l. apply (models_update_panic c _ _ _ _ _ (H l)). rewrite stream_app, app_length. exact Hf.
Qed.
Lemma finalize8_stands c (a : oct astate) sts : (forall l, stands c (proj l a) (proj l sts)) ->
  exists sts' hs, finalize8 c sts = Ok (sts', hs) /\
    forall l, finalize c (proj l sts) = Ok (proj l sts', proj l hs) /\ stands c (proj l a) (proj l sts').
Proof.
  intros H.
  set (D := fun l => stream (a_sp (proj l a)) (a_msg (proj l a))).
  destruct (lane_choice (fun l k => Rep c (Spec.initial (a_sp (proj l a))) (D l) k (proj l sts) /\ lazy_k (D l) k))
    as (ks & Hks).
  { intros l. apply (mo_rep _ _ _ _ _ (H l)). }
  destruct (finalize8_ok c (fun l => Spec.initial (a_sp (proj l a))) D (fun l => proj l ks) sts)
    as (sts' & hs & E & H'); [intros l; apply Hks|].
  exists sts', hs. split; [exact E|]. intros l. split; [apply H'|].
  destruct (models_finalize c _ _ _ _ (H l)) as (u & h & E' & M & _).
  specialize (H' l). rewrite H' in E'. injection E' as -> _. exact M.
Qed.

(** ** Reachable states stand for something *)
Lemma reachable_stands c st : cfg_ok c -> reachable c st -> exists a, stands c a st.
Proof.
  intros Hc. induction 1 as [l p st Hb Hs|st x st' _ (a & M) E|st b _ (a & M)|
    st _ (a & M)|st st' h _ (a & M) E|sts x sts' l Hr IH E|sts sts' hs l Hr IH E].
  - apply build_encodes in Hb as (_ & Hb). destruct (models_new c p _ _ Hc Hb) as (st' & E & M).
    rewrite Hs in E. injection E as <-. exists (new_state l). exact M.
  - destruct (fits_dec c (N.of_nat (length (stream (a_sp a) (a_msg a ++ x))))) as [Hf|Hf].
    + destruct (models_update c _ _ _ st x M Hf) as (st2 & E2 & M2).
      rewrite E in E2. injection E2 as <-. exists (add_msg a x). exact M2.
    + rewrite (models_update_panic c _ _ _ st x M Hf) in E. discriminate.
  - exists (mk_astate (a_sp a) b (a_msg a)). eapply models_set_last_node, M.
  - exists a. apply models_force_portable, M.
  - destruct (models_finalize c _ _ _ st M) as (st2 & h2 & E2 & M2 & _).
    rewrite E in E2. injection E2 as <- <-. exists a. exact M2.
  - destruct (lane_choice _ IH) as (a & Ha).
    destruct (update8_stands c a sts x Ha) as [(s2 & E2 & H2)|(E2 & _)]; [|congruence].
    rewrite E in E2. injection E2 as <-. eexists. apply H2.
  - destruct (lane_choice _ IH) as (a & Ha).
    destruct (finalize8_stands c a sts Ha) as (s2 & h2 & E2 & H2).
    rewrite E in E2. injection E2 as <- <-. eexists. apply H2.
Qed.

(** ** The same parameters, flag and bytes: the same state *)
Lemma nums_inj a b : nums a = nums b -> a = b.
Proof.
  destruct a, b. unfold nums. cbn [oct_list map]. intros H. injection H. clear H.
  intros. f_equal; apply val_inj; assumption.
Qed.
Lemma stands_srel c1 c2 a s t : stands c1 a s -> stands c2 a t -> srel c1 c2 s t.
Proof.
  intros [V Hl Hh (k & R & Hz)] [_ Hl' Hh' (k' & R' & Hz')].
  set (D := stream (a_sp a) (a_msg a)) in *. unfold lazy_k in *.
  assert (k' = k) as -> by (destruct R, R'; lia). clear Hz Hz'.
  assert (Eb : val (st_buflen t) = val (st_buflen s)).
  { destruct R, R'. unfold buflen_nat in *. lia. }
  destruct R, R'. constructor.
  - apply nums_inj. congruence.
  - rewrite rep_buflen. congruence.
  - apply val_inj, Eb.
  - apply val_inj. congruence.
  - congruence.
  - apply val_inj. congruence.
  - assumption.
  - assumption.
  - unfold buflen_nat in *. lia.
  - rewrite Hh. apply V.
  - assumption.
  - assumption.
Qed.

(** ** Related states are interchangeable *)
Lemma session_self c ops s : cfg_ok c -> Forall mem_ok ops -> after c empty_session ops = Some s ->
  session_rel c c true s s.
Proof.
  intros Hc Hm Ha. eapply (after_rel c true ops Hc empty_session); [apply session_rel_empty| |exact Ha].
  eapply Forall_impl; [|exact Hm]. intros o. apply mem_op_ok_same.
Qed.
Lemma mem_ops_ok c ops : Forall mem_ok ops -> Forall (op_ok c c true) ops.
Proof. intros Hm. eapply Forall_impl; [|exact Hm]. intros o. apply mem_op_ok_same. Qed.
Lemma srel_interchangeable c a b : cfg_ok c -> srel c c a b -> interchangeable c a b.
Proof.
  intros Hc H before s ops Ha Hb Ho. pose proof (session_self c before s Hc Hb Ha) as Hs.
  refine (proj1 (run_rel c c Hc Hc eq_refl eq_refl true ops _ _ _ (mem_ops_ok c ops Ho))).
  apply x_states; [exact Hs|]. apply Forall2_snoc; [apply Hs|exact H].
Qed.
Lemma sprel_interchangeable c a b : cfg_ok c -> sprel c c a b -> sp_interchangeable c a b.
Proof.
  intros Hc H before s ops Ha Hb Ho. pose proof (session_self c before s Hc Hb Ha) as Hs.
  refine (proj1 (run_rel c c Hc Hc eq_refl eq_refl true ops _ _ _ (mem_ops_ok c ops Ho))).
  apply x_sstates; [exact Hs|]. apply Forall2_snoc; [apply Hs|exact H].
Qed.
Lemma stands_interchangeable c a s t : cfg_ok c -> stands c a s -> stands c a t -> interchangeable c s t.
Proof. intros Hc H H'. apply srel_interchangeable; [exact Hc|]. eapply stands_srel; eassumption. Qed.

(** ** The states in the sessions programs produce are reachable. *)
Definition built (p : Params) : Prop := exists l, build l = Ok p.
Definition sp_built (p : SpParams) : Prop := exists l, sp_build l = Ok p.
Record Good (c : cfg) (s : session) : Prop := {
  g_p : Forall built (s_params s);
  g_s : Forall (reachable c) (s_states s);
  g_sp : Forall sp_built (s_sparams s);
  g_ss : Forall (sp_reachable c) (s_sstates s)
}.
Lemma Good_empty c : Good c empty_session.
Proof. constructor; constructor. Qed.
Lemma apply_setters_app p l l' : apply_setters p (l ++ l') = bind (apply_setters p l) (fun p => apply_setters p l').
Proof.
  revert p. induction l as [|x l IH]; intros p; [reflexivity|]. cbn [app apply_setters].
  destruct (apply_setter p x); cbn [bind]; try reflexivity. apply IH.
Qed.
Lemma sp_apply_setters_app p l l' :
  sp_apply_setters p (l ++ l') = bind (sp_apply_setters p l) (fun p => sp_apply_setters p l').
Proof.
  revert p. induction l as [|x l IH]; intros p; [reflexivity|]. cbn [app sp_apply_setters].
  destruct (sp_apply_setter p x); cbn [bind]; try reflexivity. apply IH.
Qed.
Lemma built_set p x p' : built p -> apply_setter p x = Ok p' -> built p'.
Proof.
  intros (l & H) E. exists (l ++ [x]). unfold build in *. rewrite apply_setters_app, H. cbn [bind apply_setters].
  rewrite E. reflexivity.
Qed.
Lemma sp_built_set p x p' : sp_built p -> sp_apply_setter p x = Ok p' -> sp_built p'.
Proof.
  intros (l & H) E. exists (l ++ [x]). unfold sp_build in *. rewrite sp_apply_setters_app, H.
  cbn [bind sp_apply_setters]. rewrite E. reflexivity.
Qed.
Lemma Forall_snoc {A} (P : A -> Prop) l x : Forall P l -> P x -> Forall P (l ++ [x]).
Proof. intros H Hx. apply Forall_app. split; [exact H|]. constructor; [exact Hx|constructor]. Qed.
Lemma Forall_nth {A} (P : A -> Prop) l i x : Forall P l -> nth_error l i = Some x -> P x.
Proof. intros H E. rewrite Forall_forall in H. eapply H, nth_error_In, E. Qed.
Lemma Forall_upd {A} (P : A -> Prop) l : forall i x, Forall P l -> P x -> Forall P (upd l i x).
Proof.
  induction l as [|y l IH]; intros i x H Hx; destruct i; cbn [upd]; try constructor; inversion H; auto.
Qed.
Lemma Forall_pick8 {A} (P : A -> Prop) l i xs : Forall P l -> pick8 l i = Some xs -> forall k, P (proj k xs).
Proof.
  unfold pick8. intros H E k.
  destruct (nth_error l (o0 i)) eqn:E0; [|discriminate]. destruct (nth_error l (o1 i)) eqn:E1; [|discriminate].
  destruct (nth_error l (o2 i)) eqn:E2; [|discriminate]. destruct (nth_error l (o3 i)) eqn:E3; [|discriminate].
  destruct (nth_error l (o4 i)) eqn:E4; [|discriminate]. destruct (nth_error l (o5 i)) eqn:E5; [|discriminate].
  destruct (nth_error l (o6 i)) eqn:E6; [|discriminate]. destruct (nth_error l (o7 i)) eqn:E7; [|discriminate].
  injection E as <-. destruct k; cbn [proj o0 o1 o2 o3 o4 o5 o6 o7]; eapply Forall_nth; eassumption.
Qed.
Lemma Forall_put8 {A} (P : A -> Prop) l i xs : Forall P l -> (forall k, P (proj k xs)) -> Forall P (put8 l i xs).
Proof.
  intros H Hx. unfold put8. repeat apply Forall_upd; try exact H.
  - apply (Hx L0). - apply (Hx L1). - apply (Hx L2). - apply (Hx L3).
  - apply (Hx L4). - apply (Hx L5). - apply (Hx L6). - apply (Hx L7).
Qed.
Lemma G_params c s l : Good c s -> Forall built l -> Good c (with_params_list s l).
Proof. intros [] H; constructor; assumption. Qed.
Lemma G_states c s l : Good c s -> Forall (reachable c) l -> Good c (with_states s l).
Proof. intros [] H; constructor; assumption. Qed.
Lemma G_hashes c s l : Good c s -> Good c (with_hashes s l).
Proof. intros []; constructor; assumption. Qed.
Lemma G_sparams c s l : Good c s -> Forall sp_built l -> Good c (with_sparams s l).
Proof. intros [] H; constructor; assumption. Qed.
Lemma G_sstates c s l : Good c s -> Forall (sp_reachable c) l -> Good c (with_sstates s l).
Proof. intros [] H; constructor; assumption. Qed.
Lemma G_give c s h s' x : Good c s -> give_hash s h = Ok (s', x) -> Good c s'.
Proof.
  unfold give_hash. intros G. destruct (as_bytes h); cbn [bind]; try discriminate.
  intros [= <- <-]. apply G_hashes, G.
Qed.
Lemma G_gives c s h s' x : Good c s -> give_hashes s h = Ok (s', x) -> Good c s'.
Proof.
  unfold give_hashes. intros G. destruct (all_bytes h); cbn [bind]; try discriminate.
  intros [= <- <-]. apply G_hashes, G.
Qed.

Ltac inv_step G :=
    repeat match goal with
    | |- match nth_error ?l ?i with _ => _ end = _ -> _ =>
        destruct (nth_error l i) eqn:?; [|intros [= <- <-]; exact G]
    | |- match pick8 ?l ?i with _ => _ end = _ -> _ =>
        destruct (pick8 l i) eqn:?; [|intros [= <- <-]; exact G]
    | |- (if ?b then _ else _) = _ -> _ => destruct b; [|intros [= <- <-]; exact G]
    | |- bind ?x _ = _ -> _ => destruct x as [?r| | |] eqn:?; cbn [bind];
        [|intros X; discriminate X|intros X; discriminate X|intros X; discriminate X]
    | r : prod _ _ |- _ => destruct r
    end.
Lemma step_good c s o s' x : Good c s -> step c s o = Ok (s', x) -> Good c s'.
Proof.
  intros G. destruct o; cbn [step]; cbv zeta; unfold at_obj; inv_step G;
    try (intros H; first [eapply G_give; [|exact H]|eapply G_gives; [|exact H]]; try exact G);
    try (intros [= <- <-]; try exact G;
         first [apply G_params; [exact G|]|apply G_states; [exact G|]|apply G_sparams; [exact G|]
               |apply G_sstates; [exact G|]]);
    try (apply Forall_snoc; [apply G|]).
  all: try (eapply Forall_nth; [|eassumption]; apply G).
  all: try (apply Forall_upd; [apply G|]).
  all: try match goal with
    | E : nth_error (s_states ?z) _ = Some _ |- _ => pose proof (Forall_nth _ _ _ _ (g_s _ _ G) E) as Hr
    | E : pick8 (s_states ?z) _ = Some _ |- _ => pose proof (Forall_pick8 _ _ _ _ (g_s _ _ G) E) as Hr
    | E : nth_error (s_params ?z) _ = Some _ |- _ => pose proof (Forall_nth _ _ _ _ (g_p _ _ G) E) as Hr
    | E : nth_error (s_sparams ?z) _ = Some _ |- _ => pose proof (Forall_nth _ _ _ _ (g_sp _ _ G) E) as Hr
    | E : nth_error (s_sstates ?z) _ = Some _ |- _ => pose proof (Forall_nth _ _ _ _ (g_ss _ _ G) E) as Hr
    end.
  - exists []. reflexivity.
  - eapply built_set; eassumption.
  - eapply (R_new c []); [reflexivity|eassumption].
  - destruct Hr as (l & Hl). eapply R_new; eassumption.
  - eapply R_update; eassumption.
  - unfold write in *. destruct (update c s0 input) eqn:Eu; cbn [bind] in *; try discriminate.
    match goal with E : Ok _ = Ok _ |- _ => injection E as <- <- end. eapply R_update; eassumption.
  - unfold flush in *. match goal with E : Ok _ = Ok _ |- _ => injection E as <- end. exact Hr.
  - apply R_last, Hr.
  - apply R_portable, Hr.
  - apply G_states; [exact G|]. apply Forall_upd; [apply G|]. eapply R_finalize; eassumption.
  - apply Forall_put8; [apply G|]. intros k. eapply R_update8; eassumption.
  - apply G_states; [exact G|]. apply Forall_put8; [apply G|]. intros k. eapply R_finalize8; eassumption.
  - exists []. reflexivity.
  - eapply sp_built_set; eassumption.
  - eapply (SR_new c []); [reflexivity|eassumption].
  - destruct Hr as (l & Hl). eapply SR_new; eassumption.
  - eapply SR_update; eassumption.
  - unfold sp_write in *. destruct (sp_update c s0 input) eqn:Eu; cbn [bind] in *; try discriminate.
    match goal with E : Ok _ = Ok _ |- _ => injection E as <- <- end. eapply SR_update; eassumption.
  - unfold sp_flush in *. match goal with E : Ok _ = Ok _ |- _ => injection E as <- end. exact Hr.
  - apply SR_portable, Hr.
Qed.
Lemma after_good c ops : forall s s', Good c s -> after c s ops = Some s' -> Good c s'.
Proof.
  induction ops as [|o ops IH]; intros s s' G; cbn [after]; [intros [= <-]; exact G|].
  destruct (step c s o) as [[t x]| | |] eqn:E; try discriminate. apply IH. eapply step_good; eassumption.
Qed.
Theorem session_reachable c ops s : after c empty_session ops = Some s ->
  Forall (reachable c) (s_states s) /\ Forall (sp_reachable c) (s_sstates s).
Proof. intros H. pose proof (after_good c ops _ _ (Good_empty c) H) as []. split; assumption. Qed.

(** ** Consequences *)

(** Feeding in pieces. *)
Lemma feed_stands c pieces : forall a st, stands c a st ->
  (exists st', feed c st pieces = Ok st' /\ stands c (add_msg a (concat pieces)) st') \/
  (feed c st pieces = Panic /\ ~ fits c (N.of_nat (length (stream (a_sp a) (a_msg a ++ concat pieces))))).
Proof.
  induction pieces as [|x l IH]; intros a st M; cbn [feed concat].
  - left. exists st. split; [reflexivity|]. destruct a as [sp ln msg]. unfold add_msg. cbn [a_sp a_last a_msg].
    rewrite app_nil_r. exact M.
  - destruct (fits_dec c (N.of_nat (length (stream (a_sp a) (a_msg a ++ x))))) as [Hf|Hf].
    + destruct (models_update c _ _ _ st x M Hf) as (st2 & E & M2). rewrite E. cbn [bind].
      destruct (IH (add_msg a x) st2 M2) as [(st3 & E3 & M3)|(E3 & Hn)].
      * left. exists st3. split; [exact E3|]. unfold add_msg in *. cbn [a_sp a_last a_msg] in *.
        rewrite app_assoc. exact M3.
      * right. split; [exact E3|]. cbn [add_msg a_sp a_msg] in Hn. rewrite app_assoc. exact Hn.
    + right. rewrite (models_update_panic c _ _ _ st x M Hf). split; [reflexivity|].
      intros H. apply Hf. eapply fits_le; [exact H|]. rewrite !stream_length, !app_length. lia.
Qed.
Theorem feed_same c st pieces : cfg_ok c -> reachable c st ->
  same_state c (feed c st pieces) (update c st (concat pieces)).
Proof.
  intros Hc Hr. apply reachable_stands in Hr as (a & M); [|exact Hc].
  destruct (feed_stands c pieces a st M) as [(s1 & E1 & M1)|(E1 & Hn)]; rewrite E1.
  - destruct (fits_dec c (N.of_nat (length (stream (a_sp a) (a_msg a ++ concat pieces))))) as [Hf|Hf].
    + destruct (models_update c _ _ _ st (concat pieces) M Hf) as (s2 & E2 & M2). rewrite E2. cbn [same_state].
      eapply stands_interchangeable; [exact Hc|exact M1|exact M2].
    + exfalso. apply Hf. destruct (mo_rep _ _ _ _ _ M1) as (k & R & _). apply (rep_fits _ _ _ _ _ R).
  - rewrite (models_update_panic c _ _ _ st _ M Hn). exact I.
Qed.
Theorem hash_pieces_same c l p pieces : cfg_ok c -> build l = Ok p ->
  hash_pieces c p pieces = hash_pieces c p [concat pieces].
Proof.
  intros Hc Hb. apply build_encodes in Hb as (_ & E). destruct (models_new c p _ _ Hc E) as (st & Es & M).
  unfold hash_pieces. rewrite Es. cbn [bind].
  change (stands c (new_state l) st) in M.
  destruct (feed_stands c pieces _ st M) as [(s1 & E1 & M1)|(E1 & Hn)].
  - destruct (feed_stands c [concat pieces] _ st M) as [(s2 & E2 & M2)|(E2 & Hn)].
    + rewrite E1, E2. cbn [bind]. cbn [concat] in M2. rewrite app_nil_r in M2.
      destruct (models_finalize c _ _ _ _ M1) as (t1 & h1 & F1 & _ & _ & _ & B1).
      destruct (models_finalize c _ _ _ _ M2) as (t2 & h2 & F2 & _ & _ & _ & B2).
      rewrite F1, F2. cbn [bind]. congruence.
    + exfalso. apply Hn. cbn [concat]. rewrite app_nil_r.
      destruct (mo_rep _ _ _ _ _ M1) as (k & R & _). apply (rep_fits _ _ _ _ _ R).
  - destruct (feed_stands c [concat pieces] _ st M) as [(s2 & E2 & M2)|(E2 & _)]; [|rewrite E1, E2; reflexivity].
    exfalso. apply Hn. cbn [concat] in M2. rewrite app_nil_r in M2.
    destruct (mo_rep _ _ _ _ _ M2) as (k & R & _). apply (rep_fits _ _ _ _ _ R).
Qed.
(** What the pieces hash to. *)
Theorem hash_pieces_value c l p pieces : cfg_ok c -> build l = Ok p ->
  total (Spec.key (spec_params l)) (concat pieces) < 2 ^ 64 ->
  hash_pieces c p pieces = Ok (Spec.blake2s (spec_params l) (spec_last_node l) (concat pieces)).
Proof.
  intros Hc Hb Ht. apply build_encodes in Hb as (_ & E). destruct (models_new c p _ _ Hc E) as (st & Es & M).
  unfold hash_pieces. rewrite Es. cbn [bind].
  change (stands c (new_state l) st) in M.
  destruct (feed_stands c pieces _ st M) as [(s1 & E1 & M1)|(E1 & Hn)].
  - rewrite E1. cbn [bind]. destruct (models_finalize c _ _ _ _ M1) as (t1 & h1 & F1 & _ & _ & _ & B1).
    rewrite F1. cbn [bind]. exact B1.
  - exfalso. apply Hn. intros _. rewrite stream_length. unfold total in Ht. cbn [new_state a_sp a_msg app]. lia.
Qed.

(** Finalizing. *)
Theorem finalize_again c st : cfg_ok c -> reachable c st ->
  exists st' h, finalize c st = Ok (st', h) /\ finalize c st' = Ok (st', h) /\ interchangeable c st st'.
Proof.
  intros Hc Hr. apply reachable_stands in Hr as (a & M); [|exact Hc].
  destruct (mo_rep _ _ _ _ _ M) as (k & R & Hz).
  pose proof (finalize_ok c _ _ _ _ R Hz) as E. do 2 eexists. split; [exact E|].
  destruct (models_finalize c _ _ _ _ M) as (st2 & h2 & E2 & M2 & _).
  rewrite E in E2. pose proof (f_equal (fun o => match o with Ok (x, _) => x | _ => st end) E2) as E3.
  cbv beta iota in E3. clear E2. split; [|rewrite E3; apply (stands_interchangeable c a); assumption].
  pose proof (Rep_zeroed _ _ _ _ _ R) as R'.
  pose proof (finalize_ok c _ _ _ _ R' Hz) as E'. rewrite E'.
  change (st_last_node (zeroed st)) with (st_last_node st).
  change (st_hash_length (zeroed st)) with (st_hash_length st).
  replace (zeroed (zeroed st)) with (zeroed st); [reflexivity|].
  assert (Eb : zero_tail (st_buf (zeroed st)) (buflen_nat (zeroed st)) = zero_tail (st_buf st) (buflen_nat st)).
  { rewrite (Rep_zero_buf _ _ _ _ _ R). apply (Rep_zero_buf _ _ _ _ _ R'). }
  unfold zeroed at 2. rewrite Eb. reflexivity.
Qed.

(** Eight at a time. *)
Theorem update8_same c sts x : cfg_ok c -> (forall l, reachable c (proj l sts)) ->
  (exists sts', update8 c sts x = Ok sts' /\
     forall l, exists u, update c (proj l sts) (proj l x) = Ok u /\ interchangeable c (proj l sts') u) \/
  (update8 c sts x = Panic /\ exists l, update c (proj l sts) (proj l x) = Panic).
Proof.
  intros Hc Hr.
  destruct (lane_choice (fun l a => stands c a (proj l sts))) as (a & Ha).
  { intros l. apply reachable_stands; [exact Hc|apply Hr]. }
  destruct (update8_stands c a sts x Ha) as [(sts' & E & H)|H]; [left|right; exact H].
  exists sts'. split; [exact E|]. intros l. destruct (H l) as (H1 & u & Eu & H2).
  exists u. split; [exact Eu|]. eapply stands_interchangeable; eassumption.
Qed.
Theorem finalize8_same c sts : cfg_ok c -> (forall l, reachable c (proj l sts)) ->
  exists sts' hs, finalize8 c sts = Ok (sts', hs) /\
    forall l, finalize c (proj l sts) = Ok (proj l sts', proj l hs) /\
              interchangeable c (proj l sts) (proj l sts').
Proof.
  intros Hc Hr.
  destruct (lane_choice (fun l a => stands c a (proj l sts))) as (a & Ha).
  { intros l. apply reachable_stands; [exact Hc|apply Hr]. }
  destruct (finalize8_stands c a sts Ha) as (sts' & hs & E & H).
  exists sts', hs. split; [exact E|]. intros l. destruct (H l) as (H1 & H2). split; [exact H1|].
  eapply stands_interchangeable; [exact Hc|apply Ha|exact H2].
Qed.

(** [force_portable]. *)
Theorem portable_same c st : cfg_ok c -> reachable c st -> interchangeable c st (force_portable st).
Proof.
  intros Hc Hr. apply reachable_stands in Hr as (a & M); [|exact Hc].
  eapply stands_interchangeable; [exact Hc|exact M|]. apply models_force_portable, M.
Qed.

(** [write] and [write_all]. *)
Lemma update_nil_same c st : cfg_ok c -> reachable c st -> same_state c (Ok st) (update c st []).
Proof. intros Hc Hr. apply (feed_same c st [] Hc Hr). Qed.
Theorem write_all_update c st buf fuel :
  write_all (S (S fuel)) c st buf =
  match buf with [] => Ok (Some st) | _ :: _ => st' <- update c st buf ;; Ok (Some st') end.
Proof.
  destruct buf as [|b buf]; [reflexivity|]. cbn [write_all]. unfold write.
  destruct (update c st (b :: buf)); cbn [bind]; try reflexivity.
  cbn [length Nat.eqb]. rewrite skipn_all2 by (cbn [length]; lia). reflexivity.
Qed.
Theorem sp_write_all_update c st buf fuel :
  sp_write_all (S (S fuel)) c st buf =
  match buf with [] => Ok (Some st) | _ :: _ => st' <- sp_update c st buf ;; Ok (Some st') end.
Proof.
  destruct buf as [|b buf]; [reflexivity|]. cbn [sp_write_all]. unfold sp_write.
  destruct (sp_update c st (b :: buf)); cbn [bind]; try reflexivity.
  cbn [length Nat.eqb]. rewrite skipn_all2 by (cbn [length]; lia). reflexivity.
Qed.

(** [set_last_node] and [Params::last_node]. *)
Theorem last_node_same c l p p' b pieces pieces' : cfg_ok c -> build l = Ok p -> build (l ++ [SLastNode b]) = Ok p' ->
  same_state c (st <- to_state c p ;; st <- feed c st pieces ;; feed c (set_last_node st b) pieces')
               (st <- to_state c p' ;; feed c st (pieces ++ pieces')).
Proof.
  intros Hc Hb Hb'. apply build_encodes in Hb as (_ & E). apply build_encodes in Hb' as (_ & E').
  destruct (models_new c p _ _ Hc E) as (st & Es & M). destruct (models_new c p' _ _ Hc E') as (st' & Es' & M').
  change (stands c (new_state l) st) in M. change (stands c (new_state (l ++ [SLastNode b])) st') in M'.
  assert (Ea : new_state (l ++ [SLastNode b]) = mk_astate (a_sp (new_state l)) b []).
  { unfold new_state. cbn [a_sp]. destruct (fold_spec_snoc l (SLastNode b)) as [-> ->].
    destruct (spec_params l). reflexivity. }
  rewrite Ea in M'. set (a := new_state l) in *. rewrite Es, Es'. cbn [bind].
  destruct (feed_stands c pieces _ st M) as [(v & Ev & Mv)|(Ev & Hm)]; rewrite Ev; cbn [bind].
  - pose proof (models_set_last_node c _ _ _ v b Mv) as Mb.
    change (stands c (mk_astate (a_sp a) b (a_msg (add_msg a (concat pieces)))) (set_last_node v b)) in Mb.
    destruct (feed_stands c pieces' _ _ Mb) as [(w & Ew & Mw)|(Ew & Hw)]; rewrite Ew;
    destruct (feed_stands c (pieces ++ pieces') _ st' M') as [(u & Eu & Mu)|(Eu & Hn)]; rewrite Eu; cbn [same_state].
    + eapply stands_interchangeable; [exact Hc|exact Mw|].
      unfold add_msg in *. cbn [a_sp a_last a_msg] in *. rewrite concat_app in Mu. exact Mu.
    + apply Hn. destruct (mo_rep _ _ _ _ _ Mw) as (k & R & _).
      unfold add_msg in *. cbn [a_sp a_last a_msg] in *. rewrite concat_app. apply (rep_fits _ _ _ _ _ R).
    + apply Hw. destruct (mo_rep _ _ _ _ _ Mu) as (k & R & _).
      unfold add_msg in *. cbn [a_sp a_last a_msg] in *. rewrite concat_app in R. apply (rep_fits _ _ _ _ _ R).
    + exact I.
  - destruct (feed_stands c (pieces ++ pieces') _ st' M') as [(u & Eu & Mu)|(Eu & Hn)]; rewrite Eu; cbn [same_state]; [|exact I].
    apply Hm. destruct (mo_rep _ _ _ _ _ Mu) as (k & R & _).
    unfold add_msg in *. cbn [a_sp a_last a_msg] in *. rewrite concat_app in R.
    eapply fits_le; [apply (rep_fits _ _ _ _ _ R)|]. rewrite !stream_length, !app_length. change (a_msg a) with (@nil byte). cbn [length]. lia.
Qed.

(** Constructors, and the setters of different fields. *)
Lemma encodes_fun p q sp ln : encodes p sp ln -> encodes q sp ln -> p = q.
Proof.
  intros E F. destruct p, q. destruct E, F. pcbn. f_equal; try congruence; apply val_inj; congruence.
Qed.
Lemma build_fun l l' p q : build l = Ok p -> build l' = Ok q ->
  spec_params l = spec_params l' -> spec_last_node l = spec_last_node l' -> p = q.
Proof.
  intros H H' E1 E2. apply build_encodes in H as (_ & H). apply build_encodes in H' as (_ & H').
  rewrite <- E1, <- E2 in H'. eapply encodes_fun; eassumption.
Qed.
Lemma sp_encodes_fun p q d k : sp_encodes p d k -> sp_encodes q d k -> p = q.
Proof.
  intros E F. destruct p, q. destruct E, F. cbn [Blake2sp.sp_hash_length Blake2sp.sp_key_length Blake2sp.sp_key] in *.
  f_equal; try congruence; apply val_inj; congruence.
Qed.

Lemma setters_encode p sp ln l l' : encodes p sp ln -> forallb valid_setter l = forallb valid_setter l' ->
  fold_left spec_set l sp = fold_left spec_set l' sp -> fold_left spec_set_last l ln = fold_left spec_set_last l' ln ->
  apply_setters p l = apply_setters p l'.
Proof.
  intros E V E1 E2. destruct (forallb valid_setter l) eqn:Vl.
  - destruct (apply_setters_ok l p sp ln E Vl) as (q & A & Q).
    destruct (apply_setters_ok l' p sp ln E (eq_sym V)) as (q' & A' & Q').
    rewrite A, A'. f_equal. rewrite <- E1, <- E2 in Q'. eapply encodes_fun; eassumption.
  - rewrite (apply_setters_panic l p sp ln E Vl). symmetry. eapply apply_setters_panic; [exact E|]. symmetry. exact V.
Qed.
Theorem setters_commute l p s t l' : build l = Ok p -> same_kind s t = false ->
  apply_setters p (s :: t :: l') = apply_setters p (t :: s :: l').
Proof.
  intros H K. apply build_encodes in H as (_ & E). eapply setters_encode; [exact E| | |].
  - cbn [forallb]. rewrite !andb_assoc, (andb_comm (valid_setter s)). reflexivity.
  - cbn [fold_left]. destruct s, t; try discriminate K; reflexivity.
  - cbn [fold_left]. destruct s, t; try discriminate K; reflexivity.
Qed.
Theorem setters_last_wins l p s t l' : build l = Ok p -> same_kind s t = true -> valid_setter s = true ->
  apply_setters p (s :: t :: l') = apply_setters p (t :: l').
Proof.
  intros H K V. apply build_encodes in H as (_ & E). eapply setters_encode; [exact E| | |].
  - cbn [forallb]. rewrite V. reflexivity.
  - cbn [fold_left]. destruct s, t; try discriminate K; reflexivity.
  - cbn [fold_left]. destruct s, t; try discriminate K; reflexivity.
Qed.
(** Nothing else matters: two chains that select the same parameters build the same [Params]. *)
Theorem build_determined l l' : forallb valid_setter l = forallb valid_setter l' ->
  spec_params l = spec_params l' -> spec_last_node l = spec_last_node l' -> build l = build l'.
Proof.
  intros V E1 E2. destruct (forallb valid_setter l) eqn:Vl.
  - destruct (build_ok l Vl) as (p & A & _). destruct (build_ok l' (eq_sym V)) as (q & A' & _).
    rewrite A, A'. f_equal. eapply build_fun; eassumption.
  - rewrite (build_panic l Vl), (build_panic l'); [reflexivity|]. symmetry. exact V.
Qed.
Lemma last_call_app {A} (sel : setter -> option A) d l l' :
  last_call sel d (l ++ l') = last_call sel (last_call sel d l) l'.
Proof. revert d. induction l; intros d; [reflexivity|]. cbn [app last_call]. auto. Qed.
Lemma last_key_none d l : forallb no_key l = true -> last_call sel_key d l = d.
Proof.
  revert d. induction l as [|x l IH]; intros d V; [reflexivity|]. cbn [forallb] in V. apply andb_prop in V as [V1 V2].
  cbn [last_call]. rewrite (IH _ V2). destruct x; try reflexivity. discriminate V1.
Qed.
(** An empty key is the same as no key, wherever in the chain it is set. *)
Theorem empty_key l l' : forallb no_key l = true -> build (l ++ SKey [] :: l') = build (l ++ l').
Proof.
  intros V. apply build_determined.
  - rewrite !forallb_app. reflexivity.
  - unfold spec_params. rewrite !last_call_app. cbn [last_call]. rewrite (last_key_none _ _ V). reflexivity.
  - unfold spec_last_node. rewrite !last_call_app. reflexivity.
Qed.

(** ** BLAKE2sp states *)
Lemma sp_build_encodes l p : sp_build l = Ok p ->
  forallb sp_valid_setter l = true /\ sp_encodes p (sp_last_hash_length 32 l) (sp_last_key [] l).
Proof.
  intros E. destruct (forallb sp_valid_setter l) eqn:V.
  - split; [reflexivity|]. destruct (sp_build_ok l V) as (p' & E' & Enc). congruence.
  - rewrite sp_build_panic in E by exact V. discriminate.
Qed.
Lemma sp_reachable_self c st : cfg_ok c -> sp_reachable c st -> sprel c c st st.
Proof.
  intros Hc. induction 1 as [l p st Hb Hs|st x st' _ IH E|st _ IH].
  - apply sp_build_encodes in Hb as (_ & Hb).
    pose proof (sp_to_state_rel c c Hc Hc eq_refl eq_refl p (sp_encodes_pwf c c eq_refl eq_refl _ _ _ Hb)) as H.
    rewrite Hs in H. exact H.
  - pose proof (sp_update_rel c c eq_refl eq_refl st st x IH) as H. rewrite E in H. exact H.
  - apply sprel_portable, IH.
Qed.
Lemma srel_portable_right c s : srel c c s s -> srel c c s (force_portable s).
Proof. intros []; constructor; try assumption; discriminate. Qed.
Theorem sp_portable_same c st : cfg_ok c -> sp_reachable c st -> sp_interchangeable c st (sp_force_portable st).
Proof.
  intros Hc Hr. apply sprel_interchangeable; [exact Hc|]. apply sp_reachable_self in Hr; [|exact Hc].
  destruct Hr as [Hl Hr' H1 H2 H3 H4 H5 H6].
  constructor; cbn [sp_force_portable sp_leaves sp_root sp_buf sp_buflen sp_compress8_fn];
    try assumption; try discriminate.
  - intros l. rewrite !proj_map. apply srel_portable_right, Hl.
  - apply srel_portable_right, Hr'.
Qed.
Lemma sp_feed_ok c dlen pieces : forall D st, SpModels c dlen [] D st ->
  fits c (N.of_nat (length (D ++ concat pieces))) ->
  exists st', sp_feed c st pieces = Ok st' /\ SpModels c dlen [] (D ++ concat pieces) st'.
Proof.
  induction pieces as [|x l IH]; intros D st M Hf; cbn [sp_feed concat] in *.
  - exists st. rewrite app_nil_r. auto.
  - destruct (sp_models_update c dlen D st x M) as (st1 & E1 & M1).
    { eapply fits_le; [exact Hf|]. rewrite !app_length. lia. }
    rewrite E1. cbn [bind]. rewrite app_assoc. apply IH; [exact M1|]. rewrite <- app_assoc. exact Hf.
Qed.
Lemma sp_feed_keyed_ok c dlen key pieces : key <> [] -> forall D st, SpModels c dlen key D st ->
  (length (D ++ concat pieces) <= 960)%nat ->
  exists st', sp_feed c st pieces = Ok st' /\ SpModels c dlen key (D ++ concat pieces) st'.
Proof.
  intros Hk. induction pieces as [|x l IH]; intros D st M Hf; cbn [sp_feed concat] in *.
  - exists st. rewrite app_nil_r. auto.
  - destruct (sp_models_update_keyed c dlen key D st x M Hk) as (st1 & E1 & M1).
    { unfold keyed_room. rewrite !app_length in *. lia. }
    rewrite E1. cbn [bind]. rewrite app_assoc. apply IH; [exact M1|]. rewrite <- app_assoc. exact Hf.
Qed.
Theorem sp_hash_pieces_value c l p pieces : cfg_ok c -> sp_build l = Ok p -> sp_last_key [] l = [] ->
  N.of_nat (length (concat pieces)) < 2 ^ 64 ->
  sp_hash_pieces c p pieces = Ok (Spec.blake2sp (sp_last_hash_length 32 l) [] (concat pieces)).
Proof.
  intros Hc Hb Hk Hl. apply sp_build_encodes in Hb as (_ & E). rewrite Hk in E.
  destruct (sp_models_new c p _ _ Hc E) as (st & Es & M). unfold sp_hash_pieces. rewrite Es. cbn [bind].
  destruct (sp_feed_ok c _ pieces [] st M) as (st1 & E1 & M1); [intros _; exact Hl|].
  rewrite E1. cbn [bind]. cbn [app] in M1.
  destruct (sp_models_finalize c _ _ _ _ M1) as (h & F & _ & _ & _ & B).
  { intros _. cbn [Spec.key_block length]. exact Hl. }
  rewrite F. exact B.
Qed.
Theorem sp_hash_pieces_keyed c l p pieces : cfg_ok c -> sp_build l = Ok p -> sp_last_key [] l <> [] ->
  (length (concat pieces) <= 960)%nat ->
  sp_hash_pieces c p pieces = Ok (Spec.blake2sp (sp_last_hash_length 32 l) (sp_last_key [] l) (concat pieces)).
Proof.
  intros Hc Hb Hk Hl. apply sp_build_encodes in Hb as (_ & E).
  destruct (sp_models_new c p _ _ Hc E) as (st & Es & M). unfold sp_hash_pieces. rewrite Es. cbn [bind].
  destruct (sp_feed_keyed_ok c _ _ pieces Hk [] st M) as (st1 & E1 & M1); [exact Hl|].
  rewrite E1. cbn [bind]. cbn [app] in M1.
  destruct (sp_models_finalize c _ _ _ _ M1) as (h & F & _ & _ & _ & B).
  { intros _. pose proof (se_key_ok _ _ _ E). rewrite key_block_length by lia.
    destruct (sp_last_key [] l); change (2 ^ 64) with 18446744073709551616; lia. }
  rewrite F. exact B.
Qed.
(** An empty key is no key. *)
Lemma sp_last_app l l' : forall d k,
  sp_last_hash_length d (l ++ l') = sp_last_hash_length (sp_last_hash_length d l) l' /\
  sp_last_key k (l ++ l') = sp_last_key (sp_last_key k l) l'.
Proof.
  induction l as [|x l IH]; intros d k; [split; reflexivity|]. destruct x; cbn [app sp_last_hash_length sp_last_key]; apply IH.
Qed.
Lemma sp_last_key_none k l : forallb sp_no_key l = true -> sp_last_key k l = k.
Proof.
  induction l as [|x l IH]; intros V; [reflexivity|]. cbn [forallb] in V. apply andb_prop in V as [V1 V2].
  destruct x; [apply IH, V2|discriminate V1].
Qed.
Theorem sp_build_determined l l' : forallb sp_valid_setter l = forallb sp_valid_setter l' ->
  sp_last_hash_length 32 l = sp_last_hash_length 32 l' -> sp_last_key [] l = sp_last_key [] l' ->
  sp_build l = sp_build l'.
Proof.
  intros V E1 E2. destruct (forallb sp_valid_setter l) eqn:Vl.
  - destruct (sp_build_ok l Vl) as (p & A & P). destruct (sp_build_ok l' (eq_sym V)) as (q & A' & Q).
    rewrite A, A'. f_equal. rewrite <- E1, <- E2 in Q. eapply sp_encodes_fun; eassumption.
  - rewrite (sp_build_panic l Vl), (sp_build_panic l'); [reflexivity|]. symmetry. exact V.
Qed.
Theorem sp_empty_key l l' : forallb sp_no_key l = true -> sp_build (l ++ SpKey [] :: l') = sp_build (l ++ l').
Proof.
  intros V. apply sp_build_determined.
  - rewrite !forallb_app. reflexivity.
  - rewrite !(proj1 (sp_last_app _ _ _ [])). reflexivity.
  - rewrite !(proj2 (sp_last_app _ _ 0 _)). cbn [sp_last_key]. rewrite (sp_last_key_none _ _ V). reflexivity.
Qed.
