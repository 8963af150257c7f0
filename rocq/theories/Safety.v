(** * Safety: no undefined behaviour, which calls panic, platform independence. *)
From Verif Require Import Base BaseFacts Consts Params State Many Blake2sp Debug StateFacts ParamsSpec
  ParamsFacts Refine HashFacts Avx2Facts Sse41Facts ManyFacts Hash8Facts ExactFacts SpFacts
  Machine MachineSpec MachineFacts Relate.
From Verif Require Spec.
From Coq Require Import ZArith Lia ZifyBool ZifyNat ZifyN.
Local Open Scope N_scope.

(** ** Any program *)
Lemma mem_op_ok c1 c2 K o : mem_ok o -> (sets_key o = true -> K = true) ->
  (calls_exact o = true -> exact_ok c1 c2 K) -> op_ok c1 c2 K o.
Proof.
  intros Hm Hk He. destruct o; cbn [op_ok]; try exact I.
  - destruct s as [| [|b k] | | | | | | | | |]; try exact I. apply Hk. reflexivity.
  - unfold mem_ok in Hm. cbn [slices] in Hm. rewrite Forall_forall in Hm. intros l. apply Hm.
    destruct inputs, l; cbn [oct_list proj o0 o1 o2 o3 o4 o5 o6 o7 In]; tauto.
  - split; [apply He; reflexivity|]. unfold mem_ok in Hm. cbn [slices] in Hm. rewrite Forall_forall in Hm.
    intros l. apply Hm. destruct inputs, l; cbn [oct_list proj o0 o1 o2 o3 o4 o5 o6 o7 In]; tauto.
  - split; [apply He; reflexivity|]. unfold mem_ok in Hm. cbn [slices] in Hm. rewrite Forall_forall in Hm.
    intros l. apply Hm. destruct inputs, l; cbn [quad_list qproj q0 q1 q2 q3 In]; tauto.
Qed.
Lemma mem_op_ok_same c o : mem_ok o -> op_ok c c true o.
Proof. intros H. apply mem_op_ok; [exact H|reflexivity|right; reflexivity]. Qed.

Theorem run_safe c ops : cfg_ok c -> Forall mem_ok ops ->
  snd (run c empty_session ops) = Done \/ snd (run c empty_session ops) = Panicked.
Proof.
  intros Hc Hm.
  refine (proj2 (run_rel c c Hc Hc eq_refl eq_refl true ops empty_session empty_session _ _)).
  - apply session_rel_empty.
  - eapply Forall_impl; [|exact Hm]. intros o. apply mem_op_ok_same.
Qed.

Theorem run_platforms c1 c2 ops : cfg_ok c1 -> cfg_ok c2 ->
  overflow_checks c1 = overflow_checks c2 -> debug_assertions c1 = debug_assertions c2 ->
  Forall mem_ok ops -> existsb sets_key ops && existsb calls_exact ops = false ->
  run c1 empty_session ops = run c2 empty_session ops.
Proof.
  intros Hc1 Hc2 Ho Hd Hm He.
  refine (proj1 (run_rel c1 c2 Hc1 Hc2 Ho Hd (existsb sets_key ops) ops empty_session empty_session _ _)).
  - apply session_rel_empty.
  - rewrite Forall_forall in *. intros o Hin. apply mem_op_ok.
    + apply Hm, Hin.
    + intros Hs. apply existsb_exists. eauto.
    + intros Hs. left. destruct (existsb sets_key ops); [|reflexivity]. cbn [andb] in He.
      assert (existsb calls_exact ops = true) by (apply existsb_exists; eauto). congruence.
Qed.

Lemma after_rel c K ops : cfg_ok c -> forall s s', session_rel c c K s s -> Forall (op_ok c c K) ops ->
  after c s ops = Some s' -> session_rel c c K s' s'.
Proof.
  intros Hc. induction ops as [|o ops IH]; intros s s' H Ho; cbn [after]; [intros [= <-]; exact H|].
  inversion Ho as [|? ? Ho1 Ho2]; subst.
  pose proof (step_rel c c Hc Hc eq_refl eq_refl K s s o H Ho1) as Hs.
  destruct (step c s o) as [[t x]| | |]; try discriminate. cbn [orelP] in Hs.
  apply IH; [apply Hs|exact Ho2].
Qed.

(** ** The documented checks do panic *)
Lemma rejects_panic c s o : rejects s o = true -> step c s o = Panic.
Proof.
  destruct o; cbn [rejects]; try discriminate; cbn [step]; cbv zeta; unfold at_obj.
  - destruct (nth_error (s_params s) i); [|discriminate]. intros H. apply negb_true_iff in H.
    rewrite apply_setter_panic by exact H. reflexivity.
  - destruct (pick8 (s_params s) i) as [ps|]; [|discriminate]. intros H. unfold hash8.
    replace (oct_all _ ps) with false; [reflexivity|]. symmetry. apply not_true_iff_false.
    intros Ha. rewrite oct_all_spec in Ha. apply not_false_iff_true in H. apply H.
    destruct ps. cbn [oct_list existsb].
    pose proof (Ha L0) as H0. pose proof (Ha L1) as H1. pose proof (Ha L2) as H2. pose proof (Ha L3) as H3.
    pose proof (Ha L4) as H4. pose proof (Ha L5) as H5. pose proof (Ha L6) as H6. pose proof (Ha L7) as H7.
    cbn [proj o0 o1 o2 o3 o4 o5 o6 o7] in *. rewrite H0, H1, H2, H3, H4, H5, H6, H7. reflexivity.
  - destruct (nth_error (s_params s) i); [|discriminate]. intros H. apply negb_true_iff in H.
    rewrite hash8_exact_reject; [reflexivity|].
    intros Hx. apply exact_spec in Hx; [congruence|destruct inputs; discriminate].
  - destruct (nth_error (s_params s) i); [|discriminate]. intros H. apply negb_true_iff in H.
    rewrite hash4_exact_reject; [reflexivity|].
    intros Hx. apply exact_spec in Hx; [congruence|destruct inputs; discriminate].
  - destruct (nth_error (s_sparams s) i); [|discriminate]. intros H. apply negb_true_iff in H.
    rewrite sp_apply_setter_panic by exact H. reflexivity.
Qed.

(** ** Release builds: only the documented checks panic *)
Theorem release_panics c ops s o : cfg_ok c -> overflow_checks c = false -> debug_assertions c = false ->
  Forall mem_ok (ops ++ [o]) -> after c empty_session ops = Some s ->
  (step c s o = Panic <-> rejects s o = true) /\
  (rejects s o = false -> exists s' x, step c s o = Ok (s', x)).
Proof.
  intros Hc Ho Hd Hm Ha. apply Forall_app in Hm as (Hm & Hmo). inversion Hmo as [|? ? Hm1 _]; subst.
  assert (H : session_rel c c true s s).
  { eapply (after_rel c true ops Hc empty_session); [apply session_rel_empty| |exact Ha].
    eapply Forall_impl; [|exact Hm]. intros o'. apply mem_op_ok_same. }
  pose proof (step_rel c c Hc Hc eq_refl eq_refl true s s o H (mem_op_ok_same c o Hm1)) as Hs.
  destruct (step c s o) as [[t x]| | |] eqn:E; try contradiction; cbn [orelP] in Hs.
  - split; [|eauto]. split; [discriminate|]. intros Hr. rewrite (rejects_panic c s o Hr) in E. discriminate.
  - destruct Hs as [[Hs|Hs]|Hs]; [congruence|congruence|]. split; [tauto|]. congruence.
Qed.

(** ** Programs below 2^64 bytes, with BLAKE2sp unkeyed *)
Record bounded (K : bool) (n : N) (a : asession) : Prop := {
  b_p : Forall (fun l => (length (Spec.key (spec_params l)) <= 32)%nat /\
                         (K = false -> Spec.key (spec_params l) = [])) (a_params a);
  b_s : Forall (fun x => total (Spec.key (a_sp x)) (a_msg x) <= 64 + n) (a_states a);
  b_sp : Forall (fun l => sp_keyval l = []) (a_sparams a);
  b_ss : Forall (fun x => a_key x = [] /\ N.of_nat (length (a_data x)) <= n) (a_sstates a)
}.
Lemma bounded_empty K : bounded K 0 empty_asession.
Proof. constructor; constructor. Qed.
Lemma bounded_le K n m a : n <= m -> bounded K n a -> bounded K m a.
Proof.
  intros H []; constructor; try assumption.
  - eapply Forall_impl; [|exact b_s0]. intros x Hx. cbv beta in *. lia.
  - eapply Forall_impl; [|exact b_ss0]. intros x (Hx & Hy). split; [exact Hx|]. lia.
Qed.
Lemma b_params K n a l : bounded K n a ->
  Forall (fun l => (length (Spec.key (spec_params l)) <= 32)%nat /\
                         (K = false -> Spec.key (spec_params l) = [])) l -> bounded K n (awith_params a l).
Proof. intros [] H; constructor; assumption. Qed.
Lemma b_states K n a l : bounded K n a ->
  Forall (fun x => total (Spec.key (a_sp x)) (a_msg x) <= 64 + n) l -> bounded K n (awith_states a l).
Proof. intros [] H; constructor; assumption. Qed.
Lemma b_hashes K n a l : bounded K n a -> bounded K n (awith_hashes a l).
Proof. intros []; constructor; assumption. Qed.
Lemma b_sparams K n a l : bounded K n a ->
  Forall (fun l => sp_keyval l = []) l -> bounded K n (awith_sparams a l).
Proof. intros [] H; constructor; assumption. Qed.
Lemma b_sstates K n a l : bounded K n a ->
  Forall (fun x => a_key x = [] /\ N.of_nat (length (a_data x)) <= n) l -> bounded K n (awith_sstates a l).
Proof. intros [] H; constructor; assumption. Qed.
Lemma Forall_upd {A} (P : A -> Prop) l i x : Forall P l -> P x -> Forall P (upd l i x).
Proof.
  intros H Hx. revert i. induction H as [|y l Hy H IH]; intros [|i]; cbn [upd]; constructor; auto.
Qed.
Lemma Forall_snoc {A} (P : A -> Prop) l x : Forall P l -> P x -> Forall P (l ++ [x]).
Proof. intros H Hx. apply Forall_app. split; [exact H|]. constructor; [exact Hx|constructor]. Qed.
Lemma Forall_at {A} (P : A -> Prop) l i x : Forall P l -> nth_error l i = Some x -> P x.
Proof. intros H E. rewrite Forall_forall in H. apply H. eapply nth_error_In, E. Qed.
Lemma Forall_pick8 {A} (P : A -> Prop) l i x : Forall P l -> pick8 l i = Some x -> forall k, P (proj k x).
Proof.
  intros H E. unfold pick8 in E.
  destruct (nth_error l (o0 i)) eqn:E0; [|discriminate]. destruct (nth_error l (o1 i)) eqn:E1; [|discriminate].
  destruct (nth_error l (o2 i)) eqn:E2; [|discriminate]. destruct (nth_error l (o3 i)) eqn:E3; [|discriminate].
  destruct (nth_error l (o4 i)) eqn:E4; [|discriminate]. destruct (nth_error l (o5 i)) eqn:E5; [|discriminate].
  destruct (nth_error l (o6 i)) eqn:E6; [|discriminate]. destruct (nth_error l (o7 i)) eqn:E7; [|discriminate].
  injection E as <-. intros []; cbn [proj o0 o1 o2 o3 o4 o5 o6 o7]; eapply Forall_at; eassumption.
Qed.
Lemma Forall_put8 {A} (P : A -> Prop) l i x : Forall P l -> (forall k, P (proj k x)) -> Forall P (put8 l i x).
Proof.
  intros H Hx. unfold put8. repeat apply Forall_upd; [exact H| | | | | | | |].
  - apply (Hx L0). - apply (Hx L1). - apply (Hx L2). - apply (Hx L3).
  - apply (Hx L4). - apply (Hx L5). - apply (Hx L6). - apply (Hx L7).
Qed.
Lemma room_small checks a : total (Spec.key (a_sp a)) (a_msg a) < 2 ^ 64 -> room checks a = true.
Proof. intros H. unfold room. apply orb_true_iff. right. apply N.ltb_lt, H. Qed.
Lemma small_ok x : N.of_nat (length x) < 2 ^ 64 -> small [] x = true.
Proof. intros H. unfold small, total. apply N.ltb_lt. exact H. Qed.
Lemma slices_le o x : In x (slices o) -> N.of_nat (length x) <= input_bytes o.
Proof.
  unfold input_bytes. generalize (slices o). intros l. induction l as [|y l IH]; cbn [In fold_right]; [tauto|].
  intros [<-|H]; [lia|]. specialize (IH H). lia.
Qed.
Lemma new_total (l : list setter) : (length (Spec.key (spec_params l)) <= 32)%nat ->
  total (Spec.key (spec_params l)) [] <= 64.
Proof.
  intros H. unfold total. rewrite key_block_length by lia. cbn [length].
  destruct (Spec.key (spec_params l)); lia.
Qed.
Lemma spec_set_key sp x : Spec.key (spec_set sp x) = match x with SKey k => k | _ => Spec.key sp end.
Proof. destruct sp, x; reflexivity. Qed.
Lemma total_add a x : total (Spec.key (a_sp (add_msg a x))) (a_msg (add_msg a x)) =
  total (Spec.key (a_sp a)) (a_msg a) + N.of_nat (length x).
Proof. unfold total, add_msg. cbn [a_sp a_msg]. rewrite app_length. lia. Qed.

Definition agree (a : asession) (checks : bool) (o : op) (K : bool) (n : N) : Prop :=
  astep checks a o = astep true a o /\
  match astep true a o with
  | Next a' _ => bounded K n a'
  | Fail => True
  | Out => calls_exact o = true /\ K = true
  end.

Lemma agree_params K n a checks o : bounded K n a -> (sets_key o = true -> K = true) ->
  n + input_bytes o + 64 < 2 ^ 64 ->
  match o with
  | ParamsNew | ParamsClone _ | ParamsSet _ _ | ToState _ | StateNew | Hash8 _ _ | Hash8Exact _ _
  | Hash4Exact _ _ => agree a checks o K (n + input_bytes o)
  | _ => True
  end.
Proof.
  intros B Hk Hn. assert (B' : bounded K (n + input_bytes o) a) by (eapply bounded_le; [|exact B]; lia).
  pose proof (slices_le o) as Hs. revert B' Hn Hs. generalize (input_bytes o). intros m B' Hn Hs.
  destruct o; try exact I; unfold agree; cbn [astep slices] in *; cbv zeta;
    try (unfold at_obj; destruct (nth_error (a_params a) i) as [l|] eqn:E; [|split; [reflexivity|exact B']];
         pose proof (Forall_at _ _ _ _ (b_p _ _ _ B') E) as (Hl & HK)).
  - split; [reflexivity|]. apply b_params; [exact B'|]. apply Forall_snoc; [apply B'|].
    split; [cbn; lia|reflexivity].
  - split; [reflexivity|]. apply b_params; [exact B'|]. apply Forall_snoc; [apply B'|]. split; assumption.
  - destruct (valid_setter s) eqn:V; [|split; [reflexivity|exact I]]. split; [reflexivity|].
    apply b_params; [exact B'|]. apply Forall_upd; [apply B'|].
    destruct (fold_spec_snoc l s) as (-> & _). rewrite spec_set_key.
    destruct s as [| k | | | | | | | | |]; try (split; assumption). cbn [valid_setter] in V.
    split; [lia|]. intros HK0. destruct k; [reflexivity|]. specialize (Hk eq_refl). congruence.
  - split; [reflexivity|]. apply b_states; [exact B'|]. apply Forall_snoc; [apply B'|].
    cbn [a_sp a_msg]. apply (N.le_trans _ 64); [|lia]. apply (new_total []). cbn. lia.
  - split; [reflexivity|]. apply b_states; [exact B'|]. apply Forall_snoc; [apply B'|].
    unfold new_state. cbn [a_sp a_msg]. pose proof (new_total l Hl). lia.
  - destruct (pick8 (a_params a) i) as [p|]; [|split; [reflexivity|exact B']].
    destruct (forallb _ (oct_list p)); [|split; [reflexivity|exact I]].
    replace (forallb (small []) (oct_list inputs)) with true.
    2: { symmetry. apply forallb_forall. intros x Hx. apply small_ok. specialize (Hs x Hx). lia. }
    split; [reflexivity|]. apply b_hashes, B'.
  - destruct (exact _); [|split; [reflexivity|exact I]].
    destruct (Spec.key (spec_params l)) eqn:Ek.
    + replace (forallb (small []) (oct_list inputs)) with true.
      2: { symmetry. apply forallb_forall. intros x Hx. apply small_ok. specialize (Hs x Hx). lia. }
      split; [reflexivity|]. apply b_hashes, B'.
    + split; [reflexivity|]. split; [reflexivity|]. destruct K; [reflexivity|]. specialize (HK eq_refl). discriminate.
  - destruct (exact _); [|split; [reflexivity|exact I]].
    destruct (Spec.key (spec_params l)) eqn:Ek.
    + replace (forallb (small []) (quad_list inputs)) with true.
      2: { symmetry. apply forallb_forall. intros x Hx. apply small_ok. specialize (Hs x Hx). lia. }
      split; [reflexivity|]. apply b_hashes, B'.
    + split; [reflexivity|]. split; [reflexivity|]. destruct K; [reflexivity|]. specialize (HK eq_refl). discriminate.
Qed.

Lemma agree_states K n a checks o : bounded K n a -> n + input_bytes o + 64 < 2 ^ 64 ->
  match o with
  | StateClone _ | Update _ _ | Write _ _ | Flush _ | SetLastNode _ _ | Count _ | StateDebug _
  | ForcePortable _ | Finalize _ | Update8 _ _ | Finalize8 _ | Blake2s _ =>
      agree a checks o K (n + input_bytes o) /\ astep true a o <> Fail
  | _ => True
  end.
Proof.
  intros B Hn. assert (B' : bounded K (n + input_bytes o) a) by (eapply bounded_le; [|exact B]; lia).
  pose proof (slices_le o) as Hs. revert B' Hn Hs. generalize (input_bytes o). intros m B' Hn Hs.
  destruct o; try exact I; unfold agree; cbn [astep slices] in *; cbv zeta;
    try (unfold at_obj; destruct (nth_error (a_states a) i) as [l|] eqn:E;
           [|split; [split; [reflexivity|exact B']|discriminate]];
         pose proof (Forall_at _ _ _ _ (b_s _ _ _ B') E) as Hl;
         pose proof (Forall_at _ _ _ _ (b_s _ _ _ B) E) as Hl0; cbv beta in Hl, Hl0).
  - split; [split; [reflexivity|]|discriminate]. apply b_states; [exact B'|]. apply Forall_snoc; [apply B'|exact Hl].
  - specialize (Hs input ltac:(left; reflexivity)).
    assert (Ht : total (Spec.key (a_sp (add_msg l input))) (a_msg (add_msg l input)) <= 64 + (n + m))
      by (rewrite total_add; lia).
    rewrite !room_small by lia. split; [split; [reflexivity|]|discriminate].
    apply b_states; [exact B'|]. apply Forall_upd; [apply B'|exact Ht].
  - specialize (Hs input ltac:(left; reflexivity)).
    assert (Ht : total (Spec.key (a_sp (add_msg l input))) (a_msg (add_msg l input)) <= 64 + (n + m))
      by (rewrite total_add; lia).
    rewrite !room_small by lia. split; [split; [reflexivity|]|discriminate].
    apply b_states; [exact B'|]. apply Forall_upd; [apply B'|exact Ht].
  - split; [split; [reflexivity|]|discriminate]. apply b_states; [exact B'|]. apply Forall_upd; [apply B'|exact Hl].
  - split; [split; [reflexivity|]|discriminate]. apply b_states; [exact B'|]. apply Forall_upd; [apply B'|exact Hl].
  - split; [split; [reflexivity|exact B']|discriminate].
  - split; [split; [reflexivity|exact B']|discriminate].
  - split; [split; [reflexivity|]|discriminate]. apply b_states; [exact B'|]. apply Forall_upd; [apply B'|exact Hl].
  - split; [split; [reflexivity|apply b_hashes, B']|discriminate].
  - destruct (pick8 (a_states a) i) as [p|] eqn:Ep; [|split; [split; [reflexivity|exact B']|discriminate]].
    destruct (distinct (oct_list i)); [|split; [split; [reflexivity|exact B']|discriminate]].
    assert (Ht : forall k, total (Spec.key (a_sp (proj k (oct_map2 add_msg p inputs))))
      (a_msg (proj k (oct_map2 add_msg p inputs))) <= 64 + (n + m)).
    { intros k. rewrite proj_map2, total_add.
      pose proof (Forall_pick8 _ _ _ _ (b_s _ _ _ B) Ep k) as H. cbv beta in H.
      assert (N.of_nat (length (proj k inputs)) <= m); [|lia]. apply Hs.
      destruct inputs, k; cbn [oct_list proj o0 o1 o2 o3 o4 o5 o6 o7 In]; tauto. }
    assert (Hr : forall c, forallb (room c) (oct_list (oct_map2 add_msg p inputs)) = true).
    { intros c. apply forallb_forall. intros x Hx. apply room_small.
      assert (exists k, x = proj k (oct_map2 add_msg p inputs)) as (k & ->).
      { destruct (oct_map2 add_msg p inputs). cbn [oct_list In] in Hx.
        repeat destruct Hx as [<-|Hx]; [exists L0|exists L1|exists L2|exists L3|exists L4|exists L5|exists L6|exists L7|contradiction];
          reflexivity. }
      specialize (Ht k). lia. }
    rewrite !Hr. split; [split; [reflexivity|]|discriminate].
    apply b_states; [exact B'|]. apply Forall_put8; [apply B'|exact Ht].
  - destruct (pick8 (a_states a) i) as [p|] eqn:Ep; [|split; [split; [reflexivity|exact B']|discriminate]].
    destruct (distinct (oct_list i)); [|split; [split; [reflexivity|exact B']|discriminate]].
    split; [split; [reflexivity|apply b_hashes, B']|discriminate].
  - specialize (Hs input ltac:(left; reflexivity)).
    rewrite !room_small by (unfold total; cbn [a_sp a_msg]; cbn [Spec.key Spec.default_params Spec.key_block length]; lia).
    split; [split; [reflexivity|apply b_hashes, B']|discriminate].
Qed.

Lemma agree_rest K n a checks o : bounded K n a -> n + input_bytes o + 64 < 2 ^ 64 -> sets_sp_key o = false ->
  match o with
  | HashBytes _ | HashHex _ | HashDebug _ | HashEq _ _ | HashEqSlice _ _
  | SpParamsNew | SpParamsClone _ | SpParamsSet _ _ | SpParamsDebug _ | SpStateNew | SpToState _ | SpClone _
  | SpUpdate _ _ | SpWrite _ _ | SpFlush _ | SpCount _ | SpDebug _ | SpForcePortable _ | SpFinalize _
  | OneShotSp _ =>
      agree a checks o K (n + input_bytes o)
  | _ => True
  end.
Proof.
  intros B Hn Hk. assert (B' : bounded K (n + input_bytes o) a) by (eapply bounded_le; [|exact B]; lia).
  pose proof (slices_le o) as Hs. revert B' Hn Hs. generalize (input_bytes o). intros m B' Hn Hs.
  destruct o; try exact I; unfold agree; cbn [astep slices] in *; cbv zeta; (split; [reflexivity|]);
    try (unfold at_obj; destruct (nth_error (a_hashes a) i) as [l|] eqn:E; [|exact B']);
    try (unfold at_obj; destruct (nth_error (a_sparams a) i) as [l|] eqn:E; [|exact B'];
         pose proof (Forall_at _ _ _ _ (b_sp _ _ _ B') E) as Hl; cbv beta in Hl);
    try (unfold at_obj; destruct (nth_error (a_sstates a) i) as [l|] eqn:E; [|exact B'];
         pose proof (Forall_at _ _ _ _ (b_ss _ _ _ B') E) as Hl;
         pose proof (Forall_at _ _ _ _ (b_ss _ _ _ B) E) as Hl0; cbv beta in Hl, Hl0);
    try exact B'.
  - destruct (nth_error (a_hashes a) j); exact B'.
  - apply b_sparams; [exact B'|]. apply Forall_snoc; [apply B'|reflexivity].
  - apply b_sparams; [exact B'|]. apply Forall_snoc; [apply B'|exact Hl].
  - destruct (sp_setter_ok s) eqn:V; [|exact I].
    apply b_sparams; [exact B'|]. apply Forall_upd; [apply B'|].
    rewrite (proj2 (sp_snoc l s)). destruct s as [|[|]]; [exact Hl|reflexivity|discriminate Hk].
  - apply b_sstates; [exact B'|]. apply Forall_snoc; [apply B'|]. split; [reflexivity|cbn; lia].
  - apply b_sstates; [exact B'|]. apply Forall_snoc; [apply B'|]. split; [exact Hl|cbn; lia].
  - apply b_sstates; [exact B'|]. apply Forall_snoc; [apply B'|exact Hl].
  - specialize (Hs input ltac:(left; reflexivity)). destruct Hl as (Hl & _), Hl0 as (_ & Hl0).
    unfold sp_scope. rewrite Hl, app_length.
    destruct (N.ltb_spec (N.of_nat (length (a_data l) + length input)) (2 ^ 64)); [|lia].
    apply b_sstates; [exact B'|]. apply Forall_upd; [apply B'|].
    split; [exact Hl|]. unfold add_data. cbn [a_data]. rewrite app_length. lia.
  - specialize (Hs input ltac:(left; reflexivity)). destruct Hl as (Hl & _), Hl0 as (_ & Hl0).
    unfold sp_scope. rewrite Hl, app_length.
    destruct (N.ltb_spec (N.of_nat (length (a_data l) + length input)) (2 ^ 64)); [|lia].
    apply b_sstates; [exact B'|]. apply Forall_upd; [apply B'|].
    split; [exact Hl|]. unfold add_data. cbn [a_data]. rewrite app_length. lia.
  - apply b_sstates; [exact B'|]. apply Forall_upd; [apply B'|exact Hl].
  - apply b_sstates; [exact B'|]. apply Forall_upd; [apply B'|exact Hl].
  - apply b_hashes, B'.
  - specialize (Hs input ltac:(left; reflexivity)). rewrite small_ok by lia. apply b_hashes, B'.
Qed.

Lemma astep_bounded K n a checks o : bounded K n a -> n + input_bytes o + 64 < 2 ^ 64 ->
  sets_sp_key o = false -> (sets_key o = true -> K = true) -> agree a checks o K (n + input_bytes o).
Proof.
  intros B Hn Hs Hk. pose proof (agree_params K n a checks o B Hk Hn) as H1.
  pose proof (agree_states K n a checks o B Hn) as H2. pose proof (agree_rest K n a checks o B Hn Hs) as H3.
  destruct o; first [exact H1|exact (proj1 H2)|exact H3].
Qed.

(** *** Platforms and build profiles *)
Lemma arun_bounded K checks ops : forall n a, bounded K n a -> n + total_bytes ops + 64 < 2 ^ 64 ->
  existsb sets_sp_key ops = false -> (existsb sets_key ops = true -> K = true) ->
  (existsb calls_exact ops = true -> K = false) ->
  arun checks a ops = arun true a ops /\ snd (arun true a ops) <> None.
Proof.
  induction ops as [|o ops IH]; intros n a B Hn Hs Hk He; [split; [reflexivity|discriminate]|].
  cbn [existsb total_bytes fold_right] in *. apply orb_false_iff in Hs as (Hs1 & Hs2).
  fold (total_bytes ops) in Hn.
  destruct (astep_bounded K n a checks o B) as (E & Hb).
  { lia. } { exact Hs1. } { intros H. apply Hk. rewrite H. reflexivity. }
  cbn [arun]. rewrite E. destruct (astep true a o) as [a' x| |].
  - destruct (IH (n + input_bytes o) a' Hb) as (E' & Hd).
    { lia. } { exact Hs2. } { intros H. apply Hk. rewrite H. apply orb_true_r. }
    { intros H. apply He. rewrite H. apply orb_true_r. }
    rewrite E'. destruct (arun true a' ops) as [xs e]. split; [reflexivity|exact Hd].
  - split; [reflexivity|discriminate].
  - destruct Hb as (H1 & H2). rewrite H1 in He. specialize (He eq_refl). congruence.
Qed.
Theorem run_profiles c1 c2 ops : cfg_ok c1 -> cfg_ok c2 ->
  total_bytes ops + 64 < 2 ^ 64 -> existsb sets_sp_key ops = false ->
  existsb sets_key ops && existsb calls_exact ops = false ->
  map mask (fst (run c1 empty_session ops)) = map mask (fst (run c2 empty_session ops)) /\
  snd (run c1 empty_session ops) = snd (run c2 empty_session ops).
Proof.
  intros Hc1 Hc2 Hn Hs He.
  assert (H : forall checks, arun checks empty_asession ops = arun true empty_asession ops /\
              snd (arun true empty_asession ops) <> None).
  { intros checks. apply (arun_bounded (existsb sets_key ops) checks ops 0).
    - apply bounded_empty.
    - lia.
    - exact Hs.
    - exact (fun H => H).
    - intros H. destruct (existsb sets_key ops); [|reflexivity]. rewrite H in He. discriminate. }
  pose proof (run_ok c1 Hc1 ops _ _ (Sim_empty c1)) as R1. pose proof (run_ok c2 Hc2 ops _ _ (Sim_empty c2)) as R2.
  rewrite (proj1 (H (overflow_checks c1))) in R1. rewrite (proj1 (H (overflow_checks c2))) in R2.
  pose proof (proj2 (H true)) as Hd. destruct (snd (arun true empty_asession ops)); [|contradiction].
  destruct R1 as (-> & ->), R2 as (-> & ->). split; reflexivity.
Qed.

(** *** Only the documented checks panic *)
Lemma sim_visible l : Forall hash_wf l -> Forall2 sim_hash l (map visible l).
Proof. induction 1 as [|h l H _ IH]; constructor; [split; [exact H|reflexivity]|exact IH]. Qed.
Lemma exact_step c s a o : cfg_ok c -> Sim c s a -> calls_exact o = true -> rejects s o = false ->
  input_bytes o + 64 < 2 ^ 64 ->
  exists s' x l, step c s o = Ok (s', x) /\ Sim c s' (awith_hashes a l).
Proof.
  intros Hc S Ho Hr Hn. pose proof (slices_le o) as Hs.
  assert (Same : Sim c s (awith_hashes a (a_hashes a))) by (destruct a; exact S).
  destruct o; try discriminate Ho; cbn [rejects step slices] in *; cbv zeta; unfold at_obj in *;
    pose proof (Forall2_nth _ _ _ i (sim_p _ _ _ S)) as Hp;
    (destruct (nth_error (s_params s) i) as [p|]; [|do 3 eexists; split; [reflexivity|exact Same]]);
    (destruct (nth_error (a_params a) i) as [l|]; [|contradiction]);
    apply negb_false_iff in Hr;
    (apply exact_spec in Hr; [|destruct inputs; discriminate]);
    set (sp := spec_params l) in *; set (ln := spec_last_node l) in *;
    pose proof (e_key_ok _ _ _ Hp) as Hkey.
  - rewrite (hash8_exact_value c p sp ln inputs Hc Hp); [| |exact Hr].
    2: { intros k _. rewrite stream_length, key_block_length by (fold sp in Hkey; lia).
         assert (Hi : N.of_nat (length (proj k inputs)) <= input_bytes (Hash8Exact i inputs)).
         { apply Hs. destruct inputs, k; cbn [oct_list proj o0 o1 o2 o3 o4 o5 o6 o7 In]; tauto. }
         destruct (Spec.key sp); lia. }
    cbn [bind]. set (hs := oct_of _).
    assert (W : Forall2 sim_hash (oct_list hs) (map visible (oct_list hs))).
    { assert (Hw : forall k, hash_wf (proj k hs)).
      { intros k. unfold hs. rewrite proj_of. destruct (simd c).
        - apply (bare_hrel c c eq_refl eq_refl p sp ln _ Hp).
        - apply (value_hrel c c eq_refl eq_refl p sp ln _ Hp). }
      apply sim_visible, Forall_forall. intros h Hh. clearbody hs. destruct hs. cbn [oct_list In] in Hh.
      repeat destruct Hh as [<-|Hh]; [apply (Hw L0)|apply (Hw L1)|apply (Hw L2)|apply (Hw L3)|apply (Hw L4)|
        apply (Hw L5)|apply (Hw L6)|apply (Hw L7)|contradiction]. }
    pose proof (give_hashes_sim c s a _ _ S W) as G. cbn [step_sim ahashes] in G.
    destruct G as (s' & -> & G). do 3 eexists. split; [reflexivity|exact G].
  - rewrite (hash4_exact_value c p sp ln inputs Hc Hp); [| |exact Hr].
    2: { intros k _. rewrite stream_length, key_block_length by (fold sp in Hkey; lia).
         assert (Hi : N.of_nat (length (qproj k inputs)) <= input_bytes (Hash4Exact i inputs)).
         { apply Hs. destruct inputs, k; cbn [quad_list qproj q0 q1 q2 q3 In]; tauto. }
         destruct (Spec.key sp); lia. }
    cbn [bind]. set (hs := quad_of _).
    assert (W : Forall2 sim_hash (quad_list hs) (map visible (quad_list hs))).
    { assert (Hw : forall k, hash_wf (qproj k hs)).
      { intros k. unfold hs. rewrite qproj_of. destruct (simd c).
        - apply (bare_hrel c c eq_refl eq_refl p sp ln _ Hp).
        - apply (value_hrel c c eq_refl eq_refl p sp ln _ Hp). }
      apply sim_visible, Forall_forall. intros h Hh. clearbody hs. destruct hs. cbn [quad_list In] in Hh.
      repeat destruct Hh as [<-|Hh]; [apply (Hw M0)|apply (Hw M1)|apply (Hw M2)|apply (Hw M3)|contradiction]. }
    pose proof (give_hashes_sim c s a _ _ S W) as G. cbn [step_sim ahashes] in G.
    destruct G as (s' & -> & G). do 3 eexists. split; [reflexivity|exact G].
Qed.

Lemma fail_rejects c s a o K n : Sim c s a -> bounded K n a -> n + input_bytes o + 64 < 2 ^ 64 ->
  astep true a o = Fail -> rejects s o = true.
Proof.
  intros S B Hn F. pose proof (agree_states K n a true o B Hn) as Hst.
  destruct o; try (exfalso; exact (proj2 Hst F)); clear Hst; cbn [astep rejects] in *; cbv zeta in F;
    unfold at_obj, ahash, ahashes in *;
    try discriminate F;
    lazymatch type of F with
    | context [nth_error (a_hashes a) ?k] =>
        destruct (nth_error (a_hashes a) k); try destruct (nth_error (a_hashes a) _); discriminate F
    | context [nth_error (a_params a) ?k] =>
        pose proof (Forall2_nth _ _ _ k (sim_p _ _ _ S)) as Hp;
        destruct (nth_error (a_params a) k) as [l|], (nth_error (s_params s) k) as [p|];
          try contradiction; try discriminate F
    | context [nth_error (a_sparams a) ?k] =>
        pose proof (Forall2_nth _ _ _ k (sim_sp _ _ _ S)) as Hp;
        destruct (nth_error (a_sparams a) k) as [l|], (nth_error (s_sparams s) k) as [p|];
          try contradiction; try discriminate F
    | context [nth_error (a_sstates a) ?k] =>
        destruct (nth_error (a_sstates a) k) as [l|]; try destruct (sp_scope l _); discriminate F
    | _ => idtac
    end.
  - destruct (valid_setter s0); [discriminate F|reflexivity].
  - pose proof (pick8_sim _ _ _ i (sim_p _ _ _ S)) as Hp.
    destruct (pick8 (a_params a) i) as [l|], (pick8 (s_params s) i) as [p|]; try contradiction; try discriminate F.
    destruct (forallb _ (oct_list l)) eqn:Ef.
    { destruct (forallb (small []) (oct_list inputs)); discriminate F. }
    apply not_false_iff_true. intros He. apply not_true_iff_false in Ef. apply Ef. clear Ef.
    pose proof (existsb_lanes _ _ He) as Hl. clear He F.
    assert (Hz : forall k, Nat.eqb (length (Spec.key (spec_params (proj k l)))) 0 = true).
    { intros k. specialize (Hl k). cbv beta in Hl. apply negb_false_iff in Hl.
      rewrite (e_kl _ _ _ (Hp k)) in Hl. lia. }
    apply forallb_forall. intros x Hx. destruct l. cbn [oct_list In] in Hx.
    repeat destruct Hx as [<-|Hx]; [apply (Hz L0)|apply (Hz L1)|apply (Hz L2)|apply (Hz L3)|apply (Hz L4)|
        apply (Hz L5)|apply (Hz L6)|apply (Hz L7)|contradiction].
  - destruct (exact _); [|reflexivity]. destruct (Spec.key _); try destruct (forallb _ _); discriminate F.
  - destruct (exact _); [|reflexivity]. destruct (Spec.key _); try destruct (forallb _ _); discriminate F.
  - destruct (sp_setter_ok s0); [discriminate F|reflexivity].
  - destruct (small [] input); discriminate F.
Qed.

Lemma step_bounded c s a o n : cfg_ok c -> Sim c s a -> bounded true n a ->
  n + input_bytes o + 64 < 2 ^ 64 -> sets_sp_key o = false ->
  (step c s o = Panic /\ rejects s o = true) \/
  (rejects s o = false /\ exists s' x a', step c s o = Ok (s', x) /\ Sim c s' a' /\ bounded true (n + input_bytes o) a').
Proof.
  intros Hc S B Hn Hs. destruct (rejects s o) eqn:R; [left; split; [apply rejects_panic, R|reflexivity]|right].
  split; [reflexivity|].
  destruct (astep_bounded true n a (overflow_checks c) o B Hn Hs (fun _ => eq_refl)) as (E & Hb).
  pose proof (step_ok c s a o Hc S) as St. rewrite E in St.
  destruct (astep true a o) as [a' x| |] eqn:Ea; cbn [masked_sim] in St.
  - destruct St as (s' & y & Es & _ & S'). eauto 10.
  - pose proof (fail_rejects c s a o true n S B Hn Ea). congruence.
  - destruct Hb as (Hx & _). destruct (exact_step c s a o Hc S Hx R) as (s' & x & l & Es & S'); [lia|].
    exists s', x, (awith_hashes a l). split; [exact Es|]. split; [exact S'|].
    apply b_hashes. eapply bounded_le; [|exact B]. lia.
Qed.

Lemma total_app ops ops' : total_bytes (ops ++ ops') = total_bytes ops + total_bytes ops'.
Proof.
  induction ops as [|o ops IH]; [reflexivity|]. cbn [app total_bytes fold_right].
  fold (total_bytes (ops ++ ops')) (total_bytes ops). rewrite IH. lia.
Qed.
Lemma after_bounded c ops : cfg_ok c -> forall s a s' n, Sim c s a -> bounded true n a ->
  n + total_bytes ops + 64 < 2 ^ 64 -> existsb sets_sp_key ops = false -> after c s ops = Some s' ->
  exists a', Sim c s' a' /\ bounded true (n + total_bytes ops) a'.
Proof.
  intros Hc. induction ops as [|o ops IH]; intros s a s' n S B Hn Hs Ha; cbn [after] in Ha.
  - injection Ha as <-. exists a. split; [exact S|]. eapply bounded_le; [|exact B]. lia.
  - cbn [existsb total_bytes fold_right] in *. fold (total_bytes ops) in *.
    apply orb_false_iff in Hs as (Hs1 & Hs2).
    destruct (step_bounded c s a o n Hc S B) as [(E & _)|(_ & s1 & x & a1 & E & S1 & B1)];
      [lia|exact Hs1|rewrite E in Ha; discriminate|].
    rewrite E in Ha. rewrite N.add_assoc. apply (IH s1 a1 s'); [exact S1|exact B1|lia|exact Hs2|exact Ha].
Qed.
Theorem bounded_panics c ops s o : cfg_ok c -> existsb sets_sp_key (ops ++ [o]) = false ->
  total_bytes (ops ++ [o]) + 64 < 2 ^ 64 -> after c empty_session ops = Some s ->
  (step c s o = Panic <-> rejects s o = true) /\
  (rejects s o = false -> exists s' x, step c s o = Ok (s', x)).
Proof.
  intros Hc Hs Hn Ha. rewrite existsb_app in Hs. apply orb_false_iff in Hs as (Hs1 & Hs2).
  cbn [existsb] in Hs2. rewrite orb_false_r in Hs2. rewrite total_app in Hn.
  assert (Et : total_bytes [o] = input_bytes o) by (cbn [total_bytes fold_right]; lia). rewrite Et in Hn.
  destruct (after_bounded c ops Hc empty_session empty_asession s 0) as (a & S & B);
    [apply Sim_empty|apply bounded_empty|lia|exact Hs1|exact Ha|].
  destruct (step_bounded c s a o _ Hc S B) as [(E & R)|(R & s1 & x & a1 & E & _)]; [lia|exact Hs2| |].
  - rewrite E, R. split; [tauto|discriminate].
  - rewrite E, R. split; [split; discriminate|eauto].
Qed.
