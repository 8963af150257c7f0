(** * MachineFacts: every program sees what [MachineSpec] says. *)
From Verif Require Import Base BaseFacts Consts Params State Many Blake2sp Debug StateFacts ParamsSpec
  ParamsFacts Refine HashFacts Avx2Facts Sse41Facts ManyFacts Hash8Facts ExactFacts SpFacts Machine MachineSpec.
From Verif Require Spec.
From Coq Require Import ZArith Lia ZifyBool ZifyNat ZifyN.
Local Open Scope N_scope.

(** ** Lists of objects *)
Section Lists.
Context {A B : Type} (R : A -> B -> Prop).

Lemma Forall2_nth l l' i : Forall2 R l l' ->
  match nth_error l i, nth_error l' i with
  | Some x, Some y => R x y
  | None, None => True
  | _, _ => False
  end.
Proof.
  intros H. revert i. induction H as [|x y l l' Hxy H IH]; intros [|i]; cbn [nth_error]; auto.
  apply IH.
Qed.
Lemma Forall2_upd l l' i x y : Forall2 R l l' -> R x y -> Forall2 R (upd l i x) (upd l' i y).
Proof.
  intros H Hxy. revert i. induction H as [|x' y' l l' Hxy' H IH]; intros [|i]; cbn [upd];
    constructor; auto.
Qed.
Lemma Forall2_snoc l l' x y : Forall2 R l l' -> R x y -> Forall2 R (l ++ [x]) (l' ++ [y]).
Proof. intros H Hxy. apply Forall2_app; [exact H|]. constructor; [exact Hxy|constructor]. Qed.
Lemma at_obj_sim {C D} l l' i (no : C) (no' : D) f f' (P : C -> D -> Prop) : Forall2 R l l' ->
  P no no' -> (forall x y, nth_error l i = Some x -> nth_error l' i = Some y -> R x y -> P (f x) (f' y)) ->
  P (at_obj l i no f) (at_obj l' i no' f').
Proof.
  intros H Hno Hf. unfold at_obj. pose proof (Forall2_nth l l' i H) as Hn.
  destruct (nth_error l i) eqn:E, (nth_error l' i) eqn:E'; try contradiction; auto.
Qed.
Lemma pick8_sim l l' i : Forall2 R l l' ->
  match pick8 l i, pick8 l' i with
  | Some x, Some y => (forall k, R (proj k x) (proj k y))
  | None, None => True
  | _, _ => False
  end.
Proof.
  intros H. unfold pick8.
  pose proof (Forall2_nth l l' (o0 i) H) as H0. pose proof (Forall2_nth l l' (o1 i) H) as H1.
  pose proof (Forall2_nth l l' (o2 i) H) as H2. pose proof (Forall2_nth l l' (o3 i) H) as H3.
  pose proof (Forall2_nth l l' (o4 i) H) as H4. pose proof (Forall2_nth l l' (o5 i) H) as H5.
  pose proof (Forall2_nth l l' (o6 i) H) as H6. pose proof (Forall2_nth l l' (o7 i) H) as H7.
  destruct (nth_error l (o0 i)), (nth_error l' (o0 i)); try contradiction; auto.
  destruct (nth_error l (o1 i)), (nth_error l' (o1 i)); try contradiction; auto.
  destruct (nth_error l (o2 i)), (nth_error l' (o2 i)); try contradiction; auto.
  destruct (nth_error l (o3 i)), (nth_error l' (o3 i)); try contradiction; auto.
  destruct (nth_error l (o4 i)), (nth_error l' (o4 i)); try contradiction; auto.
  destruct (nth_error l (o5 i)), (nth_error l' (o5 i)); try contradiction; auto.
  destruct (nth_error l (o6 i)), (nth_error l' (o6 i)); try contradiction; auto.
  destruct (nth_error l (o7 i)), (nth_error l' (o7 i)); try contradiction; auto.
  intros []; cbn [proj]; assumption.
Qed.
Lemma put8_sim l l' i x y : Forall2 R l l' -> (forall k, R (proj k x) (proj k y)) ->
  Forall2 R (put8 l i x) (put8 l' i y).
Proof.
  intros H Hx. unfold put8.
  repeat apply Forall2_upd; [exact H| | | | | | | |].
  - apply (Hx L0). - apply (Hx L1). - apply (Hx L2). - apply (Hx L3).
  - apply (Hx L4). - apply (Hx L5). - apply (Hx L6). - apply (Hx L7).
Qed.
End Lists.

Lemma upd_same {A} (l : list A) i x : nth_error l i = Some x -> upd l i x = l.
Proof.
  revert i. induction l as [|y l IH]; intros [|i]; cbn [nth_error upd]; try discriminate.
  - intros [= ->]. reflexivity.
  - intros H. rewrite IH by exact H. reflexivity.
Qed.
Lemma put8_same {A} (l : list A) i x : pick8 l i = Some x -> put8 l i x = l.
Proof.
  unfold pick8.
  destruct (nth_error l (o0 i)) eqn:E0; [|discriminate]. destruct (nth_error l (o1 i)) eqn:E1; [|discriminate].
  destruct (nth_error l (o2 i)) eqn:E2; [|discriminate]. destruct (nth_error l (o3 i)) eqn:E3; [|discriminate].
  destruct (nth_error l (o4 i)) eqn:E4; [|discriminate]. destruct (nth_error l (o5 i)) eqn:E5; [|discriminate].
  destruct (nth_error l (o6 i)) eqn:E6; [|discriminate]. destruct (nth_error l (o7 i)) eqn:E7; [|discriminate].
  intros [= <-]. unfold put8. cbn [o0 o1 o2 o3 o4 o5 o6 o7].
  rewrite (upd_same _ _ _ E0), (upd_same _ _ _ E1), (upd_same _ _ _ E2), (upd_same _ _ _ E3),
    (upd_same _ _ _ E4), (upd_same _ _ _ E5), (upd_same _ _ _ E6), (upd_same _ _ _ E7). reflexivity.
Qed.

(** ** The simulation relation *)
Definition sim_params (p : Params) (l : list setter) : Prop :=
  encodes p (spec_params l) (spec_last_node l).
Definition sim_state (c : cfg) (st : State) (a : astate) : Prop :=
  Models c (a_sp a) (a_last a) (a_msg a) st.
Definition sim_hash (h : Hash) (b : list byte) : Prop := hash_wf h /\ visible h = b.
Definition sim_sparams (p : SpParams) (l : list sp_setter) : Prop :=
  sp_encodes p (sp_dlen l) (sp_keyval l).
Definition sim_sstate (c : cfg) (st : SpState) (a : asstate) : Prop :=
  SpModels c (a_dlen a) (a_key a) (a_data a) st /\
  8 * N.of_nat (length (Spec.key_block (a_key a))) + N.of_nat (length (a_data a)) < 2 ^ 64.

Record Sim (c : cfg) (s : session) (a : asession) : Prop := {
  sim_p : Forall2 sim_params (s_params s) (a_params a);
  sim_s : Forall2 (sim_state c) (s_states s) (a_states a);
  sim_h : Forall2 sim_hash (s_hashes s) (a_hashes a);
  sim_sp : Forall2 sim_sparams (s_sparams s) (a_sparams a);
  sim_ss : Forall2 (sim_sstate c) (s_sstates s) (a_sstates a)
}.

(** One step: same observation and related sessions, or both panic, or unspecified. *)
Definition step_sim (c : cfg) (r : outcome (session * obs)) (ar : result) : Prop :=
  match ar with
  | Next a x => exists s, r = Ok (s, x) /\ Sim c s a
  | Fail => r = Panic
  | Out => True
  end.
(** The same, up to masked text. *)
Definition masked_sim (c : cfg) (r : outcome (session * obs)) (ar : result) : Prop :=
  match ar with
  | Next a x => exists s y, r = Ok (s, y) /\ mask y = mask x /\ Sim c s a
  | Fail => r = Panic
  | Out => True
  end.
Lemma sim_masked c r ar : step_sim c r ar -> masked_sim c r ar.
Proof. destruct ar; cbn [step_sim masked_sim]; auto. intros (s' & -> & S). eauto. Qed.

Lemma Sim_params c s a l l' : Sim c s a -> Forall2 sim_params l l' ->
  Sim c (with_params_list s l) (awith_params a l').
Proof. intros [] H; constructor; assumption. Qed.
Lemma Sim_states c s a l l' : Sim c s a -> Forall2 (sim_state c) l l' ->
  Sim c (with_states s l) (awith_states a l').
Proof. intros [] H; constructor; assumption. Qed.
Lemma Sim_hashes c s a l l' : Sim c s a -> Forall2 sim_hash l l' ->
  Sim c (with_hashes s l) (awith_hashes a l').
Proof. intros [] H; constructor; assumption. Qed.
Lemma Sim_sparams c s a l l' : Sim c s a -> Forall2 sim_sparams l l' ->
  Sim c (with_sparams s l) (awith_sparams a l').
Proof. intros [] H; constructor; assumption. Qed.
Lemma Sim_sstates c s a l l' : Sim c s a -> Forall2 (sim_sstate c) l l' ->
  Sim c (with_sstates s l) (awith_sstates a l').
Proof. intros [] H; constructor; assumption. Qed.

(** ** Parameters *)
Lemma fold_spec_snoc l s : spec_params (l ++ [s]) = spec_set (spec_params l) s /\
  spec_last_node (l ++ [s]) = spec_set_last (spec_last_node l) s.
Proof.
  pose proof (fun l => fold_spec_set l Spec.default_params) as F1.
  pose proof (fun l => fold_spec_last l false) as F2.
  unfold spec_params, spec_last_node. rewrite <- !F1, <- !F2, !fold_left_app. split; reflexivity.
Qed.
Lemma sp_snoc l s :
  sp_dlen (l ++ [s]) = match s with SpHashLength m => m | _ => sp_dlen l end /\
  sp_keyval (l ++ [s]) = match s with SpKey k => k | _ => sp_keyval l end.
Proof. unfold sp_dlen, sp_keyval. rewrite !fold_left_app. split; reflexivity. Qed.

(** ** Hashes *)
Lemma sim_hash_of h b n : length (h_bytes h) = 32%nat -> val (h_len h) = n -> 1 <= n <= 32 ->
  as_bytes h = Ok b -> sim_hash h b.
Proof.
  intros H1 H2 H3 H4. assert (W : hash_wf h) by (split; [exact H1|lia]).
  split; [exact W|]. rewrite as_bytes_ok in H4 by exact W. congruence.
Qed.
Lemma sim_as_bytes h b : sim_hash h b -> as_bytes h = Ok b.
Proof. intros (W & <-). apply as_bytes_ok, W. Qed.
Lemma give_hash_sim c s a h b : Sim c s a -> sim_hash h b ->
  step_sim c (give_hash s h) (ahash a b).
Proof.
  intros S H. unfold give_hash, ahash. rewrite (sim_as_bytes h b H). cbn [bind step_sim].
  eexists; split; [reflexivity|]. apply Sim_hashes; [exact S|].
  apply Forall2_snoc; [apply S|exact H].
Qed.
Lemma all_bytes_ok l l' : Forall2 sim_hash l l' -> all_bytes l = Ok l'.
Proof.
  induction 1 as [|h b l l' H _ IH]; cbn [all_bytes]; [reflexivity|].
  rewrite (sim_as_bytes h b H), IH. reflexivity.
Qed.
Lemma give_hashes_sim c s a l l' : Sim c s a -> Forall2 sim_hash l l' ->
  step_sim c (give_hashes s l) (ahashes a l').
Proof.
  intros S H. unfold give_hashes, ahashes. rewrite (all_bytes_ok l l' H). cbn [bind step_sim].
  eexists; split; [reflexivity|]. apply Sim_hashes; [exact S|].
  apply Forall2_app; [apply S|exact H].
Qed.
Lemma sim_hash_value p l x : sim_params p l -> sim_hash (hash_value p (spec_params l) (spec_last_node l) x) (one_shot l x).
Proof.
  intros E. assert (Hl : length (h_bytes (hash_value p (spec_params l) (spec_last_node l) x)) = 32%nat).
  { apply words_bytes_32, SpecFacts.hash_words_length. }
  pose proof (e_hash _ _ _ E) as Hh. pose proof (encodes_valid _ _ _ E) as (Hv & _).
  assert (W : hash_wf (hash_value p (spec_params l) (spec_last_node l) x)).
  { split; [exact Hl|]. unfold hash_value. cbn [h_len]. lia. }
  split; [exact W|]. unfold visible, hash_value, one_shot, Spec.blake2s. cbn [h_len h_bytes].
  rewrite Hh. reflexivity.
Qed.
Lemma sim_eq h b (x : list byte) r : sim_hash h b -> (r = true <-> visible h = x) ->
  r = if list_eq_dec Byte.byte_eq_dec b x then true else false.
Proof.
  intros (_ & <-) Hr. destruct (list_eq_dec Byte.byte_eq_dec (visible h) x) as [E|E].
  - apply Hr, E.
  - destruct r; [|reflexivity]. contradiction E. apply Hr. reflexivity.
Qed.

(** ** Room *)
Lemma total_stream sp msg : total (Spec.key sp) msg = N.of_nat (length (stream sp msg)).
Proof. unfold total. rewrite stream_length. lia. Qed.
Lemma room_fits c a : room (overflow_checks c) a = true <->
  fits c (N.of_nat (length (stream (a_sp a) (a_msg a)))).
Proof.
  unfold room, fits. rewrite total_stream, orb_true_iff, negb_true_iff, N.ltb_lt.
  destruct (overflow_checks c); split; intros H.
  - intros _. destruct H as [H|H]; [discriminate H|exact H].
  - right. apply H. reflexivity.
  - discriminate.
  - left. reflexivity.
Qed.
Lemma room_nfits c a : room (overflow_checks c) a = false ->
  ~ fits c (N.of_nat (length (stream (a_sp a) (a_msg a)))).
Proof. intros H F. apply room_fits in F. congruence. Qed.

(** ** One step *)
Lemma apply_setter_sim p l s : sim_params p l -> valid_setter s = true ->
  exists p', apply_setter p s = Ok p' /\ sim_params p' (l ++ [s]).
Proof.
  intros E V. destruct (apply_setter_ok p _ _ s E V) as (p' & Ep & E').
  exists p'. split; [exact Ep|]. unfold sim_params.
  destruct (fold_spec_snoc l s) as [-> ->]. exact E'.
Qed.
Lemma sp_apply_setter_sim p l s : sim_sparams p l -> sp_setter_ok s = true ->
  exists p', sp_apply_setter p s = Ok p' /\ sim_sparams p' (l ++ [s]).
Proof.
  intros E V. destruct (sp_apply_setter_ok p _ _ s E V) as (p' & Ep & E').
  exists p'. split; [exact Ep|]. unfold sim_sparams.
  destruct (sp_snoc l s) as [-> ->]. destruct s; exact E'.
Qed.
Lemma new_state_sim c p l : cfg_ok c -> sim_params p l ->
  exists st, to_state c p = Ok st /\ sim_state c st (new_state l).
Proof. intros Hc E. apply (models_new c p _ _ Hc E). Qed.
Lemma update_sim c st a x : sim_state c st a -> room (overflow_checks c) (add_msg a x) = true ->
  exists st', update c st x = Ok st' /\ sim_state c st' (add_msg a x).
Proof. intros M Hr. apply room_fits in Hr. apply (models_update c _ _ _ st x M Hr). Qed.
Lemma update_sim_panic c st a x : sim_state c st a -> room (overflow_checks c) (add_msg a x) = false ->
  update c st x = Panic.
Proof. intros M Hr. apply room_nfits in Hr. apply (models_update_panic c _ _ _ st x M Hr). Qed.
Lemma finalize_sim c st a : sim_state c st a ->
  exists st' h, finalize c st = Ok (st', h) /\ sim_state c st' a /\ sim_hash h (digest a).
Proof.
  intros M. destruct (models_finalize c _ _ _ st M) as (st' & h & E & M' & H1 & H2 & H3).
  exists st', h. split; [exact E|]. split; [exact M'|].
  eapply sim_hash_of; try eassumption. destruct (mo_valid _ _ _ _ _ M) as (Hd & _). exact Hd.
Qed.

Lemma sp_scope_update c st a x : sim_sstate c st a -> sp_scope a x = true ->
  exists st', sp_update c st x = Ok st' /\ sim_sstate c st' (add_data a x).
Proof.
  intros (M & Hn) Hs. unfold sim_sstate, add_data. cbn [a_dlen a_key a_data].
  destruct a as [d key D]. cbn [a_dlen a_key a_data sp_scope] in *. unfold sp_scope in Hs. cbn [a_key a_data] in Hs.
  destruct key as [|k0 key].
  - apply N.ltb_lt in Hs. destruct (sp_models_update c d D st x M) as (st' & E & M').
    { intros _. exact Hs. }
    exists st'. split; [exact E|]. split; [exact M'|]. cbn [Spec.key_block length]. lia.
  - apply andb_prop in Hs as [H1 H2].
    destruct (sp_models_update_keyed c d (k0 :: key) D st x M) as (st' & E & M').
    { discriminate. }
    { split; [lia|]. destruct D; [right|left; discriminate]. cbn [length Nat.eqb negb orb] in H2. lia. }
    exists st'. split; [exact E|]. split; [exact M'|].
    destruct M as (P & B & R & _). pose proof (sr_keylen _ _ _ _ _ _ _ R).
    rewrite key_block_length by lia. lia.
Qed.
Lemma sp_finalize_sim c st a : sim_sstate c st a ->
  exists h, sp_finalize c st = Ok h /\ sim_hash h (Spec.blake2sp (a_dlen a) (a_key a) (a_data a)).
Proof.
  intros (M & Hn). destruct (sp_models_finalize c _ _ _ st M) as (h & E & H1 & H2 & H3 & H4).
  { intros _. lia. }
  exists h. split; [exact E|]. eapply sim_hash_of; eassumption.
Qed.
Lemma sp_count_sim c st a : sim_sstate c st a ->
  exists n, sp_count c st = Ok n /\
    val n = 8 * N.of_nat (length (Spec.key_block (a_key a))) + N.of_nat (length (a_data a)).
Proof.
  intros (M & Hn). destruct (sp_models_count c _ _ _ st M) as (n & E & Hv).
  { intros _. lia. }
  exists n. split; [exact E|]. rewrite Hv. rewrite N.mod_small by lia. lia.
Qed.

(* Compare calls of [sp_with_params] by their arguments, not by running them. *)
Strategy 100 [sp_with_params].
Lemma sp_new_sim c : cfg_ok c ->
  exists st, SpState_new c = Ok st /\ sim_sstate c st (mk_asstate 32 [] []).
Proof.
  intros Hc. destruct (sp_models_new c SpParams_default 32 [] Hc sp_encodes_default) as (st & E & M).
  exists st. split; [exact E|]. split; [exact M|]. reflexivity.
Qed.

Lemma exact_spec lens : lens <> [] -> (exact lens = true <-> exact_lengths lens).
Proof.
  destruct lens as [|n l]; [congruence|]. intros _. cbn [exact]. unfold exact_lengths.
  rewrite !andb_true_iff, forallb_forall, negb_true_iff, Nat.eqb_neq, Nat.eqb_eq. split.
  - intros [[H1 H2] H3]. exists (n / 64)%nat. split; [|intros x [<-|Hx]].
    + apply Nat.div_str_pos. split; [lia|]. apply Nat.mod_divides in H3; [|lia]. destruct H3 as (k & ->). nia.
    + pose proof (Nat.div_mod n 64 ltac:(lia)). lia.
    + apply H1, Nat.eqb_eq in Hx. subst x. pose proof (Nat.div_mod n 64 ltac:(lia)). lia.
  - intros (k & Hk & H). pose proof (H n (or_introl eq_refl)) as ->. split; [split|].
    + intros x Hx. apply Nat.eqb_eq. symmetry. apply H. right. exact Hx.
    + lia.
    + rewrite Nat.mul_comm. apply Nat.mod_mul. lia.
Qed.
Lemma forallb_oct {A} (f : A -> bool) (x : oct A) :
  forallb f (oct_list x) = true <-> forall k, f (proj k x) = true.
Proof.
  destruct x. cbn [oct_list forallb]. rewrite !andb_true_iff. split.
  - intros H []; cbn [proj o0 o1 o2 o3 o4 o5 o6 o7]; tauto.
  - intros H. pose proof (H L0). pose proof (H L1). pose proof (H L2). pose proof (H L3).
    pose proof (H L4). pose proof (H L5). pose proof (H L6). pose proof (H L7).
    cbn [proj o0 o1 o2 o3 o4 o5 o6 o7] in *. tauto.
Qed.
Lemma forallb_oct_false {A} (f : A -> bool) (x : oct A) :
  forallb f (oct_list x) = false -> exists k, f (proj k x) = false.
Proof.
  destruct x as [x0 x1 x2 x3 x4 x5 x6 x7]. cbn [oct_list forallb]. intros H.
  destruct (f x0) eqn:E0; [|exists L0; exact E0]. destruct (f x1) eqn:E1; [|exists L1; exact E1].
  destruct (f x2) eqn:E2; [|exists L2; exact E2]. destruct (f x3) eqn:E3; [|exists L3; exact E3].
  destruct (f x4) eqn:E4; [|exists L4; exact E4]. destruct (f x5) eqn:E5; [|exists L5; exact E5].
  destruct (f x6) eqn:E6; [|exists L6; exact E6]. destruct (f x7) eqn:E7; [|exists L7; exact E7].
  discriminate H.
Qed.
Lemma forallb_quad {A} (f : A -> bool) (x : quad A) :
  forallb f (quad_list x) = true <-> forall k, f (qproj k x) = true.
Proof.
  destruct x. cbn [quad_list forallb]. rewrite !andb_true_iff. split.
  - intros H []; cbn [qproj q0 q1 q2 q3]; tauto.
  - intros H. pose proof (H M0). pose proof (H M1). pose proof (H M2). pose proof (H M3).
    cbn [qproj q0 q1 q2 q3] in *. tauto.
Qed.
Lemma Forall2_oct {A B} (R : A -> B -> Prop) (x : oct A) (y : oct B) :
  (forall k, R (proj k x) (proj k y)) -> Forall2 R (oct_list x) (oct_list y).
Proof.
  intros H. destruct x, y. cbn [oct_list].
  repeat constructor; [apply (H L0)|apply (H L1)|apply (H L2)|apply (H L3)|apply (H L4)|apply (H L5)|apply (H L6)|apply (H L7)].
Qed.
Lemma oct_list_map {A B} (f : A -> B) x : map f (oct_list x) = oct_list (oct_map f x).
Proof. destruct x; reflexivity. Qed.
Lemma quad_list_map {A B} (f : A -> B) x : map f (quad_list x) = quad_list (quad_map f x).
Proof. destruct x; reflexivity. Qed.
Lemma Forall2_quad {A B} (R : A -> B -> Prop) (x : quad A) (y : quad B) :
  (forall k, R (qproj k x) (qproj k y)) -> Forall2 R (quad_list x) (quad_list y).
Proof.
  intros H. destruct x, y. cbn [quad_list].
  repeat constructor; [apply (H M0)|apply (H M1)|apply (H M2)|apply (H M3)].
Qed.
Lemma qproj_map' {A B} (f : A -> B) k x : qproj k (quad_map f x) = f (qproj k x).
Proof. destruct k, x; reflexivity. Qed.

Lemma step_ParamsNew c s a : cfg_ok c -> Sim c s a ->
  step_sim c (step c s (ParamsNew)) (astep (overflow_checks c) a (ParamsNew)).
Proof.
  intros Hc S.
  assert (Hinv : step_sim c (Ok (s, OInvalid)) (Next a OInvalid)).
  { exists s. split; [reflexivity|exact S]. }
  cbn [step astep]. cbv zeta.
  eexists; split; [reflexivity|]. apply Sim_params; [exact S|].
  apply Forall2_snoc; [apply S|]. apply encodes_default.
Qed.
Lemma step_ParamsClone c s a (i : nat) : cfg_ok c -> Sim c s a ->
  step_sim c (step c s (ParamsClone i)) (astep (overflow_checks c) a (ParamsClone i)).
Proof.
  intros Hc S.
  assert (Hinv : step_sim c (Ok (s, OInvalid)) (Next a OInvalid)).
  { exists s. split; [reflexivity|exact S]. }
  cbn [step astep]. cbv zeta.
  apply (at_obj_sim _ _ _ _ _ _ _ _ _ (sim_p _ _ _ S) Hinv). intros p l _ _ E.
  eexists; split; [reflexivity|]. apply Sim_params; [exact S|]. apply Forall2_snoc; [apply S|exact E].
Qed.
Lemma step_ParamsSet c s a (i : nat) (x0 : setter) : cfg_ok c -> Sim c s a ->
  step_sim c (step c s (ParamsSet i x0)) (astep (overflow_checks c) a (ParamsSet i x0)).
Proof.
  intros Hc S.
  assert (Hinv : step_sim c (Ok (s, OInvalid)) (Next a OInvalid)).
  { exists s. split; [reflexivity|exact S]. }
  cbn [step astep]. cbv zeta.
  apply (at_obj_sim _ _ _ _ _ _ _ _ _ (sim_p _ _ _ S) Hinv). intros p l _ _ E.
  destruct (valid_setter x0) eqn:V.
  + destruct (apply_setter_sim p l x0 E V) as (p' & Ep & E'). rewrite Ep. cbn [bind].
    eexists; split; [reflexivity|]. apply Sim_params; [exact S|]. apply Forall2_upd; [apply S|exact E'].
  + cbn [step_sim]. rewrite apply_setter_panic by exact V. reflexivity.
Qed.
Lemma step_StateNew c s a : cfg_ok c -> Sim c s a ->
  step_sim c (step c s (StateNew)) (astep (overflow_checks c) a (StateNew)).
Proof.
  intros Hc S.
  assert (Hinv : step_sim c (Ok (s, OInvalid)) (Next a OInvalid)).
  { exists s. split; [reflexivity|exact S]. }
  cbn [step astep]. cbv zeta.
  destruct (new_state_sim c Params_default [] Hc encodes_default) as (st & E & M).
  change (State_new c) with (to_state c Params_default). rewrite E. cbn [bind].
  eexists; split; [reflexivity|]. apply Sim_states; [exact S|]. apply Forall2_snoc; [apply S|exact M].
Qed.
Lemma step_ToState c s a (i : nat) : cfg_ok c -> Sim c s a ->
  step_sim c (step c s (ToState i)) (astep (overflow_checks c) a (ToState i)).
Proof.
  intros Hc S.
  assert (Hinv : step_sim c (Ok (s, OInvalid)) (Next a OInvalid)).
  { exists s. split; [reflexivity|exact S]. }
  cbn [step astep]. cbv zeta.
  apply (at_obj_sim _ _ _ _ _ _ _ _ _ (sim_p _ _ _ S) Hinv). intros p l _ _ E.
  destruct (new_state_sim c p l Hc E) as (st & Es & M). rewrite Es. cbn [bind].
  eexists; split; [reflexivity|]. apply Sim_states; [exact S|]. apply Forall2_snoc; [apply S|exact M].
Qed.
Lemma step_StateClone c s a (i : nat) : cfg_ok c -> Sim c s a ->
  step_sim c (step c s (StateClone i)) (astep (overflow_checks c) a (StateClone i)).
Proof.
  intros Hc S.
  assert (Hinv : step_sim c (Ok (s, OInvalid)) (Next a OInvalid)).
  { exists s. split; [reflexivity|exact S]. }
  cbn [step astep]. cbv zeta.
  apply (at_obj_sim _ _ _ _ _ _ _ _ _ (sim_s _ _ _ S) Hinv). intros st x _ _ M.
  eexists; split; [reflexivity|]. apply Sim_states; [exact S|]. apply Forall2_snoc; [apply S|exact M].
Qed.
Lemma step_Update c s a (i : nat) (input : list byte) : cfg_ok c -> Sim c s a ->
  step_sim c (step c s (Update i input)) (astep (overflow_checks c) a (Update i input)).
Proof.
  intros Hc S.
  assert (Hinv : step_sim c (Ok (s, OInvalid)) (Next a OInvalid)).
  { exists s. split; [reflexivity|exact S]. }
  cbn [step astep]. cbv zeta.
  apply (at_obj_sim _ _ _ _ _ _ _ _ _ (sim_s _ _ _ S) Hinv). intros st x _ _ M.
  destruct (room (overflow_checks c) (add_msg x input)) eqn:Hr.
  + destruct (update_sim c st x input M Hr) as (st' & E & M'). rewrite E. cbn [bind].
    eexists; split; [reflexivity|]. apply Sim_states; [exact S|]. apply Forall2_upd; [apply S|exact M'].
  + cbn [step_sim]. rewrite (update_sim_panic c st x input M Hr). reflexivity.
Qed.
Lemma step_Write c s a (i : nat) (input : list byte) : cfg_ok c -> Sim c s a ->
  step_sim c (step c s (Write i input)) (astep (overflow_checks c) a (Write i input)).
Proof.
  intros Hc S.
  assert (Hinv : step_sim c (Ok (s, OInvalid)) (Next a OInvalid)).
  { exists s. split; [reflexivity|exact S]. }
  cbn [step astep]. cbv zeta.
  apply (at_obj_sim _ _ _ _ _ _ _ _ _ (sim_s _ _ _ S) Hinv). intros st x _ _ M. unfold write.
  destruct (room (overflow_checks c) (add_msg x input)) eqn:Hr.
  + destruct (update_sim c st x input M Hr) as (st' & E & M'). rewrite E. cbn [bind].
    eexists; split; [reflexivity|]. apply Sim_states; [exact S|]. apply Forall2_upd; [apply S|exact M'].
  + cbn [step_sim]. rewrite (update_sim_panic c st x input M Hr). reflexivity.
Qed.
Lemma step_Flush c s a (i : nat) : cfg_ok c -> Sim c s a ->
  step_sim c (step c s (Flush i)) (astep (overflow_checks c) a (Flush i)).
Proof.
  intros Hc S.
  assert (Hinv : step_sim c (Ok (s, OInvalid)) (Next a OInvalid)).
  { exists s. split; [reflexivity|exact S]. }
  cbn [step astep]. cbv zeta.
  apply (at_obj_sim _ _ _ _ _ _ _ _ _ (sim_s _ _ _ S) Hinv). intros st x _ _ M.
  eexists; split; [reflexivity|]. apply Sim_states; [exact S|]. apply Forall2_upd; [apply S|exact M].
Qed.
Lemma step_SetLastNode c s a (i : nat) (b : bool) : cfg_ok c -> Sim c s a ->
  step_sim c (step c s (SetLastNode i b)) (astep (overflow_checks c) a (SetLastNode i b)).
Proof.
  intros Hc S.
  assert (Hinv : step_sim c (Ok (s, OInvalid)) (Next a OInvalid)).
  { exists s. split; [reflexivity|exact S]. }
  cbn [step astep]. cbv zeta.
  apply (at_obj_sim _ _ _ _ _ _ _ _ _ (sim_s _ _ _ S) Hinv). intros st x _ _ M.
  eexists; split; [reflexivity|]. apply Sim_states; [exact S|]. apply Forall2_upd; [apply S|].
  eapply models_set_last_node, M.
Qed.
Lemma step_Count c s a (i : nat) : cfg_ok c -> Sim c s a ->
  step_sim c (step c s (Count i)) (astep (overflow_checks c) a (Count i)).
Proof.
  intros Hc S.
  assert (Hinv : step_sim c (Ok (s, OInvalid)) (Next a OInvalid)).
  { exists s. split; [reflexivity|exact S]. }
  cbn [step astep]. cbv zeta.
  apply (at_obj_sim _ _ _ _ _ _ _ _ _ (sim_s _ _ _ S) Hinv). intros st x _ _ M.
  eexists; split; [|exact S]. unfold counter. rewrite (models_count c _ _ _ st M), total_stream. reflexivity.
Qed.
Lemma step_StateDebug c s a (i : nat) : cfg_ok c -> Sim c s a ->
  step_sim c (step c s (StateDebug i)) (astep (overflow_checks c) a (StateDebug i)).
Proof.
  intros Hc S.
  assert (Hinv : step_sim c (Ok (s, OInvalid)) (Next a OInvalid)).
  { exists s. split; [reflexivity|exact S]. }
  cbn [step astep]. cbv zeta.
  apply (at_obj_sim _ _ _ _ _ _ _ _ _ (sim_s _ _ _ S) Hinv). intros st x _ _ M.
  eexists; split; [|exact S]. unfold counter, state_debug.
  change (val (st_count st)) with (val (count st)).
  rewrite (models_count c _ _ _ st M), total_stream, (mo_hash _ _ _ _ _ M), (mo_last _ _ _ _ _ M).
  reflexivity.
Qed.
Lemma step_ForcePortable c s a (i : nat) : cfg_ok c -> Sim c s a ->
  step_sim c (step c s (ForcePortable i)) (astep (overflow_checks c) a (ForcePortable i)).
Proof.
  intros Hc S.
  assert (Hinv : step_sim c (Ok (s, OInvalid)) (Next a OInvalid)).
  { exists s. split; [reflexivity|exact S]. }
  cbn [step astep]. cbv zeta.
  apply (at_obj_sim _ _ _ _ _ _ _ _ _ (sim_s _ _ _ S) Hinv). intros st x _ _ M.
  eexists; split; [reflexivity|]. apply Sim_states; [exact S|]. apply Forall2_upd; [apply S|].
  apply models_force_portable, M.
Qed.
Lemma step_Finalize c s a (i : nat) : cfg_ok c -> Sim c s a ->
  step_sim c (step c s (Finalize i)) (astep (overflow_checks c) a (Finalize i)).
Proof.
  intros Hc S.
  assert (Hinv : step_sim c (Ok (s, OInvalid)) (Next a OInvalid)).
  { exists s. split; [reflexivity|exact S]. }
  cbn [step astep]. cbv zeta.
  apply (at_obj_sim _ _ _ _ _ _ _ _ _ (sim_s _ _ _ S) Hinv). intros st x _ Hx M.
  destruct (finalize_sim c st x M) as (st' & h & E & M' & Hh). rewrite E. cbn [bind].
  apply give_hash_sim; [|exact Hh].
  destruct S. constructor; try assumption. cbn [s_states with_states].
  rewrite <- (upd_same (a_states a) i x Hx). apply Forall2_upd; assumption.
Qed.
Lemma step_Update8 c s a (i : oct nat) (inputs : oct (list byte)) : cfg_ok c -> Sim c s a ->
  step_sim c (step c s (Update8 i inputs)) (astep (overflow_checks c) a (Update8 i inputs)).
Proof.
  intros Hc S.
  assert (Hinv : step_sim c (Ok (s, OInvalid)) (Next a OInvalid)).
  { exists s. split; [reflexivity|exact S]. }
  cbn [step astep]. cbv zeta.
  pose proof (pick8_sim _ _ _ i (sim_s _ _ _ S)) as Hp.
  destruct (pick8 (s_states s) i) as [sts|], (pick8 (a_states a) i) as [xs|]; try contradiction; auto.
  destruct (distinct (oct_list i)); [|exact Hinv].
  destruct (lane_choice (fun k n => Rep c (Spec.initial (a_sp (proj k xs)))
      (stream (a_sp (proj k xs)) (a_msg (proj k xs))) n (proj k sts) /\
      lazy_k (stream (a_sp (proj k xs)) (a_msg (proj k xs))) n)) as (ns & Hns).
  { intros k. apply (mo_rep _ _ _ _ _ (Hp k)). }
  destruct (forallb (room (overflow_checks c)) (oct_list (oct_map2 add_msg xs inputs))) eqn:Hr.
  + rewrite forallb_oct in Hr.
    destruct (update8_ok c (fun k => Spec.initial (a_sp (proj k xs)))
      (fun k => stream (a_sp (proj k xs)) (a_msg (proj k xs))) (fun k => proj k ns) sts inputs)
      as (sts' & E & H').
    { intros k. apply Hns. }
    { intros k. specialize (Hr k). rewrite proj_map2 in Hr. apply room_fits in Hr.
      cbn [add_msg a_sp a_msg] in Hr. rewrite stream_app, app_length in Hr. exact Hr. }
    rewrite E. cbn [bind]. eexists; split; [reflexivity|]. apply Sim_states; [exact S|].
    apply put8_sim; [apply S|]. intros k. rewrite proj_map2.
    destruct (H' k) as (k' & R' & (M1 & M2 & M3) & Hz). constructor.
    * apply (mo_valid _ _ _ _ _ (Hp k)).
    * cbn [add_msg a_last]. rewrite <- (mo_last _ _ _ _ _ (Hp k)). congruence.
    * cbn [add_msg a_sp]. rewrite <- (mo_hash _ _ _ _ _ (Hp k)). congruence.
    * exists k'. cbn [add_msg a_sp a_msg]. rewrite stream_app. split; [exact R'|].
      apply Hz. left. apply Hns.
  + cbn [step_sim]. apply forallb_oct_false in Hr as (k & Hr).
    rewrite (update8_overflow c (fun k => Spec.initial (a_sp (proj k xs)))
      (fun k => stream (a_sp (proj k xs)) (a_msg (proj k xs))) (fun k => proj k ns) sts inputs).
    * reflexivity.
    * intros k'. apply Hns.
    * exists k. rewrite proj_map2 in Hr. apply room_nfits in Hr.
      cbn [add_msg a_sp a_msg] in Hr. rewrite stream_app, app_length in Hr. exact Hr.
Qed.
Lemma step_Finalize8 c s a (i : oct nat) : cfg_ok c -> Sim c s a ->
  step_sim c (step c s (Finalize8 i)) (astep (overflow_checks c) a (Finalize8 i)).
Proof.
  intros Hc S.
  assert (Hinv : step_sim c (Ok (s, OInvalid)) (Next a OInvalid)).
  { exists s. split; [reflexivity|exact S]. }
  cbn [step astep]. cbv zeta.
  pose proof (pick8_sim _ _ _ i (sim_s _ _ _ S)) as Hp.
  destruct (pick8 (s_states s) i) as [sts|], (pick8 (a_states a) i) as [xs|] eqn:Hx; try contradiction; auto.
  destruct (distinct (oct_list i)); [|exact Hinv].
  destruct (lane_choice (fun k n => Rep c (Spec.initial (a_sp (proj k xs)))
      (stream (a_sp (proj k xs)) (a_msg (proj k xs))) n (proj k sts))) as (ns & Hns).
  { intros k. destruct (mo_rep _ _ _ _ _ (Hp k)) as (n & R & _). exists n. exact R. }
  destruct (finalize8_ok c (fun k => Spec.initial (a_sp (proj k xs)))
      (fun k => stream (a_sp (proj k xs)) (a_msg (proj k xs))) (fun k => proj k ns) sts Hns)
    as (sts' & hs & E & H').
  rewrite E. cbn [bind]. rewrite oct_list_map. apply give_hashes_sim.
  + destruct S. constructor; try assumption. cbn [s_states with_states].
    rewrite <- (put8_same (a_states a) i xs Hx). apply put8_sim; [assumption|].
    intros k. destruct (finalize_sim c _ _ (Hp k)) as (st' & h & Ef & M' & _).
    rewrite H' in Ef. injection Ef as <- <-. exact M'.
  + apply Forall2_oct. intros k. rewrite proj_map.
    destruct (finalize_sim c _ _ (Hp k)) as (st' & h & Ef & _ & Hh).
    rewrite H' in Ef. injection Ef as <- <-. exact Hh.
Qed.
Lemma step_Blake2s c s a (input : list byte) : cfg_ok c -> Sim c s a ->
  step_sim c (step c s (Blake2s input)) (astep (overflow_checks c) a (Blake2s input)).
Proof.
  intros Hc S.
  assert (Hinv : step_sim c (Ok (s, OInvalid)) (Next a OInvalid)).
  { exists s. split; [reflexivity|exact S]. }
  cbn [step astep]. cbv zeta.
  destruct (new_state_sim c Params_default [] Hc encodes_default) as (st & E & M).
  unfold blake2s. change (State_new c) with (to_state c Params_default). rewrite E. cbn [bind].
  change (mk_astate Spec.default_params false input) with (add_msg (new_state []) input).
  destruct (room (overflow_checks c) (add_msg (new_state []) input)) eqn:Hr.
  + destruct (update_sim c st _ input M Hr) as (st' & Eu & M'). rewrite Eu. cbn [bind].
    destruct (finalize_sim c st' _ M') as (st'' & h & Ef & _ & Hh). rewrite Ef. cbn [bind].
    apply give_hash_sim; assumption.
  + cbn [step_sim]. rewrite (update_sim_panic c st _ input M Hr). reflexivity.
Qed.
Lemma step_Hash8 c s a (i : oct nat) (inputs : oct (list byte)) : cfg_ok c -> Sim c s a ->
  step_sim c (step c s (Hash8 i inputs)) (astep (overflow_checks c) a (Hash8 i inputs)).
Proof.
  intros Hc S.
  assert (Hinv : step_sim c (Ok (s, OInvalid)) (Next a OInvalid)).
  { exists s. split; [reflexivity|exact S]. }
  cbn [step astep]. cbv zeta.
  pose proof (pick8_sim _ _ _ i (sim_p _ _ _ S)) as Hp.
  destruct (pick8 (s_params s) i) as [ps|], (pick8 (a_params a) i) as [ls|]; try contradiction; auto.
  destruct (forallb (fun l => Nat.eqb (length (Spec.key (spec_params l))) 0) (oct_list ls)) eqn:Hk.
  + destruct (forallb (small []) (oct_list inputs)) eqn:Hs; [|exact I].
    rewrite forallb_oct in Hk. rewrite forallb_oct in Hs.
    rewrite (hash8_ok c ps (fun k => spec_params (proj k ls)) (fun k => spec_last_node (proj k ls)) inputs Hc Hp).
    * cbn [bind]. apply give_hashes_sim; [exact S|]. apply Forall2_oct. intros k.
      rewrite proj_of, proj_map2. apply sim_hash_value, Hp.
    * intros k. specialize (Hk k). destruct (Spec.key (spec_params (proj k ls))); [reflexivity|discriminate Hk].
    * intros k _. specialize (Hs k). unfold small, total in Hs. cbn [Spec.key_block length] in Hs. lia.
  + cbn [step_sim]. apply forallb_oct_false in Hk as (k & Hk). unfold hash8.
    destruct (oct_all (fun p => val (p_key_length p) =? 0) ps) eqn:Ha; [|reflexivity].
    exfalso. rewrite oct_all_spec in Ha. specialize (Ha k).
    pose proof (e_kl _ _ _ (Hp k)). lia.
Qed.
Lemma step_Hash8Exact c s a (i : nat) (inputs : oct (list byte)) : cfg_ok c -> Sim c s a ->
  step_sim c (step c s (Hash8Exact i inputs)) (astep (overflow_checks c) a (Hash8Exact i inputs)).
Proof.
  intros Hc S.
  assert (Hinv : step_sim c (Ok (s, OInvalid)) (Next a OInvalid)).
  { exists s. split; [reflexivity|exact S]. }
  cbn [step astep]. cbv zeta.
  apply (at_obj_sim _ _ _ _ _ _ _ _ _ (sim_p _ _ _ S) Hinv). intros p l _ _ E.
  destruct (exact (map (@length byte) (oct_list inputs))) eqn:Hx.
  + destruct (Spec.key (spec_params l)) eqn:Hk; [|exact I].
    destruct (forallb (small []) (oct_list inputs)) eqn:Hs; [|exact I]. rewrite forallb_oct in Hs.
    rewrite (hash8_exact_value c p _ _ inputs Hc E).
    * cbn [bind]. rewrite oct_list_map. apply give_hashes_sim; [exact S|]. apply Forall2_oct. intros k.
      rewrite proj_of, proj_map, bare_unkeyed by exact Hk.
      destruct (simd c); apply sim_hash_value, E.
    * intros k _. specialize (Hs k). unfold small in Hs. rewrite <- total_stream, Hk. lia.
    * apply exact_spec; [destruct inputs; discriminate|exact Hx].
  + cbn [step_sim]. rewrite hash8_exact_reject; [reflexivity|].
    intros H. apply exact_spec in H; [congruence|destruct inputs; discriminate].
Qed.
Lemma step_Hash4Exact c s a (i : nat) (inputs : quad (list byte)) : cfg_ok c -> Sim c s a ->
  step_sim c (step c s (Hash4Exact i inputs)) (astep (overflow_checks c) a (Hash4Exact i inputs)).
Proof.
  intros Hc S.
  assert (Hinv : step_sim c (Ok (s, OInvalid)) (Next a OInvalid)).
  { exists s. split; [reflexivity|exact S]. }
  cbn [step astep]. cbv zeta.
  apply (at_obj_sim _ _ _ _ _ _ _ _ _ (sim_p _ _ _ S) Hinv). intros p l _ _ E.
  destruct (exact (map (@length byte) (quad_list inputs))) eqn:Hx.
  + destruct (Spec.key (spec_params l)) eqn:Hk; [|exact I].
    destruct (forallb (small []) (quad_list inputs)) eqn:Hs; [|exact I]. rewrite forallb_quad in Hs.
    rewrite (hash4_exact_value c p _ _ inputs Hc E).
    * cbn [bind]. rewrite quad_list_map. apply give_hashes_sim; [exact S|]. apply Forall2_quad. intros k.
      rewrite qproj_of, qproj_map', bare_unkeyed by exact Hk.
      destruct (simd c); apply sim_hash_value, E.
    * intros k _. specialize (Hs k). unfold small in Hs. rewrite <- total_stream, Hk. lia.
    * apply exact_spec; [destruct inputs; discriminate|exact Hx].
  + cbn [step_sim]. rewrite hash4_exact_reject; [reflexivity|].
    intros H. apply exact_spec in H; [congruence|destruct inputs; discriminate].
Qed.
Lemma step_HashBytes c s a (i : nat) : cfg_ok c -> Sim c s a ->
  step_sim c (step c s (HashBytes i)) (astep (overflow_checks c) a (HashBytes i)).
Proof.
  intros Hc S.
  assert (Hinv : step_sim c (Ok (s, OInvalid)) (Next a OInvalid)).
  { exists s. split; [reflexivity|exact S]. }
  cbn [step astep]. cbv zeta.
  apply (at_obj_sim _ _ _ _ _ _ _ _ _ (sim_h _ _ _ S) Hinv). intros h b _ _ Hh.
  rewrite (sim_as_bytes h b Hh). cbn [bind]. eexists; split; [reflexivity|exact S].
Qed.
Lemma step_HashHex c s a (i : nat) : cfg_ok c -> Sim c s a ->
  step_sim c (step c s (HashHex i)) (astep (overflow_checks c) a (HashHex i)).
Proof.
  intros Hc S.
  assert (Hinv : step_sim c (Ok (s, OInvalid)) (Next a OInvalid)).
  { exists s. split; [reflexivity|exact S]. }
  cbn [step astep]. cbv zeta.
  apply (at_obj_sim _ _ _ _ _ _ _ _ _ (sim_h _ _ _ S) Hinv). intros h b _ _ (W & <-).
  rewrite to_hex_ok by exact W. cbn [bind]. eexists; split; [reflexivity|exact S].
Qed.
Lemma step_HashDebug c s a (i : nat) : cfg_ok c -> Sim c s a ->
  step_sim c (step c s (HashDebug i)) (astep (overflow_checks c) a (HashDebug i)).
Proof.
  intros Hc S.
  assert (Hinv : step_sim c (Ok (s, OInvalid)) (Next a OInvalid)).
  { exists s. split; [reflexivity|exact S]. }
  cbn [step astep]. cbv zeta.
  apply (at_obj_sim _ _ _ _ _ _ _ _ _ (sim_h _ _ _ S) Hinv). intros h b _ _ (W & <-).
  unfold hash_debug. rewrite to_hex_ok by exact W. cbn [bind]. eexists; split; [reflexivity|exact S].
Qed.
Lemma step_HashEq c s a (i j : nat) : cfg_ok c -> Sim c s a ->
  step_sim c (step c s (HashEq i j)) (astep (overflow_checks c) a (HashEq i j)).
Proof.
  intros Hc S.
  assert (Hinv : step_sim c (Ok (s, OInvalid)) (Next a OInvalid)).
  { exists s. split; [reflexivity|exact S]. }
  cbn [step astep]. cbv zeta.
  apply (at_obj_sim _ _ _ _ _ _ _ _ _ (sim_h _ _ _ S) Hinv). intros h b _ _ Hh.
  apply (at_obj_sim _ _ _ _ _ _ _ _ _ (sim_h _ _ _ S) Hinv). intros h' b' _ _ Hh'.
  destruct (hash_eq_ok h h' (proj1 Hh) (proj1 Hh')) as (r & E & Hr). rewrite E. cbn [bind].
  rewrite (proj2 Hh') in Hr. rewrite (sim_eq h b b' r Hh Hr).
  eexists; split; [reflexivity|exact S].
Qed.
Lemma step_HashEqSlice c s a (i : nat) (other : list byte) : cfg_ok c -> Sim c s a ->
  step_sim c (step c s (HashEqSlice i other)) (astep (overflow_checks c) a (HashEqSlice i other)).
Proof.
  intros Hc S.
  assert (Hinv : step_sim c (Ok (s, OInvalid)) (Next a OInvalid)).
  { exists s. split; [reflexivity|exact S]. }
  cbn [step astep]. cbv zeta.
  apply (at_obj_sim _ _ _ _ _ _ _ _ _ (sim_h _ _ _ S) Hinv). intros h b _ _ Hh.
  destruct (hash_eq_slice_ok h other (proj1 Hh)) as (r & E & Hr). rewrite E. cbn [bind].
  rewrite (sim_eq h b other r Hh Hr). eexists; split; [reflexivity|exact S].
Qed.
Lemma step_SpParamsNew c s a : cfg_ok c -> Sim c s a ->
  step_sim c (step c s (SpParamsNew)) (astep (overflow_checks c) a (SpParamsNew)).
Proof.
  intros Hc S.
  assert (Hinv : step_sim c (Ok (s, OInvalid)) (Next a OInvalid)).
  { exists s. split; [reflexivity|exact S]. }
  cbn [step astep]. cbv zeta.
  eexists; split; [reflexivity|]. apply Sim_sparams; [exact S|].
  apply Forall2_snoc; [apply S|]. apply sp_encodes_default.
Qed.
Lemma step_SpParamsClone c s a (i : nat) : cfg_ok c -> Sim c s a ->
  step_sim c (step c s (SpParamsClone i)) (astep (overflow_checks c) a (SpParamsClone i)).
Proof.
  intros Hc S.
  assert (Hinv : step_sim c (Ok (s, OInvalid)) (Next a OInvalid)).
  { exists s. split; [reflexivity|exact S]. }
  cbn [step astep]. cbv zeta.
  apply (at_obj_sim _ _ _ _ _ _ _ _ _ (sim_sp _ _ _ S) Hinv). intros p l _ _ E.
  eexists; split; [reflexivity|]. apply Sim_sparams; [exact S|]. apply Forall2_snoc; [apply S|exact E].
Qed.
Lemma step_SpParamsSet c s a (i : nat) (x0 : sp_setter) : cfg_ok c -> Sim c s a ->
  step_sim c (step c s (SpParamsSet i x0)) (astep (overflow_checks c) a (SpParamsSet i x0)).
Proof.
  intros Hc S.
  assert (Hinv : step_sim c (Ok (s, OInvalid)) (Next a OInvalid)).
  { exists s. split; [reflexivity|exact S]. }
  cbn [step astep]. cbv zeta.
  apply (at_obj_sim _ _ _ _ _ _ _ _ _ (sim_sp _ _ _ S) Hinv). intros p l _ _ E.
  destruct (sp_setter_ok x0) eqn:V.
  + destruct (sp_apply_setter_sim p l x0 E V) as (p' & Ep & E'). rewrite Ep. cbn [bind].
    eexists; split; [reflexivity|]. apply Sim_sparams; [exact S|]. apply Forall2_upd; [apply S|exact E'].
  + cbn [step_sim]. rewrite sp_apply_setter_panic by exact V. reflexivity.
Qed.
Lemma step_SpParamsDebug c s a (i : nat) : cfg_ok c -> Sim c s a ->
  step_sim c (step c s (SpParamsDebug i)) (astep (overflow_checks c) a (SpParamsDebug i)).
Proof.
  intros Hc S.
  assert (Hinv : step_sim c (Ok (s, OInvalid)) (Next a OInvalid)).
  { exists s. split; [reflexivity|exact S]. }
  cbn [step astep]. cbv zeta.
  apply (at_obj_sim _ _ _ _ _ _ _ _ _ (sim_sp _ _ _ S) Hinv). intros p l _ _ E.
  eexists; split; [|exact S]. unfold sp_params_debug.
  rewrite (se_hash _ _ _ E), (se_kl _ _ _ E). reflexivity.
Qed.
Lemma step_SpStateNew c s a : cfg_ok c -> Sim c s a ->
  step_sim c (step c s (SpStateNew)) (astep (overflow_checks c) a (SpStateNew)).
Proof.
  intros Hc S.
  assert (Hinv : step_sim c (Ok (s, OInvalid)) (Next a OInvalid)).
  { exists s. split; [reflexivity|exact S]. }
  cbn [step astep]. cbv zeta.
  destruct (sp_new_sim c Hc) as (st & E & M).
  rewrite (bind_Ok _ _ _ E).
  eexists; split; [reflexivity|]. apply Sim_sstates; [exact S|]. apply Forall2_snoc; [apply S|exact M].
Qed.
Lemma step_SpToState c s a (i : nat) : cfg_ok c -> Sim c s a ->
  step_sim c (step c s (SpToState i)) (astep (overflow_checks c) a (SpToState i)).
Proof.
  intros Hc S.
  assert (Hinv : step_sim c (Ok (s, OInvalid)) (Next a OInvalid)).
  { exists s. split; [reflexivity|exact S]. }
  cbn [step astep]. cbv zeta.
  apply (at_obj_sim _ _ _ _ _ _ _ _ _ (sim_sp _ _ _ S) Hinv). intros p l _ _ E.
  destruct (sp_models_new c p _ _ Hc E) as (st & Es & M). rewrite Es. cbn [bind].
  eexists; split; [reflexivity|]. apply Sim_sstates; [exact S|]. apply Forall2_snoc; [apply S|].
  split; [exact M|]. cbn [a_key a_data].
  destruct M as (P & B & R & _). pose proof (sr_keylen _ _ _ _ _ _ _ R).
  rewrite key_block_length by lia. destruct (sp_keyval l); reflexivity.
Qed.
Lemma step_SpClone c s a (i : nat) : cfg_ok c -> Sim c s a ->
  step_sim c (step c s (SpClone i)) (astep (overflow_checks c) a (SpClone i)).
Proof.
  intros Hc S.
  assert (Hinv : step_sim c (Ok (s, OInvalid)) (Next a OInvalid)).
  { exists s. split; [reflexivity|exact S]. }
  cbn [step astep]. cbv zeta.
  apply (at_obj_sim _ _ _ _ _ _ _ _ _ (sim_ss _ _ _ S) Hinv). intros st x _ _ M.
  eexists; split; [reflexivity|]. apply Sim_sstates; [exact S|]. apply Forall2_snoc; [apply S|exact M].
Qed.
Lemma step_SpUpdate c s a (i : nat) (input : list byte) : cfg_ok c -> Sim c s a ->
  step_sim c (step c s (SpUpdate i input)) (astep (overflow_checks c) a (SpUpdate i input)).
Proof.
  intros Hc S.
  assert (Hinv : step_sim c (Ok (s, OInvalid)) (Next a OInvalid)).
  { exists s. split; [reflexivity|exact S]. }
  cbn [step astep]. cbv zeta.
  apply (at_obj_sim _ _ _ _ _ _ _ _ _ (sim_ss _ _ _ S) Hinv). intros st x _ _ M.
  destruct (sp_scope x input) eqn:Hr; [|exact I].
  destruct (sp_scope_update c st x input M Hr) as (st' & E & M'). rewrite E. cbn [bind].
  eexists; split; [reflexivity|]. apply Sim_sstates; [exact S|]. apply Forall2_upd; [apply S|exact M'].
Qed.
Lemma step_SpWrite c s a (i : nat) (input : list byte) : cfg_ok c -> Sim c s a ->
  step_sim c (step c s (SpWrite i input)) (astep (overflow_checks c) a (SpWrite i input)).
Proof.
  intros Hc S.
  assert (Hinv : step_sim c (Ok (s, OInvalid)) (Next a OInvalid)).
  { exists s. split; [reflexivity|exact S]. }
  cbn [step astep]. cbv zeta.
  apply (at_obj_sim _ _ _ _ _ _ _ _ _ (sim_ss _ _ _ S) Hinv). intros st x _ _ M.
  destruct (sp_scope x input) eqn:Hr; [|exact I]. unfold sp_write.
  destruct (sp_scope_update c st x input M Hr) as (st' & E & M'). rewrite E. cbn [bind].
  eexists; split; [reflexivity|]. apply Sim_sstates; [exact S|]. apply Forall2_upd; [apply S|exact M'].
Qed.
Lemma step_SpFlush c s a (i : nat) : cfg_ok c -> Sim c s a ->
  step_sim c (step c s (SpFlush i)) (astep (overflow_checks c) a (SpFlush i)).
Proof.
  intros Hc S.
  assert (Hinv : step_sim c (Ok (s, OInvalid)) (Next a OInvalid)).
  { exists s. split; [reflexivity|exact S]. }
  cbn [step astep]. cbv zeta.
  apply (at_obj_sim _ _ _ _ _ _ _ _ _ (sim_ss _ _ _ S) Hinv). intros st x _ _ M.
  eexists; split; [reflexivity|]. apply Sim_sstates; [exact S|]. apply Forall2_upd; [apply S|exact M].
Qed.
Lemma step_SpCount c s a (i : nat) : cfg_ok c -> Sim c s a ->
  step_sim c (step c s (SpCount i)) (astep (overflow_checks c) a (SpCount i)).
Proof.
  intros Hc S.
  assert (Hinv : step_sim c (Ok (s, OInvalid)) (Next a OInvalid)).
  { exists s. split; [reflexivity|exact S]. }
  cbn [step astep]. cbv zeta.
  apply (at_obj_sim _ _ _ _ _ _ _ _ _ (sim_ss _ _ _ S) Hinv). intros st x _ _ M.
  destruct (sp_count_sim c st x M) as (n & E & Hn). rewrite E. cbn [bind]. rewrite Hn.
  eexists; split; [reflexivity|exact S].
Qed.
Lemma step_SpDebug c s a (i : nat) : cfg_ok c -> Sim c s a ->
  masked_sim c (step c s (SpDebug i)) (astep (overflow_checks c) a (SpDebug i)).
Proof.
  intros Hc S.
  assert (Hinv : masked_sim c (Ok (s, OInvalid)) (Next a OInvalid)).
  { do 2 eexists. split; [reflexivity|]. split; [reflexivity|exact S]. }
  cbn [step astep]. cbv zeta.
  apply (at_obj_sim _ _ _ _ _ _ _ _ _ (sim_ss _ _ _ S) Hinv). intros st x _ _ M.
  destruct (sp_count_sim c st x M) as (n & E & Hn). unfold sp_state_debug. rewrite E. cbn [bind].
  do 2 eexists; split; [reflexivity|]. split; [reflexivity|exact S].
Qed.
Lemma step_SpForcePortable c s a (i : nat) : cfg_ok c -> Sim c s a ->
  step_sim c (step c s (SpForcePortable i)) (astep (overflow_checks c) a (SpForcePortable i)).
Proof.
  intros Hc S.
  assert (Hinv : step_sim c (Ok (s, OInvalid)) (Next a OInvalid)).
  { exists s. split; [reflexivity|exact S]. }
  cbn [step astep]. cbv zeta.
  apply (at_obj_sim _ _ _ _ _ _ _ _ _ (sim_ss _ _ _ S) Hinv). intros st x _ _ (M & Hn).
  eexists; split; [reflexivity|]. apply Sim_sstates; [exact S|]. apply Forall2_upd; [apply S|].
  split; [apply sp_models_force_portable, M|exact Hn].
Qed.
Lemma step_SpFinalize c s a (i : nat) : cfg_ok c -> Sim c s a ->
  step_sim c (step c s (SpFinalize i)) (astep (overflow_checks c) a (SpFinalize i)).
Proof.
  intros Hc S.
  assert (Hinv : step_sim c (Ok (s, OInvalid)) (Next a OInvalid)).
  { exists s. split; [reflexivity|exact S]. }
  cbn [step astep]. cbv zeta.
  apply (at_obj_sim _ _ _ _ _ _ _ _ _ (sim_ss _ _ _ S) Hinv). intros st x _ _ M.
  destruct (sp_finalize_sim c st x M) as (h & E & Hh). rewrite E. cbn [bind].
  apply give_hash_sim; assumption.
Qed.
Lemma step_OneShotSp c s a (input : list byte) : cfg_ok c -> Sim c s a ->
  step_sim c (step c s (OneShotSp input)) (astep (overflow_checks c) a (OneShotSp input)).
Proof.
  intros Hc S.
  assert (Hinv : step_sim c (Ok (s, OInvalid)) (Next a OInvalid)).
  { exists s. split; [reflexivity|exact S]. }
  cbn [step astep]. cbv zeta.
  destruct (small [] input) eqn:Hs; [|exact I]. unfold blake2sp.
  destruct (sp_new_sim c Hc) as (st & E & M).
  rewrite (bind_Ok _ _ _ E).
  destruct (sp_scope_update c st _ input M) as (st' & Eu & M').
  { unfold sp_scope. cbn [a_key a_data app]. unfold small, total in Hs. cbn [Spec.key_block length] in Hs. lia. }
  rewrite Eu. cbn [bind].
  destruct (sp_finalize_sim c st' _ M') as (h & Ef & Hh). rewrite Ef. cbn [bind].
  apply give_hash_sim; assumption.
Qed.

Theorem step_ok c s a o : cfg_ok c -> Sim c s a -> masked_sim c (step c s o) (astep (overflow_checks c) a o).
Proof.
  intros Hc S. destruct o.
  - apply sim_masked, step_ParamsNew; assumption.
  - apply sim_masked, step_ParamsClone; assumption.
  - apply sim_masked, step_ParamsSet; assumption.
  - apply sim_masked, step_StateNew; assumption.
  - apply sim_masked, step_ToState; assumption.
  - apply sim_masked, step_StateClone; assumption.
  - apply sim_masked, step_Update; assumption.
  - apply sim_masked, step_Write; assumption.
  - apply sim_masked, step_Flush; assumption.
  - apply sim_masked, step_SetLastNode; assumption.
  - apply sim_masked, step_Count; assumption.
  - apply sim_masked, step_StateDebug; assumption.
  - apply sim_masked, step_ForcePortable; assumption.
  - apply sim_masked, step_Finalize; assumption.
  - apply sim_masked, step_Update8; assumption.
  - apply sim_masked, step_Finalize8; assumption.
  - apply sim_masked, step_Blake2s; assumption.
  - apply sim_masked, step_Hash8; assumption.
  - apply sim_masked, step_Hash8Exact; assumption.
  - apply sim_masked, step_Hash4Exact; assumption.
  - apply sim_masked, step_HashBytes; assumption.
  - apply sim_masked, step_HashHex; assumption.
  - apply sim_masked, step_HashDebug; assumption.
  - apply sim_masked, step_HashEq; assumption.
  - apply sim_masked, step_HashEqSlice; assumption.
  - apply sim_masked, step_SpParamsNew; assumption.
  - apply sim_masked, step_SpParamsClone; assumption.
  - apply sim_masked, step_SpParamsSet; assumption.
  - apply sim_masked, step_SpParamsDebug; assumption.
  - apply sim_masked, step_SpStateNew; assumption.
  - apply sim_masked, step_SpToState; assumption.
  - apply sim_masked, step_SpClone; assumption.
  - apply sim_masked, step_SpUpdate; assumption.
  - apply sim_masked, step_SpWrite; assumption.
  - apply sim_masked, step_SpFlush; assumption.
  - apply sim_masked, step_SpCount; assumption.
  - apply step_SpDebug; assumption.
  - apply sim_masked, step_SpForcePortable; assumption.
  - apply sim_masked, step_SpFinalize; assumption.
  - apply sim_masked, step_OneShotSp; assumption.
Qed.

(** ** Runs *)
Theorem run_ok c : cfg_ok c -> forall ops s a, Sim c s a ->
  match snd (arun (overflow_checks c) a ops) with
  | Some e => map mask (fst (run c s ops)) = map mask (fst (arun (overflow_checks c) a ops)) /\
              snd (run c s ops) = e
  | None => exists more, map mask (fst (run c s ops)) = map mask (fst (arun (overflow_checks c) a ops)) ++ more
  end.
Proof.
  intros Hc. induction ops as [|o ops IH]; intros s a S; cbn [run arun]; [split; reflexivity|].
  pose proof (step_ok c s a o Hc S) as H. destruct (astep (overflow_checks c) a o) as [a' x| |].
  - destruct H as (s' & y & E & Hy & S'). rewrite E. specialize (IH s' a' S').
    destruct (arun (overflow_checks c) a' ops) as [xs [e|]], (run c s' ops) as [ys e'];
      cbn [fst snd map] in *; rewrite Hy.
    + destruct IH as (-> & ->). split; reflexivity.
    + destruct IH as (more & ->). exists more. reflexivity.
  - rewrite H. split; reflexivity.
  - cbn [fst snd app map]. eexists. reflexivity.
Qed.
Lemma Sim_empty c : Sim c empty_session empty_asession.
Proof. constructor; constructor. Qed.
