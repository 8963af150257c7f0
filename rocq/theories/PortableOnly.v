(** * PortableOnly: what runs after [force_portable]. *)
From Verif Require Import Base BaseFacts Consts Portable Params State Many Blake2sp Views Debug StateFacts Avx2Facts
  Machine Clients Terms Traced TraceTerms TracedFacts.
From Verif Require Robust Calls.
From Coq Require Import ZArith Lia ZifyBool ZifyNat ZifyN.
Local Open Scope N_scope.

(** All routines that run satisfy [R]. *)
Definition run_event (R : routine -> Prop) (e : event) : Prop := match e with Run r => R r | _ => True end.

Section Config.
Context (c : cfg) (R : routine -> Prop).
Notation portable_event := (run_event R) (only parsing).

(** Only routines in [R] run in [x], and what it returns is a [P]. *)
Definition calm {A} (P : A -> Prop) (x : traced A) : Prop :=
  Forall portable_event (events x) /\ forall a, result x = Ok a -> P a.
Lemma calm_bind {A B} (P : A -> Prop) (Q : B -> Prop) x f :
  calm P x -> (forall a, P a -> calm Q (f a)) -> calm Q (tbind x f).
Proof.
  destruct x as [l [a| | |]]; intros (E & H) Hf; cbn [tbind events fst result snd] in *;
    try (split; [exact E|intros ? X; discriminate X]).
  destruct (Hf a (H a eq_refl)) as (E1 & H1). destruct (f a) as [m u]. cbn [events fst result snd] in *.
  split; [apply Forall_app; split; assumption|exact H1].
Qed.
Lemma calm_imp {A} (P Q : A -> Prop) x : calm P x -> (forall a, P a -> Q a) -> calm Q x.
Proof. intros (H1 & H2) H. split; [exact H1|]. intros a Ha. apply H, H2, Ha. Qed.
Lemma calm_note {A} (P : A -> Prop) l x : Forall (portable_event) l -> (forall a, x = Ok a -> P a) -> calm P (note l x).
Proof. intros H1 H2. split; assumption. Qed.
Lemma calm_ret {A} (P : A -> Prop) a : P a -> calm P (ret a).
Proof. intros H. split; [constructor|]. intros x E. injection E as <-. exact H. Qed.
Lemma calm_lift {A} (P : A -> Prop) x : (forall a, x = Ok a -> P a) -> calm P (lift x).
Proof. intros H. split; [constructor|exact H]. Qed.
Lemma calm_if {A} (P : A -> Prop) (b : bool) x y : (b = true -> calm P x) -> (b = false -> calm P y) ->
  calm P (tif b x y).
Proof.
  intros H1 H2. unfold tif. apply (calm_bind (fun _ => True)).
  - apply calm_note; [repeat constructor|auto].
  - intros _ _. destruct b; auto.
Qed.
Lemma harmless_branch b : Forall (portable_event) [Branch b].
Proof. repeat constructor. Qed.
Ltac cb := eapply calm_bind.


Definition any {A} : A -> Prop := fun _ => True.
Ltac quiet := apply calm_note; [repeat constructor|exact (fun _ _ => I)].
Lemma uadd_calm {w} (a b : uint w) : calm any (uadd_t c a b).
Proof. unfold uadd_t. destruct (overflow_checks c); quiet. Qed.
Lemma usub_calm {w} (a b : uint w) : calm any (usub_t c a b).
Proof. unfold usub_t. destruct (overflow_checks c); quiet. Qed.
Lemma nsub_calm a b : calm any (nsub_t c a b).
Proof. unfold nsub_t. destruct (overflow_checks c); quiet. Qed.
Lemma debug_assert_calm b : calm any (debug_assert_t c b).
Proof. unfold debug_assert_t. destruct (debug_assertions c); quiet. Qed.
Lemma slice_from_calm {A} (xs : list A) lo : calm any (slice_from_t xs lo). Proof. quiet. Qed.
Lemma slice_to_calm {A} (xs : list A) hi : calm any (slice_to_t xs hi). Proof. quiet. Qed.
Lemma copy_into_calm {A} (dst : list A) lo hi src : calm any (copy_into_t dst lo hi src). Proof. quiet. Qed.
Lemma array_ref_calm {A} (xs : list A) off len : calm any (array_ref_t xs off len). Proof. quiet. Qed.
Lemma all_calm l : calm any (all_t l).
Proof.
  induction l as [|b l IH]; [apply calm_ret; exact I|]. cbn [all_t].
  apply calm_if; intros _; [exact IH|apply calm_ret; exact I].
Qed.
Lemma assert_calm b : calm any (assert_t b).
Proof. apply calm_if; intros _; [apply calm_ret; exact I|apply calm_lift; discriminate]. Qed.
Lemma flag_calm b : calm any (flag32_t b). Proof. quiet. Qed.
Lemma mapM_calm {A B} (Q : B -> Prop) (f : A -> traced B) (a : oct A) :
  (forall l, calm Q (f (proj l a))) -> calm (fun r => forall l, Q (proj l r)) (oct_mapM_t f a).
Proof.
  intros H. unfold oct_mapM_t.
  cb; [exact (H L0)|]; intros b0 H0. cb; [exact (H L1)|]; intros b1 H1.
  cb; [exact (H L2)|]; intros b2 H2. cb; [exact (H L3)|]; intros b3 H3.
  cb; [exact (H L4)|]; intros b4 H4. cb; [exact (H L5)|]; intros b5 H5.
  cb; [exact (H L6)|]; intros b6 H6. cb; [exact (H L7)|]; intros b7 H7.
  apply calm_ret. intros []; assumption.
Qed.

Context (HR : forall r, portable_routine r = true -> R r).
Notation pst := portable_state (only parsing).
Notation psp := portable_sstate (only parsing).
Lemma compress_calm f h m n a b : f = compress_portable -> calm any (call_compress_t c f h m n a b).
Proof. intros ->. apply calm_note; [|exact (fun _ _ => I)]. constructor; [apply HR; reflexivity|constructor]. Qed.
Lemma compress8_calm f h m n a b : f = compress8_portable -> calm any (call_compress8_t c f h m n a b).
Proof. intros ->. apply calm_note; [|exact (fun _ _ => I)]. constructor; [apply HR; reflexivity|constructor]. Qed.
Lemma branch_calm {A} b (x : A) : calm (fun y => y = x) (note [Branch b] (Ok x)).
Proof. apply calm_note; [repeat constructor|congruence]. Qed.

(** ** [State] *)
Lemma fill_buf_calm f st input : st_compress_fn st = f ->
  calm (fun x => st_compress_fn (fst x) = f) (fill_buf_t c st input).
Proof.
  intros H. unfold fill_buf_t. cb; [apply nsub_calm|]; intros room _. cb; [apply branch_calm|]; intros take _.
  cb; [apply slice_to_calm|]; intros src _. cb; [apply copy_into_calm|]; intros buf _.
  cb; [apply uadd_calm|]; intros n _. cb; [apply uadd_calm|]; intros m _.
  cb; [apply slice_from_calm|]; intros rest _. apply calm_ret. exact H.
Qed.
Lemma compress_buffer_calm st input : pst st ->
  calm (fun x => pst (fst x)) (compress_buffer_if_possible_t c st input).
Proof.
  intros H. unfold compress_buffer_if_possible_t. apply calm_if; intros _; [|apply calm_ret; exact H].
  cb; [apply fill_buf_calm, H|]. intros (st', rest) H'. cbn [fst] in H'.
  destruct rest; [eapply calm_imp; [apply branch_calm|]; intros a ->; exact H'|].
  cb; [apply branch_calm|]; intros _ _. cb; [apply compress_calm, H'|]; intros h _. apply calm_ret. exact H'.
Qed.
Lemma update_loop_calm fuel : forall st input, pst st -> calm (fun x => pst (fst x)) (update_loop_t fuel c st input).
Proof.
  induction fuel as [|fuel IH]; intros st input H; [apply calm_lift; discriminate|]. cbn [update_loop_t].
  apply calm_if; intros _; [|apply calm_ret; exact H].
  cb; [apply uadd_calm|]; intros n _. cb; [apply array_ref_calm|]; intros b _.
  cb; [apply compress_calm, H|]; intros h _. cb; [apply slice_from_calm|]; intros r _. apply IH. exact H.
Qed.
Lemma update_calm st input : pst st -> calm pst (update_t c st input).
Proof.
  intros H. unfold update_t. cb; [apply compress_buffer_calm, H|]. intros (s1, i1) H1. cbn [fst] in H1.
  cb; [apply update_loop_calm; exact H1|]. intros (s2, i2) H2. cbn [fst] in H2.
  cb; [apply fill_buf_calm, H2|]. intros (s3, i3) H3. apply calm_ret, H3.
Qed.
Lemma zero_tail_calm b n : calm any (zero_tail_t b n).
Proof.
  apply calm_note; [|exact (fun _ _ => I)]. apply Forall_app. split; [|repeat constructor].
  apply Forall_flat_map, Forall_forall. intros i _. repeat constructor.
Qed.
Lemma finalize_calm st : pst st -> calm (fun x => pst (fst x)) (finalize_t c st).
Proof.
  intros H. unfold finalize_t. cb; [apply zero_tail_calm|]. intros b _. cbv zeta.
  cbn [st_last_node st_compress_fn st_h st_buf st_count st_hash_length].
  cb; [apply flag_calm|]; intros fl _. cb; [apply compress_calm, H|]; intros h _. apply calm_ret. exact H.
Qed.
Lemma as_bytes_calm h : calm any (as_bytes_t h). Proof. apply slice_to_calm. Qed.
Lemma hex_loop_calm l : forall s, calm any (hex_loop_t s l).
Proof.
  induction l as [|b l IH]; intros s; [apply calm_ret; exact I|]. cbn [hex_loop_t].
  apply (calm_bind any); [quiet|]. intros s1 _. apply (calm_bind any); [quiet|]. intros s2 _. apply IH.
Qed.
Lemma to_hex_calm h : calm any (to_hex_t h).
Proof. unfold to_hex_t. cb; [apply as_bytes_calm|]. intros b _. apply hex_loop_calm. Qed.
Lemma ct_ne_calm len : forall a b i tmp, calm any (ct_ne_t i len tmp a b).
Proof.
  induction a as [|x a IH]; intros b i tmp; [quiet|]. destruct b as [|y b]; [quiet|]. cbn [ct_ne_t].
  apply (calm_bind any); [quiet|]. intros _ _. apply IH.
Qed.
Lemma ct_eq_calm a b : calm any (constant_time_eq_t a b).
Proof.
  unfold constant_time_eq_t. apply calm_if; intros _; [|apply calm_ret; exact I].
  cb; [apply slice_to_calm|]; intros _ _. cb; [apply slice_to_calm|]; intros _ _.
  cb; [apply ct_ne_calm|]. intros n _. apply calm_ret. exact I.
Qed.
Lemma apply_setter_calm p s : calm any (apply_setter_t p s).
Proof.
  destruct s; cbn [apply_setter_t]; try (apply calm_lift; exact (fun _ _ => I)).
  - unfold set_hash_length_t. cb; [apply all_calm|]. intros b _. cb; [apply assert_calm|]. intros _ _. apply calm_lift. exact (fun _ _ => I).
  - unfold set_key_t. cb; [apply assert_calm|]. intros _ _. quiet.
  - unfold set_salt_t. cb; [apply assert_calm|]. intros _ _. quiet.
  - unfold set_personal_t. cb; [apply assert_calm|]. intros _ _. quiet.
  - quiet.
  - quiet.
  - quiet.
Qed.
Lemma sp_apply_setter_calm p s : calm any (sp_apply_setter_t p s).
Proof.
  destruct s; cbn [sp_apply_setter_t].
  - cb; [apply all_calm|]. intros b _. cb; [apply assert_calm|]. intros _ _. apply calm_lift. exact (fun _ _ => I).
  - cb; [apply assert_calm|]. intros _ _. quiet.
Qed.

(** Making a state runs nothing: a key block only goes into the buffer. *)
Lemma first_block_calm st input : val (st_buflen st) = 0 -> (length input <= 64)%nat -> calm any (update_t c st input).
Proof.
  intros H Hl. unfold update_t, compress_buffer_if_possible_t. rewrite H.
  apply (calm_bind (fun x => snd x = input)).
  { apply calm_if; intros X; [discriminate X|]. apply calm_ret. reflexivity. }
  intros (s1, i1) H1. cbn [snd] in H1. subst i1. apply (calm_bind any).
  - cbn [update_loop_t]. apply calm_if; intros X; [|apply calm_ret; exact I]. apply Nat.ltb_lt in X. unfold BLOCKBYTES in X. lia.
  - intros (s2, i2) _. cb; [apply fill_buf_calm; reflexivity|]. intros (s3, i3) _. apply calm_ret. exact I.
Qed.
Lemma with_params_calm p : calm any (with_params_t c p).
Proof.
  unfold with_params_t. cbv zeta. apply calm_if; intros _; [|apply calm_ret; exact I].
  apply (calm_bind (fun l => length l = 64%nat)).
  - apply calm_note; [repeat constructor|]. intros l E. pose proof (Robust.copy_into_safe (repeat x00 BLOCKBYTES) 0 KEYBYTES (p_key p)) as H.
    rewrite E in H. cbn [Robust.safe] in H. rewrite H. apply repeat_length.
  - intros k Hk. apply first_block_calm; [reflexivity|lia].
Qed.
Lemma sp_with_params_calm p : calm any (sp_with_params_t c p).
Proof.
  unfold sp_with_params_t.
  cb; [apply (apply_setter_calm Params_new (SHashLength _))|]. intros p1 _.
  cb; [apply slice_to_calm|]. intros k _.
  cb; [apply (apply_setter_calm p1 (SKey _))|]. intros p2 _.
  cb; [apply (apply_setter_calm p2 (SFanout _))|]. intros p3 _.
  cb; [apply (apply_setter_calm p3 (SMaxDepth _))|]. intros p4 _.
  cb; [apply (apply_setter_calm p4 (SMaxLeafLength _))|]. intros p5 _.
  cb; [apply (apply_setter_calm p5 (SInnerHashLength _))|]. intros p6 _.
  cb; [apply (apply_setter_calm p6 (SNodeOffset _))|]. intros p7 _.
  cb; [apply (apply_setter_calm p7 (SNodeDepth _))|]. intros p8 _.
  cb; [apply (apply_setter_calm p8 (SLastNode _))|]. intros p9 _.
  cb; [apply with_params_calm|]. intros r _. cbv zeta.
  cb; [apply (mapM_calm any); intros l|intros ls _; apply calm_ret; exact I].
  unfold leaf_state_t. cb; [apply (apply_setter_calm p6 (SNodeOffset _))|]. intros q1 _.
  cb; [apply (apply_setter_calm q1 (SNodeDepth _))|]. intros q2 _.
  cb; [apply (apply_setter_calm q2 (SLastNode _))|]. intros q3 _.
  cb; [apply with_params_calm|]. intros s _. apply calm_ret. exact I.
Qed.

(** ** BLAKE2sp *)
Lemma sp_fill_buf_calm st input : psp st -> calm (fun x => psp (fst x)) (sp_fill_buf_t c st input).
Proof.
  intros H. unfold sp_fill_buf_t. cb; [apply nsub_calm|]; intros room _. cb; [apply branch_calm|]; intros take _.
  cb; [apply slice_to_calm|]; intros src _. cb; [apply copy_into_calm|]; intros buf _.
  cb; [apply uadd_calm|]; intros n _. cb; [apply slice_from_calm|]; intros rest _. apply calm_ret. exact H.
Qed.
Lemma debug_asserts_calm l : calm any (debug_asserts_t c l).
Proof.
  unfold debug_asserts_t. destruct (debug_assertions c); [|apply calm_ret; exact I].
  cb; [apply all_calm|]. intros b _. apply debug_assert_calm.
Qed.
Lemma sp_compress8_calm b ls f : (forall l, pst (proj l ls)) -> f = compress8_portable ->
  calm (fun r => forall l, pst (proj l r)) (sp_compress8_t c b ls f).
Proof.
  intros H Hf. unfold sp_compress8_t. cb; [apply debug_asserts_calm|]; intros _ _. cb; [apply debug_asserts_calm|]; intros _ _.
  cb; [apply (mapM_calm pst); intros l|].
  { unfold bump_count_t. cb; [apply uadd_calm|]. intros n _. apply calm_ret. exact (H l). }
  intros s1 H1. cb; [apply compress8_calm, Hf|]. intros hs _. apply calm_ret. intros l. rewrite proj_map2. exact (H1 l).
Qed.
Lemma sp_empty_buffer_calm st input : psp st -> calm (fun x => psp (fst x)) (sp_empty_buffer_t c st input).
Proof.
  intros H. unfold sp_empty_buffer_t. apply calm_if; intros _; [|apply calm_ret; exact H].
  cb; [apply sp_fill_buf_calm, H|]. intros (s1, i1) H1. cbn [fst] in H1.
  destruct i1 as [|x i1]; [eapply calm_imp; [apply branch_calm|]; intros a ->; exact H1|].
  destruct H1 as (Hl & Hr & Hf).
  cb; [apply branch_calm|]; intros _ _. cb; [apply array_ref_calm|]. intros b _.
  cb; [apply sp_compress8_calm; [exact Hl|exact Hf]|]. intros ls Hls. cbv zeta.
  cb; [apply usub_calm|]. intros n _. apply calm_if; intros _.
  - cb; [apply array_ref_calm|]. intros b' _.
    cb; [apply sp_compress8_calm; [exact Hls|exact Hf]|]. intros ls' Hls'. apply calm_ret. split; [exact Hls'|]. split; [exact Hr|exact Hf].
  - cb; [apply slice_to_calm|]. intros left _. cb; [apply slice_from_calm|]. intros right _.
    cb; [apply slice_to_calm|]. intros src _. cb; [apply copy_into_calm|]. intros left' _.
    apply calm_ret. split; [exact Hls|]. split; [exact Hr|exact Hf].
Qed.
Lemma sp_update_loop_calm fuel : forall st input, psp st -> calm (fun x => psp (fst x)) (sp_update_loop_t fuel c st input).
Proof.
  induction fuel as [|fuel IH]; intros st input H; [apply calm_lift; discriminate|]. cbn [sp_update_loop_t].
  apply calm_if; intros _; [|apply calm_ret; exact H]. destruct H as (Hl & Hr & Hf).
  cb; [apply array_ref_calm|]; intros b _. cb; [apply sp_compress8_calm; [exact Hl|exact Hf]|]. intros ls Hls.
  cb; [apply slice_from_calm|]; intros r _. apply IH. split; [exact Hls|]. split; [exact Hr|exact Hf].
Qed.
Lemma sp_update_calm st input : psp st -> calm psp (sp_update_t c st input).
Proof.
  intros H. unfold sp_update_t. cb; [apply sp_empty_buffer_calm, H|]. intros (s1, i1) H1. cbn [fst] in H1.
  cb; [apply sp_update_loop_calm; exact H1|]. intros (s2, i2) H2. cbn [fst] in H2.
  cb; [apply sp_fill_buf_calm, H2|]. intros (s3, i3) H3. cbn [fst] in H3.
  cb; [apply debug_assert_calm|]. intros _ _. apply calm_ret. exact H3.
Qed.
Lemma feed_chunk_calm buf k n leaf : pst leaf -> calm pst (feed_chunk_t c buf k n leaf).
Proof.
  intros H. unfold feed_chunk_t. cb; [apply branch_calm|]; intros m _. cb; [apply slice_to_calm|]. intros s _. apply update_calm, H.
Qed.
Lemma feed_root_calm root leaf : pst root -> pst leaf -> calm pst (feed_root_t c root leaf).
Proof.
  intros H Hl. unfold feed_root_t. cb; [apply finalize_calm, Hl|]. intros (s, h) _.
  cb; [apply as_bytes_calm|]. intros b _. apply update_calm, H.
Qed.
Lemma sp_finalize_calm st : psp st -> calm any (sp_finalize_t c st).
Proof.
  intros (Hl & Hr & _). unfold sp_finalize_t. cbv zeta. destruct (sp_leaves st) as [a0 a1 a2 a3 a4 a5 a6 a7].
  pose proof (Hl L0) as H0. pose proof (Hl L1) as H1. pose proof (Hl L2) as H2. pose proof (Hl L3) as H3.
  pose proof (Hl L4) as H4. pose proof (Hl L5) as H5. pose proof (Hl L6) as H6. pose proof (Hl L7) as H7.
  cbn [proj o0 o1 o2 o3 o4 o5 o6 o7] in *.
  do 15 (cb; [apply feed_chunk_calm; assumption|]; intros ? ?; cb; [apply branch_calm|]; intros ? _).
  cb; [apply feed_chunk_calm; assumption|]; intros ? ?.
  do 8 (cb; [apply feed_root_calm; assumption|]; intros ? ?).
  cb; [apply finalize_calm; assumption|]. intros (s, h) _. apply calm_ret. exact I.
Qed.
Lemma sp_count_calm st : calm any (sp_count_t c st).
Proof. unfold sp_count_t. cbv zeta. do 7 (cb; [apply uadd_calm|]; intros ? _). apply uadd_calm. Qed.

(** ** Programs *)
Definition pses (s : session) : Prop := Forall pst (s_states s) /\ Forall psp (s_sstates s).
Definition pxs (x : session * obs) : Prop := pses (fst x).
Lemma at_obj_calm {A B} (P : A -> Prop) (Q : B -> Prop) l i no f : Forall P l -> calm Q no ->
  (forall x, P x -> calm Q (f x)) -> calm Q (at_obj l i no f).
Proof.
  intros H Hn Hf. unfold at_obj. destruct (nth_error l i) eqn:E; [|exact Hn].
  apply Hf. rewrite Forall_forall in H. apply H. eapply nth_error_In, E.
Qed.
Lemma give_hash_calm s h : pses s -> calm pxs (give_hash_t s h).
Proof. intros H. unfold give_hash_t. cb; [apply as_bytes_calm|]. intros b _. apply calm_ret. exact H. Qed.
Lemma any_list {A} (l : list A) : Forall any l.
Proof. apply Forall_forall. intros x _. exact I. Qed.
Theorem step_calm s o : pses s -> dispatches o = false -> calm pxs (step_t c s o).
Proof.
  intros H Hd. pose proof H as (HS & HT).
  assert (HP : Forall any (s_params s)) by apply any_list. assert (HH : Forall any (s_hashes s)) by apply any_list.
  assert (HQ : Forall any (s_sparams s)) by apply any_list.
  assert (Hinv : calm pxs (ret (s, OInvalid))) by (apply calm_ret; exact H).
  assert (Hst : forall l, Forall pst l -> pses (with_states s l)) by (intros l X; split; [exact X|exact HT]).
  assert (Hss : forall l, Forall psp l -> pses (with_sstates s l)) by (intros l X; split; [exact HS|exact X]).
  destruct o; try discriminate Hd; cbn [step_t]; cbv zeta;
    try (lazymatch goal with |- calm _ (at_obj ?l _ _ _) =>
           match goal with F : Forall _ l |- _ => apply (at_obj_calm _ _ _ _ _ _ F Hinv); intros x Hx end end);
    try (apply calm_ret; exact H).
  (* lib.rs *)
  - cb; [apply apply_setter_calm|]. intros p _. apply calm_ret. exact H.
  - apply calm_ret, Hst, Robust.push_Forall; [exact HS|exact Hx].
  - cb; [apply update_calm, Hx|]. intros st Hs. apply calm_ret, Hst, Robust.upd_Forall; [exact HS|exact Hs].
  - unfold write_t. apply (calm_bind (fun p => pst (fst p))).
    { cb; [apply update_calm, Hx|]. intros st Hs. apply calm_ret. exact Hs. }
    intros (st, n) Hs. apply calm_ret, Hst, Robust.upd_Forall; [exact HS|exact Hs].
  - apply (calm_bind pst); [apply calm_lift; intros a E; injection E as <-; exact Hx|].
    intros st Hs. apply calm_ret, Hst, Robust.upd_Forall; [exact HS|exact Hs].
  - apply calm_ret, Hst, Robust.upd_Forall; [exact HS|exact Hx].
  - apply calm_ret, Hst, Robust.upd_Forall; [exact HS|reflexivity].
  - cb; [apply finalize_calm, Hx|]. intros (st, h) Hs. cbn [fst] in Hs.
    apply give_hash_calm, Hst, Robust.upd_Forall; [exact HS|exact Hs].
  - cb; [apply as_bytes_calm|]. intros b _. apply calm_ret. exact H.
  - cb; [apply to_hex_calm|]. intros b _. apply calm_ret. exact H.
  - unfold hash_debug_t. apply (calm_bind any).
    { cb; [apply to_hex_calm|]. intros b _. apply calm_ret. exact I. }
    intros t _. apply calm_ret. exact H.
  - apply (at_obj_calm _ _ _ _ _ _ HH Hinv). intros y _. unfold hash_eq_t. apply (calm_bind any).
    { cb; [apply as_bytes_calm|]; intros a _. cb; [apply as_bytes_calm|]; intros b _. apply ct_eq_calm. }
    intros b _. apply calm_ret. exact H.
  - unfold hash_eq_slice_t. apply (calm_bind any).
    { cb; [apply as_bytes_calm|]; intros a _. apply ct_eq_calm. }
    intros b _. apply calm_ret. exact H.
  (* blake2sp.rs *)
  - cb; [apply sp_apply_setter_calm|]. intros p _. apply calm_ret. exact H.
  - apply calm_ret, Hss, Robust.push_Forall; [exact HT|exact Hx].
  - cb; [apply sp_update_calm, Hx|]. intros st Hs. apply calm_ret, Hss, Robust.upd_Forall; [exact HT|exact Hs].
  - unfold sp_write_t. apply (calm_bind (fun p => psp (fst p))).
    { cb; [apply sp_update_calm, Hx|]. intros st Hs. apply calm_ret. exact Hs. }
    intros (st, n) Hs. apply calm_ret, Hss, Robust.upd_Forall; [exact HT|exact Hs].
  - apply (calm_bind psp); [apply calm_lift; intros a E; injection E as <-; exact Hx|].
    intros st Hs. apply calm_ret, Hss, Robust.upd_Forall; [exact HT|exact Hs].
  - cb; [apply sp_count_calm|]. intros n _. apply calm_ret. exact H.
  - unfold sp_state_debug_t. apply (calm_bind any).
    { cb; [apply sp_count_calm|]. intros n _. apply calm_ret. exact I. }
    intros t _. apply calm_ret. exact H.
  - apply calm_ret, Hss, Robust.upd_Forall; [exact HT|]. split; [|split; reflexivity].
    intros l. cbn [sp_force_portable sp_leaves]. rewrite proj_map. reflexivity.
  - cb; [apply sp_finalize_calm, Hx|]. intros h _. apply give_hash_calm. exact H.
Qed.
Lemma trace_cons o ops s : calm any (step_t c s o) ->
  (forall s' x, result (step_t c s o) = Ok (s', x) -> Forall portable_event (trace c s' ops)) ->
  Forall portable_event (trace c s (o :: ops)).
Proof.
  intros (H1 & _) H2. cbn [trace]. destruct (step_t c s o) as [l [[s' x]| | |]]; cbn [events fst result snd] in *; try exact H1.
  apply Forall_app. split; [exact H1|]. exact (H2 _ _ eq_refl).
Qed.
Lemma trace_calm ops : forall s, pses s -> existsb dispatches ops = false -> Forall portable_event (trace c s ops).
Proof.
  induction ops as [|o ops IH]; intros s H Hd; [constructor|]. cbn [existsb] in Hd. apply Bool.orb_false_iff in Hd as (Hd & Hds).
  destruct (step_calm s o H Hd) as (H1 & H2). apply trace_cons; [split; [exact H1|exact (fun _ _ => I)]|].
  intros s' x E. apply IH; [exact (H2 _ E)|exact Hds].
Qed.

(** A state that is made and then forced. *)
Lemma creation_calm s o : creates o = true -> calm any (step_t c s o).
Proof.
  intros Hd.
  assert (HP : Forall any (s_params s)) by apply any_list. assert (HQ : Forall any (s_sparams s)) by apply any_list.
  assert (Hinv : calm any (ret (s, OInvalid))) by (apply calm_ret; exact I).
  destruct o; try discriminate Hd; cbn [step_t]; cbv zeta;
    try (lazymatch goal with |- calm _ (at_obj ?l _ _ _) =>
           match goal with F : Forall _ l |- _ => apply (at_obj_calm _ _ _ _ _ _ F Hinv); intros x Hx end end);
    [cb; [apply with_params_calm|]|cb; [apply with_params_calm|]|cb; [apply sp_with_params_calm|]|cb; [apply sp_with_params_calm|]];
    intros st _; apply calm_ret; exact I.
Qed.
End Config.

Lemma all_runs R l : Forall (run_event R) l -> Forall R (runs l).
Proof.
  induction 1 as [|e l He _ IH]; [constructor|]. unfold runs in *. cbn [flat_map]. destruct e; try exact IH.
  constructor; [exact He|exact IH].
Qed.
Theorem portable_programs : forall c s ops, Forall portable_state (s_states s) -> Forall portable_sstate (s_sstates s) ->
  existsb dispatches ops = false -> Forall (fun r => portable_routine r = true) (runs (trace c s ops)).
Proof. intros c s ops H1 H2 Hd. apply all_runs, trace_calm; [exact (fun _ H => H)|split; assumption|exact Hd]. Qed.
Theorem creation_runs_nothing : forall c s o, creates o = true -> runs (events (step_t c s o)) = [].
Proof.
  intros c s o H. destruct (creation_calm c (fun _ => False) s o H) as (E & _). apply all_runs in E.
  destruct (runs (events (step_t c s o))) as [|r l]; [reflexivity|]. inversion E. contradiction.
Qed.

Lemma upd_last {A} (P : A -> Prop) (l : list A) x y : Forall P l -> P y -> Forall P (upd (l ++ [x]) (length l) y).
Proof.
  intros H Hy. induction H as [|z l Hz _ IH]; cbn [length app upd]; [repeat constructor; exact Hy|].
  constructor; assumption.
Qed.
Lemma nth_error_last {A} (l : list A) x : nth_error (l ++ [x]) (length l) = Some x.
Proof. induction l as [|z l IH]; [reflexivity|exact IH]. Qed.
Lemma made_state (x : traced State) s s1 v :
  result (st <~ x ;; ret (with_states s (s_states s ++ [st]), ONone)) = Ok (s1, v) ->
  exists st, s1 = with_states s (s_states s ++ [st]).
Proof.
  destruct x as [l [st| | |]]; intros E; [|discriminate E|discriminate E|discriminate E].
  injection E as <- _. exists st. reflexivity.
Qed.
Lemma made_sstate (x : traced SpState) s s1 v :
  result (st <~ x ;; ret (with_sstates s (s_sstates s ++ [st]), ONone)) = Ok (s1, v) ->
  exists st, s1 = with_sstates s (s_sstates s ++ [st]).
Proof.
  destruct x as [l [st| | |]]; intros E; [|discriminate E|discriminate E|discriminate E].
  injection E as <- _. exists st. reflexivity.
Qed.
Lemma step_StateNew c s : step_t c s StateNew =
  (st <~ with_params_t c Params_default ;; ret (with_states s (s_states s ++ [st]), ONone)).
Proof. reflexivity. Qed.
Lemma step_ToState c s i : step_t c s (ToState i) = at_obj (s_params s) i (ret (s, OInvalid)) (fun p =>
  st <~ with_params_t c p ;; ret (with_states s (s_states s ++ [st]), ONone)).
Proof. reflexivity. Qed.
Lemma step_SpStateNew c s : step_t c s SpStateNew =
  (st <~ sp_with_params_t c SpParams_default ;; ret (with_sstates s (s_sstates s ++ [st]), ONone)).
Proof. reflexivity. Qed.
Lemma step_SpToState c s i : step_t c s (SpToState i) = at_obj (s_sparams s) i (ret (s, OInvalid)) (fun p =>
  st <~ sp_with_params_t c p ;; ret (with_sstates s (s_sstates s ++ [st]), ONone)).
Proof. reflexivity. Qed.
Lemma creation_step c s o s1 v : creates o = true -> result (step_t c s o) = Ok (s1, v) ->
  (exists st, s1 = with_states s (s_states s ++ [st]) /\ force_newest s o = ForcePortable (length (s_states s))) \/
  (exists st, s1 = with_sstates s (s_sstates s ++ [st]) /\ force_newest s o = SpForcePortable (length (s_sstates s))) \/
  s1 = s.
Proof.
  intros Ho E. destruct o; try discriminate Ho.
  - rewrite step_StateNew in E. left. apply made_state in E as (st & E). exists st. split; [exact E|reflexivity].
  - rewrite step_ToState in E. unfold at_obj in E. destruct (nth_error (s_params s) i) as [p|].
    + left. apply made_state in E as (st & E). exists st. split; [exact E|reflexivity].
    + right. right. injection E as <- _. reflexivity.
  - rewrite step_SpStateNew in E. right. left. apply made_sstate in E as (st & E). exists st. split; [exact E|reflexivity].
  - rewrite step_SpToState in E. unfold at_obj in E. destruct (nth_error (s_sparams s) i) as [p|].
    + right. left. apply made_sstate in E as (st & E). exists st. split; [exact E|reflexivity].
    + right. right. injection E as <- _. reflexivity.
Qed.
Lemma force_step c s st :
  step_t c (with_states s (s_states s ++ [st])) (ForcePortable (length (s_states s))) =
  ret (with_states s (upd (s_states s ++ [st]) (length (s_states s)) (force_portable st)), ONone).
Proof. cbn [step_t]. unfold at_obj. cbn [with_states s_states]. rewrite nth_error_last. reflexivity. Qed.
Lemma sp_force_step c s st :
  step_t c (with_sstates s (s_sstates s ++ [st])) (SpForcePortable (length (s_sstates s))) =
  ret (with_sstates s (upd (s_sstates s ++ [st]) (length (s_sstates s)) (sp_force_portable st)), ONone).
Proof. cbn [step_t]. unfold at_obj. cbn [with_sstates s_sstates]. rewrite nth_error_last. reflexivity. Qed.
Theorem forced_at_once : forall c s o rest,
  Forall portable_state (s_states s) -> Forall portable_sstate (s_sstates s) ->
  creates o = true -> existsb dispatches rest = false ->
  Forall (fun r => portable_routine r = true) (runs (trace c s (o :: force_newest s o :: rest))).
Proof.
  intros c s o rest H1 H2 Ho Hd. apply all_runs.
  assert (HR : forall r, portable_routine r = true -> portable_routine r = true) by (exact (fun _ H => H)).
  apply trace_cons; [apply creation_calm, Ho|]. intros s1 x1 E1.
  destruct (creation_step _ _ _ _ _ Ho E1) as [(st & -> & ->) | [(st & -> & ->) | ->]].
  - apply trace_cons; rewrite force_step; [apply calm_ret; exact I|].
    intros s2 x2 E2. injection E2 as <- _. apply trace_calm; [exact HR| |exact Hd]. split; [|exact H2].
    cbn [with_states s_states]. apply upd_last; [exact H1|reflexivity].
  - apply trace_cons; rewrite sp_force_step; [apply calm_ret; exact I|].
    intros s2 x2 E2. injection E2 as <- _. apply trace_calm; [exact HR| |exact Hd]. split; [exact H1|].
    cbn [with_sstates s_sstates]. apply upd_last; [exact H2|]. split; [|split; reflexivity].
    intros l. cbn [sp_force_portable sp_leaves]. rewrite proj_map. reflexivity.
  - apply trace_calm; [exact HR|split; assumption|]. cbn [existsb]. rewrite Hd. unfold force_newest. destruct o; reflexivity.
Qed.

(** [update8] and [finalize8] take their functions from the CPU. *)
From Verif Require Import Witness.
Definition forced8 : session :=
  match State_new debug_avx2 with
  | Ok st => with_states empty_session (repeat (force_portable st) 8)
  | _ => empty_session
  end.
Theorem update8_not_portable : exists c s i inputs, cfg_ok c /\
  Forall portable_state (s_states s) /\ s_sstates s = [] /\
  ~ Forall (fun r => portable_routine r = true) (runs (trace c s [Update8 i inputs; Finalize8 i])).
Proof.
  exists debug_avx2, forced8, (Oct 0 1 2 3 4 5 6 7)%nat, (oct_const (ramp 100)).
  split; [intros _; reflexivity|]. split; [vm_compute; repeat constructor|]. split; [reflexivity|].
  assert (E : forallb portable_routine (runs (trace debug_avx2 forced8
    [Update8 (Oct 0 1 2 3 4 5 6 7)%nat (oct_const (ramp 100)); Finalize8 (Oct 0 1 2 3 4 5 6 7)%nat])) = false)
    by (vm_compute; reflexivity).
  set (r := runs _) in *.
  intros H. rewrite (proj2 (forallb_forall portable_routine r)) in E; [discriminate E|]. exact (proj1 (Forall_forall _ _) H).
Qed.
