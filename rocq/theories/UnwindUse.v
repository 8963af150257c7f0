(** * UnwindUse: what caught panics leave behind. *)
From Verif Require Import Base BaseFacts Consts Portable PortableFacts SpecFacts Params ParamsSpec ParamsFacts State StateFacts
  Many Blake2sp Debug Views Machine MachineSpec Safety Clients Refine ManyFacts SpFacts SpLate Behave Corollaries Unwind UnwindFacts.
From Verif Require Spec.
From Coq Require Import ZArith Lia ZifyBool ZifyNat ZifyN.
Local Open Scope N_scope.

Lemma forget_Ok {S A} (r : ended S A) s a : forget r = Ok (s, a) -> r = Returned s a.
Proof. destruct r; intros H; cbn in H; congruence. Qed.
Lemma forget_Panic {S A} (r : ended S A) : forget r = Panic -> exists s, r = Unwound s.
Proof. destruct r; intros H; cbn in H; try congruence. eauto. Qed.

(** ** Setters *)
Lemma setter_unwinds s p p' : setter_u s p = Unwound p' -> p' = p.
Proof.
  destruct s; cbn [setter_u]; try discriminate;
  unfold hash_length_u, key_u, salt_u, personal_u, max_depth_u, node_offset_u, inner_hash_length_u, andthen, eval, assign, this;
  match goal with |- context [if ?b then Ok tt else Panic] => destruct b eqn:Eb end; intros H; try congruence;
  unfold KEYBYTES, SALTBYTES, PERSONALBYTES in *; apply Nat.leb_le in Eb;
  cbn [p_key p_salt p_personal put_key put_salt put_personal put_key_length] in H; rewrite copy_pad in H by exact Eb; discriminate H.
Qed.
Lemma sp_setter_unwinds s p p' : sp_setter_u s p = Unwound p' -> p' = p.
Proof.
  destruct s; cbn [sp_setter_u]; unfold sp_hash_length_u, sp_key_u, andthen, eval, assign, this;
  match goal with |- context [if ?b then Ok tt else Panic] => destruct b eqn:Eb end; intros H; try congruence;
  unfold KEYBYTES in *; apply Nat.leb_le in Eb; cbn [sp_key put_sp_key put_sp_key_length] in H;
  rewrite copy_pad in H by exact Eb; discriminate H.
Qed.

Lemma persist_setters l : forall p sp ln, encodes p sp ln ->
  exists p', persist setter_u p l = Some p' /\ apply_setters p (filter valid_setter l) = Ok p'.
Proof.
  induction l as [|s l IH]; intros p sp ln E; [exists p; split; reflexivity|]. cbn [persist filter].
  pose proof (forget_setter s p) as F. unfold plain in F. destruct (valid_setter s) eqn:V.
  - destruct (apply_setter_ok p sp ln s E V) as (p1 & E1 & Enc). rewrite E1 in F. cbn [bind] in F.
    rewrite (forget_Ok _ _ _ F). cbn [apply_setters]. rewrite E1. cbn [bind]. eapply IH, Enc.
  - rewrite (apply_setter_panic p s V) in F. cbn [bind] in F. destruct (forget_Panic _ F) as (q & Eq). rewrite Eq.
    rewrite (setter_unwinds _ _ _ Eq). eapply IH, E.
Qed.
Theorem caught_setters l : exists p, persist setter_u Params_new l = Some p /\ build (filter valid_setter l) = Ok p.
Proof. apply (persist_setters l _ _ _ encodes_default). Qed.
Lemma persist_sp_setters l : forall p d k, sp_encodes p d k ->
  exists p', persist sp_setter_u p l = Some p' /\ sp_apply_setters p (filter sp_setter_ok l) = Ok p'.
Proof.
  induction l as [|s l IH]; intros p d k E; [exists p; split; reflexivity|]. cbn [persist filter].
  pose proof (forget_sp_setter s p) as F. unfold plain in F. destruct (sp_setter_ok s) eqn:V.
  - destruct (sp_apply_setter_ok p d k s E V) as (p1 & E1 & Enc). rewrite E1 in F. cbn [bind] in F.
    rewrite (forget_Ok _ _ _ F). cbn [sp_apply_setters]. rewrite E1. cbn [bind]. eapply IH, Enc.
  - rewrite (sp_apply_setter_panic p s V) in F. cbn [bind] in F. destruct (forget_Panic _ F) as (q & Eq). rewrite Eq.
    rewrite (sp_setter_unwinds _ _ _ Eq). eapply IH, E.
Qed.
Theorem caught_sp_setters l : exists p, persist sp_setter_u SpParams_new l = Some p /\ sp_build (filter sp_setter_ok l) = Ok p.
Proof. apply (persist_sp_setters l _ _ _ sp_encodes_default). Qed.

(** ** Programs *)
Lemma upd_same {A} (l : list A) i x : nth_error l i = Some x -> upd l i x = l.
Proof.
  revert i. induction l as [|a l IH]; intros [|i] H; cbn in *; try discriminate H.
  - injection H as ->. reflexivity.
  - f_equal. apply IH, H.
Qed.
Lemma rejected_unwinds c s o s' : rejects s o = true -> step_u c o s = Unwound s' -> s' = s.
Proof.
  intros R H. destruct o; cbn [rejects] in R; try discriminate R; cbn [step_u] in H.
  - unfold on_object, at_obj, within, andthen in *. destruct (nth_error (s_params s) i) as [p|] eqn:En; [|discriminate R].
    destruct (setter_u s0 p) as [?|q| |] eqn:E; try discriminate H. injection H as <-.
    rewrite (setter_unwinds _ _ _ E), (upd_same _ _ _ En). destruct s; reflexivity.
  - destruct (step c s _) as [[? ?]| | |]; congruence.
  - destruct (step c s _) as [[? ?]| | |]; congruence.
  - destruct (step c s _) as [[? ?]| | |]; congruence.
  - unfold on_object, at_obj, within, andthen in *. destruct (nth_error (s_sparams s) i) as [p|] eqn:En; [|discriminate R].
    destruct (sp_setter_u s0 p) as [?|q| |] eqn:E; try discriminate H. injection H as <-.
    rewrite (sp_setter_unwinds _ _ _ E), (upd_same _ _ _ En). destruct s; reflexivity.
Qed.

Lemma after_app c : forall l s t l', after c s l = Some t -> after c s (l ++ l') = after c t l'.
Proof.
  induction l as [|o l IH]; intros s t l' H; cbn [after app] in *; [congruence|].
  destruct (step c s o) as [[s1 x]| | |]; try discriminate H. apply IH, H.
Qed.

(** A class of programs in which only the documented checks panic. *)
Definition tame (c : cfg) (good : list op -> Prop) : Prop :=
  (forall a o b, good (a ++ o :: b) -> good (a ++ b)) /\
  forall ops s o, good (ops ++ [o]) -> after c empty_session ops = Some s ->
    (step c s o = Panic <-> rejects s o = true) /\ (rejects s o = false -> exists s' x, step c s o = Ok (s', x)).
Lemma tame_prefix c good a : tame c good -> forall b, good (a ++ b) -> good a.
Proof.
  intros (H & _). induction b as [|o b IH]; intros G; [rewrite app_nil_r in G; exact G|]. apply IH. eapply H, G.
Qed.
Lemma caught_tame c good : tame c good -> forall ops past s, good (past ++ ops) -> after c empty_session past = Some s ->
  length (caught c s ops) = length ops /\
  run c s (kept (caught c s ops) ops) = (somes (caught c s ops), Done).
Proof.
  intros T. induction ops as [|o ops IH]; intros past s G A; [split; reflexivity|].
  assert (G1 : good (past ++ [o])).
  { apply (tame_prefix c good _ T ops). rewrite <- app_assoc. exact G. }
  destruct (proj2 T past s o G1 A) as (P & Q). pose proof (forget_step c o s) as F. cbn [caught].
  destruct (rejects s o) eqn:R.
  - rewrite (proj2 P eq_refl) in F. destruct (forget_Panic _ F) as (t & E). rewrite E.
    rewrite (rejected_unwinds c s o t R E). cbn [length kept somes].
    destruct (IH past s) as (I1 & I2); [eapply (proj1 T), G|exact A|]. split; [congruence|exact I2].
  - destruct (Q eq_refl) as (t & x & E). rewrite E in F. rewrite (forget_Ok _ _ _ F). cbn [length kept somes run].
    rewrite E. destruct (IH (past ++ [o]) t) as (I1 & I2).
    { rewrite <- app_assoc. exact G. }
    { rewrite (after_app _ _ _ _ _ A). cbn [after]. rewrite E. reflexivity. }
    split; [congruence|]. rewrite I2. reflexivity.
Qed.

Lemma total_bytes_app a b : total_bytes (a ++ b) = total_bytes a + total_bytes b.
Proof. unfold total_bytes. induction a as [|x a IH]; cbn [app fold_right]; [lia|]. rewrite IH. lia. Qed.
Theorem caught_bounded c ops : cfg_ok c -> existsb sets_sp_key ops = false -> total_bytes ops + 64 < 2 ^ 64 ->
  let seen := caught c empty_session ops in
  length seen = length ops /\ run c empty_session (kept seen ops) = (somes seen, Done).
Proof.
  intros Hc Hk Ht. apply (caught_tame c (fun l => existsb sets_sp_key l = false /\ total_bytes l + 64 < 2 ^ 64)) with (past := []);
    [|auto|reflexivity]. split.
  - intros a o b (H1 & H2). rewrite existsb_app in *. cbn [existsb] in H1. rewrite total_bytes_app in *.
    cbn [total_bytes fold_right] in H2. fold (total_bytes b) in H2. split; [|lia].
    apply orb_false_iff in H1 as (-> & H1). apply orb_false_iff in H1 as (_ & ->). reflexivity.
  - intros l s o (H1 & H2) A. apply (bounded_panics c l s o Hc H1 H2 A).
Qed.
Theorem caught_release c ops : cfg_ok c -> overflow_checks c = false -> debug_assertions c = false -> Forall mem_ok ops ->
  let seen := caught c empty_session ops in
  length seen = length ops /\ run c empty_session (kept seen ops) = (somes seen, Done).
Proof.
  intros Hc Ho Hd Hm. apply (caught_tame c (Forall mem_ok)) with (past := []); [|exact Hm|reflexivity]. split.
  - intros a o b H. apply Forall_app in H as (H1 & H2). inversion H2; subst. apply Forall_app; auto.
  - intros l s o H A. apply (release_panics c l s o Hc Ho Hd H A).
Qed.

(** ** An update that overflows the counter *)
Lemma step_eval {S A B} (e : outcome A) a (f : A -> act S B) s : e = Ok a -> andthen (eval e) f s = f a s.
Proof. intros ->. reflexivity. Qed.
Lemma step_done {S A B} (x : act S A) a s s' (f : A -> act S B) : x s = Returned s' a -> andthen x f s = f a s'.
Proof. unfold andthen. intros ->. reflexivity. Qed.
Lemma step_cut {S A B} (x : act S A) s s' (f : A -> act S B) : x s = Unwound s' -> andthen x f s = Unwound s'.
Proof. unfold andthen. intros ->. reflexivity. Qed.

Lemma fill_buf_cut c h0 D k st input : Rep c h0 D k st ->
  let take := Nat.min (64 - (length D - 64 * k)) (length input) in
  let D' := D ++ firstn take input in
  ~ fits c (N.of_nat (length D')) ->
  exists st', fill_buf_u c input st = Unwound st' /\ same_meta st st' /\ st_h st' = st_h st /\ st_count st' = st_count st /\
    length D' = (64 * k + 64)%nat /\ N.of_nat (length D') = 2 ^ 64 /\
    buflen_nat st' = 64%nat /\ st_buf st' = skipn (64 * k) D'.
Proof.
  intros R take D' Hf. destruct R as [rep_h0 rep_lo0 rep_hi0 rep_buf_length0 rep_buflen0 rep_buf0 rep_count0 rep_fits0 rep_fn0].
  assert (Hlf : length (firstn take input) = take) by (rewrite firstn_length; lia).
  assert (HD' : length D' = (length D + take)%nat) by (unfold D'; rewrite app_length; lia).
  destruct (count_add c (st_count st) (length D) take rep_fits0 ltac:(lia) rep_count0) as [_ Cpan].
  assert (Ho : overflow_checks c = true).
  { destruct (overflow_checks c) eqn:Ho; [reflexivity|]. contradiction Hf. intros Hx. congruence. }
  assert (H64 : 2 ^ 64 <= N.of_nat (length D')).
  { destruct (N.lt_ge_cases (N.of_nat (length D')) (2 ^ 64)); [|assumption]. contradiction Hf. intros _. assumption. }
  pose proof (rep_fits0 Ho) as Hlt. change (2 ^ 64) with 18446744073709551616 in *.
  assert (H0 : (exists q, 64 * q = 18446744073709551616)) by (exists 288230376151711744; reflexivity).
  assert (Hfull : length D' = (64 * k + 64)%nat) by (destruct H0 as (q & Hq); lia).
  assert (Etake : (length D - 64 * k + take = 64)%nat) by lia.
  unfold fill_buf_u. unfold this at 1. unfold andthen at 1. rewrite rep_buflen0.
  rewrite (step_eval _ _ _ _ (nsub_ok c BLOCKBYTES (length D - 64 * k)%nat ltac:(unfold BLOCKBYTES; lia))). cbv zeta.
  unfold BLOCKBYTES. fold take.
  rewrite (step_eval _ _ _ _ (slice_to_ok input take ltac:(lia))).
  rewrite (step_eval _ _ _ _ (copy_into_ok (st_buf st) (firstn take input) (length D - 64 * k) (length D - 64 * k + take)
    ltac:(lia) ltac:(lia) ltac:(lia))).
  match goal with |- context [set_buf _ ?b] => assert (Ebuf : b = skipn (64 * k) D') end.
  { rewrite Etake, skipn_all2, app_nil_r by lia. unfold D'. rewrite skipn_app_le by lia. rewrite <- rep_buf0. reflexivity. }
  rewrite Ebuf.
  assert (Eb : uadd c (st_buflen st) (of_N 8 (N.of_nat take)) = Ok (of_N 8 64)).
  { assert (Em : val (of_N 8 (N.of_nat take)) = N.of_nat take).
    { apply val_of_N_small. change (2 ^ 8) with 256. lia. }
    rewrite uadd_ok.
    - f_equal. rewrite Em, (val_buflen st _ rep_buflen0). f_equal. lia.
    - intros _. rewrite Em, (val_buflen st _ rep_buflen0). change (2 ^ 8) with 256. lia. }
  unfold assign. unfold andthen at 1. rewrite (step_eval _ _ _ _ Eb). unfold andthen at 1.
  rewrite <- HD' in Cpan.
  rewrite (Cpan Hf). unfold eval at 1, andthen at 1. eexists. split; [reflexivity|]. split; [repeat split|]. split; [reflexivity|].
  split; [reflexivity|]. split; [exact Hfull|]. split; [destruct H0 as (q & Hq); lia|]. split; reflexivity.
Qed.

(** What the unwound update leaves: [K] blocks are compressed, [64 * K + 64 = 2^64]. *)
Definition cut (h0 : list N) (D x : list byte) (K : nat) (st' : State) : Prop :=
  64 * N.of_nat K + 64 = 2 ^ 64 /\ nums (st_h st') = Spec.chain h0 (D ++ x) K /\
  val (st_count st') = N.max (N.of_nat (length D)) (64 * N.of_nat K) /\ length (st_buf st') = 64%nat /\
  if (64 * N.of_nat K <? N.of_nat (length D)) || (N.of_nat (length (D ++ x)) =? 2 ^ 64)
  then buflen_nat st' = 64%nat /\ st_buf st' = Spec.block (D ++ x) K
  else buflen_nat st' = 0%nat.

Lemma update_loop_next fuel c input st n : (64 < length input)%nat ->
  uadd c (st_count st) (of_N 64 (N.of_nat 64)) = Ok n -> fn_ok c (st_compress_fn st) ->
  update_loop_u (S fuel) c input st = update_loop_u fuel c (skipn 64 input)
    {| st_h := Portable.compress (st_h st) (firstn 64 input) n (uzero 32) (uzero 32);
       st_buf := st_buf st; st_buflen := st_buflen st; st_count := n;
       st_compress_fn := st_compress_fn st; st_last_node := st_last_node st;
       st_hash_length := st_hash_length st |}.
Proof.
  intros El En Hfn. cbn [update_loop_u]. unfold BLOCKBYTES. rewrite (proj2 (Nat.ltb_lt _ _) El).
  assert (Eb : bump_count_u c st = Returned (set_count st n) tt).
  { unfold bump_count_u, andthen, this, eval, assign, BLOCKBYTES. rewrite En. reflexivity. }
  rewrite (step_done _ _ _ _ _ Eb).
  rewrite (step_eval _ _ _ _ (array_ref_ok input 0 64 ltac:(lia))). cbn [skipn].
  assert (HB : length (firstn 64 input) = 64%nat) by (rewrite firstn_length; lia).
  unfold this at 1. unfold andthen at 1. cbn [set_count st_compress_fn st_h st_count].
  rewrite (step_eval _ _ _ _ (call_compress_ok c _ _ _ _ _ _ Hfn HB)).
  unfold assign. unfold andthen at 1.
  rewrite (step_eval _ _ _ _ (slice_from_ok input 64 ltac:(lia))). reflexivity.
Qed.
Lemma update_loop_cut c h0 fuel : forall D k st input, Rep c h0 D k st ->
  length D = (64 * k)%nat -> (length input < fuel)%nat -> ~ fits c (N.of_nat (length D + length input)) ->
  (exists st' K, update_loop_u fuel c input st = Unwound st' /\ same_meta st st' /\ 64 * N.of_nat K + 64 = 2 ^ 64 /\
     nums (st_h st') = Spec.chain h0 (D ++ input) K /\ val (st_count st') = 64 * N.of_nat K /\
     length (st_buf st') = 64%nat /\ buflen_nat st' = 0%nat /\ (length D <= 64 * K)%nat /\
     2 ^ 64 < N.of_nat (length D + length input)) \/
  exists used rest st' k', update_loop_u fuel c input st = Returned st' rest /\ input = used ++ rest /\
    Rep c h0 (D ++ used) k' st' /\ same_meta st st' /\ length (D ++ used) = (64 * k')%nat /\ (length rest <= 64)%nat.
Proof.
  induction fuel as [|fuel IH]; intros D k st input R HD Hfuel Hf; [lia|].
  destruct (Nat.ltb 64 (length input)) eqn:El.
  2: { cbn [update_loop_u]. unfold BLOCKBYTES. rewrite El. apply Nat.ltb_ge in El. right. exists [], input, st, k. rewrite app_nil_r. auto 10 using same_meta_refl. }
  apply Nat.ltb_lt in El. pose proof R as R'. destruct R' as [rep_h0 rep_lo0 rep_hi0 rep_buf_length0 rep_buflen0 rep_buf0 rep_count0 rep_fits0 rep_fn0].
  destruct (count_add c (st_count st) (length D) 64 rep_fits0 ltac:(lia) rep_count0) as [Cok Cpan].
  destruct (fits_dec c (N.of_nat (length D + 64))) as [Hf1|Hf1].
  2: { left. assert (Eb : bump_count_u c st = Unwound st).
       { unfold bump_count_u, andthen, this, eval, BLOCKBYTES. rewrite (Cpan Hf1). reflexivity. }
       cbn [update_loop_u]. unfold BLOCKBYTES at 1. rewrite (proj2 (Nat.ltb_lt _ _) El), (step_cut _ _ _ _ Eb). exists st, k. split; [reflexivity|]. split; [apply same_meta_refl|].
       assert (Ho : overflow_checks c = true).
       { destruct (overflow_checks c) eqn:Ho; [reflexivity|]. contradiction Hf1. intros Hx. congruence. }
       assert (H64 : 2 ^ 64 <= N.of_nat (length D + 64)).
       { destruct (N.lt_ge_cases (N.of_nat (length D + 64)) (2 ^ 64)); [|assumption]. contradiction Hf1. intros _. assumption. }
       pose proof (rep_fits0 Ho) as Hlt.
       assert (HK : 64 * N.of_nat k + 64 = 2 ^ 64).
       { change (2 ^ 64) with 18446744073709551616 in *.
         assert (H0 : (exists q, 64 * q = 18446744073709551616)) by (exists 288230376151711744; reflexivity).
         destruct H0 as (q & Hq). lia. }
       split; [exact HK|]. split; [rewrite chain_app by lia; exact rep_h0|].
       split; [rewrite rep_count0, N.mod_small by exact Hlt; lia|]. split; [exact rep_buf_length0|].
       split; [lia|]. split; lia. }
  assert (HB : length (firstn 64 input) = 64%nat) by (rewrite firstn_length; lia).
  rewrite (update_loop_next fuel c input st _ El (Cok Hf1) rep_fn0).
  pose proof (Rep_block c h0 D k st (firstn 64 input) (of_N 64 (N.of_nat (length D + 64))) R HD HB (val_of_N _ _) Hf1) as R2.
  assert (HL : length (D ++ firstn 64 input) = (64 * S k)%nat) by (rewrite app_length; lia).
  match type of R2 with Rep _ _ _ _ ?s => set (st2 := s) in * end.
  assert (EL : (length (D ++ firstn 64 input) + length (skipn 64 input) = length D + length input)%nat).
  { rewrite HL, skipn_length. lia. }
  destruct (IH _ _ st2 (skipn 64 input) R2 HL ltac:(rewrite skipn_length; lia) ltac:(rewrite EL; exact Hf))
    as [(st' & K & H1 & H2 & H3 & H4 & H5 & H6 & H7 & H8 & H9)|(used & rest & st' & k' & H1 & H2 & H3 & H4 & H5 & H6)].
  - left. exists st', K. rewrite <- app_assoc, firstn_skipn in H4. rewrite EL in H9.
    split; [exact H1|]. split; [eapply same_meta_trans; [|exact H2]; repeat split|]. rewrite app_length in H8.
    repeat (split; [assumption || lia|]). assumption.
  - right. exists (firstn 64 input ++ used), rest, st', k'. rewrite app_assoc.
    split; [exact H1|]. split; [rewrite <- app_assoc, <- H2; symmetry; apply firstn_skipn|]. split; [exact H3|].
    split; [eapply same_meta_trans; [|exact H4]; repeat split|]. auto.
Qed.

Lemma compress_buffer_meta c st x st' r : compress_buffer_if_possible c st x = Ok (st', r) -> same_meta st st'.
Proof.
  unfold compress_buffer_if_possible. destruct (0 <? val (st_buflen st)); [|intros E; injection E as <- <-; apply same_meta_refl].
  destruct (fill_buf c st x) as [[s1 y]| | |] eqn:F; cbn [bind]; try discriminate.
  assert (M : same_meta st s1).
  { unfold fill_buf in F. cbv zeta in F.
    repeat (match type of F with bind ?e _ = _ => destruct e; cbn [bind] in F; try discriminate F end).
    injection F as <- <-. repeat split. }
  destruct y as [|y0 y]; [intros E; injection E as <- <-; exact M|].
  destruct (call_compress c _ _ _ _ _ _); cbn [bind]; try discriminate. intros E. injection E as <- <-.
  eapply same_meta_trans; [exact M|]. repeat split.
Qed.
Theorem update_cut c h0 D k st x : Rep c h0 D k st -> ~ fits c (N.of_nat (length D + length x)) ->
  exists st' K, update_u c x st = Unwound st' /\ same_meta st st' /\ cut h0 D x K st'.
Proof.
  intros R Hf. unfold update_u.
  assert (P : (exists st' K, compress_buffer_if_possible_u c x st = Unwound st' /\ same_meta st st' /\ cut h0 D x K st') \/
    exists used rest st' k', compress_buffer_if_possible_u c x st = Returned st' rest /\ x = used ++ rest /\
      Rep c h0 (D ++ used) k' st' /\ same_meta st st' /\ length (D ++ used) = (64 * k')%nat).
  { destruct (compress_buffer_ok c h0 D k st x R) as [_ [Bp|(used & rest & st' & k' & E & H1 & H2 & H3)]]; [exact Hf| |].
    - left. pose proof (forget_compress_buffer c x st) as F. rewrite Bp in F.
      unfold compress_buffer_if_possible_u, this in F |- *. unfold andthen at 1 in F. unfold andthen at 1.
      destruct (0 <? val (st_buflen st)) eqn:E0; [|discriminate F].
      apply N.ltb_lt in E0. assert (Hk : (64 * k < length D)%nat).
      { destruct R. unfold buflen_nat in *. lia. }
      destruct (fill_buf_ok c h0 D k st x R) as [Fok _]. pose proof (fill_buf_cut c h0 D k st x R) as Fc. cbv zeta in *.
      set (take := Nat.min (64 - (length D - 64 * k)) (length x)) in *.
      destruct (fits_dec c (N.of_nat (length (D ++ firstn take x)))) as [Hf1|Hf1].
      + exfalso. destruct (Fok Hf1) as (st1 & E1 & R1 & _).
        rewrite <- forget_fill_buf in E1. rewrite (step_done _ _ _ _ _ (forget_Ok _ _ _ E1)) in F.
        destruct (skipn take x) as [|y r]; [discriminate F|]. unfold andthen at 1 in F. cbn [forget] in F.
        rewrite (step_eval _ _ _ _ (call_compress_ok c _ _ _ _ _ _ (rep_fn _ _ _ _ _ R1) (rep_buf_length _ _ _ _ _ R1))) in F.
        discriminate F.
      + destruct (Fc Hf1) as (st' & E1 & M & Eh & Ec & L1 & L2 & L3 & L4). exists st', k.
        rewrite (step_cut _ _ _ _ E1). split; [reflexivity|]. split; [exact M|].
        assert (Ex : D ++ x = (D ++ firstn take x) ++ skipn take x) by (rewrite <- app_assoc, firstn_skipn; reflexivity).
        assert (HK : 64 * N.of_nat k + 64 = 2 ^ 64) by lia.
        unfold cut. split; [exact HK|]. split; [rewrite Eh, chain_app by lia; apply (rep_h _ _ _ _ _ R)|].
        assert (Hlt : N.of_nat (length D) < 2 ^ 64).
        { apply (rep_fits _ _ _ _ _ R). destruct (overflow_checks c) eqn:Ho; [reflexivity|].
          contradiction Hf1. intros Hx. congruence. }
        split; [rewrite Ec, (rep_count _ _ _ _ _ R), N.mod_small by exact Hlt; lia|].
        split; [rewrite L4, skipn_length; lia|].
        destruct (N.ltb_spec (64 * N.of_nat k) (N.of_nat (length D))) as [_|Hx]; [|lia]. cbn [orb].
        split; [exact L3|]. rewrite L4, Ex. rewrite block_app by lia. rewrite block_whole by lia.
        rewrite (firstn_all2 (n := 64)); [reflexivity|]. rewrite skipn_length. lia.
    - right. exists used, rest, st', k'. rewrite <- forget_compress_buffer in E. split; [exact (forget_Ok _ _ _ E)|].
      split; [exact H1|]. split; [exact H2|]. split; [|exact H3].
      rewrite forget_compress_buffer in E. exact (compress_buffer_meta _ _ _ _ _ E). }
  destruct P as [(st' & K & E & M & C)|(used & rest & st1 & k1 & E & Ex & R1 & M1 & L1)].
  { exists st', K. rewrite (step_cut _ _ _ _ E). auto. }
  rewrite (step_done _ _ _ _ _ E).
  assert (Elen : (length (D ++ used) + length rest = length D + length x)%nat) by (rewrite Ex, !app_length; lia).
  assert (Hdu : (length D <= length (D ++ used))%nat) by (rewrite app_length; lia).
  destruct (update_loop_cut c h0 (S (length rest)) _ _ st1 rest R1 L1 ltac:(lia) ltac:(rewrite Elen; exact Hf))
    as [(st' & K & H1 & H2 & H3 & H4 & H5 & H6 & H7 & H8 & H9)|(u2 & r2 & st2 & k2 & H1 & H2 & H3 & H4 & H5 & H6)].
  - exists st', K. rewrite (step_cut _ _ _ _ H1). split; [reflexivity|]. split; [eauto using same_meta_trans|].
    rewrite <- app_assoc, <- Ex in H4. rewrite Elen in H9. unfold cut. split; [exact H3|]. split; [exact H4|].
    split; [rewrite H5; lia|]. split; [exact H6|]. rewrite app_length.
    destruct (N.ltb_spec (64 * N.of_nat K) (N.of_nat (length D))) as [Hx|_]; [lia|].
    destruct (N.eqb_spec (N.of_nat (length D + length x)) (2 ^ 64)) as [Hx|_]; [lia|]. exact H7.
  - rewrite (step_done _ _ _ _ _ H1).
    assert (Etk : Nat.min (64 - (length ((D ++ used) ++ u2) - 64 * k2)) (length r2) = length r2) by lia.
    pose proof (fill_buf_cut c h0 _ k2 st2 r2 H3) as Fc. cbv zeta in Fc. rewrite Etk, firstn_all in Fc.
    assert (ED : ((D ++ used) ++ u2) ++ r2 = D ++ x) by (rewrite Ex, H2, !app_assoc; reflexivity).
    rewrite ED in Fc.
    destruct Fc as (st' & E1 & M & Eh & Ec & L3 & L4 & L5 & L6); [rewrite app_length; exact Hf|].
    exists st', k2. rewrite (step_cut _ _ _ _ E1). split; [reflexivity|]. split; [eauto using same_meta_trans|].
    unfold cut. split; [lia|].
    split; [rewrite Eh, (rep_h _ _ _ _ _ H3), <- ED, (chain_app _ _ r2) by lia; reflexivity|].
    assert (Hdu2 : (length D <= length ((D ++ used) ++ u2))%nat) by (rewrite !app_length; lia).
    split; [rewrite Ec, (rep_count _ _ _ _ _ H3), H5, N.mod_small by lia; lia|].
    split; [rewrite L6, skipn_length; lia|].
    rewrite L4, N.eqb_refl, orb_true_r. split; [exact L5|]. rewrite L6, block_whole by lia.
    rewrite firstn_all2; [reflexivity|]. rewrite skipn_length. lia.
Qed.

Theorem overflow_left c l p pieces st x : cfg_ok c -> build l = Ok p ->
  (s <- to_state c p ;; feed c s pieces) = Ok st ->
  let sp := spec_params l in
  let D := Spec.key_block (Spec.key sp) ++ concat pieces in
  overflow_checks c = true -> 2 ^ 64 <= N.of_nat (length (D ++ x)) ->
  exists st' K st'' h, update_u c x st = Unwound st' /\ 64 * N.of_nat K + 64 = 2 ^ 64 /\
    let full := (64 * N.of_nat K <? N.of_nat (length D)) || (N.of_nat (length (D ++ x)) =? 2 ^ 64) in
    nums (st_h st') = Spec.chain (Spec.initial sp) (D ++ x) K /\
    val (count st') = N.max (N.of_nat (length D)) (64 * N.of_nat K) /\
    buflen_nat st' = (if full then 64 else 0)%nat /\ (full = true -> st_buf st' = Spec.block (D ++ x) K) /\
    finalize c st' = Ok (st'', h) /\
    as_bytes h = Ok (firstn (N.to_nat (Spec.digest_length sp)) (Spec.words_bytes
      (Spec.F (Spec.chain (Spec.initial sp) (D ++ x) K) (if full then Spec.block (D ++ x) K else repeat x00 64)
              (N.max (N.of_nat (length D)) (64 * N.of_nat K)) Spec.ones (if spec_last_node l then Spec.ones else 0)))).
Proof.
  intros Hc Hb Hs sp D Ho Hn. apply build_encodes in Hb as (_ & E). destruct (models_new c p _ _ Hc E) as (s0 & E0 & M).
  rewrite E0 in Hs. cbn [bind] in Hs. change (stands c (new_state l) s0) in M.
  destruct (feed_stands c pieces _ s0 M) as [(s1 & E1 & M1)|(E1 & _)]; [|congruence].
  assert (s1 = st) as -> by congruence. destruct M1 as [V Ml Mh (k & R & _)].
  unfold new_state, add_msg in *. cbn [a_sp a_msg a_last app] in *. fold sp in R, V, Mh. change (stream sp (concat pieces)) with D in R.
  destruct (update_cut c _ D k st x R) as (st' & K & Eu & (M2 & M3 & M4) & C1 & C2 & C3 & C4 & C5).
  { rewrite <- app_length. intros Hf. specialize (Hf Ho). lia. }
  set (full := (64 * N.of_nat K <? N.of_nat (length D)) || (N.of_nat (length (D ++ x)) =? 2 ^ 64)) in *.
  assert (B1 : buflen_nat st' = (if full then 64 else 0)%nat) by (destruct full; [apply C5|exact C5]).
  destruct (finalize_any c st') as (z & Ef); [exact C4|rewrite B1; destruct full; lia|rewrite M2; apply (rep_fn _ _ _ _ _ R)|].
  eexists st', K, z, _. split; [exact Eu|]. split; [exact C1|]. cbv zeta. fold full. split; [exact C2|]. split; [exact C3|]. split; [exact B1|].
  split; [intros Hx; rewrite Hx in C5; apply C5|]. split; [exact Ef|].
  unfold as_bytes. cbn [h_bytes h_len]. rewrite M4, Mh, M3, Ml, C2, C3.
  assert (Eb : Spec.pad 64 (firstn (buflen_nat st') (st_buf st')) = if full then Spec.block (D ++ x) K else repeat x00 64).
  { rewrite B1. destruct full.
    - destruct C5 as (_ & C5). rewrite firstn_all2 by lia. rewrite <- C5. apply pad_full. lia.
    - reflexivity. }
  rewrite Eb. apply slice_to_ok. rewrite words_bytes_32 by apply F_length. destruct V. lia.
Qed.

(** ** Keyed BLAKE2sp with debug assertions *)
Lemma sp_compress8_cut c dlen key B ext st block fn : SpRep c dlen key [] B ext st -> key <> [] ->
  debug_assertions c = true -> sp_compress8_u c block fn (sp_leaves st) = Unwound (sp_leaves st).
Proof.
  intros R Hk Hd. unfold sp_compress8_u, this, andthen, eval, debug_assert. rewrite Hd.
  destruct (oct_all (fun l => 0 =? val (st_buflen l)) (sp_leaves st)) eqn:E; [|reflexivity].
  exfalso. rewrite oct_all_spec in E. specialize (E L0). cbn [proj] in E.
  destruct (sr_leaf _ _ _ _ _ _ _ R L0) as (k & R1 & _ & Hz).
  pose proof (rep_buflen _ _ _ _ _ R1) as Hb. unfold leaf_data, buflen_nat in *. cbn [proj idx] in *.
  change (Spec.leaf_input 0 []) with (@nil byte) in *. rewrite app_nil_r in *.
  pose proof (sr_keylen _ _ _ _ _ _ _ R) as Hkl.
  rewrite key_block_length in Hb by lia. destruct key as [|x key]; [contradiction Hk; reflexivity|]. lia.
Qed.
Lemma leaves_cut c dlen key B ext st block fn : SpRep c dlen key [] B ext st -> key <> [] -> debug_assertions c = true ->
  within sp_leaves sp_set_leaves (sp_compress8_u c block fn) st = Unwound st.
Proof.
  intros R Hk Hd. unfold within. rewrite (sp_compress8_cut _ _ _ _ _ _ _ _ R Hk Hd). destruct st; reflexivity.
Qed.

Lemma sp_update_cut c dlen key B st x : SpRep c dlen key [] B 0 st -> key <> [] -> debug_assertions c = true ->
  (1024 < length B + length x)%nat \/ (B = [] /\ (960 < length x)%nat) ->
  exists st', sp_update_u c x st = Unwound st' /\ SpRep c dlen key [] (absorbed B x) 0 st'.
Proof.
  intros R Hk Hd Hbig.
  pose proof (sr_buflen _ _ _ _ _ _ _ R) as Hl. pose proof (sr_B _ _ _ _ _ _ _ R) as HB.
  unfold sp_update_u, sp_empty_buffer_u, this, BLOCKBYTES.
  destruct (N.ltb_spec 0 (val (sp_buflen st))) as [Hpos|Hpos].
  - assert (HBl : (0 < length B)%nat) by (unfold sp_buflen_nat in Hl; lia).
    assert (H1024 : (1024 < length B + length x)%nat).
    { destruct Hbig as [H|[-> H]]; [exact H|cbn [length] in HBl; lia]. }
    destruct (sp_fill_buf_ok c dlen key [] B 0 st x R) as (st1 & E1 & R1). cbv zeta in *.
    rewrite <- forget_sp_fill_buf in E1. apply forget_Ok in E1.
    set (take := Nat.min (1024 - length B) (length x)) in *. assert (Htk : take = (1024 - length B)%nat) by lia.
    specialize (R1 0%nat ltac:(lia)). exists st1.
    assert (Ea : absorbed B x = B ++ firstn take x).
    { unfold absorbed. destruct B as [|b B]; [cbn [length] in HBl; lia|]. set (B' := b :: B) in *.
      rewrite firstn_app, (firstn_all2 B'), Htk by lia. reflexivity. }
    rewrite Ea. split; [|exact R1].
    apply step_cut. unfold andthen at 1.
    replace (0 <? val (sp_buflen st)) with true by lia.
    rewrite (step_done _ _ _ _ _ E1).
    destruct (skipn take x) as [|r0 rest] eqn:Er.
    { apply (f_equal (@length _)) in Er. rewrite skipn_length in Er. cbn [length] in Er. lia. }
    unfold andthen at 1.
    rewrite (step_eval _ _ _ _ (array_ref_ok (sp_buf st1) 0 (8 * 64) ltac:(rewrite (sr_buf_length _ _ _ _ _ _ _ R1); lia))).
    apply step_cut. exact (leaves_cut _ _ _ _ _ _ _ _ R1 Hk Hd).
  - assert (B = []) as ->. { unfold sp_buflen_nat in Hl. destruct B; [reflexivity|cbn [length] in Hl; lia]. }
    cbn [length absorbed] in *. destruct (Nat.leb_spec (length x) 960) as [H9|H9]; [lia|].
    exists st. split; [|exact R]. unfold andthen at 1. unfold andthen at 1.
    replace (0 <? val (sp_buflen st)) with false by lia. unfold ret at 1.
    apply step_cut. cbn [sp_update_loop_u]. unfold BLOCKBYTES.
    destruct (Nat.ltb_spec (15 * 64) (length x)) as [Hi|Hi]; [|lia].
    rewrite (step_eval _ _ _ _ (array_ref_ok x 0 (8 * 64) ltac:(lia))).
    unfold this, andthen at 1. apply step_cut. exact (leaves_cut _ _ _ _ _ _ _ _ R Hk Hd).
Qed.

Lemma sp_caught_step c dlen key D st x : SpModels c dlen key D st -> key <> [] -> debug_assertions c = true ->
  exists st', (sp_update_u c x st = Returned st' tt \/ sp_update_u c x st = Unwound st') /\ SpModels c dlen key (absorbed D x) st'.
Proof.
  intros (P & B & R & HD) Hk Hd. pose proof (sr_keyed _ _ _ _ _ _ _ R Hk) as ->. cbn [app] in HD. subst D.
  pose proof (sr_B _ _ _ _ _ _ _ R) as HB.
  assert (Hc : (length B + length x <= 1024)%nat /\ (B <> [] \/ (length x <= 960)%nat) \/
               ((1024 < length B + length x)%nat \/ (B = [] /\ (960 < length x)%nat))).
  { destruct (Nat.le_gt_cases (length B + length x) 1024) as [H|H]; [|auto].
    destruct B as [|b B]; [|left; split; [exact H|left; discriminate]].
    destruct (Nat.le_gt_cases (length x) 960); [left|right]; auto. }
  destruct Hc as [(H1 & H2)|H].
  - destruct (sp_update_short c dlen key [] B st x R H1 H2) as (st' & E & R'). exists st'. split.
    + left. apply forget_Ok. rewrite forget_sp_update, E. reflexivity.
    + exists [], (B ++ x). split; [exact R'|]. cbn [app]. unfold absorbed. destruct B as [|b B].
      * destruct H2 as [H2|H2]; [contradiction H2; reflexivity|]. apply Nat.leb_le in H2. rewrite H2. reflexivity.
      * symmetry. apply firstn_all2. rewrite app_length. exact H1.
  - destruct (sp_update_cut c dlen key B st x R Hk Hd H) as (st' & E & R'). exists st'. split; [right; exact E|].
    exists [], (absorbed B x). auto.
Qed.
Lemma sp_caught_steps c dlen key : key <> [] -> debug_assertions c = true -> forall pieces D st, SpModels c dlen key D st ->
  exists st', persist (sp_update_u c) st pieces = Some st' /\ SpModels c dlen key (fold_left absorbed pieces D) st'.
Proof.
  intros Hk Hd. induction pieces as [|x l IH]; intros D st M; [exists st; auto|]. cbn [persist fold_left].
  destruct (sp_caught_step c dlen key D st x M Hk Hd) as (st1 & [E|E] & M1); rewrite E; apply IH, M1.
Qed.
Theorem sp_caught c l p pieces : cfg_ok c -> sp_build l = Ok p -> sp_keyval l <> [] -> debug_assertions c = true ->
  exists st0 st h, sp_to_state c p = Ok st0 /\ persist (sp_update_u c) st0 pieces = Some st /\ sp_finalize c st = Ok h /\
    as_bytes h = Ok (Spec.blake2sp (sp_dlen l) (sp_keyval l) (fold_left absorbed pieces [])).
Proof.
  intros Hc Hb. unfold sp_dlen, sp_keyval. rewrite <- sp_last_keyval, <- sp_last_dlen. intros Hk Hd.
  destruct (sp_build_encodes l p Hb) as (_ & E). destruct (sp_models_new c p _ _ Hc E) as (st0 & E0 & M0).
  destruct (sp_caught_steps c _ _ Hk Hd pieces [] st0 M0) as (st & E1 & M1).
  assert (Hlen : (length (fold_left absorbed pieces []) <= 1024)%nat).
  { destruct M1 as (P & B & R & <-). rewrite (sr_keyed _ _ _ _ _ _ _ R Hk). apply (sr_B _ _ _ _ _ _ _ R). }
  destruct (sp_models_finalize c _ _ _ st M1) as (h & F & _ & _ & _ & A).
  { intros _. rewrite key_block_length by (pose proof (se_key_ok _ _ _ E); lia). change (2 ^ 64) with 18446744073709551616.
    destruct (sp_last_key [] l); lia. }
  exists st0, st, h. auto.
Qed.
