(** * SpLevels: what every call keeps of a [blake2sp::State], if it panics too. *)
From Verif Require Import Base BaseFacts Consts Params ParamsSpec State Many Blake2sp Debug Views Machine MachineSpec StateFacts
  Clients Terms Robust Avx2Facts SpFacts Unwind UnwindFacts UnwindTyped Resume.
From Verif Require Spec.
From Coq Require Import Lia ZifyBool ZifyNat ZifyN.
Local Open Scope N_scope.

(** The leaves are filled alike, and have counted the same. *)
Definition alike (leaves : oct State) : Prop := exists C m, (m = 0 \/ m = 64)%nat /\
  forall l, let leaf := proj l leaves in
    buflen_nat leaf = m /\ val (count leaf) = C /\ st_hash_length leaf = of_N 8 32.
Definition even (st : SpState) : Prop :=
  length (sp_buf st) = 1024%nat /\ (sp_buflen_nat st <= 1024)%nat /\ alike (sp_leaves st) /\
  buflen_nat (sp_root st) = 0%nat /\ val (count (sp_root st)) = 0.
Definition evens (s : session) : Prop := Forall even (s_sstates s).

Section Config.
Context (c : cfg).

Lemma bump_alike : keeps alike (each8 (fun _ => bump_count_u c)) anything.
Proof.
  intros ls (C & m & Hm & H).
  assert (Hc : forall l, st_count (proj l ls) = st_count (o0 ls)).
  { intros l. apply val_inj. destruct (H l) as (_ & E & _). destruct (H L0) as (_ & E0 & _). cbn [proj] in E0.
    unfold count in *. congruence. }
  destruct ls as [s0 s1 s2 s3 s4 s5 s6 s7]. cbn [o0] in Hc.
  pose proof (Hc L1) as H1. pose proof (Hc L2) as H2. pose proof (Hc L3) as H3. pose proof (Hc L4) as H4.
  pose proof (Hc L5) as H5. pose proof (Hc L6) as H6. pose proof (Hc L7) as H7. cbn [proj o1 o2 o3 o4 o5 o6 o7] in *.
  unfold each8, bump_count_u, within, andthen, this, eval, assign, ret.
  cbn [proj put_lane o0 o1 o2 o3 o4 o5 o6 o7].
  destruct (uadd c (st_count s0) (of_N 64 (N.of_nat BLOCKBYTES))) as [n| | |] eqn:En; try exact I;
    [do 8 (cbn [proj put_lane o0 o1 o2 o3 o4 o5 o6 o7]; rewrite ?H1, ?H2, ?H3, ?H4, ?H5, ?H6, ?H7, ?En)|].
  - split; [|exact I]. exists (val n), m. split; [exact Hm|].
    intros l. specialize (H l). destruct l; cbn [proj o0 o1 o2 o3 o4 o5 o6 o7 put_lane] in *;
      (split; [apply H|split; [reflexivity|apply H]]).
  - exists C, m. split; [exact Hm|exact H].
Qed.
Lemma compress8_alike b f : keeps alike (sp_compress8_u c b f) anything.
Proof.
  unfold sp_compress8_u. kp; [apply keeps_this|]; intros ls _. kp; [apply keeps_any|]; intros _ _.
  kp; [apply keeps_any|]; intros _ _. kp; [apply bump_alike|]; intros ? _.
  kp; [apply keeps_this|]; intros ls' _. kp; [apply keeps_any|]; intros hs _.
  apply keeps_assign. intros o (C & m & Hm & H). exists C, m. split; [exact Hm|]. intros l. rewrite proj_map2. exact (H l).
Qed.
Lemma leaves_even b f : keeps even (within sp_leaves sp_set_leaves (sp_compress8_u c b f)) anything.
Proof.
  apply (keeps_within alike); [apply compress8_alike| |].
  - intros st (_ & _ & Hl & _). exact Hl.
  - intros st ls (H1 & H2 & _ & H4) Hl. exact (conj H1 (conj H2 (conj Hl H4))).
Qed.

Lemma fill_even input st : even st -> exists st' rest, sp_fill_buf_u c input st = Returned st' rest /\ even st' /\
  (rest <> [] -> sp_buflen_nat st' = 1024%nat).
Proof.
  intros (Hbl & Hl & Hrest). set (take := Nat.min (1024 - sp_buflen_nat st) (length input)).
  assert (Ht : (take <= length input)%nat) by (unfold take; lia).
  assert (Hft : length (firstn take input) = take) by (rewrite firstn_length; lia).
  unfold sp_fill_buf_u, this, andthen, eval, assign. rewrite Hbl, nsub_ok by exact Hl. cbv zeta. fold take.
  rewrite slice_to_ok by exact Ht.
  rewrite copy_into_ok by (rewrite ?Hft; unfold take in *; lia).
  assert (Hvt : val (of_N 16 (N.of_nat take)) = N.of_nat take).
  { apply val_of_N_small. change (2 ^ 16) with 65536. unfold take. lia. }
  assert (Hs : val (sp_buflen st) + N.of_nat take <= 1024) by (unfold sp_buflen_nat in *; unfold take; lia).
  rewrite uadd_ok by (intros _; rewrite Hvt; change (2 ^ 16) with 65536; lia).
  rewrite slice_from_ok by exact Ht. rewrite Hvt.
  assert (Hv : val (of_N 16 (val (sp_buflen st) + N.of_nat take)) = val (sp_buflen st) + N.of_nat take).
  { apply val_of_N_small. change (2 ^ 16) with 65536. lia. }
  do 2 eexists. split; [reflexivity|]. split.
  - split; [|split; [|exact Hrest]].
    + cbn [sp_buf sp_set_buflen sp_set_buf]. rewrite !app_length, firstn_length, skipn_length, Hft, Hbl. unfold take. lia.
    + unfold sp_buflen_nat at 1. cbn [sp_buflen sp_set_buflen]. rewrite Hv. lia.
  - intros Hn. unfold sp_buflen_nat at 1. cbn [sp_buflen sp_set_buflen]. rewrite Hv.
    destruct (Nat.eq_dec take (length input)) as [E|E].
    + contradiction Hn. rewrite E. apply skipn_all.
    + unfold sp_buflen_nat in *. unfold take in *. lia.
Qed.
Lemma fill_keeps input : keeps even (sp_fill_buf_u c input) anything.
Proof. intros st H. destruct (fill_even input st H) as (st' & r & E & H' & _). rewrite E. exact (conj H' I). Qed.

Lemma empty_buffer_even input : keeps even (sp_empty_buffer_u c input) anything.
Proof.
  intros st0 H0. unfold sp_empty_buffer_u. unfold andthen at 1, this at 1.
  destruct (0 <? val (sp_buflen st0)); [|exact (conj H0 I)].
  destruct (fill_even input st0 H0) as (st1 & rest & E & H1 & Hfull). unfold andthen at 1. rewrite E.
  destruct rest as [|x rest]; [exact (conj H1 I)|]. specialize (Hfull ltac:(discriminate)).
  unfold andthen at 1, this at 1. revert H1.
  match goal with |- even st1 -> match ?f st1 with _ => _ end => generalize Hfull; intros _; change (even st1 -> match f st1 with
    | Returned s a => even s /\ anything a | Unwound s => even s | _ => True end); cut (keeps even f anything); [intros K; exact (K st1)|] end.
  kp; [apply keeps_any|]; intros b _. kp; [apply leaves_even|]; intros _ _.
  kp; [apply (keeps_eval _ _ (fun n => val n = 512))|]; [|intros n Hn; cbv beta in Hn].
  { intros n En. change (of_N 16 (N.of_nat (8 * BLOCKBYTES))) with (of_N 16 512) in En.
    rewrite usub_ok in En by (change (val (of_N 16 512)) with 512; unfold sp_buflen_nat in Hfull; lia).
    change (val (of_N 16 512)) with 512 in En.
    assert (En' : n = of_N 16 (val (sp_buflen st1) - 512)) by congruence.
    replace (val (sp_buflen st1) - 512) with 512 in En' by (unfold sp_buflen_nat in Hfull; lia). rewrite En'. reflexivity. }
  kp; [apply keeps_assign|]; [|intros _ _].
  { intros s (K1 & _ & K3). split; [exact K1|]. split; [|exact K3]. unfold sp_buflen_nat. cbn [sp_set_buflen sp_buflen]. lia. }
  apply keeps_if.
  - kp; [apply keeps_this|]; intros s2 _. kp; [apply keeps_any|]; intros b' _. kp; [apply leaves_even|]; intros _ _.
    kp; [apply keeps_assign|]; [|intros _ _; apply keeps_ret; exact I].
    intros s (K1 & _ & K3). split; [exact K1|]. split; [|exact K3]. unfold sp_buflen_nat. cbn [sp_set_buflen sp_buflen].
    change (val (of_N 16 0)) with 0. lia.
  - kp; [apply keeps_this|]; intros s2 (Hb & _). kp; [apply keeps_safe, slice_to_safe|]; intros left Hleft.
    kp; [apply keeps_safe, slice_from_safe|]; intros right Hright. kp; [apply keeps_any|]; intros src _.
    kp; [apply keeps_safe, copy_into_safe|]; intros left' Hleft'. cbv beta in *.
    kp; [apply keeps_assign|]; [|intros _ _; apply keeps_ret; exact I]. intros s (_ & Hs). split; [|exact Hs].
    cbn [sp_set_buf sp_buf]. rewrite app_length, Hleft', Hleft, Hright, Hb. reflexivity.
Qed.
Lemma update_loop_even fuel : forall input, keeps even (sp_update_loop_u fuel c input) anything.
Proof.
  induction fuel as [|fuel IH]; intros input; cbn [sp_update_loop_u]; [apply keeps_any|].
  apply keeps_if; [|apply keeps_ret; exact I]. kp; [apply keeps_any|]; intros b _. kp; [apply keeps_this|]; intros st _.
  kp; [apply leaves_even|]; intros _ _. kp; [apply keeps_any|]; intros r _. apply IH.
Qed.
Lemma sp_update_even input : keeps even (sp_update_u c input) anything.
Proof.
  unfold sp_update_u. kp; [apply empty_buffer_even|]; intros i _. kp; [apply update_loop_even|]; intros r _.
  kp; [apply fill_keeps|]; intros e _. apply (keeps_any (A:=unit)).
Qed.

(** ** New states *)
Definition filled (p : Params) : nat := if 0 <? val (p_key_length p) then 64 else 0.
Lemma to_state_filled p st : cfg_ok c -> to_state c p = Ok st ->
  buflen_nat st = filled p /\ val (count st) = N.of_nat (filled p).
Proof.
  intros Hc. unfold to_state, with_params, filled. cbv zeta. destruct (0 <? val (p_key_length p)).
  - pose proof (copy_into_safe (repeat x00 BLOCKBYTES) 0 KEYBYTES (p_key p)) as Hk.
    destruct (copy_into _ _ _ _) as [kb| | |]; try discriminate. cbn [bind]. unfold safe in Hk. rewrite repeat_length in Hk.
    match goal with |- update c ?s kb = _ -> _ => set (s0 := s) end. intros E.
    assert (T : typed_state c s0) by (split; [reflexivity|apply default_fn_ok, Hc]).
    assert (B0 : buflen_nat s0 = 0%nat) by reflexivity. assert (C0 : val (count s0) = 0) by reflexivity.
    pose proof (start_at c s0 T ltac:(lia)) as R. rewrite B0, C0 in R. cbn [firstn] in R. clearbody s0.
    destruct (update_at c _ _ _ _ _ _ kb R) as (st' & k & E' & R' & _ & Z).
    { intros _. rewrite Hk. reflexivity. }
    specialize (Z (or_introl (or_introl eq_refl))). rewrite E in E'. injection E' as <-.
    destruct R'. cbn [app] in *. rewrite Hk in *. unfold BLOCKBYTES in *.
    assert (k = 0%nat) as -> by (destruct Z as [Z|Z]; cbn [app] in Z; lia).
    split; [exact at_buflen|]. unfold count. rewrite at_count. reflexivity.
  - intros [= <-]. split; reflexivity.
Qed.
Lemma leaf_state_filled p i st : cfg_ok c -> leaf_state c p i = Ok st ->
  buflen_nat st = filled p /\ val (count st) = N.of_nat (filled p) /\ st_hash_length st = of_N 8 32.
Proof.
  intros Hc. unfold leaf_state, set_node_offset. destruct (val (of_N 64 i) <? 2 ^ 48); [|discriminate].
  cbn [bind]. unfold set_node_depth, set_last_node_param. cbn [bind].
  match goal with |- context [to_state c ?q] => set (p' := q) end. destruct (to_state c p') as [s| | |] eqn:E; try discriminate.
  cbn [bind]. intros [= <-]. destruct (to_state_filled p' s Hc E) as (H1 & H2). split; [exact H1|]. split; [exact H2|reflexivity].
Qed.
Lemma got {A B} (x : outcome A) (f : A -> outcome B) b : bind x f = Ok b -> exists a, x = Ok a /\ f a = Ok b.
Proof. destruct x as [a| | |]; try discriminate. intros H. exists a. auto. Qed.
Lemma leaves_alike p o ls : cfg_ok c -> oct_mapM (leaf_state c p) o = Ok ls -> alike ls.
Proof.
  intros Hc H. exists (N.of_nat (filled p)), (filled p). split; [unfold filled; destruct (0 <? _); auto|].
  unfold oct_mapM in H. do 8 (apply got in H as (? & ? & H)).
  apply (f_equal (fun o => match o with Ok x => x | _ => ls end)) in H. rewrite <- H. intros l.
  destruct l; cbn [proj o0 o1 o2 o3 o4 o5 o6 o7]; eapply leaf_state_filled; eassumption.
Qed.
Lemma sp_new_even p st : cfg_ok c -> sp_with_params c p = Ok st -> even st.
Proof.
  intros Hc H. unfold sp_with_params in H. do 11 (apply got in H as (? & _ & H)). cbv zeta in H.
  apply got in H as (ls & E & H).
  apply (f_equal (fun o => match o with Ok x => x | _ => st end)) in H. rewrite <- H.
  split; [reflexivity|]. split; [unfold sp_buflen_nat; cbn [sp_buflen]; change (val (of_N 16 0)) with 0; lia|].
  split; [exact (leaves_alike _ _ _ Hc E)|split; reflexivity].
Qed.

(** ** Any call *)
Lemma push_evens s st : evens s -> even st -> evens (with_sstates s (s_sstates s ++ [st])).
Proof. intros H Hs. apply push_Forall; assumption. Qed.
Lemma put_evens s i st : evens s -> even st -> evens (with_sstates s (upd (s_sstates s) i st)).
Proof. intros H Hs. apply upd_Forall; assumption. Qed.
Lemma nth_even s i st : evens s -> nth_error (s_sstates s) i = Some st -> even st.
Proof. intros H E. unfold evens in H. rewrite Forall_forall in H. eapply H, nth_error_In, E. Qed.
Lemma give_evens s h s' x : evens s -> give_hash s h = Ok (s', x) -> evens s'.
Proof. unfold give_hash. intros H. destruct (as_bytes h); try discriminate. intros [= <- _]. exact H. Qed.
Lemma gives_evens s h s' x : evens s -> give_hashes s h = Ok (s', x) -> evens s'.
Proof. unfold give_hashes. intros H. destruct (all_bytes h); try discriminate. intros [= <- _]. exact H. Qed.
Lemma ok_evens s y s' (x : obs) : evens s -> Ok (s, y) = Ok (s', x) -> evens s'.
Proof. intros H [= <- _]. exact H. Qed.
Lemma portable_even st : even st -> even (sp_force_portable st).
Proof.
  intros (H1 & H2 & (C & m & Hm & H3) & H4). split; [exact H1|]. split; [exact H2|]. split; [|exact H4].
  exists C, m. split; [exact Hm|]. intros l. cbn [sp_leaves sp_force_portable]. rewrite proj_map. exact (H3 l).
Qed.

Lemma new_is : SpState_new c = sp_with_params c SpParams_default.
Proof. unfold SpState_new. reflexivity. Qed.
Lemma built_is p : sp_to_state c p = sp_with_params c p.
Proof. unfold sp_to_state. reflexivity. Qed.
Lemma new_even st : cfg_ok c -> SpState_new c = Ok st -> even st.
Proof. intros Hc. rewrite new_is. apply sp_new_even. exact Hc. Qed.
Lemma built_even p st : cfg_ok c -> sp_to_state c p = Ok st -> even st.
Proof. intros Hc. rewrite built_is. apply sp_new_even. exact Hc. Qed.

Theorem step_even o : cfg_ok c -> keeps evens (step_u c o) anything.
Proof.
  intros Hc.
  assert (other : (forall s s' x, evens s -> step c s o = Ok (s', x) -> evens s') ->
            keeps evens (fun s => match step c s o with
                                   | Ok (s, x) => Returned s x
                                   | Panic => Unwound s
                                   | UB => Undef
                                   | Stuck => Endless
                                   end) anything).
  { intros H s Hs. specialize (H s). destruct (step c s o) as [(s', x)| | |]; [|exact Hs|exact I|exact I].
    exact (conj (H s' x Hs eq_refl) I). }
  assert (one : forall i (x : act SpState obs), keeps even x anything -> keeps evens (on_object s_sstates with_sstates i x) anything).
  { intros i x Hx s Hs. unfold on_object, at_obj. destruct (nth_error (s_sstates s) i) as [a|] eqn:E; [|exact (conj Hs I)].
    unfold within. specialize (Hx a (nth_even _ _ _ Hs E)). destruct (x a) as [a' y|a'| |]; try exact I.
    - exact (conj (put_evens _ _ _ Hs (proj1 Hx)) I).
    - exact (put_evens _ _ _ Hs Hx). }
  assert (same : forall S (get : session -> list S) put i (x : act S obs),
            (forall s l, s_sstates (put s l) = s_sstates s) -> keeps evens (on_object get put i x) anything).
  { intros S get put i x Hp s Hs. unfold on_object, at_obj. destruct (nth_error (get s) i) as [a|]; [|exact (conj Hs I)].
    unfold within. destruct (x a) as [a' y|a'| |]; try exact I; [split; [|exact I]|]; unfold evens; rewrite Hp; exact Hs. }
  assert (eight : forall A i (x : act (oct State) A) k,
            (forall a, keeps evens (k a) anything) -> keeps evens (on_eight i x k) anything).
  { intros A i x k Hk s Hs. unfold on_eight. destruct (pick8 (s_states s) i) as [sts|]; [|exact (conj Hs I)].
    destruct (distinct (oct_list i)); [|exact (conj Hs I)].
    unfold andthen, within. destruct (x sts) as [sts' a|sts'| |]; try exact I; [|exact Hs]. apply Hk. exact Hs. }
  assert (hashes : forall f : session -> list Hash, keeps evens (assign (fun s => with_hashes s (f s))) anything).
  { intros f. apply keeps_assign. intros s H. exact H. }
  destruct o; cbn [step_u];
    lazymatch goal with
    | |- keeps evens (on_object s_sstates _ _ _) _ => apply one
    | |- keeps evens (on_object _ _ _ _) _ => apply same; reflexivity
    | |- keeps evens (on_eight _ _ _) _ => apply eight
    | |- keeps evens (fun s => match step _ _ _ with _ => _ end) _ => apply other; clear - Hc; intros s s' x Hs; cbn [step]; unfold at_obj
    | _ => idtac
    end;
    repeat lazymatch goal with
    | |- context [nth_error ?l ?k] => let E := fresh "E" in destruct (nth_error l k) eqn:E
    | |- context [pick8 ?l ?k] => destruct (pick8 l k)
    end;
    try lazymatch goal with
    | |- bind ?e _ = _ -> _ => let y := fresh "y" in let Ey := fresh "Ey" in destruct e as [y| | |] eqn:Ey; try (intros HX; discriminate HX); cbn [bind]
    end;
    try lazymatch goal with
    | |- give_hash _ _ = _ -> _ => apply give_evens; exact Hs
    | |- give_hashes _ _ = _ -> _ => apply gives_evens; exact Hs
    end.
  all: try (lazymatch goal with |- Ok (_, _) = _ -> _ => apply ok_evens end;
            first [exact Hs | apply push_evens; [exact Hs|] | apply put_evens; [exact Hs|]];
            first [eapply nth_even; eassumption | (lazymatch goal with H : SpState_new _ = _ |- _ => exact (new_even _ Hc H) | H : sp_to_state _ _ = _ |- _ => exact (built_even _ _ Hc H) end) | apply portable_even; eapply nth_even; eassumption | idtac]).
  - intros s Hs. unfold at_obj. destruct (nth_error (s_states s) i) as [a|] eqn:E; [|exact (conj Hs I)].
    unfold andthen at 1. unfold within. destruct (finalize_u c a) as [a' h|a'| |]; try exact I; [|exact Hs].
    assert (Hs' : evens (with_states s (upd (s_states s) i a'))) by exact Hs. revert Hs'.
    generalize (with_states s (upd (s_states s) i a')).
    change (keeps evens (b <~ eval (as_bytes h) ;;
      _ <~ assign (fun s => with_hashes s (s_hashes s ++ [h])) ;; ret (OBytes b)) anything).
    kp; [apply keeps_any|]. intros b _. kp; [apply hashes|]. intros _ _. apply keeps_ret. exact I.
  - intros _. apply keeps_ret. exact I.
  - intros hs. kp; [apply keeps_any|]. intros b _. kp; [apply hashes|]. intros _ _. apply keeps_ret. exact I.
  - kp; [apply sp_update_even|]. intros _ _. apply keeps_ret. exact I.
  - unfold sp_write_u. apply (keeps_andthen _ _ _ anything); [|intros n _; apply keeps_ret; exact I].
    kp; [apply sp_update_even|]. intros _ _. apply keeps_ret. exact I.
  - assert (Ey' : s0 = y) by (unfold sp_flush in Ey; congruence). rewrite <- Ey'. eapply nth_even; eassumption.
Qed.

(** ** A program that catches every panic *)
Lemma caught_evens ops : cfg_ok c -> forall s s', typed c s -> evens s -> persist (step_u c) s ops = Some s' ->
  typed c s' /\ evens s'.
Proof.
  intros Hc. induction ops as [|o ops IH]; intros s s' Ht Hl; cbn [persist].
  - intros [= <-]. exact (conj Ht Hl).
  - pose proof (step_keeps c Hc o s Ht) as K. pose proof (step_even o Hc s Hl) as L.
    destruct (step_u c o s) as [s1 x|s1| |]; try discriminate; apply IH; [apply K|apply L|exact K|exact L].
Qed.
Theorem caught_sp ops s st : cfg_ok c -> persist (step_u c) empty_session ops = Some s -> In st (s_sstates s) ->
  typed_sstate c st /\ (sp_buflen_nat st <= 1024)%nat /\
  (exists C m, (m = 0 \/ m = 64)%nat /\ forall l, let leaf := proj l (sp_leaves st) in
     buflen_nat leaf = m /\ val (count leaf) = C /\ val (st_hash_length leaf) = 32) /\
  buflen_nat (sp_root st) = 0%nat /\ val (count (sp_root st)) = 0.
Proof.
  intros Hc E Hin.
  destruct (caught_evens ops Hc empty_session s ltac:(repeat split; constructor) ltac:(constructor) E) as ((_ & _ & _ & _ & H) & L).
  unfold evens in L. rewrite Forall_forall in H, L. destruct (L st Hin) as (_ & H2 & (C & m & Hm & H3) & H4).
  split; [exact (H st Hin)|]. split; [exact H2|]. split; [|exact H4]. exists C, m. split; [exact Hm|].
  intros l leaf. destruct (H3 l) as (K1 & K2 & K3). split; [exact K1|]. split; [exact K2|]. unfold leaf. rewrite K3. reflexivity.
Qed.
End Config.
