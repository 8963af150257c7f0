(** * UnwindMany: what [update8] leaves when the counter of one of its states overflows. *)
From Verif Require Import Base BaseFacts Consts Portable PortableFacts SpecFacts Params ParamsSpec ParamsFacts State StateFacts
  Many Views Machine MachineSpec Safety Clients Refine ManyFacts SpFacts Behave Corollaries Unwind UnwindFacts UnwindUse.
From Verif Require Spec Avx2Facts.
Import Avx2Facts (proj_map, proj_map2, proj_const, blocks_ok).
From Coq Require Import ZArith Lia ZifyBool ZifyNat ZifyN.
Local Open Scope N_scope.

Lemma each8_cases {S A} (f : lane8 -> act S A) (good : lane8 -> S -> A -> Prop) (bad : lane8 -> S -> Prop) sts :
  (forall l, match f l (proj l sts) with Returned s a => good l s a | Unwound s => bad l s | Undef | Endless => False end) ->
  match each8 f sts with
  | Returned sts' o => forall l, good l (proj l sts') (proj l o)
  | Unwound sts' => exists j, bad j (proj j sts') /\ (forall l, (idx l < idx j)%nat -> exists a, good l (proj l sts') a) /\
                      (forall l, (idx j < idx l)%nat -> proj l sts' = proj l sts)
  | Undef | Endless => False
  end.
Proof.
  intros H. pose proof (H L0) as H0; pose proof (H L1) as H1; pose proof (H L2) as H2; pose proof (H L3) as H3;
  pose proof (H L4) as H4; pose proof (H L5) as H5; pose proof (H L6) as H6; pose proof (H L7) as H7. clear H.
  destruct sts as [s0 s1 s2 s3 s4 s5 s6 s7]. unfold each8. cbv zeta. cbn [proj o0 o1 o2 o3 o4 o5 o6 o7] in *.
  Local Ltac lanes := intros []; cbn [idx proj o0 o1 o2 o3 o4 o5 o6 o7]; intros; try lia; try reflexivity; eauto.
  unfold andthen, within, ret. cbn [proj put_lane o0 o1 o2 o3 o4 o5 o6 o7].
  destruct (f L0 s0); [|exists L0; split; [exact H0|split; lanes]|exact H0..]. cbn [proj put_lane o0 o1 o2 o3 o4 o5 o6 o7].
  destruct (f L1 s1); [|exists L1; split; [exact H1|split; lanes]|exact H1..]. cbn [proj put_lane o0 o1 o2 o3 o4 o5 o6 o7].
  destruct (f L2 s2); [|exists L2; split; [exact H2|split; lanes]|exact H2..]. cbn [proj put_lane o0 o1 o2 o3 o4 o5 o6 o7].
  destruct (f L3 s3); [|exists L3; split; [exact H3|split; lanes]|exact H3..]. cbn [proj put_lane o0 o1 o2 o3 o4 o5 o6 o7].
  destruct (f L4 s4); [|exists L4; split; [exact H4|split; lanes]|exact H4..]. cbn [proj put_lane o0 o1 o2 o3 o4 o5 o6 o7].
  destruct (f L5 s5); [|exists L5; split; [exact H5|split; lanes]|exact H5..]. cbn [proj put_lane o0 o1 o2 o3 o4 o5 o6 o7].
  destruct (f L6 s6); [|exists L6; split; [exact H6|split; lanes]|exact H6..]. cbn [proj put_lane o0 o1 o2 o3 o4 o5 o6 o7].
  destruct (f L7 s7); [|exists L7; split; [exact H7|split; lanes]|exact H7..]. cbn [proj put_lane o0 o1 o2 o3 o4 o5 o6 o7].
  intros []; assumption.
Qed.

(** A state whose words have [K] blocks of [D ++ x] and whose buffer has the next [m] bytes. *)
Definition holds_part (h0 : list N) (D x : list byte) (K m : nat) (st : State) : Prop :=
  nums (st_h st) = Spec.chain h0 (D ++ x) K /\ buflen_nat st = m /\ (m <= 64)%nat /\
  firstn m (st_buf st) = sub (D ++ x) (64 * K) m /\
  (length D <= 64 * K + m <= length (D ++ x))%nat.
Lemma Rep_part c h0 D x used rest k st : overflow_checks c = true -> Rep c h0 (D ++ used) k st -> x = used ++ rest ->
  exists m, length (D ++ used) = (64 * k + m)%nat /\ holds_part h0 D x k m st /\
    val (count st) = 64 * N.of_nat k + N.of_nat m.
Proof.
  intros Ho R ->. destruct R as [r1 r2 r3 r4 r5 r6 r7 r8 r9]. set (m := (length (D ++ used) - 64 * k)%nat) in *.
  assert (Hm : length (D ++ used) = (64 * k + m)%nat) by lia.
  exists m. split; [exact Hm|]. unfold holds_part. rewrite app_assoc. split.
  - split; [rewrite r1; symmetry; apply chain_app; lia|]. split; [exact r5|]. split; [lia|]. split.
    + rewrite r6. unfold sub. rewrite (skipn_app (64 * k) (D ++ used)), firstn_app.
      assert (Hs : length (skipn (64 * k) (D ++ used)) = m) by (rewrite skipn_length; lia).
      rewrite Hs, Nat.sub_diag, firstn_O, app_nil_r, firstn_all2 by lia. reflexivity.
    + rewrite (app_length (D ++ used)). pose proof (app_length D used). lia.
  - unfold count. specialize (r8 Ho). rewrite r7, N.mod_small by exact r8. lia.
Qed.
Lemma cut_part h0 D x K st : cut h0 D x K st -> (2 ^ 64 <= N.of_nat (length (D ++ x))) -> N.of_nat (length D) < 2 ^ 64 ->
  exists m, holds_part h0 D x K m st.
Proof.
  intros (H1 & H2 & H3 & H4 & H5) Hx Hd.
  destruct (N.ltb_spec (64 * N.of_nat K) (N.of_nat (length D))) as [L1|L1]; cbn [orb] in H5.
  1: destruct H5 as (H5 & H6); exists 64%nat.
  2: destruct (N.eqb_spec (N.of_nat (length (D ++ x))) (2 ^ 64)) as [L2|L2]; [destruct H5 as (H5 & H6); exists 64%nat|exists 0%nat].
  1, 2: split; [exact H2|]; split; [exact H5|]; split; [lia|]; split; [|lia];
    rewrite H6; unfold sub; rewrite block_whole by lia; apply firstn_all2; rewrite firstn_length; lia.
  split; [exact H2|]. split; [exact H5|]. split; [lia|]. split; [reflexivity|]. lia.
Qed.

(** ** The three parts *)
Lemma part1 c h0 D k st x : overflow_checks c = true -> Rep c h0 D k st ->
  match compress_buffer_if_possible_u c x st with
  | Returned st' rest => exists used k', x = used ++ rest /\ Rep c h0 (D ++ used) k' st' /\
                           (rest = [] \/ length (D ++ used) = (64 * k')%nat)
  | Unwound st' => ~ fits c (N.of_nat (length D + length x)) /\ exists K, cut h0 D x K st'
  | Undef | Endless => False
  end.
Proof.
  intros Ho R. destruct (compress_buffer_ok c h0 D k st x R) as [Bok Bno].
  destruct (fits_dec c (N.of_nat (length D + length x))) as [Hf|Hf].
  - destruct (Bok Hf) as (used & rest & st' & k' & E & E1 & R1 & _ & H1 & _).
    rewrite <- forget_compress_buffer in E. rewrite (forget_Ok _ _ _ E). eauto.
  - destruct (Bno Hf) as [E|(used & rest & st' & k' & E & E1 & R1 & H1)].
    + destruct (update_cut c h0 D k st x R Hf) as (st' & K & Eu & _ & C).
      rewrite <- forget_compress_buffer in E. destruct (forget_Panic _ E) as (s1 & E1).
      unfold update_u in Eu. rewrite (step_cut _ _ _ _ E1) in Eu. injection Eu as ->. rewrite E1. eauto.
    + rewrite <- forget_compress_buffer in E. rewrite (forget_Ok _ _ _ E). exists used, k'. auto.
Qed.
Lemma part3 c h0 D k st x : Rep c h0 D k st ->
  match update_u c x st with
  | Returned st' _ => exists k', Rep c h0 (D ++ x) k' st'
  | Unwound st' => ~ fits c (N.of_nat (length D + length x)) /\ exists K, cut h0 D x K st'
  | Undef | Endless => False
  end.
Proof.
  intros R. destruct (fits_dec c (N.of_nat (length D + length x))) as [Hf|Hf].
  - destruct (update_ok c h0 D k st x R Hf) as (st' & k' & E & R1 & _). 
    pose proof (forget_update c x st) as F. rewrite E in F. cbn [bind] in F. rewrite (forget_Ok _ _ _ F). eauto.
  - destruct (update_cut c h0 D k st x R Hf) as (st' & K & Eu & _ & C). rewrite Eu. eauto.
Qed.
Lemma bump_cases c h0 D k st : Rep c h0 D k st ->
  match bump_count_u c st with
  | Returned st' _ => fits c (N.of_nat (length D + 64)) /\ st' = set_count st (of_N 64 (N.of_nat (length D + 64)))
  | Unwound st' => ~ fits c (N.of_nat (length D + 64)) /\ st' = st
  | Undef | Endless => False
  end.
Proof.
  intros R. destruct (bump_count_cases c h0 D k st R) as [B1 B2].
  unfold bump_count in B1, B2. unfold bump_count_u, this, andthen, eval, assign.
  destruct (fits_dec c (N.of_nat (length D + 64))) as [Hf|Hf].
  - specialize (B1 Hf). destruct (uadd c _ _); try discriminate B1. cbn [bind] in B1. injection B1 as B1. rewrite <- B1.
    split; [exact Hf|]. destruct st; reflexivity.
  - specialize (B2 Hf). destruct (uadd c _ _); try discriminate B2. auto.
Qed.

Section Eight.
Variables (c : cfg) (h0 : lane8 -> list N) (D : lane8 -> list byte) (x : oct (list byte)).
Hypothesis Ho : overflow_checks c = true.

Definition going (sts : oct State) (rest : oct (list byte)) : Prop := forall l, exists used k,
  proj l x = used ++ proj l rest /\ Rep c (h0 l) (D l ++ used) k (proj l sts) /\
  (proj l rest = [] \/ length (D l ++ used) = (64 * k)%nat).
Definition stopped8 (sts' : oct State) : Prop := exists j e, 2 ^ 64 <= N.of_nat (length (D j ++ proj j x)) /\
  forall l, exists K m, holds_part (h0 l) (D l) (proj l x) K m (proj l sts') /\
    val (count (proj l sts')) =
      (if Nat.eqb (idx l) (idx j) then N.max (N.of_nat (length (D l))) (64 * N.of_nat K)
       else 64 * N.of_nat K + N.of_nat m + if e && Nat.ltb (idx l) (idx j) then 64 else 0) /\
    (l = j -> 64 * N.of_nat K + 64 = 2 ^ 64) /\
    (e = true -> m = 0%nat /\ (64 * K + 64 <= length (D l ++ proj l x))%nat).

Lemma not_fits n : ~ fits c n -> 2 ^ 64 <= n.
Proof. intros H. destruct (N.le_gt_cases (2 ^ 64) n) as [L|L]; [exact L|]. contradiction H. intros _. exact L. Qed.

(** One state is cut, the others are somewhere on their way. *)
Lemma stop_plain sts' j K : 2 ^ 64 <= N.of_nat (length (D j ++ proj j x)) -> N.of_nat (length (D j)) < 2 ^ 64 ->
  cut (h0 j) (D j) (proj j x) K (proj j sts') ->
  (forall l, idx l <> idx j -> exists used rest k, proj l x = used ++ rest /\ Rep c (h0 l) (D l ++ used) k (proj l sts')) ->
  stopped8 sts'.
Proof.
  intros Hx Hd C H. exists j, false. split; [exact Hx|]. intros l. destruct (Nat.eqb_spec (idx l) (idx j)) as [E|E].
  - assert (l = j) as -> by (destruct l, j; try reflexivity; discriminate E).
    destruct (cut_part _ _ _ _ _ C Hx Hd) as (m & Hm). exists K, m. split; [exact Hm|]. destruct C as (C1 & _ & C3 & _).
    split; [exact C3|]. split; [intros _; exact C1|discriminate].
  - destruct (H l E) as (used & rest & k & E1 & R). destruct (Rep_part _ _ _ _ _ _ _ _ Ho R E1) as (m & _ & H1 & H2).
    exists k, m. split; [exact H1|]. cbn [andb]. rewrite N.add_0_r. split; [exact H2|]. split; [intros ->; contradiction E; reflexivity|discriminate].
Qed.

Lemma loop8 fn (Hfn : fn8_ok c fn) fuel : forall sts rest, going sts rest -> (length (proj L0 rest) < fuel)%nat ->
  match update8_loop_u fuel c fn rest sts with
  | Returned sts' rest' => going sts' rest'
  | Unwound sts' => stopped8 sts'
  | Undef | Endless => False
  end.
Proof.
  induction fuel as [|fuel IH]; intros sts rest G Hfuel; [lia|]. cbn [update8_loop_u].
  destruct (oct_all _ rest) eqn:Eall; [|exact G]. rewrite oct_all_spec in Eall.
  assert (Hlen : forall l, (64 < length (proj l rest))%nat) by (intros l; apply Nat.ltb_lt, (Eall l)). clear Eall.
  assert (G1 : forall l, exists used k, proj l x = used ++ proj l rest /\ Rep c (h0 l) (D l ++ used) k (proj l sts) /\
    length (D l ++ used) = (64 * k)%nat).
  { intros l. destruct (G l) as (used & k & E & R & [H|H]); [specialize (Hlen l); rewrite H in Hlen; cbn in Hlen; lia|eauto]. }
  clear G.
  apply lane_choice in G1 as (used & G1). apply lane_choice in G1 as (k & G1).
  assert (Hb := each8_cases (fun _ => bump_count_u c)
    (fun l s _ => fits c (N.of_nat (length (D l ++ proj l used) + 64)) /\
       s = set_count (proj l sts) (of_N 64 (N.of_nat (length (D l ++ proj l used) + 64))))
    (fun l s => ~ fits c (N.of_nat (length (D l ++ proj l used) + 64)) /\ s = proj l sts) sts
    (fun l => bump_cases c (h0 l) _ _ _ (proj1 (proj2 (G1 l))))).
  destruct (each8 (fun _ => bump_count_u c) sts) as [sts1 u|sts1| |] eqn:Eb; [|rewrite (step_cut _ _ _ _ Eb)|destruct Hb..].
  - rewrite (step_done _ _ _ _ _ Eb). clear Eb u.
    set (blocks := oct_of (fun l => firstn 64 (proj l rest))).
    assert (Eb1 : oct_mapM (fun i => array_ref i 0 BLOCKBYTES) rest = Ok blocks).
    { apply oct_mapM_ok. intros l. subst blocks. rewrite proj_of. specialize (Hlen l). apply array_ref_ok. unfold BLOCKBYTES. lia. }
    rewrite (step_eval _ _ _ _ Eb1).
    unfold this at 1. unfold andthen at 1.
    assert (Hbl : blocks_ok blocks).
    { intros l. subst blocks. rewrite proj_of, firstn_length. specialize (Hlen l). lia. }
    rewrite (step_eval _ _ _ _ (call_compress8_ok c fn _ _ _ _ _ Hfn Hbl)).
    unfold assign at 1. unfold andthen at 1.
    set (rest1 := oct_of (fun l => skipn 64 (proj l rest))).
    assert (Er1 : oct_mapM (fun i => slice_from i BLOCKBYTES) rest = Ok rest1).
    { apply oct_mapM_ok. intros l. subst rest1. rewrite proj_of. specialize (Hlen l). apply slice_from_ok. unfold BLOCKBYTES. lia. }
    rewrite (step_eval _ _ _ _ Er1).
    apply IH.
    + intros l. destruct (G1 l) as (E & R & H). destruct (Hb l) as (Hf & Hs). specialize (Hlen l).
      exists (proj l used ++ firstn 64 (proj l rest)), (S (proj l k)). split.
      * subst rest1. rewrite proj_of, <- app_assoc, firstn_skipn. exact E.
      * rewrite app_assoc. split.
        -- rewrite proj_map2, compress8_lane, !proj_map, !proj_const, Hs. subst blocks. rewrite proj_of.
           refine (Rep_block c _ _ _ (proj l sts) _ _ R H _ _ Hf).
           ++ rewrite firstn_length. lia.
           ++ apply val_of_N.
        -- right. rewrite (app_length (D l ++ proj l used)), H, firstn_length. lia.
    + subst rest1. rewrite proj_of, skipn_length. specialize (Hlen L0). lia.
  - clear Eb IH. destruct Hb as (j & (Hj & Ej) & Hlt & Hgt).
    apply not_fits in Hj. exists j, true.
    assert (Hlx : forall l, (length (D l ++ proj l used) + 64 < length (D l ++ proj l x))%nat).
    { intros l. destruct (G1 l) as (E & _). rewrite E, app_assoc, (app_length (D l ++ _)). specialize (Hlen l). lia. }
    split; [specialize (Hlx j); lia|]. intros l. destruct (G1 l) as (E & R & H). specialize (Hlx l).
    destruct (Rep_part _ _ _ _ _ _ _ _ Ho R E) as (m & Hm & H1 & H2). assert (m = 0%nat) as -> by lia.
    exists (proj l k), 0%nat.
    assert (Hd : (length (D l) <= length (D l ++ proj l used))%nat) by (rewrite app_length; lia).
    destruct (Nat.eqb_spec (idx l) (idx j)) as [X|X].
    + assert (l = j) as -> by (destruct l, j; try reflexivity; discriminate X). rewrite Ej.
      split; [exact H1|]. split; [rewrite H2; lia|]. split; [intros _|intros _; split; [reflexivity|lia]].
      pose proof (rep_fits _ _ _ _ _ R Ho) as F. change (2 ^ 64) with 18446744073709551616 in *. lia.
    + split; [|split; [|split; [intros ->; contradiction X; reflexivity|intros _; split; [reflexivity|lia]]]].
      * destruct (Nat.ltb_spec (idx l) (idx j)) as [Y|Y]; [|rewrite Hgt by lia; exact H1].
        destruct (Hlt l Y) as (_ & Hf & ->). destruct (proj l sts); exact H1.
      * cbn [andb]. destruct (Nat.ltb_spec (idx l) (idx j)) as [Y|Y]; [|rewrite Hgt by lia; rewrite H2; lia].
        destruct (Hlt l Y) as (_ & Hf & ->). specialize (Hf Ho). unfold count, set_count. cbn [st_count].
        rewrite val_of_N, N.mod_small by exact Hf. lia.
Qed.

Theorem update8_stops k sts : (forall l, Rep c (h0 l) (D l) (k l) (proj l sts)) -> update8 c sts x = Panic ->
  exists sts', update8_u c x sts = Unwound sts' /\ stopped8 sts'.
Proof.
  intros HR Hp. pose proof (forget_update8 c x sts) as F. rewrite Hp in F. destruct (forget_Panic _ F) as (sts' & E).
  exists sts'. split; [exact E|]. clear F Hp.
  assert (Hd : forall l, N.of_nat (length (D l)) < 2 ^ 64) by (intros l; apply (rep_fits _ _ _ _ _ (HR l) Ho)).
  unfold update8_u in E.
  assert (H1 := each8_cases (fun l => compress_buffer_if_possible_u c (proj l x))
    (fun l s rest => exists used k', proj l x = used ++ rest /\ Rep c (h0 l) (D l ++ used) k' s /\
                           (rest = [] \/ length (D l ++ used) = (64 * k')%nat))
    (fun l s => ~ fits c (N.of_nat (length (D l) + length (proj l x))) /\ exists K, cut (h0 l) (D l) (proj l x) K s) sts
    (fun l => part1 c (h0 l) (D l) (k l) (proj l sts) (proj l x) Ho (HR l))).
  destruct (each8 (fun l => compress_buffer_if_possible_u c (proj l x)) sts) as [s1 rest|s1| |] eqn:E1;
    [|rewrite (step_cut _ _ _ _ E1) in E; injection E as ->|destruct H1..].
  2: { destruct H1 as (j & (Hf & K & C) & Hlt & Hgt). apply not_fits in Hf.
       apply (stop_plain _ j K); [rewrite app_length; exact Hf|apply Hd|exact C|]. intros l Hl.
       destruct (Nat.lt_ge_cases (idx l) (idx j)) as [Y|Y].
       - destruct (Hlt l Y) as (rest & used & k' & H1 & H2 & _). eauto.
       - rewrite Hgt by lia. exists [], (proj l x), (k l). rewrite app_nil_r. split; [reflexivity|apply HR]. }
  rewrite (step_done _ _ _ _ _ E1) in E. clear E1. change (going s1 rest) in H1.
  pose proof (loop8 _ (default_fn8_ok c) (S (length (o0 rest))) s1 rest H1 ltac:(cbn [proj]; lia)) as H2.
  destruct (update8_loop_u (S (length (o0 rest))) c (fn_compress8 (default_compress_impl c)) rest s1) as [s2 rest2|s2| |] eqn:E2;
    [|rewrite (step_cut _ _ _ _ E2) in E; injection E as ->; exact H2|destruct H2..].
  rewrite (step_done _ _ _ _ _ E2) in E. clear E2 H1 s1 rest. rename s2 into s1, rest2 into rest, H2 into G.
  apply lane_choice in G as (used & G). apply lane_choice in G as (k1 & G).
  assert (H3 := each8_cases (fun l => update_u c (proj l rest))
    (fun l s _ => exists k', Rep c (h0 l) ((D l ++ proj l used) ++ proj l rest) k' s)
    (fun l s => ~ fits c (N.of_nat (length (D l ++ proj l used) + length (proj l rest))) /\
                exists K, cut (h0 l) (D l ++ proj l used) (proj l rest) K s) s1
    (fun l => part3 c (h0 l) _ _ _ (proj l rest) (proj1 (proj2 (G l))))).
  destruct (each8 (fun l => update_u c (proj l rest)) s1) as [s3 u|s3| |] eqn:E3;
    [rewrite (step_done _ _ _ _ _ E3) in E; discriminate E|rewrite (step_cut _ _ _ _ E3) in E; injection E as ->|destruct H3..].
  destruct H3 as (j & (Hf & K & C) & Hlt & Hgt). apply not_fits in Hf. destruct (G j) as (Ej & Rj & Aj).
  pose proof (rep_fits _ _ _ _ _ Rj Ho) as Fj.
  assert (Al : length (D j ++ proj j used) = (64 * proj j k1)%nat).
  { destruct Aj as [X|X]; [rewrite X in Hf; cbn [length] in Hf; lia|exact X]. }
  apply (stop_plain _ j K).
  - rewrite Ej, app_assoc, (app_length (D j ++ _)). exact Hf.
  - apply Hd.
  - unfold cut in *. rewrite <- app_assoc, <- Ej in C. destruct C as (C1 & C2 & C3 & C4 & C5).
    assert (HK : (64 * proj j k1 <= 64 * K)%nat) by (change (2 ^ 64) with 18446744073709551616 in *; lia).
    assert (HD : (length (D j) <= length (D j ++ proj j used))%nat) by (rewrite app_length; lia).
    split; [exact C1|]. split; [exact C2|]. split; [rewrite C3; lia|]. split; [exact C4|].
    destruct (N.ltb_spec (64 * N.of_nat K) (N.of_nat (length (D j ++ proj j used)))) as [X|_]; [lia|].
    destruct (N.ltb_spec (64 * N.of_nat K) (N.of_nat (length (D j)))) as [X|_]; [lia|]. exact C5.
  - intros l Hl. destruct (G l) as (El & Rl & _). destruct (Nat.lt_ge_cases (idx l) (idx j)) as [Y|Y].
    + destruct (Hlt l Y) as (_ & k' & R'). rewrite <- app_assoc in R'. exists (proj l used ++ proj l rest), [], k'.
      rewrite app_nil_r. auto.
    + rewrite Hgt by lia. eauto.
Qed.
End Eight.

Theorem update8_left c ls pieces sts x : cfg_ok c ->
  (forall l, (p <- build (proj l ls) ;; s <- to_state c p ;; feed c s (proj l pieces)) = Ok (proj l sts)) ->
  update8 c sts x = Panic ->
  let sp l := spec_params (proj l ls) in
  let D l := Spec.key_block (Spec.key (sp l)) ++ concat (proj l pieces) in
  exists sts' j e, update8_u c x sts = Unwound sts' /\ 2 ^ 64 <= N.of_nat (length (D j ++ proj j x)) /\
    forall l, exists K m, let st := proj l sts' in let M := D l ++ proj l x in
      nums (st_h st) = Spec.chain (Spec.initial (sp l)) M K /\ buflen_nat st = m /\ (m <= 64)%nat /\
      firstn m (st_buf st) = sub M (64 * K) m /\ (length (D l) <= 64 * K + m <= length M)%nat /\
      val (count st) = (if Nat.eqb (idx l) (idx j) then N.max (N.of_nat (length (D l))) (64 * N.of_nat K)
                        else 64 * N.of_nat K + N.of_nat m + if e && Nat.ltb (idx l) (idx j) then 64 else 0) /\
      (l = j -> 64 * N.of_nat K + 64 = 2 ^ 64) /\
      (e = true -> m = 0%nat /\ (64 * K + 64 <= length M)%nat).
Proof.
  intros Hc H Hp sp D.
  assert (G : forall l, exists k, Rep c (Spec.initial (sp l)) (D l) k (proj l sts)).
  { intros l. specialize (H l). destruct (build (proj l ls)) as [p| | |] eqn:Hb; try discriminate H. cbn [bind] in H.
    apply build_encodes in Hb as (_ & E). destruct (models_new c p _ _ Hc E) as (s0 & E0 & M).
    rewrite E0 in H. cbn [bind] in H. change (stands c (new_state (proj l ls)) s0) in M.
    destruct (feed_stands c (proj l pieces) _ s0 M) as [(s1 & E1 & M1)|(E1 & _)]; [|congruence].
    assert (s1 = proj l sts) as -> by congruence. destruct M1 as [V Ml Mh (k & R & _)]. exists k. exact R. }
  apply lane_choice in G as (k & G).
  assert (Ho : overflow_checks c = true).
  { destruct (overflow_checks c) eqn:Eo; [reflexivity|].
    destruct (update8_ok c (fun l => Spec.initial (sp l)) D (fun l => proj l k) sts x G) as (s' & E & _); [|congruence].
    intros l X. congruence. }
  destruct (update8_stops c (fun l => Spec.initial (sp l)) D x Ho (fun l => proj l k) sts G Hp) as (sts' & E & j & e & Hj & HL).
  exists sts', j, e. split; [exact E|]. split; [exact Hj|]. intros l. destruct (HL l) as (K & m & (H1 & H2 & H3 & H4 & H5) & H6 & H7 & H8).
  exists K, m. exact (conj H1 (conj H2 (conj H3 (conj H4 (conj H5 (conj H6 (conj H7 H8))))))).
Qed.
(** Eight states and an input that they cannot take. *)
Lemma such_update8 c : cfg_ok c -> overflow_checks c = true -> exists sts,
  (forall l : lane8, (p <- build [] ;; s <- to_state c p ;; feed c s []) = Ok (proj l sts)) /\
  exists x, update8 c sts x = Panic.
Proof.
  intros Hc Ho. assert (exists p, build [] = Ok p) as (p & Hb) by (eexists; reflexivity).
  rewrite Hb. cbn [bind]. apply build_encodes in Hb as (_ & E). destruct (models_new c p _ _ Hc E) as (s0 & E0 & M).
  rewrite E0. cbn [bind feed]. destruct M as [V Ml Mh (k & R & _)].
  exists (oct_of (fun _ => s0)). split; [intros l; rewrite proj_of; reflexivity|].
  exists (oct_of (fun _ => repeat x00 (N.to_nat (2 ^ 64)))).
  apply (update8_overflow c (fun _ => Spec.initial (spec_params [])) (fun _ => stream (spec_params []) []) (fun _ => k)).
  - intros l. rewrite proj_of. exact R.
  - exists L0. rewrite proj_of. intros F. specialize (F Ho). rewrite repeat_length, Nnat.Nat2N.inj_add, N2Nat.id in F. lia.
Qed.
