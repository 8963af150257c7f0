(** * ManyCalls: which compressions [update8], [finalize8] and [hash8] run (proofs for C56). *)
From Verif Require Import Base Consts Params State Many ParamsSpec Clients Terms BaseFacts ParamsFacts
  Avx2Facts LeafFacts Witness Traced TracedFacts TraceTerms Calls SpCalls.
From Verif Require Spec.
From Coq Require Import Lia.
Local Open Scope N_scope.

Lemma oct_mapM2_ok_t {A B C} (f : A -> B -> traced C) a b r : result (oct_mapM2_t f a b) = Ok r ->
  (forall l, result (f (proj l a) (proj l b)) = Ok (proj l r)) /\
  runs (events (oct_mapM2_t f a b)) = flat_map (fun l => runs (events (f (proj l a) (proj l b)))) lanes.
Proof.
  intros H. unfold oct_mapM2_t in *. peel H x0 H0. peel H x1 H1. peel H x2 H2. peel H x3 H3.
  peel H x4 H4. peel H x5 H5. peel H x6 H6. peel H x7 H7. cbn [ret lift result snd] in H. apply Ok_inj in H. subst r.
  split; [intros []; assumption|]. destruct a, b. cbn [lanes flat_map proj o0 o1 o2 o3 o4 o5 o6 o7 ret lift events fst runs].
  reflexivity.
Qed.

(** ** A state whose buffer is empty *)
Lemma empty_update hl c f ln k st input st' : holds hl f ln (64 * k) 0 st -> (0 < k -> 0 < length input)%nat ->
  result (update_t c st input) = Ok st' ->
  took hl f ln (64 * k + length input) st' /\
  runs (events (update_t c st input)) = map (fun i => call f (64 * S i)) (seq k (blocks_done (64 * k + length input) - k)).
Proof.
  intros Hh Hi H. unfold update_t in *.
  peel H p Hp. destruct p as [s1 i1]. peel H q Hq. destruct q as [s2 i2]. peel H r Hr. destruct r as [s3 i3].
  cbn [ret lift result snd] in H. injection H as <-. cbn [ret lift events fst runs flat_map]. rewrite app_nil_r.
  destruct (buffer_calls hl c f ln _ 0 st input s1 i1 Hh ltac:(lia) Hp) as (B1 & -> & ->).
  destruct (loop_calls hl c f ln 0 _ _ _ _ _ _ B1 Hq) as (L1 & L2 & ->). cbv zeta in *.
  destruct (fill_calls hl c f ln _ 0 _ _ _ _ L1 ltac:(lia) Hr) as (F1 & _ & ->). cbv zeta in *. rewrite app_nil_r. cbn [app].
  set (n := length input) in *.
  assert (D : (n = 0 /\ k = 0 \/ 64 * blocks_done n < n <= 64 * blocks_done n + 64)%nat).
  { destruct (Nat.eq_dec n 0); [left; lia|right; apply blocks_done_spec; lia]. }
  assert (K : blocks_done (64 * k + n) = (k + blocks_done n)%nat).
  { destruct D as [(-> & ->)|D]; [reflexivity|]. apply blocks_done_eq. lia. }
  assert (Z : (64 * blocks_done n <= n)%nat) by (destruct D as [(-> & _)|D]; [reflexivity|lia]).
  rewrite K. replace (k + blocks_done n - k)%nat with (blocks_done n) by lia. split.
  - unfold took. rewrite K. rewrite Nat.min_r, L2 in F1 by (destruct D as [(D & _)|D]; [rewrite D in L2|]; lia).
    replace (64 * k + 64 * blocks_done n + (n - 64 * blocks_done n))%nat with (64 * k + n)%nat in F1 by lia.
    replace (64 * k + n - 64 * (k + blocks_done n))%nat with (0 + (n - 64 * blocks_done n))%nat by lia. exact F1.
  - rewrite <- (seq_shift_by (blocks_done n) k), map_map. apply map_ext. intros i. f_equal. lia.
Qed.

(** ** [update8] *)
Section Update8.
Variable c : cfg.
Variable hl : lane8 -> u8.
Variable f : lane8 -> CompressFn.
Variable ln : lane8 -> bool.
Variable f8 : Compress8Fn.
Definition wide (at_ : lane8 -> nat) : routine :=
  Compress8 f8 (each (fun l => of_N 64 (N.of_nat (at_ l)))) (oct_const (uzero 32)) (oct_const (uzero 32)).

Lemma oct_all_result {A} (g : A -> bool) a : result (oct_all_t g a) = Ok (forallb (fun l => g (proj l a)) lanes).
Proof. unfold oct_all_t. rewrite all_t_result. destruct a. cbn [oct_list oct_map forallb lanes proj o0 o1 o2 o3 o4 o5 o6 o7]. reflexivity. Qed.
Lemma lanes_all (P : lane8 -> bool) : forallb P lanes = true <-> forall l, P l = true.
Proof.
  rewrite forallb_forall. split; intros H l; [|intros _; apply H]. apply H. destruct l; cbn [lanes In]; tauto.
Qed.
Lemma lanes_not (P : lane8 -> bool) : forallb P lanes = false <-> exists l, P l = false.
Proof.
  split.
  - intros H. destruct (P L0) eqn:E0; [|eauto]. destruct (P L1) eqn:E1; [|eauto]. destruct (P L2) eqn:E2; [|eauto].
    destruct (P L3) eqn:E3; [|eauto]. destruct (P L4) eqn:E4; [|eauto]. destruct (P L5) eqn:E5; [|eauto].
    destruct (P L6) eqn:E6; [|eauto]. destruct (P L7) eqn:E7; [|eauto].
    cbn [lanes forallb] in H. rewrite E0, E1, E2, E3, E4, E5, E6, E7 in H. discriminate H.
  - intros (l & H). destruct (forallb P lanes) eqn:E; [|reflexivity]. rewrite lanes_all in E. rewrite E in H. discriminate H.
Qed.
Lemma proj_map {A B} (g : A -> B) a l : proj l (oct_map g a) = g (proj l a).
Proof. destruct a, l; reflexivity. Qed.
Lemma proj_map2 {A B C} (g : A -> B -> C) a b l : proj l (oct_map2 g a b) = g (proj l a) (proj l b).
Proof. destruct a, b, l; reflexivity. Qed.
Lemma oct_by_lane {A} (a b : oct A) : (forall l, proj l a = proj l b) -> a = b.
Proof.
  intros H. pose proof (H L0). pose proof (H L1). pose proof (H L2). pose proof (H L3). pose proof (H L4). pose proof (H L5).
  pose proof (H L6). pose proof (H L7). destruct a, b. cbn [proj o0 o1 o2 o3 o4 o5 o6 o7] in *. congruence.
Qed.

Lemma update8_loop_calls fuel : forall (n b : lane8 -> nat) w states inputs states' rest,
  (forall l, holds (hl l) (f l) (ln l) (n l) (b l) (proj l states)) ->
  (forall l, w <= blocks_done (length (proj l inputs)))%nat -> (exists l, blocks_done (length (proj l inputs)) = w) ->
  result (update8_loop_t fuel c f8 states inputs) = Ok (states', rest) ->
  (forall l, holds (hl l) (f l) (ln l) (n l + 64 * w) (b l) (proj l states')) /\
  (forall l, length (proj l rest) = length (proj l inputs) - 64 * w)%nat /\
  runs (events (update8_loop_t fuel c f8 states inputs)) = map (fun j => wide (fun l => n l + 64 * S j)%nat) (seq 0 w).
Proof.
  induction fuel as [|fuel IH]; intros n b w states inputs states' rest HS Hw (l0 & Hl0) H; [discriminate H|].
  cbn [update8_loop_t] in *. peel H more Hmore. unfold oct_all_t at 1. rewrite all_t_runs. cbn [app].
  rewrite oct_all_result in Hmore. apply Ok_inj in Hmore. subst more. apply tif_ok in H as (H & ->).
  destruct (forallb (fun l => Nat.ltb BLOCKBYTES (length (proj l inputs))) lanes) eqn:E.
  - rewrite lanes_all in E.
    assert (E' : forall l, (64 < length (proj l inputs))%nat) by (intros l; apply Nat.ltb_lt, E).
    assert (K : forall l, blocks_done (length (proj l inputs)) = S (blocks_done (length (proj l inputs) - 64))).
    { intros l. specialize (E' l). unfold blocks_done.
      replace (length (proj l inputs) - 1)%nat with ((length (proj l inputs) - 64 - 1) + 1 * 64)%nat by lia.
      rewrite Nat.div_add by lia. lia. }
    destruct w as [|w]; [rewrite K in Hl0; discriminate Hl0|].
    peel H s1 Hs1. peel H bk Hbk. peel H hs Hhs. peel H rs Hrs.
    apply oct_mapM_ok_t in Hs1 as (Hs1 & R1). rewrite R1. clear R1.
    erewrite (oct_mapM_runs _ _ bk); [|intros; reflexivity|exact Hbk].
    apply oct_mapM_ok_t in Hrs as (Hrs & R2). rewrite R2. clear R2.
    assert (HS1 : forall l, holds (hl l) (f l) (ln l) (n l + 64) (b l) (proj l s1)).
    { intros l. specialize (Hs1 l). unfold bump_count_t in Hs1. apply tbind_ok in Hs1 as (m & Hm & R & _).
      cbn [ret lift result snd] in R. apply Ok_inj in R. rewrite <- R. cbn [uadd_t note result snd] in Hm.
      destruct (HS l) as [A1 A2 A3 A4 A5]. rewrite A3 in Hm. apply count_add in Hm.
      constructor; cbn [set_count st_compress_fn st_last_node st_count st_buflen st_hash_length]; assumption. }
    assert (HS2 : forall l, holds (hl l) (f l) (ln l) (n l + 64) (b l) (proj l (oct_map2 set_h s1 hs))).
    { intros l. rewrite proj_map2. destruct (HS1 l). constructor; assumption. }
    assert (HR : forall l, length (proj l rs) = (length (proj l inputs) - 64)%nat).
    { intros l. specialize (Hrs l). cbn [slice_from_t note result snd] in Hrs. apply slice_from_len in Hrs. exact Hrs. }
    assert (A1 : forall l, (w <= blocks_done (length (proj l rs)))%nat).
    { intros l. specialize (Hw l). rewrite K in Hw. rewrite HR. lia. }
    assert (A2 : exists l, blocks_done (length (proj l rs)) = w).
    { exists l0. rewrite K in Hl0. rewrite HR. lia. }
    destruct (IH (fun l => n l + 64)%nat b w _ _ _ _ HS2 A1 A2 H) as (I1 & I2 & I3).
    split; [|split].
      * intros l. replace (n l + 64 * S w)%nat with (n l + 64 + 64 * w)%nat by lia. apply I1.
      * intros l. rewrite I2, HR. lia.
      * rewrite I3. cbn [seq map]. rewrite <- seq_shift, map_map.
        replace (concat (map (fun x => runs (events (bump_count_t c x))) (oct_list states))) with (@nil routine).
        2: { symmetry. assert (Z : forall x, runs (events (bump_count_t c x)) = []).
             { intros x. unfold bump_count_t, uadd_t. cbn [tbind note]. destruct (uadd c (st_count x) _); cbn [tbind events fst ret lift];
                 destruct (overflow_checks c); reflexivity. }
             destruct states. cbn [oct_list map concat]. rewrite !Z. reflexivity. }
        replace (concat (map _ (oct_list inputs))) with (@nil routine) by (destruct inputs; reflexivity).
        cbn [app call_compress8_t note events fst runs flat_map]. f_equal.
        -- unfold wide. f_equal. apply oct_by_lane. intros l. unfold each. rewrite !proj_map. destruct (HS1 l) as [_ _ A _ _]. rewrite A.
           replace (proj l (Oct L0 L1 L2 L3 L4 L5 L6 L7)) with l by (destruct l; reflexivity). do 2 f_equal; lia.
        -- apply map_ext. intros j. unfold wide. f_equal. apply oct_by_lane. intros l. unfold each. rewrite !proj_map. do 2 f_equal; lia.
  - rewrite lanes_not in E. destruct E as (l1 & E). apply Nat.ltb_ge in E. change BLOCKBYTES with 64%nat in E.
    cbn [ret lift result snd] in H. apply Ok_inj in H. injection H as <- <-.
    assert (w = 0)%nat as ->.
    { specialize (Hw l1). assert (blocks_done (length (proj l1 inputs)) = 0%nat) by (unfold blocks_done; apply Nat.div_small; lia). lia. }
    split; [|split; [intros l; lia|reflexivity]]. intros l. rewrite Nat.mul_0_r, Nat.add_0_r. apply HS.
Qed.

Lemma start_spec m n :
  (m = 0 -> start m n = 0)%nat /\
  (0 < m -> n <= 64 * S (blocks_done m) - m -> start m n = blocks_done m /\ blocks_done (m + n) = blocks_done m)%nat /\
  (0 < m -> 64 * S (blocks_done m) - m < n -> start m n = S (blocks_done m) /\
     blocks_done (m + n) = start m n + blocks_done (m + n - 64 * start m n))%nat.
Proof.
  unfold start. split; [intros ->; reflexivity|]. split; intros Hm Hn.
  - pose proof (blocks_done_spec m Hm) as B.
    assert (E : blocks_done (m + n) = blocks_done m) by (apply blocks_done_eq; lia).
    split; [|exact E]. rewrite E. apply Nat.min_r.
    apply Nat.div_le_lower_bound; lia.
  - pose proof (blocks_done_spec m Hm) as B.
    assert (D : ((m + 63) / 64 = S (blocks_done m))%nat).
    { symmetry. apply Nat.div_unique with (r := (m + 63 - 64 * S (blocks_done m))%nat); lia. }
    pose proof (blocks_done_spec (m + n) ltac:(lia)) as B2.
    assert (E : Nat.min ((m + 63) / 64) (blocks_done (m + n)) = S (blocks_done m)) by (rewrite D; apply Nat.min_l; lia).
    rewrite E. split; [reflexivity|].
    pose proof (blocks_done_spec (m + n - 64 * S (blocks_done m)) ltac:(lia)). lia.
Qed.

Theorem update8_calls_f m w states inputs states' :
  f8 = fn_compress8 (default_compress_impl c) ->
  (forall l, took (hl l) (f l) (ln l) (m l) (proj l states)) ->
  let n l := length (proj l inputs) in
  let s l := start (m l) (n l) in
  let e l := blocks_done (m l + n l) in
  (forall l, w <= e l - s l)%nat -> (exists l, e l - s l = w)%nat ->
  result (update8_t c states inputs) = Ok states' ->
  (forall l, took (hl l) (f l) (ln l) (m l + n l) (proj l states')) /\
  runs (events (update8_t c states inputs)) =
    flat_map (fun l => map (fun i => call (f l) (64 * S i)) (seq (blocks_done (m l)) (s l - blocks_done (m l)))) lanes ++
    map (fun j => wide (fun l => 64 * (s l + S j))%nat) (seq 0 w) ++
    flat_map (fun l => map (fun i => call (f l) (64 * S i)) (seq (s l + w) (e l - s l - w))) lanes.
Proof.
  intros F8 HT n s e Hw (l0 & Hl0) H. unfold update8_t in *. rewrite <- F8 in *. cbv zeta in *.
  peel H si Hsi. peel H q Hq. destruct q as [s2 i2]. cbv beta iota in *.
  apply oct_mapM2_ok_t in Hsi as (Hsi & ->). apply oct_mapM2_ok_t in H as (H & ->).
  assert (Hse : forall l, (s l <= e l)%nat) by (intros l; apply Nat.le_min_r).
  (* the first phase, lane by lane *)
  assert (P : forall l, exists b,
    holds (hl l) (f l) (ln l) (if Nat.eqb b 0 then 64 * s l else m l + n l) b (proj l (oct_map fst si)) /\
    (length (proj l (oct_map snd si)) = if Nat.eqb b 0 then m l + n l - 64 * s l else 0)%nat /\
    (b = 0 \/ e l = s l /\ s l = blocks_done (m l) /\ b = m l + n l - 64 * e l)%nat /\
    (b = 0 -> 0 < m l -> 64 * s l < m l + n l)%nat /\ (b = 0 -> m l = 0 -> s l = 0)%nat /\
    blocks_done (length (proj l (oct_map snd si))) = (e l - s l)%nat /\
    runs (events (compress_buffer_if_possible_t c (proj l states) (proj l inputs))) =
      map (fun i => call (f l) (64 * S i)) (seq (blocks_done (m l)) (s l - blocks_done (m l)))).
  { intros l. specialize (Hsi l). specialize (HT l). unfold took in HT.
    destruct (proj l si) as [sl il] eqn:Esi. rewrite !proj_map, Esi. cbn [fst snd].
    assert (Hb : (m l - 64 * blocks_done (m l) <= 64)%nat).
    { destruct (Nat.eq_dec (m l) 0) as [->|]; [cbn; lia|]. pose proof (blocks_done_spec (m l) ltac:(lia)). lia. }
    pose proof (buffer_calls _ c _ _ _ _ _ _ _ _ HT Hb Hsi) as B. cbv zeta in B.
    destruct (start_spec (m l) (n l)) as (S1 & S2 & S3). fold (s l) in S1, S2, S3.
    destruct (Nat.eq_dec (m l) 0) as [Em|Em].
    - rewrite Em in *. change (blocks_done 0) with 0%nat in *. cbn [Nat.mul Nat.sub Nat.eqb] in B. destruct B as (B1 & -> & B3).
      exists 0%nat. rewrite (S1 eq_refl). cbn [Nat.eqb Nat.mul Nat.add Nat.sub]. rewrite B3.
      split; [exact B1|]. split; [rewrite Nat.sub_0_r; reflexivity|]. split; [left; reflexivity|]. split; [intros; lia|].
      split; [reflexivity|]. split; [|reflexivity]. unfold e. rewrite Em, Nat.sub_0_r. reflexivity.
    - pose proof (blocks_done_spec (m l) ltac:(lia)) as Bm.
      replace (Nat.eqb (m l - 64 * blocks_done (m l)) 0) with false in B by (symmetry; apply Nat.eqb_neq; lia).
      destruct (Nat.leb (length (proj l inputs)) (64 - (m l - 64 * blocks_done (m l)))) eqn:El.
      + apply Nat.leb_le in El. fold (n l) in El, B. destruct (S2 ltac:(lia) ltac:(lia)) as (S4 & S5). fold (e l) in S5.
        destruct B as (B1 & -> & ->). exists (m l - 64 * blocks_done (m l) + n l)%nat.
        replace (Nat.eqb (m l - 64 * blocks_done (m l) + n l) 0) with false by (symmetry; apply Nat.eqb_neq; lia).
        split; [exact B1|]. split; [reflexivity|]. split; [right; lia|]. split; [intros; lia|]. split; [intros; lia|].
        split; [cbn [length]; change (blocks_done 0) with 0%nat; lia|].
        rewrite S4, Nat.sub_diag. reflexivity.
      + apply Nat.leb_gt in El. fold (n l) in El, B. destruct (S3 ltac:(lia) ltac:(lia)) as (S4 & S5). fold (e l) in S5.
        destruct B as (B1 & B2 & ->). exists 0%nat. cbn [Nat.eqb].
        replace (m l + (64 - (m l - 64 * blocks_done (m l))))%nat with (64 * s l)%nat in * by lia.
        split; [exact B1|]. split; [lia|]. split; [left; reflexivity|]. split; [intros; lia|]. split; [intros; lia|].
        split; [rewrite B2; replace (n l - (64 - (m l - 64 * blocks_done (m l))))%nat with (m l + n l - 64 * s l)%nat by lia; lia|].
        rewrite S4. replace (S (blocks_done (m l)) - blocks_done (m l))%nat with 1%nat by lia. reflexivity. }
  assert (P' : exists b : lane8 -> nat, forall l,
    holds (hl l) (f l) (ln l) (if Nat.eqb (b l) 0 then 64 * s l else m l + n l) (b l) (proj l (oct_map fst si)) /\
    (length (proj l (oct_map snd si)) = if Nat.eqb (b l) 0 then m l + n l - 64 * s l else 0)%nat /\
    (b l = 0 \/ e l = s l /\ s l = blocks_done (m l) /\ b l = m l + n l - 64 * e l)%nat /\
    (b l = 0 -> 0 < m l -> 64 * s l < m l + n l)%nat /\ (b l = 0 -> m l = 0 -> s l = 0)%nat /\
    blocks_done (length (proj l (oct_map snd si))) = (e l - s l)%nat /\
    runs (events (compress_buffer_if_possible_t c (proj l states) (proj l inputs))) =
      map (fun i => call (f l) (64 * S i)) (seq (blocks_done (m l)) (s l - blocks_done (m l)))).
  { destruct (P L0) as (b0 & P0), (P L1) as (b1 & P1), (P L2) as (b2 & P2), (P L3) as (b3 & P3),
      (P L4) as (b4 & P4), (P L5) as (b5 & P5), (P L6) as (b6 & P6), (P L7) as (b7 & P7).
    exists (fun l => proj l (Oct b0 b1 b2 b3 b4 b5 b6 b7)). intros []; assumption. }
  clear P. destruct P' as (b & P).
  destruct (update8_loop_calls (S (length (snd (o0 si)))) (fun l => if Nat.eqb (b l) 0 then 64 * s l else m l + n l)%nat b w
    (oct_map fst si) (oct_map snd si) s2 i2) as (Q1 & Q2 & ->).
  { intros l. apply P. }
  { intros l. destruct (P l) as (_ & _ & _ & _ & _ & -> & _). apply Hw. }
  { exists l0. destruct (P l0) as (_ & _ & _ & _ & _ & -> & _). exact Hl0. }
  { exact Hq. }
  (* the last phase *)
  assert (R : forall l, took (hl l) (f l) (ln l) (m l + n l) (proj l states') /\
    runs (events (update_t c (proj l s2) (proj l i2))) = map (fun i => call (f l) (64 * S i)) (seq (s l + w) (e l - s l - w))).
  { intros l. specialize (H l). specialize (Q1 l). specialize (Q2 l). destruct (P l) as (P1 & P2 & P3 & P4 & P5 & P6 & P7). cbv beta in Q1.
    specialize (Hw l). specialize (Hse l). destruct (Nat.eqb (b l) 0) eqn:Eb.
    - apply Nat.eqb_eq in Eb. rewrite Eb in *. specialize (P4 eq_refl). specialize (P5 eq_refl).
      replace (64 * s l + 64 * w)%nat with (64 * (s l + w))%nat in Q1 by lia.
      assert (G : (64 * s l <= m l + n l)%nat) by (destruct (Nat.eq_dec (m l) 0) as [Em|Em]; [rewrite (P5 Em)|]; lia).
      assert (Hlt : (0 < s l + w -> 64 * (s l + w) < m l + n l)%nat).
      { intros Hp. assert (0 < e l)%nat by lia. destruct (Nat.eq_dec (m l + n l) 0) as [Z|Z].
        - unfold e in *. rewrite Z in *. change (blocks_done 0) with 0%nat in *. lia.
        - pose proof (blocks_done_spec (m l + n l) ltac:(lia)). fold (e l) in *. lia. }
      assert (A : (0 < s l + w -> 0 < length (proj l i2))%nat) by (intros Hp; specialize (Hlt Hp); lia).
      destruct (empty_update _ c _ _ (s l + w)%nat _ _ _ Q1 A H) as (T1 & T2).
      replace (64 * (s l + w) + length (proj l i2))%nat with (m l + n l)%nat in *.
      2: { destruct (Nat.eq_dec (s l + w) 0) as [Z|Z]; [|specialize (Hlt ltac:(lia))]; lia. }
      split; [exact T1|]. rewrite T2. fold (e l). do 2 f_equal; lia.
    - apply Nat.eqb_neq in Eb. destruct P3 as [P3|(P3 & P8 & P9)]; [contradiction|].
      assert (w = 0)%nat as W0 by lia. rewrite W0 in *. rewrite Nat.mul_0_r, Nat.add_0_r in Q1.
      assert (T : took (hl l) (f l) (ln l) (m l + n l) (proj l s2)) by (unfold took; fold (e l); rewrite <- P9; exact Q1).
      destruct (update_calls _ c _ _ _ _ _ _ T H) as (T1 & ->).
      assert (length (proj l i2) = 0)%nat as Z by lia. rewrite Z in *. rewrite Nat.add_0_r in *. split; [exact T1|].
      rewrite Nat.sub_diag. replace (e l - s l - 0)%nat with 0%nat by lia. reflexivity. }
  split; [intros l; apply R|]. f_equal; [|f_equal].
  - cbn [lanes flat_map]. destruct (P L0) as (_ & _ & _ & _ & _ & _ & ->), (P L1) as (_ & _ & _ & _ & _ & _ & ->),
      (P L2) as (_ & _ & _ & _ & _ & _ & ->), (P L3) as (_ & _ & _ & _ & _ & _ & ->), (P L4) as (_ & _ & _ & _ & _ & _ & ->),
      (P L5) as (_ & _ & _ & _ & _ & _ & ->), (P L6) as (_ & _ & _ & _ & _ & _ & ->), (P L7) as (_ & _ & _ & _ & _ & _ & ->). reflexivity.
  - destruct w as [|w]; [reflexivity|]. apply map_ext. intros j. unfold wide. f_equal. apply oct_by_lane. intros l. unfold each. rewrite !proj_map.
    replace (proj l (Oct L0 L1 L2 L3 L4 L5 L6 L7)) with l by (destruct l; reflexivity).
    destruct (P l) as (_ & _ & P3 & _). specialize (Hw l). destruct (Nat.eqb (b l) 0) eqn:Eb; [do 2 f_equal; lia|].
    apply Nat.eqb_neq in Eb. lia.
  - cbn [lanes flat_map]. destruct (R L0) as (_ & ->), (R L1) as (_ & ->), (R L2) as (_ & ->), (R L3) as (_ & ->),
      (R L4) as (_ & ->), (R L5) as (_ & ->), (R L6) as (_ & ->), (R L7) as (_ & ->). reflexivity.
Qed.
Theorem finalize8_calls_f m states r :
  f8 = fn_compress8 (default_compress_impl c) ->
  (forall l, took (hl l) (f l) (ln l) (m l) (proj l states)) -> result (finalize8_t c states) = Ok r ->
  runs (events (finalize8_t c states)) =
    [Compress8 f8 (each (fun l => of_N 64 (N.of_nat (m l)))) (oct_const (umax 32))
       (each (fun l => flag32 (ln l)))].
Proof.
  intros F8 HT H. unfold finalize8_t in *. rewrite <- F8 in *. cbv zeta in *. peel H s1 H1. peel H fl H2. peel H hs H3.
  assert (Z : forall buf a, runs (events (zero_tail_t buf a)) = []).
  { intros buf a. unfold zero_tail_t. cbn [note events fst]. rewrite runs_app. generalize (seq a (BLOCKBYTES - a)) as q. intros q.
    induction q as [|i q IH]; [reflexivity|]. cbn [flat_map]. rewrite runs_app, <- app_assoc, IH. reflexivity. }
  erewrite (oct_mapM_runs _ _ s1); [| |exact H1].
  2: { intros st. cbn [tbind]. unfold zero_tail_t in *. specialize (Z (st_buf st) (buflen_nat st)). cbn [note tbind ret lift events fst] in *.
       rewrite app_nil_r. exact Z. }
  erewrite (oct_mapM_runs _ _ fl); [|reflexivity|exact H2].
  apply oct_mapM_ok_t in H1 as (H1 & _). apply oct_mapM_ok_t in H2 as (H2 & _).
  assert (G : forall l, st_count (proj l s1) = of_N 64 (N.of_nat (m l)) /\ st_last_node (proj l s1) = ln l).
  { intros l. specialize (H1 l). apply tbind_ok in H1 as (bb & _ & R & _). cbn [ret lift result snd] in R. apply Ok_inj in R.
    rewrite <- R. destruct (HT l). split; assumption. }
  cbn [app call_compress8_t note ret lift events fst runs flat_map]. f_equal. f_equal; apply oct_by_lane; intros l; unfold each; rewrite !proj_map;
    replace (proj l (Oct L0 L1 L2 L3 L4 L5 L6 L7)) with l by (destruct l; reflexivity).
  - apply G.
  - specialize (H2 l). cbn [flag32_t note result snd] in H2. apply Ok_inj in H2. rewrite <- H2, (proj2 (G l)). reflexivity.
Qed.
End Update8.

(** ** [hash8] *)
Lemma all_remaining_ok c test count lens : Forall (fun l => count <= l)%nat lens ->
  result (all_remaining_t c test count lens) = Ok (forallb (fun l => test (l - count)%nat) lens) /\
  runs (events (all_remaining_t c test count lens)) = [].
Proof.
  induction 1 as [|l lens Hl _ (I1 & I2)]; [split; reflexivity|]. cbn [all_remaining_t forallb].
  unfold nsub_t, nsub. replace (Nat.leb count l) with true by (symmetry; apply Nat.leb_le, Hl).
  unfold tif. cbn [note tbind]. destruct (test (l - count)%nat) eqn:E; cbn [andb].
  - destruct (all_remaining_t c test count lens) as [ev r]. cbn [result snd events fst] in *. split; [exact I1|].
    destruct (overflow_checks c); exact I2.
  - cbn [ret lift result snd events fst]. split; [reflexivity|]. destruct (overflow_checks c); reflexivity.
Qed.
Lemma finish_calls c f k p w input h : (k <= blocks_done (length input))%nat ->
  result (hash8_finish_t c f (64 * k) p w input) = Ok h ->
  runs (events (hash8_finish_t c f (64 * k) p w input)) =
    map (fun i => call f (64 * S i)) (seq k (blocks_done (length input) - k)) ++
    [Compress f (of_N 64 (N.of_nat (length input))) (umax 32) (flag32 (p_last_node p))].
Proof.
  intros Hk H. unfold hash8_finish_t in *. cbv zeta in *. set (s0 := {| st_h := w |}) in *.
  peel H rest Hrest. peel H s1 H1. peel H q Hq. destruct q as [s2 h2].
  cbn [slice_from_t note result snd] in Hrest. apply slice_from_len in Hrest.
  assert (H0 : holds (p_hash_length p) f (p_last_node p) (64 * k) 0 s0) by (constructor; reflexivity).
  assert (Hlt : (k = 0 \/ 64 * k < length input)%nat).
  { destruct (Nat.eq_dec k 0); [left; assumption|right]. assert (length input <> 0)%nat.
    { intros Z. rewrite Z in Hk. change (blocks_done 0) with 0%nat in Hk. lia. }
    pose proof (blocks_done_spec (length input) ltac:(lia)). lia. }
  assert (A : (0 < k -> 0 < length rest)%nat) by lia.
  destruct (empty_update _ c _ _ k _ _ _ H0 A H1) as (T1 & ->).
  destruct (finalize_calls _ c _ _ _ _ _ T1 Hq) as (_ & ->).
  replace (64 * k + length rest)%nat with (length input) by lia.
  cbn [slice_from_t note ret lift events fst runs flat_map app]. reflexivity.
Qed.

Section Hash8.
Variable c : cfg.
Variable params : oct Params.
Variable inputs : oct (list byte).
Let fns := default_compress_impl c.
Let n (l : lane8) := length (proj l inputs).
Variable k : nat.
Hypothesis k_le : forall l, (k <= blocks_done (n l))%nat.
Hypothesis k_is : exists l, blocks_done (n l) = k.

Definition wide_words (m : nat) (lastblock lastnode : oct u32) : routine :=
  Compress8Vectorized (fn_compress8_vectorized fns) (oct_const (of_N 32 (N.of_nat m)))
    (oct_const (of_N 32 (N.of_nat m / 2 ^ 32))) lastblock lastnode.
Definition singly : list routine :=
  flat_map (fun l => map (fun i => call (fn_compress fns) (64 * S i)) (seq k (blocks_done (n l) - k)) ++
    [Compress (fn_compress fns) (of_N 64 (N.of_nat (n l))) (umax 32) (flag32 (p_last_node (proj l params)))]) lanes.

Lemma high_word m : cast 32 (ushr (of_N 64 (N.of_nat m)) 32) = of_N 32 (N.of_nat m / 2 ^ 32).
Proof.
  apply val_inj. unfold cast, ushr. rewrite !val_of_N, N.shiftr_div_pow2. set (x := N.of_nat m).
  assert (E : x mod 2 ^ 64 / 2 ^ 32 = (x / 2 ^ 32) mod 2 ^ 32).
  { change (2 ^ 64) with (2 ^ 32 * 2 ^ 32). rewrite N.mod_mul_r by discriminate.
    rewrite (N.mul_comm (2 ^ 32) (_ mod _)), N.div_add by discriminate.
    rewrite N.div_small by (apply N.mod_lt; discriminate). reflexivity. }
  rewrite E. rewrite (N.mod_small _ (2 ^ 64)).
  - apply N.mod_mod. discriminate.
  - apply N.lt_trans with (2 ^ 32); [apply N.mod_lt; discriminate|reflexivity].
Qed.
Lemma lens_forall (P : nat -> bool) :
  forallb P (oct_list (oct_map (@length byte) inputs)) = forallb (fun l => P (n l)) lanes.
Proof. unfold n. destruct inputs. reflexivity. Qed.
Lemma hash8_loop_calls fuel : forall j w r, (j <= k)%nat ->
  result (hash8_loop_t fuel c fns params inputs w (64 * j)) = Ok r ->
  runs (events (hash8_loop_t fuel c fns params inputs w (64 * j))) =
    map (fun i => wide_words (64 * S i) (oct_const (uzero 32)) (oct_const (uzero 32))) (seq j (k - j)) ++
    if forallb (fun l => Nat.eqb (n l) (64 * S k)) lanes
    then [wide_words (64 * S k) (oct_const (umax 32)) (oct_map (fun p => flag32 (p_last_node p)) params);
          Vectorize8 (fn_vectorize8 fns)]
    else Vectorize8 (fn_vectorize8 fns) :: singly.
Proof.
  induction fuel as [|fuel IH]; intros j w r Hj H; [discriminate H|]. cbn [hash8_loop_t] in *. cbv zeta in *.
  assert (B : forall l, (k = 0 \/ 64 * k < n l <= 64 * S (blocks_done (n l)))%nat).
  { intros l. specialize (k_le l). destruct (Nat.eq_dec (n l) 0) as [Z|Z].
    - rewrite Z in *. change (blocks_done 0) with 0%nat in *. lia.
    - pose proof (blocks_done_spec (n l) ltac:(lia)). lia. }
  assert (F : Forall (fun l => 64 * j <= l)%nat (oct_list (oct_map (@length byte) inputs))).
  { assert (G : forallb (Nat.leb (64 * j)) (oct_list (oct_map (@length byte) inputs)) = true).
    { rewrite lens_forall. apply lanes_all. intros l. apply Nat.leb_le. specialize (B l). lia. }
    rewrite forallb_forall in G. apply Forall_forall. intros x Hx. apply Nat.leb_le, G, Hx. }
  peel H u Hu. destruct (all_remaining_ok c (fun d => Nat.ltb BLOCKBYTES d) _ _ F) as (R1 & ->).
  rewrite R1 in Hu. apply Ok_inj in Hu. subst u. clear R1. rewrite lens_forall in *.
  peel H u Hu. destruct (all_remaining_ok c (fun d => Nat.eqb d BLOCKBYTES) _ _ F) as (R1 & ->).
  rewrite R1 in Hu. apply Ok_inj in Hu. subst u. clear R1. rewrite lens_forall in *. change BLOCKBYTES with 64%nat in *.
  peel H u Hu. rewrite all_t_runs. rewrite all_t_result in Hu. apply Ok_inj in Hu. subst u. cbn [forallb app] in *.
  rewrite andb_true_r in *. apply tif_ok in H as (H & ->).
  (* the two conditions *)
  assert (U : forallb (fun l => Nat.ltb 64 (n l - 64 * j)) lanes = Nat.ltb j k).
  { destruct (Nat.ltb_spec j k) as [L|L].
    - apply lanes_all. intros l. apply Nat.ltb_lt. specialize (B l). lia.
    - apply lanes_not. destruct k_is as (l & El). exists l. apply Nat.ltb_ge.
      destruct (Nat.eq_dec (n l) 0) as [Z|Z]; [lia|]. pose proof (blocks_done_spec (n l) ltac:(lia)). lia. }
  assert (E : forallb (fun l => Nat.eqb (n l - 64 * j) 64) lanes =
    if Nat.ltb j k then false else forallb (fun l => Nat.eqb (n l) (64 * S k)) lanes).
  { destruct (Nat.ltb_spec j k) as [L|L].
    - apply lanes_not. exists L0. apply Nat.eqb_neq. specialize (B L0). lia.
    - replace j with k by lia. apply eq_true_iff_eq. rewrite !lanes_all.
      split; intros G l; specialize (G l); apply Nat.eqb_eq in G; apply Nat.eqb_eq; lia. }
  rewrite U, E in *. clear U E. destruct (Nat.ltb_spec j k) as [L|L].
  - cbn [negb andb] in *. peel H bk Hbk. erewrite oct_mapM_runs; [|intros; reflexivity|exact Hbk].
    peel H nd Hnd. apply tif_ok in Hnd as (Hnd & ->). cbn [ret lift result snd] in Hnd. apply Ok_inj in Hnd. subst nd.
    peel H w' Hw'. apply tif_ok in H as (H & ->).
    replace (64 * j + 64)%nat with (64 * S j)%nat in * by lia.
    rewrite (IH (S j) w' r ltac:(lia) H). clear IH.
    cbn [ret lift call_compress8_vectorized_t note events fst runs flat_map app].
    replace (k - j)%nat with (S (k - S j)) by lia. cbn [seq map app]. f_equal. unfold wide_words. rewrite high_word. reflexivity.
  - assert (j = k) by lia. subst j. rewrite Nat.sub_diag. cbn [seq map app negb andb] in *.
    destruct (forallb (fun l => Nat.eqb (n l) (64 * S k)) lanes); cbn [negb] in *.
    + peel H bk Hbk. erewrite oct_mapM_runs; [|intros; reflexivity|exact Hbk].
      peel H nd Hnd. apply tif_ok in Hnd as (Hnd & ->). erewrite oct_mapM_runs; [|intros; reflexivity|exact Hnd].
      assert (nd = oct_map (fun p => flag32 (p_last_node p)) params) as ->.
      { apply oct_mapM_ok_t in Hnd as (Hnd & _). apply oct_by_lane. intros l. rewrite proj_map. specialize (Hnd l).
        cbn [flag32_t note result snd] in Hnd. apply Ok_inj in Hnd. congruence. }
      peel H w' Hw'. apply tif_ok in H as (H & ->). peel H w'' Hw''.
      replace (64 * k + 64)%nat with (64 * S k)%nat in * by lia.
      cbn [ret lift call_compress8_vectorized_t call_vectorize8_t note events fst runs flat_map app].
      unfold wide_words. rewrite high_word. reflexivity.
    + peel H w' Hw'. peel H h0 H0. peel H h1 H1. peel H h2 H2. peel H h3 H3. peel H h4 H4. peel H h5 H5. peel H h6 H6. peel H h7 H7.
      cbn [ret lift call_vectorize8_t note events fst runs flat_map app].
      apply (finish_calls c (fn_compress fns) k (proj L0 params) (proj L0 w') (proj L0 inputs) h0 (k_le L0)) in H0.
      apply (finish_calls c (fn_compress fns) k (proj L1 params) (proj L1 w') (proj L1 inputs) h1 (k_le L1)) in H1.
      apply (finish_calls c (fn_compress fns) k (proj L2 params) (proj L2 w') (proj L2 inputs) h2 (k_le L2)) in H2.
      apply (finish_calls c (fn_compress fns) k (proj L3 params) (proj L3 w') (proj L3 inputs) h3 (k_le L3)) in H3.
      apply (finish_calls c (fn_compress fns) k (proj L4 params) (proj L4 w') (proj L4 inputs) h4 (k_le L4)) in H4.
      apply (finish_calls c (fn_compress fns) k (proj L5 params) (proj L5 w') (proj L5 inputs) h5 (k_le L5)) in H5.
      apply (finish_calls c (fn_compress fns) k (proj L6 params) (proj L6 w') (proj L6 inputs) h6 (k_le L6)) in H6.
      apply (finish_calls c (fn_compress fns) k (proj L7 params) (proj L7 w') (proj L7 inputs) h7 (k_le L7)) in H7.
      cbn [proj] in H0, H1, H2, H3, H4, H5, H6, H7.
      rewrite H0, H1, H2, H3, H4, H5, H6, H7. unfold singly. cbn [lanes flat_map proj]. reflexivity.
Qed.
Theorem hash8_calls_f r : result (hash8_t c params inputs) = Ok r ->
  runs (events (hash8_t c params inputs)) =
    Vectorize8 (fn_vectorize8 fns) ::
    map (fun i => wide_words (64 * S i) (oct_const (uzero 32)) (oct_const (uzero 32))) (seq 0 k) ++
    if forallb (fun l => Nat.eqb (n l) (64 * S k)) lanes
    then [wide_words (64 * S k) (oct_const (umax 32)) (oct_map (fun p => flag32 (p_last_node p)) params);
          Vectorize8 (fn_vectorize8 fns)]
    else Vectorize8 (fn_vectorize8 fns) :: singly.
Proof.
  intros H. unfold hash8_t in *. cbv zeta in *. fold fns in H |- *. peel H ok Hok. unfold oct_all_t at 1. rewrite all_t_runs.
  peel H u Hu. apply assert_ok in Hu as (_ & ->). peel H w Hw.
  change 0%nat with (64 * 0)%nat in H. change 0%nat with (64 * 0)%nat at 1.
  rewrite (hash8_loop_calls _ 0 _ _ ltac:(lia) H). rewrite Nat.sub_0_r. reflexivity.
Qed.
End Hash8.

(** ** Histories *)
Lemma history_took c l p pieces st : build l = Ok p -> (s <- to_state c p ;; feed c s pieces) = Ok st ->
  took (p_hash_length p) (fn_compress (default_compress_impl c)) (spec_last_node l)
    (length (Spec.key_block (Spec.key (spec_params l)) ++ concat pieces)) st.
Proof.
  intros Hb H. apply ParamsFacts.build_encodes in Hb as (_ & E). unfold to_state in H.
  destruct (with_params c p) as [s0| | |] eqn:E0; try discriminate H. cbn [bind] in H.
  rewrite <- erase_with_params in E0. rewrite <- erase_feed in H.
  destruct (params_calls c p _ _ _ E E0) as (T0 & _). destruct (feed_calls _ c _ _ _ _ _ _ T0 H) as (T1 & _).
  cbv zeta in T1. rewrite app_length. exact T1.
Qed.
Lemma work_flat (g : lane8 -> list routine) : work (flat_map g lanes) = list_sum (map (fun l => work (g l)) lanes).
Proof. cbn [lanes flat_map map list_sum fold_right]. rewrite !work_app. unfold work at 9. cbn [map list_sum fold_right]. lia. Qed.
Lemma least_of (g : lane8 -> nat) x q : exists l, In l (x :: q) /\ forall l', In l' (x :: q) -> (g l <= g l')%nat.
Proof.
  revert x. induction q as [|y q IH]; intros x.
  - exists x. split; [left; reflexivity|]. intros l' [->|[]]. reflexivity.
  - destruct (IH y) as (l & H1 & H2). destruct (Nat.le_gt_cases (g x) (g l)) as [G|G].
    + exists x. split; [left; reflexivity|]. intros l' [->|H]; [reflexivity|]. specialize (H2 l' H). lia.
    + exists l. split; [right; exact H1|]. intros l' [->|H]; [lia|apply H2, H].
Qed.
Lemma least (g : lane8 -> nat) : exists w, (forall l, w <= g l)%nat /\ exists l, g l = w.
Proof.
  destruct (least_of g L0 [L1; L2; L3; L4; L5; L6; L7]) as (l & _ & H). exists (g l). split; [|exists l; reflexivity].
  intros l'. apply H. destruct l'; cbn [In]; tauto.
Qed.
Lemma work_blocks (g : nat -> routine) a b : (forall i, weight (g i) = 1%nat) -> work (map g (seq a b)) = b.
Proof. intros H. rewrite (work_const _ 1) by exact H. rewrite seq_length. lia. Qed.
Lemma sum_lanes (g h : lane8 -> nat) w : (forall l, g l = h l + w)%nat -> list_sum (map g lanes) = (list_sum (map h lanes) + 8 * w)%nat.
Proof. intros H. cbn [lanes map list_sum fold_right]. rewrite !H. lia. Qed.
Lemma sum_two (g h k : lane8 -> nat) : (forall l, k l = g l + h l)%nat ->
  (list_sum (map g lanes) + list_sum (map h lanes) = list_sum (map k lanes))%nat.
Proof. intros H. cbn [lanes map list_sum fold_right]. rewrite !H. lia. Qed.
Lemma start_le a b : (blocks_done a <= start a b <= blocks_done (a + b))%nat.
Proof.
  unfold start. split; [|apply Nat.le_min_r]. apply Nat.min_glb.
  - destruct (Nat.eq_dec a 0) as [->|]; [reflexivity|]. pose proof (blocks_done_spec a ltac:(lia)). apply Nat.div_le_lower_bound; lia.
  - unfold blocks_done. apply Nat.div_le_mono; lia.
Qed.
Section Histories.
Variable c : cfg.
Variable ls : lane8 -> list setter.
Variable ps : lane8 -> Params.
Variable pieces : lane8 -> list (list byte).
Variable states : oct State.
Hypothesis built : forall l, build (ls l) = Ok (ps l).
Hypothesis made : forall l, (s <- to_state c (ps l) ;; feed c s (pieces l)) = Ok (proj l states).
Let m l := length (Spec.key_block (Spec.key (spec_params (ls l))) ++ concat (pieces l)).
Let f := fn_compress (default_compress_impl c).
Let f8 := fn_compress8 (default_compress_impl c).

Theorem update8_calls inputs w states' :
  let n l := length (proj l inputs) in
  let s l := start (m l) (n l) in
  let e l := blocks_done (m l + n l) in
  let block i := Compress f (of_N 64 (N.of_nat (64 * S i))) (uzero 32) (uzero 32) in
  (forall l, w <= e l - s l)%nat -> (exists l, e l - s l = w)%nat ->
  update8 c states inputs = Ok states' ->
  runs (events (update8_t c states inputs)) =
    flat_map (fun l => map block (seq (blocks_done (m l)) (s l - blocks_done (m l)))) lanes ++
    map (fun j => Compress8 f8 (each (fun l => of_N 64 (N.of_nat (64 * (s l + S j))))) (oct_const (uzero 32)) (oct_const (uzero 32)))
      (seq 0 w) ++
    flat_map (fun l => map block (seq (s l + w) (e l - s l - w))) lanes.
Proof.
  intros n s e block Hw Hex H. rewrite <- erase_update8 in H.
  apply (update8_calls_f c (fun l => p_hash_length (ps l)) (fun _ => f) (fun l => spec_last_node (ls l)) f8 m w states inputs states');
    [reflexivity| |exact Hw|exact Hex|exact H].
  intros l. apply history_took; [apply built|apply made].
Qed.
Theorem finalize8_calls r : finalize8 c states = Ok r ->
  runs (events (finalize8_t c states)) =
    [Compress8 f8 (each (fun l => of_N 64 (N.of_nat (m l)))) (oct_const (umax 32)) (each (fun l => flag32 (spec_last_node (ls l))))].
Proof.
  intros H. rewrite <- erase_finalize8 in H.
  apply (finalize8_calls_f c (fun l => p_hash_length (ps l)) (fun _ => f) (fun l => spec_last_node (ls l)) f8 m states r);
    [reflexivity| |exact H].
  intros l. apply history_took; [apply built|apply made].
Qed.

Theorem update8_work inputs states' : update8 c states inputs = Ok states' ->
  work (runs (events (update8_t c states inputs))) =
  list_sum (map (fun l => blocks_done (m l + length (proj l inputs)) - blocks_done (m l))%nat lanes).
Proof.
  intros H. destruct (least (fun l => blocks_done (m l + length (proj l inputs)) - start (m l) (length (proj l inputs)))%nat) as (w & Hw & Hex).
  rewrite (update8_calls inputs w states' Hw Hex H). cbv zeta. rewrite !work_app, !work_flat, (work_const _ 8) by reflexivity.
  rewrite seq_length.
  rewrite (map_ext _ (fun l => start (m l) (length (proj l inputs)) - blocks_done (m l))%nat) by (intros l; apply work_blocks; reflexivity).
  rewrite (map_ext (fun l => work (map _ (seq (_ + w) _)))
    (fun l => blocks_done (m l + length (proj l inputs)) - start (m l) (length (proj l inputs)) - w)%nat) by (intros l; apply work_blocks; reflexivity).
  rewrite Nat.add_assoc. rewrite (Nat.add_comm _ (8 * w)), <- Nat.add_assoc.
  rewrite (sum_two _ _ (fun l => blocks_done (m l + length (proj l inputs)) - blocks_done (m l) - w)%nat).
  - rewrite Nat.add_comm. symmetry. apply sum_lanes. intros l. pose proof (start_le (m l) (length (proj l inputs))). specialize (Hw l). cbv beta in Hw. lia.
  - intros l. pose proof (start_le (m l) (length (proj l inputs))). specialize (Hw l). cbv beta in Hw. lia.
Qed.
End Histories.

Theorem hash8_calls c params inputs k r : 
  let fns := default_compress_impl c in
  let n l := length (proj l inputs) in
  let block i := Compress (fn_compress fns) (of_N 64 (N.of_nat (64 * S i))) (uzero 32) (uzero 32) in
  let last l := Compress (fn_compress fns) (of_N 64 (N.of_nat (n l))) (umax 32) (flag32 (p_last_node (proj l params))) in
  let wide m lastblock lastnode := Compress8Vectorized (fn_compress8_vectorized fns) (oct_const (of_N 32 (N.of_nat m)))
    (oct_const (of_N 32 (N.of_nat m / 2 ^ 32))) lastblock lastnode in
  (forall l, k <= blocks_done (n l))%nat -> (exists l, blocks_done (n l) = k) ->
  hash8 c params inputs = Ok r ->
  runs (events (hash8_t c params inputs)) =
    Vectorize8 (fn_vectorize8 fns) ::
    map (fun i => wide (64 * S i)%nat (oct_const (uzero 32)) (oct_const (uzero 32))) (seq 0 k) ++
    if forallb (fun l => Nat.eqb (n l) (64 * S k)) lanes
    then [wide (64 * S k)%nat (oct_const (umax 32)) (each (fun l => flag32 (p_last_node (proj l params))));
          Vectorize8 (fn_vectorize8 fns)]
    else Vectorize8 (fn_vectorize8 fns) ::
         flat_map (fun l => map block (seq k (blocks_done (n l) - k)) ++ [last l]) lanes.
Proof.
  intros fns n block last wide_ H1 H2 H. rewrite <- erase_hash8 in H.
  replace (each (fun l => flag32 (p_last_node (proj l params)))) with (oct_map (fun p => flag32 (p_last_node p)) params)
    by (destruct params; reflexivity).
  exact (hash8_calls_f c params inputs k H1 H2 r H).
Qed.
Theorem hash8_work c ls params inputs r : (forall l, build (ls l) = Ok (proj l params)) -> hash8 c params inputs = Ok r ->
  work (runs (events (hash8_t c params inputs))) =
  list_sum (map (fun l => length (Spec.blake2s_calls (spec_params (ls l)) (spec_last_node (ls l)) (proj l inputs))) lanes).
Proof.
  intros Hb H. destruct (least (fun l => blocks_done (length (proj l inputs)))) as (k & H1 & H2).
  rewrite (hash8_calls c params inputs k r H1 H2 H). cbv zeta.
  assert (K : forall l, Spec.key (spec_params (ls l)) = []).
  { intros l. unfold hash8 in H. destruct (oct_all _ params) eqn:E; [|discriminate H].
    assert (Z : val (p_key_length (proj l params)) = 0).
    { unfold oct_all in E. rewrite !andb_true_iff in E. destruct E as (((((((E0 & E1) & E2) & E3) & E4) & E5) & E6) & E7).
      destruct l; apply N.eqb_eq; assumption. }
    destruct (ParamsFacts.build_encodes _ _ (Hb l)) as (_ & En). rewrite (e_kl _ _ _ En) in Z.
    destruct (Spec.key (spec_params (ls l))); [reflexivity|discriminate Z]. }
  rewrite (map_ext _ (fun l => S (blocks_done (length (proj l inputs))))).
  2: { intros l. unfold Spec.blake2s_calls. rewrite (K l). cbn [Spec.key_block app]. apply hash_calls_length. }
  match goal with |- work (Vectorize8 ?f :: ?l) = _ => change (work (Vectorize8 f :: l)) with (work l) end.
  rewrite work_app, (work_const _ 8) by reflexivity. rewrite seq_length.
  destruct (forallb (fun l => Nat.eqb (length (proj l inputs)) (64 * S k)) lanes) eqn:E.
  - rewrite lanes_all in E. rewrite (sum_lanes _ (fun _ => 1%nat) k).
    + cbn. lia.
    + intros l. specialize (E l). apply Nat.eqb_eq in E. rewrite E. rewrite (blocks_done_eq (64 * S k) k) by lia. lia.
  - match goal with |- (_ + work (Vectorize8 ?f :: ?l) = _)%nat => change (work (Vectorize8 f :: l)) with (work l) end.
    rewrite work_flat. rewrite (sum_lanes (fun l => S (blocks_done (length (proj l inputs))))
      (fun l => blocks_done (length (proj l inputs)) - k + 1)%nat k).
    + rewrite Nat.add_comm. f_equal. f_equal. apply map_ext. intros l. rewrite work_app, work_blocks by reflexivity. reflexivity.
    + intros l. specialize (H1 l). cbv beta in H1. lia.
Qed.
