(** * BenchFacts: proofs about the benchmark programs. *)
From Verif Require Import Base BaseFacts Intrinsics Consts Portable PortableFacts Params State Many Blake2sp Views StateFacts
  ParamsSpec ParamsFacts Refine HashFacts Avx2Facts Sse41Facts ManyFacts SpFacts
  Machine MachineSpec MachineFacts Relate Safety Clients Behave ExactFacts Corollaries Benches.
From Verif Require Spec Sse41 Avx2 LeafFacts.
From Coq Require Import ZArith Lia ZifyBool ZifyNat ZifyN.
Local Open Scope N_scope.

(** ** Compressions, again and again *)
Lemma iter_total {A} n (f : A -> outcome A) (F : A -> A) (a : A) : (forall a, f a = Ok (F a)) ->
  calls n f a = Ok (Nat.iter n F a).
Proof.
  intros H. revert a. induction n as [|n IH]; intros a; [reflexivity|]. cbn [calls]. rewrite H. cbn [bind]. rewrite IH.
  f_equal. clear IH. induction n as [|n IH]; [reflexivity|]. change (F (Nat.iter n F (F a)) = F (Nat.iter (S n) F a)).
  f_equal. exact IH.
Qed.
Lemma iter_view {A B} n (F : A -> A) (G : B -> B) (v : A -> B) a : (forall a, v (F a) = G (v a)) ->
  v (Nat.iter n F a) = Nat.iter n G (v a).
Proof.
  intros H. induction n as [|n IH]; [reflexivity|]. change (v (F (Nat.iter n F a)) = G (Nat.iter n G (v a))).
  rewrite H, IH. reflexivity.
Qed.

Theorem compress_benches c n block h : length block = 64%nat ->
  (exists r, bench_portable_compress c n block h = Ok r /\
     nums r = Nat.iter n (fun v => Spec.F v block 0 0 0) (nums h)) /\
  (has_sse41 c = true -> exists r, bench_sse41_compress c n block h = Ok r /\
     nums r = Nat.iter n (fun v => Spec.F v block 0 0 0) (nums h)).
Proof.
  intros H. split.
  - eexists. split.
    + apply iter_total. intros a. apply call_compress_ok; [discriminate|exact H].
    + apply (iter_view n). intros a. apply compress_ok, H.
  - intros Hs. eexists. split.
    + apply iter_total. intros a. apply call_compress_ok; [intros _; exact Hs|exact H].
    + apply (iter_view n). intros a. apply compress_ok, H.
Qed.
Theorem compress8_benches c n blocks h : (forall l, length (proj l blocks) = 64%nat) ->
  (exists r, bench_portable_compress8 c n blocks h = Ok r /\
     forall l, nums (proj l r) = Nat.iter n (fun v => Spec.F v (proj l blocks) 0 0 0) (nums (proj l h))) /\
  (exists r, bench_avx2_compress8 c n blocks h = Ok r /\
     forall l, nums (proj l r) = if has_avx2 c then Nat.iter n (fun v => Spec.F v (proj l blocks) 0 0 0) (nums (proj l h))
                                 else nums (proj l h)).
Proof.
  intros H. split.
  - eexists. split.
    + apply iter_total. intros a. apply call_compress8_ok; [discriminate|exact H].
    + intros l. apply (iter_view n _ _ (fun r => nums (proj l r))). intros a. etransitivity; [apply portable_compress8_F, H|].
      rewrite !proj_const. reflexivity.
  - unfold bench_avx2_compress8. destruct (has_avx2 c) eqn:Ha; [|exists h; split; reflexivity]. eexists. split.
    + apply iter_total. intros a. apply call_compress8_ok; [intros _; exact Ha|exact H].
    + intros l. apply (iter_view n _ _ (fun r => nums (proj l r))). intros a. etransitivity; [apply portable_compress8_F, H|].
      rewrite !proj_const. reflexivity.
Qed.
Theorem compress4_bench c n msg low high last node h : (forall l, length (qproj l msg) = 64%nat) ->
  exists r, bench_sse41_compress4_transposed c n msg low high last node h = Ok r /\
    forall l, nums (qlane_state r l) = if has_sse41 c then Nat.iter n (fun v => Spec.F v (qproj l msg)
        (val (qproj l low) + 2 ^ 32 * val (qproj l high)) (val (qproj l last)) (val (qproj l node))) (nums (qlane_state h l))
      else nums (qlane_state h l).
Proof.
  intros H. unfold bench_sse41_compress4_transposed. destruct (has_sse41 c) eqn:Ha; [|exists h; split; reflexivity].
  eexists. split.
  - apply iter_total. intros a. unfold call_compress4_transposed. rewrite Ha. reflexivity.
  - intros l. apply (iter_view n _ _ (fun r => nums (qlane_state r l))). intros a.
    etransitivity; [apply sse41_compress4_F; [exact (H M0)|exact (H M1)|exact (H M2)|exact (H M3)]|]. destruct msg; reflexivity.
Qed.
Lemma msg_vecs_sched (msg_vecs : list m256) block l : length block = 64%nat ->
  map (fun v => val (proj l v)) msg_vecs = map (Spec.word block) (seq 0 16) -> map (proj l) msg_vecs = sched block.
Proof.
  intros H E. rewrite <- (sched_ok _ H), <- map_map in E.
  revert E. generalize (map (proj l) msg_vecs) (sched block). intros a. induction a as [|x a IH]; intros [|y b] E; try discriminate E.
  - reflexivity.
  - cbn [map] in E. injection E as E1 E2. f_equal; [apply val_inj, E1|apply IH, E2].
Qed.
Theorem wide8_benches c n msg low high last node h : (forall l, length (proj l msg) = 64%nat) ->
  let expect (l : lane8) (h r : oct m256) := nums (lane_state r l) = if has_avx2 c then Nat.iter n (fun v => Spec.F v (proj l msg)
      (val (proj l low) + 2 ^ 32 * val (proj l high)) (val (proj l last)) (val (proj l node))) (nums (lane_state h l))
    else nums (lane_state h l) in
  (exists r, bench_avx2_compress8_vectorized c n msg low high last node h = Ok r /\ forall l, expect l h r) /\
  (forall msg_vecs, (forall l, map (fun v => val (proj l v)) msg_vecs = map (Spec.word (proj l msg)) (seq 0 16)) ->
   exists r, bench_avx2_compress8_transposed_all c n msg_vecs low high last node h = Ok r /\ forall l, expect l h r).
Proof.
  intros H expect. split.
  - unfold bench_avx2_compress8_vectorized, expect. destruct (has_avx2 c) eqn:Ha; [|exists h; split; reflexivity]. eexists. split.
    + apply iter_total. intros a. unfold call_compress8_vectorized. rewrite Ha. reflexivity.
    + intros l. apply (iter_view n _ _ (fun r => nums (lane_state r l))). intros a.
      etransitivity; [apply f_equal, (compress8_vectorized_lane a msg low high last node l H)|]. etransitivity; [apply compress_ok, H|].
      rewrite join_count_val. reflexivity.
  - intros vecs Hv. unfold bench_avx2_compress8_transposed_all, expect. destruct (has_avx2 c) eqn:Ha; [|exists h; split; reflexivity].
    eexists. split.
    + apply iter_total. intros a. unfold call_compress8_transposed_all. rewrite Ha. reflexivity.
    + intros l. apply (iter_view n _ _ (fun r => nums (lane_state r l))). intros a.
      transitivity (nums (compress_words (lane_state a l) (proj l msg) (proj l low) (proj l high) (proj l last) (proj l node))).
      * f_equal. rewrite compress8_transposed_lane, (msg_vecs_sched _ _ _ (H l) (Hv l)). reflexivity.
      * rewrite compress_words_join, compress_ok by apply H. rewrite join_count_val. reflexivity.
Qed.

(** The benchmark that does not look at the CPU. *)
Theorem sse41_bench_unguarded c n block h : has_sse41 c = false ->
  bench_sse41_compress c n block h = match n with O => Ok h | S _ => UB end.
Proof.
  intros Hs. destruct n as [|n]; [reflexivity|]. cbn [bench_sse41_compress calls]. unfold bench_sse41_compress.
  cbn [calls call_compress]. rewrite Hs. reflexivity.
Qed.

(** ** Hashes *)
Lemma encodes_new : encodes Params_new Spec.default_params false.
Proof. exact (proj2 (build_encodes [] Params_new eq_refl)). Qed.
Lemma default_stream x : stream Spec.default_params x = x.
Proof. reflexivity. Qed.
Lemma new_models c : cfg_ok c -> exists st, State_new c = Ok st /\ Models c Spec.default_params false [] st.
Proof. intros Hc. exact (models_new c Params_new _ _ Hc encodes_new). Qed.

Theorem portable_bench c input : cfg_ok c -> N.of_nat (length input) < 2 ^ 64 ->
  (h <- bench_portable c input ;; as_bytes h) = Ok (Spec.blake2s Spec.default_params false input).
Proof.
  intros Hc Hn. unfold bench_portable. destruct (new_models c Hc) as (st & -> & M). cbn [bind].
  apply models_force_portable in M. destruct (models_update c _ _ _ _ input M) as (st' & -> & M').
  { rewrite default_stream. intros _. exact Hn. }
  cbn [bind]. destruct (models_finalize c _ _ _ _ M') as (st2 & h & -> & _ & _ & _ & E). exact E.
Qed.
Theorem update8_bench c inputs : cfg_ok c -> (forall l, N.of_nat (length (proj l inputs)) < 2 ^ 64) ->
  exists hs, update8_of c inputs = Ok hs /\
    forall l, as_bytes (proj l hs) = Ok (Spec.blake2s Spec.default_params false (proj l inputs)).
Proof.
  intros Hc Hn. unfold update8_of. destruct (new_models c Hc) as (st & E & M). rewrite E. cbn [bind].
  set (a := oct_const (mk_astate Spec.default_params false [])).
  assert (H : forall l, stands c (proj l a) (proj l (oct_const st))).
  { intros l. subst a. rewrite !proj_const. exact M. }
  change (Oct st st st st st st st st) with (oct_const st).
  destruct (update8_stands c a (oct_const st) inputs H) as [(sts & E1 & H1)|(_ & l & E1)].
  - rewrite E1. cbn [bind]. destruct (finalize8_stands c (oct_map2 add_msg a inputs) sts) as (sts' & hs & E2 & H2).
    { intros l. rewrite proj_map2. apply H1. }
    rewrite E2. cbn [bind]. exists hs. split; [reflexivity|]. intros l.
    destruct (H1 l) as (M1 & _). subst a. rewrite proj_const in M1.
    destruct (models_finalize c _ _ _ _ M1) as (st2 & h & E3 & _ & _ & _ & E4).
    destruct (H2 l) as (E5 & _). rewrite E5 in E3. injection E3 as _ ->. exact E4.
  - exfalso. destruct (models_update c _ _ _ _ (proj l inputs) M) as (u & E2 & _).
    { rewrite default_stream. intros _. apply Hn. }
    rewrite proj_const, E2 in E1. discriminate E1.
Qed.
Theorem do_update8_bench c input : cfg_ok c -> N.of_nat (length input) < 2 ^ 64 ->
  exists hs, do_update8 c input = Ok hs /\
    forall l, as_bytes (proj l hs) = Ok (Spec.blake2s Spec.default_params false input).
Proof.
  intros Hc Hn. destruct (update8_bench c (oct_const input) Hc) as (hs & E & H).
  { intros l. rewrite proj_const. exact Hn. }
  exists hs. split; [exact E|]. intros l. rewrite H, proj_const. reflexivity.
Qed.
Theorem hash_benches c buf : cfg_ok c -> N.of_nat (length buf) < 2 ^ 64 ->
  (exists hs, bench_hash8 c buf = Ok hs /\
     forall l, as_bytes (proj l hs) = Ok (Spec.blake2s Spec.default_params false buf)) /\
  ((length buf mod 64 = 0)%nat -> buf <> [] ->
   (exists hs, bench_hash4 c buf = Ok hs /\
     forall l, as_bytes (qproj l hs) = Ok (Spec.blake2s Spec.default_params false buf)) /\
   (exists hs, bench_hash8_exact c buf = Ok hs /\
     forall l, as_bytes (proj l hs) = Ok (Spec.blake2s Spec.default_params false buf))) /\
  (h <- bench_blake2sp c buf ;; as_bytes h) = Ok (Spec.blake2sp 32 [] buf).
Proof.
  intros Hc Hn. split; [|split].
  - destruct (hash8_separately c (oct_const []) (oct_const Params_new) (oct_const buf) Hc) as (hs & E & H);
      try (intros l; rewrite !proj_const; try reflexivity; exact Hn).
    exists hs. split; [exact E|]. intros l. destruct (H l) as (_ & H'). rewrite !proj_const in H'. exact H'.
  - intros Hm Hne.
    assert (Hpos : (length buf <> 0)%nat) by (destruct buf; [contradiction|discriminate]).
    assert (Hx : forall x, x = length buf -> x = (64 * (length buf / 64))%nat).
    { intros x ->. pose proof (Nat.div_mod (length buf) 64). lia. }
    assert (H0 : (0 < length buf / 64)%nat) by (specialize (Hx _ eq_refl); lia).
    split.
    + destruct (hash4_exact_separately c [] Params_new (Quad buf buf buf buf) Hc eq_refl eq_refl) as (hs & E & H).
      * exists (length buf / 64)%nat. split; [exact H0|]. cbn [quad_list map q0 q1 q2 q3 In]. intros x Hi. apply Hx. intuition congruence.
      * intros []; exact Hn.
      * exists hs. split; [exact E|]. intros l. destruct (H l) as (_ & H'). destruct l; exact H'.
    + destruct (hash8_exact_separately c [] Params_new (oct_const buf) Hc eq_refl eq_refl) as (hs & E & H).
      * exists (length buf / 64)%nat. split; [exact H0|]. cbn [oct_const oct_list map o0 o1 o2 o3 o4 o5 o6 o7 In].
        intros x Hi. apply Hx. intuition congruence.
      * intros l. rewrite proj_const. exact Hn.
      * exists hs. split; [exact E|]. intros l. destruct (H l) as (_ & H'). rewrite proj_const in H'. exact H'.
  - apply sp_one_shot_value; assumption.
Qed.

(** ** benchmark_gig *)
Lemma eighth_ok input i : (i < 8)%nat -> eighth_slice input i = Ok (eighth input i).
Proof.
  intros Hi. unfold eighth_slice. cbv zeta. pose proof (Nat.mul_div_le (length input) 8 ltac:(lia)) as H.
  rewrite slice_from_ok by nia. cbn [bind]. rewrite slice_to_ok; [reflexivity|]. rewrite skipn_length. nia.
Qed.
Theorem gig_update8_ok c input : cfg_ok c -> N.of_nat (length input) < 2 ^ 64 ->
  exists hs, gig_update8 c input = Ok hs /\
    forall l, as_bytes (proj l hs) = Ok (Spec.blake2s Spec.default_params false (eighth input (lane_index l))).
Proof.
  intros Hc Hn. unfold gig_update8.
  rewrite (oct_mapM_ok _ _ (oct_of (fun l => eighth input (lane_index l)))).
  2: { intros l. rewrite proj_of. destruct l; apply eighth_ok; cbn [lane_index]; lia. }
  cbn [bind]. destruct (update8_bench c (oct_of (fun l => eighth input (lane_index l))) Hc) as (hs & E & H).
  { intros l. rewrite proj_of. unfold eighth. rewrite firstn_length, skipn_length. lia. }
  exists hs. split; [exact E|]. intros l. rewrite H, proj_of. reflexivity.
Qed.
Lemma eighths_cover input : (length input mod 8 = 0)%nat -> concat (map (eighth input) (seq 0 8)) = input.
Proof.
  intros H. pose proof (Nat.div_mod (length input) 8 ltac:(lia)) as D. rewrite H, Nat.add_0_r in D.
  unfold eighth. remember (length input / 8)%nat as n. clear Heqn H.
  assert (G : forall k (x : list byte), length x = (k * n)%nat -> concat (map (fun i => firstn n (skipn (i * n) x)) (seq 0 k)) = x).
  { induction k as [|k IH]; intros x Hx; [destruct x; [reflexivity|discriminate Hx]|].
    cbn [seq map concat]. rewrite <- seq_shift, map_map. cbn [Nat.mul skipn].
    transitivity (firstn n x ++ skipn n x); [|apply firstn_skipn]. f_equal.
    transitivity (concat (map (fun i => firstn n (skipn (i * n) (skipn n x))) (seq 0 k))); [|apply IH; rewrite skipn_length; lia].
    f_equal. apply map_ext. intros i. rewrite LeafFacts.skipn_plus. do 2 f_equal. lia. }
  apply G. lia.
Qed.

(** ** count_cycles *)
Lemma calls_const {A} n (x : outcome A) a : (exists b, x = Ok b) -> exists b, calls n (fun _ => x) a = Ok b.
Proof.
  intros (b & ->). exists (Nat.iter n (fun _ => b) a). apply (iter_total n (fun _ => Ok b) (fun _ => b)). reflexivity.
Qed.
Lemma bound_ok {A B} (x : outcome A) (f : A -> outcome B) b : bind x f = Ok b -> exists a, x = Ok a.
Proof. destruct x; intros E; try discriminate E. eexists. reflexivity. Qed.
Theorem count_cycles_ok c n block blocks h h8 input inputs : cfg_ok c ->
  length block = 64%nat -> (forall l, length (proj l blocks) = 64%nat) ->
  N.of_nat (length input) < 2 ^ 64 -> (forall l, N.of_nat (length (proj l inputs)) < 2 ^ 64) ->
  count_cycles c n block blocks h h8 input inputs = if has_avx2 c then Ok tt else Panic.
Proof.
  intros Hc Hb Hbs Hi His. unfold count_cycles. destruct (has_avx2 c) eqn:Ha; [|reflexivity].
  destruct (proj1 (compress_benches c n block h Hb)) as (r1 & E1 & _). unfold bench_portable_compress in E1. rewrite E1. cbn [bind].
  destruct (proj2 (compress8_benches c n blocks h8 Hbs)) as (r2 & E2 & _). unfold bench_avx2_compress8 in E2. rewrite Ha in E2.
  rewrite E2. cbn [bind].
  edestruct (calls_const n (blake2s c input)) as (r3 & E3); [eapply bound_ok, (one_shot_value c input Hc Hi)|]. rewrite E3. cbn [bind].
  edestruct (calls_const n (Blake2sp.blake2sp c input)) as (r4 & E4); [eapply bound_ok, (sp_one_shot_value c input Hc Hi)|].
  rewrite E4. cbn [bind].
  edestruct (calls_const n (update8_of c inputs)) as (r5 & E5).
  { destruct (update8_bench c inputs Hc His) as (hs & E & _). exists hs. exact E. }
  rewrite E5. reflexivity.
Qed.
