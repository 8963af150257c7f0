(** * Corollaries: the facts in the shape the property files state them. *)
From Verif Require Import Base BaseFacts Consts Portable PortableFacts Params State Many Blake2sp StateFacts
  ParamsSpec ParamsFacts Refine Debug HashFacts Avx2Facts Sse41Facts ManyFacts Hash8Facts ExactFacts SpFacts
  Machine MachineSpec MachineFacts Relate Safety Clients Behave Witness Collision.
From Verif Require Spec SpecFacts Sse41 Avx2.
From Coq Require Import ZArith Lia ZifyBool ZifyNat ZifyN.
Local Open Scope N_scope.

(** ** Compression *)
Lemma join_count_val lo hi : val (join_count lo hi) = val lo + 2 ^ 32 * val hi.
Proof.
  unfold join_count, cast, wrapping_add, ushl.
  rewrite !val_of_N, N.shiftl_mul_pow2.
  pose proof (val_lt lo); pose proof (val_lt hi).
  rewrite (N.mod_small (val hi) (2 ^ 64)) by lia.
  rewrite (N.mod_small (val lo) (2 ^ 64)) by lia.
  rewrite (N.mod_small (val hi * 2 ^ 32) (2 ^ 64)) by lia.
  rewrite (N.mod_small _ (2 ^ 64)) by lia. lia.
Qed.
Lemma compress_words_join h msg lo hi lb ln :
  compress_words h msg lo hi lb ln = Portable.compress h msg (join_count lo hi) lb ln.
Proof. rewrite compress_eq, join_count_lo, join_count_hi. reflexivity. Qed.

Lemma sse41_compress_F h msg count lb ln : length msg = 64%nat ->
  nums (Sse41.compress h msg count lb ln) = Spec.F (nums h) msg (val count) (val lb) (val ln).
Proof. intros H. etransitivity; [apply f_equal, compress_portable_ok, H|]. apply compress_ok, H. Qed.

Lemma avx2_compress8_F h msg count lb ln l : (forall k, length (proj k msg) = 64%nat) ->
  nums (proj l (Avx2.compress8 h msg count lb ln)) =
  Spec.F (nums (proj l h)) (proj l msg) (val (proj l count)) (val (proj l lb)) (val (proj l ln)).
Proof.
  intros H. etransitivity; [apply f_equal, Avx2Facts.compress8_lane; exact H|]. apply compress_ok, H.
Qed.
Lemma portable_compress8_F h msg count lb ln l : (forall k, length (proj k msg) = 64%nat) ->
  nums (proj l (Portable.compress8 h msg count lb ln)) =
  Spec.F (nums (proj l h)) (proj l msg) (val (proj l count)) (val (proj l lb)) (val (proj l ln)).
Proof.
  intros H. etransitivity; [|apply compress_ok, H]. destruct l; reflexivity.
Qed.
Lemma sse41_compress4_F h a b c d lo hi lb ln l :
  length a = 64%nat -> length b = 64%nat -> length c = 64%nat -> length d = 64%nat ->
  nums (qlane_state (Sse41.compress4_transposed h a b c d lo hi lb ln) l) =
  Spec.F (nums (qlane_state h l)) (qproj l (Quad a b c d))
    (val (qproj l lo) + 2 ^ 32 * val (qproj l hi)) (val (qproj l lb)) (val (qproj l ln)).
Proof.
  intros Ha Hb Hc Hd.
  assert (H : forall k, length (qproj k (Quad a b c d)) = 64%nat) by (intros []; assumption).
  etransitivity; [apply f_equal, compress4_transposed_lane, H|].
  rewrite compress_words_join, compress_ok by apply H. rewrite join_count_val. reflexivity.
Qed.

Lemma avx2_session_ok words calls l : Forall vcall_ok calls ->
  nums (proj l (avx2_session words calls)) = lane_session l (nums (proj l words)) calls.
Proof.
  intros H. unfold avx2_session, lane_session.
  assert (E : forall w : oct (oct u32), proj l (Avx2.vectorize_words8 w) = lane_state w l).
  { intros w. unfold lane_state, Avx2.vectorize_words8. apply oct_ext; intro k. rewrite proj_map. apply transpose_spec. }
  rewrite E.
  assert (E0 : lane_state (Avx2.vectorize_words8 words) l = proj l words) by apply lane_state_transpose.
  rewrite <- E0. clear E0. generalize (Avx2.vectorize_words8 words). clear words. intros w. revert w.
  induction H as [|k calls Hk _ IH]; intros w; [reflexivity|]. cbn [fold_left].
  rewrite IH. f_equal.
  etransitivity; [apply f_equal, Avx2Facts.compress8_vectorized_lane; exact Hk|].
  rewrite compress_ok by apply Hk. rewrite join_count_val. reflexivity.
Qed.
Lemma portable_session_ok words calls l : Forall vcall_ok calls ->
  nums (proj l (portable_session words calls)) = lane_session l (nums (proj l words)) calls.
Proof.
  intros H. unfold portable_session, lane_session, Portable.vectorize_words8. revert words.
  induction H as [|k calls Hk _ IH]; intros w; [reflexivity|]. cbn [fold_left].
  rewrite IH. f_equal.
  transitivity (nums (Portable.compress (proj l w) (proj l (v_blocks k))
                        (join_count (proj l (v_low k)) (proj l (v_high k)))
                        (proj l (v_lastblock k)) (proj l (v_lastnode k)))).
  { destruct l; reflexivity. }
  rewrite compress_ok by apply Hk. rewrite join_count_val. reflexivity.
Qed.
Lemma sessions_agree words calls : Forall vcall_ok calls -> avx2_session words calls = portable_session words calls.
Proof.
  intros H. apply oct_ext. intros l. apply nums_inj. rewrite avx2_session_ok, portable_session_ok by exact H.
  reflexivity.
Qed.
Lemma vectorize_twice w : Avx2.vectorize_words8 (Avx2.vectorize_words8 w) = w.
Proof. apply transpose_involutive. Qed.

(** ** Parameters *)
Lemma to_state_initial c l p : cfg_ok c -> build l = Ok p ->
  exists st, to_state c p = Ok st /\ nums (st_h st) = Spec.initial (spec_params l).
Proof.
  intros Hc Hb. apply build_encodes in Hb as (_ & E).
  destruct (with_params_ok c p _ _ Hc E) as (st & k & Es & R & Hz & _). exists st. split; [exact Es|].
  rewrite (rep_h _ _ _ _ _ R). destruct k as [|k]; [reflexivity|]. exfalso.
  destruct Hz as [Hz|Hz]; [discriminate|]. revert Hz. pose proof (e_key_ok _ _ _ E) as Hk.
  rewrite key_block_length by lia. destruct (Spec.key (spec_params l)); lia.
Qed.
Lemma to_state_injective c c' l l' p p' st st' : cfg_ok c -> cfg_ok c' -> build l = Ok p -> build l' = Ok p' ->
  to_state c p = Ok st -> to_state c' p' = Ok st' -> st_h st = st_h st' ->
  let a := spec_params l in let b := spec_params l' in
  Spec.digest_length a = Spec.digest_length b /\ length (Spec.key a) = length (Spec.key b) /\
  Spec.fanout a = Spec.fanout b /\ Spec.depth a = Spec.depth b /\
  Spec.leaf_length a = Spec.leaf_length b /\ Spec.node_offset a = Spec.node_offset b /\
  Spec.node_depth a = Spec.node_depth b /\ Spec.inner_length a = Spec.inner_length b /\
  Spec.pad 8 (Spec.salt a) = Spec.pad 8 (Spec.salt b) /\
  Spec.pad 8 (Spec.personal a) = Spec.pad 8 (Spec.personal b).
Proof.
  intros Hc Hc' Hb Hb' Hs Hs' Hh. cbv zeta.
  destruct (to_state_initial c l p Hc Hb) as (s1 & E1 & I1).
  destruct (to_state_initial c' l' p' Hc' Hb') as (s2 & E2 & I2).
  assert (s1 = st) as -> by congruence. assert (s2 = st') as -> by congruence.
  apply build_encodes in Hb as (_ & E). apply build_encodes in Hb' as (_ & E').
  pose proof (encodes_valid _ _ _ E) as V. pose proof (encodes_valid _ _ _ E') as V'.
  apply SpecFacts.param_block_inj; [exact V|exact V'|].
  apply SpecFacts.initial_inj; [exact V|exact V'|]. congruence.
Qed.
Lemma setter_outcome l p s : build l = Ok p ->
  (valid_setter s = true -> exists p', apply_setter p s = Ok p' /\ build (l ++ [s]) = Ok p') /\
  (apply_setter p s = Panic <-> valid_setter s = false).
Proof.
  intros Hb. assert (H : valid_setter s = true -> exists p', apply_setter p s = Ok p' /\ build (l ++ [s]) = Ok p').
  { intros V. pose proof (build_encodes _ _ Hb) as (_ & E).
    destruct (apply_setter_ok p _ _ s E V) as (p' & E' & _). exists p'. split; [exact E'|].
    unfold build in *. rewrite apply_setters_app, Hb. cbn [bind apply_setters]. rewrite E'. reflexivity. }
  split; [exact H|]. split; [|apply apply_setter_panic].
  intros Hp. destruct (valid_setter s); [|reflexivity]. destruct (H eq_refl) as (p' & E & _). congruence.
Qed.
Lemma sp_setter_outcome l p s : sp_build l = Ok p ->
  (sp_setter_ok s = true -> exists p', sp_apply_setter p s = Ok p' /\ sp_build (l ++ [s]) = Ok p') /\
  (sp_apply_setter p s = Panic <-> sp_setter_ok s = false).
Proof.
  intros Hb. change (sp_setter_ok s) with (sp_valid_setter s).
  assert (H : sp_valid_setter s = true -> exists p', sp_apply_setter p s = Ok p' /\ sp_build (l ++ [s]) = Ok p').
  { intros V. pose proof (sp_build_encodes _ _ Hb) as (_ & E).
    destruct (sp_apply_setter_ok p _ _ s E V) as (p' & E' & _). exists p'. split; [exact E'|].
    unfold sp_build in *. rewrite sp_apply_setters_app, Hb. cbn [bind sp_apply_setters]. rewrite E'. reflexivity. }
  split; [exact H|]. split; [|apply sp_apply_setter_panic].
  intros Hp. destruct (sp_valid_setter s); [|reflexivity]. destruct (H eq_refl) as (p' & E & _). congruence.
Qed.
Lemma params_fields l p : build l = Ok p ->
  val (p_hash_length p) = last_call sel_hash_length 32 l /\
  val (p_key_length p) = N.of_nat (length (last_call sel_key [] l)) /\
  p_key p = Spec.pad 32 (last_call sel_key [] l) /\
  p_salt p = Spec.pad 8 (last_call sel_salt [] l) /\
  p_personal p = Spec.pad 8 (last_call sel_personal [] l) /\
  val (p_fanout p) = last_call sel_fanout 1 l /\
  val (p_max_depth p) = last_call sel_max_depth 1 l /\
  val (p_max_leaf_length p) = last_call sel_max_leaf_length 0 l /\
  val (p_node_offset p) = last_call sel_node_offset 0 l /\
  val (p_node_depth p) = last_call sel_node_depth 0 l /\
  val (p_inner_hash_length p) = last_call sel_inner 0 l /\
  p_last_node p = last_call sel_last_node false l.
Proof. intros Hb. apply build_encodes in Hb as (_ & E). destruct E. repeat split; assumption. Qed.

(** ** Hashing *)
Lemma one_shot_value c input : cfg_ok c -> N.of_nat (length input) < 2 ^ 64 ->
  (h <- blake2s c input ;; as_bytes h) = Ok (Spec.blake2s Spec.default_params false input).
Proof.
  intros Hc Hl. assert (Ei : concat [input] = input) by apply app_nil_r.
  transitivity (hash_pieces c Params_new [input]).
  - unfold blake2s, hash_pieces. cbn [feed]. change (State_new c) with (to_state c Params_new).
    destruct (to_state c Params_new); cbn [bind]; try reflexivity.
    destruct (update c a input); cbn [bind]; try reflexivity.
    destruct (finalize c a0) as [[? ?]| | |]; reflexivity.
  - rewrite (hash_pieces_value c [] Params_new [input] Hc eq_refl); rewrite Ei; [reflexivity|exact Hl].
Qed.
Lemma finalize_value c st l pieces p : cfg_ok c -> build l = Ok p ->
  (s <- to_state c p ;; feed c s pieces) = Ok st ->
  exists st' h, finalize c st = Ok (st', h) /\
    as_bytes h = Ok (Spec.blake2s (spec_params l) (spec_last_node l) (concat pieces)).
Proof.
  intros Hc Hb Hs. apply build_encodes in Hb as (_ & E). destruct (models_new c p _ _ Hc E) as (s0 & E0 & M).
  rewrite E0 in Hs. cbn [bind] in Hs. change (stands c (new_state l) s0) in M.
  destruct (feed_stands c pieces _ s0 M) as [(s1 & E1 & M1)|(E1 & _)]; [|congruence].
  assert (s1 = st) as -> by congruence.
  destruct (models_finalize c _ _ _ _ M1) as (t & h & F & _ & _ & _ & B). exists t, h. split; [exact F|exact B].
Qed.

(** *** The counter *)
Lemma key_bytes_block k : (length k <= 64)%nat -> N.of_nat (length (Spec.key_block k)) = key_bytes k.
Proof. intros H. rewrite key_block_length by exact H. destruct k; reflexivity. Qed.
Lemma count_value c l p pieces st : cfg_ok c -> build l = Ok p ->
  (s <- to_state c p ;; feed c s pieces) = Ok st ->
  val (count st) = (key_bytes (Spec.key (spec_params l)) + N.of_nat (length (concat pieces))) mod 2 ^ 64.
Proof.
  intros Hc Hb Hs. apply build_encodes in Hb as (_ & E). destruct (models_new c p _ _ Hc E) as (s0 & E0 & M).
  rewrite E0 in Hs. cbn [bind] in Hs. change (stands c (new_state l) s0) in M.
  destruct (feed_stands c pieces _ s0 M) as [(s1 & E1 & M1)|(E1 & _)]; [|congruence].
  assert (s1 = st) as -> by congruence. rewrite (models_count _ _ _ _ _ M1), stream_length.
  rewrite <- key_bytes_block by (pose proof (e_key_ok _ _ _ E); lia).
  unfold new_state, add_msg. cbn [a_sp a_msg app]. f_equal. lia.
Qed.
Lemma feed_panics c l p pieces : cfg_ok c -> build l = Ok p ->
  let n := key_bytes (Spec.key (spec_params l)) + N.of_nat (length (concat pieces)) in
  ((s <- to_state c p ;; feed c s pieces) = Panic <-> overflow_checks c = true /\ 2 ^ 64 <= n) /\
  ((exists st, (s <- to_state c p ;; feed c s pieces) = Ok st) <-> overflow_checks c = false \/ n < 2 ^ 64).
Proof.
  intros Hc Hb. cbv zeta. apply build_encodes in Hb as (_ & E). destruct (models_new c p _ _ Hc E) as (s0 & E0 & M).
  rewrite E0. cbn [bind]. change (stands c (new_state l) s0) in M.
  rewrite <- key_bytes_block by (pose proof (e_key_ok _ _ _ E); lia).
  destruct (feed_stands c pieces _ s0 M) as [(s1 & E1 & M1)|(E1 & Hn)]; rewrite E1.
  - destruct (mo_rep _ _ _ _ _ M1) as (k & R & _). pose proof (rep_fits _ _ _ _ _ R) as Hf.
    unfold fits in Hf. rewrite stream_length in Hf. unfold new_state, add_msg in Hf. cbn [a_sp a_msg app] in Hf.
    split; split; intros H; try discriminate; try (exists s1; reflexivity).
    + destruct H as (H1 & H2). specialize (Hf H1). lia.
    + destruct (overflow_checks c); [right|left; reflexivity]. specialize (Hf eq_refl). lia.
  - unfold fits in Hn. rewrite stream_length in Hn. unfold new_state, add_msg in Hn. cbn [a_sp a_msg app] in Hn.
    destruct (overflow_checks c).
    + assert (Hge : 2 ^ 64 <= N.of_nat (length (Spec.key_block (Spec.key (spec_params l)))) + N.of_nat (length (concat pieces))).
      { destruct (N.le_gt_cases (2 ^ 64) (N.of_nat (length (Spec.key_block (Spec.key (spec_params l)))) + N.of_nat (length (concat pieces)))) as [H|H]; [exact H|].
        exfalso. apply Hn. intros _. lia. }
      split; split; intros H; try reflexivity; try (split; [reflexivity|exact Hge]).
      * destruct H as (s & H). discriminate H.
      * destruct H as [H|H]; [discriminate H|lia].
    + exfalso. apply Hn. intros H. discriminate H.
Qed.

(** ** Many inputs at once *)
Lemma small_stream l p x : build l = Ok p -> N.of_nat (length x) + 64 < 2 ^ 64 ->
  N.of_nat (length (stream (spec_params l) x)) < 2 ^ 64.
Proof.
  intros Hb Hl. apply build_encodes in Hb as (_ & E). rewrite stream_length.
  rewrite key_block_length by (pose proof (e_key_ok _ _ _ E); lia). destruct (Spec.key (spec_params l)); lia.
Qed.
Lemma unkeyed_stream l x : Spec.key (spec_params l) = [] -> stream (spec_params l) x = x.
Proof. intros H. unfold stream. rewrite H. reflexivity. Qed.

Lemma hash8_separately c ls ps inputs : cfg_ok c -> (forall l, build (proj l ls) = Ok (proj l ps)) ->
  (forall l, Spec.key (spec_params (proj l ls)) = []) ->
  (forall l, N.of_nat (length (proj l inputs)) < 2 ^ 64) ->
  exists hs, hash8 c ps inputs = Ok hs /\ forall l,
    hash_one c (proj l ps) (proj l inputs) = Ok (proj l hs) /\
    as_bytes (proj l hs) = Ok (Spec.blake2s (spec_params (proj l ls)) (spec_last_node (proj l ls)) (proj l inputs)).
Proof.
  intros Hc Hb Hk Hl.
  assert (He : forall l, encodes (proj l ps) (spec_params (proj l ls)) (spec_last_node (proj l ls)))
    by (intros l; apply build_encodes, Hb).
  eexists. split; [apply (hash8_ok c ps (fun l => spec_params (proj l ls)) (fun l => spec_last_node (proj l ls)) inputs Hc He Hk)|].
  - intros l _. apply Hl.
  - intros l. rewrite proj_of.
    destruct (hash_one_ok c _ _ _ (proj l inputs) Hc (He l)) as (h & Eh & _ & _ & _ & Hbytes).
    { intros _. rewrite (unkeyed_stream _ _ (Hk l)). apply Hl. }
    rewrite (hash_one_value c _ _ _ (proj l inputs) Hc (He l)) in Eh |- *.
    + injection Eh as <-. split; [reflexivity|exact Hbytes].
    + intros _. rewrite (unkeyed_stream _ _ (Hk l)). apply Hl.
    + intros _. rewrite (unkeyed_stream _ _ (Hk l)). apply Hl.
Qed.
Lemma hash8_rejects c ls ps inputs : cfg_ok c -> (forall l, build (proj l ls) = Ok (proj l ps)) ->
  (forall l, N.of_nat (length (proj l inputs)) < 2 ^ 64) ->
  (hash8 c ps inputs = Panic <-> exists l, Spec.key (spec_params (proj l ls)) <> []).
Proof.
  intros Hc Hb Hl.
  assert (He : forall l, encodes (proj l ps) (spec_params (proj l ls)) (spec_last_node (proj l ls)))
    by (intros l; apply build_encodes, Hb).
  split.
  - intros Hp. destruct (lane_dec (fun l => Spec.key (spec_params (proj l ls)) = []) (fun l => Spec.key (spec_params (proj l ls)) <> [])) as [H|H].
    + intros l. destruct (Spec.key (spec_params (proj l ls))); [left; reflexivity|right; discriminate].
    + destruct (hash8_separately c ls ps inputs Hc Hb H Hl) as (hs & E & _). congruence.
    + exact H.
  - intros (l & Hk). unfold hash8.
    match goal with |- context [oct_all ?f ps] => destruct (oct_all f ps) eqn:Ea end; [|reflexivity].
    exfalso. rewrite oct_all_spec in Ea. specialize (Ea l). cbv beta in Ea. apply N.eqb_eq in Ea.
    rewrite (e_kl _ _ _ (He l)) in Ea. apply Hk. destruct (Spec.key (spec_params (proj l ls))); [reflexivity|].
    cbn [length] in Ea. lia.
Qed.

Lemma hash8_exact_separately c l p inputs : cfg_ok c -> build l = Ok p -> Spec.key (spec_params l) = [] ->
  exact_lengths (map (@length byte) (oct_list inputs)) ->
  (forall k, N.of_nat (length (proj k inputs)) < 2 ^ 64) ->
  exists hs, hash8_exact c p inputs = Ok hs /\ forall k,
    hash_one c p (proj k inputs) = Ok (proj k hs) /\
    as_bytes (proj k hs) = Ok (Spec.blake2s (spec_params l) (spec_last_node l) (proj k inputs)).
Proof.
  intros Hc Hb Hk Hx Hl. pose proof (proj2 (build_encodes _ _ Hb)) as E.
  assert (Hf : forall k, fits c (N.of_nat (length (stream (spec_params l) (proj k inputs)))))
    by (intros k _; rewrite (unkeyed_stream _ _ Hk); apply Hl).
  eexists. split; [apply (hash8_exact_value c p _ _ inputs Hc E Hf Hx)|].
  intros k. rewrite proj_of.
  replace (if simd c then _ else _) with (hash_value p (spec_params l) (spec_last_node l) (proj k inputs)).
  2: { rewrite (bare_unkeyed _ _ _ _ Hk). destruct (simd c); reflexivity. }
  destruct (hash_one_ok c _ _ _ (proj k inputs) Hc E (Hf k)) as (h & Eh & _ & _ & _ & Hbytes).
  rewrite (hash_one_value c _ _ _ (proj k inputs) Hc E (Hf k)) in Eh |- *.
  injection Eh as <-. split; [reflexivity|exact Hbytes].
Qed.
Lemma hash4_exact_separately c l p inputs : cfg_ok c -> build l = Ok p -> Spec.key (spec_params l) = [] ->
  exact_lengths (map (@length byte) (quad_list inputs)) ->
  (forall k, N.of_nat (length (qproj k inputs)) < 2 ^ 64) ->
  exists hs, hash4_exact c p inputs = Ok hs /\ forall k,
    hash_one c p (qproj k inputs) = Ok (qproj k hs) /\
    as_bytes (qproj k hs) = Ok (Spec.blake2s (spec_params l) (spec_last_node l) (qproj k inputs)).
Proof.
  intros Hc Hb Hk Hx Hl. pose proof (proj2 (build_encodes _ _ Hb)) as E.
  assert (Hf : forall k, fits c (N.of_nat (length (stream (spec_params l) (qproj k inputs)))))
    by (intros k _; rewrite (unkeyed_stream _ _ Hk); apply Hl).
  eexists. split; [apply (hash4_exact_value c p _ _ inputs Hc E Hf Hx)|].
  intros k. rewrite qproj_of.
  replace (if simd c then _ else _) with (hash_value p (spec_params l) (spec_last_node l) (qproj k inputs)).
  2: { rewrite (bare_unkeyed _ _ _ _ Hk). destruct (simd c); reflexivity. }
  destruct (hash_one_ok c _ _ _ (qproj k inputs) Hc E (Hf k)) as (h & Eh & _ & _ & _ & Hbytes).
  rewrite (hash_one_value c _ _ _ (qproj k inputs) Hc E (Hf k)) in Eh |- *.
  injection Eh as <-. split; [reflexivity|exact Hbytes].
Qed.
Lemma hash8_exact_outcome c l p inputs : cfg_ok c -> build l = Ok p ->
  (forall k, N.of_nat (length (proj k inputs)) + 64 < 2 ^ 64) ->
  (exact_lengths (map (@length byte) (oct_list inputs)) -> exists hs, hash8_exact c p inputs = Ok hs) /\
  (~ exact_lengths (map (@length byte) (oct_list inputs)) -> hash8_exact c p inputs = Panic).
Proof.
  intros Hc Hb Hl. split; [intros Hx|apply hash8_exact_reject].
  eexists. apply (hash8_exact_value c p _ _ inputs Hc (proj2 (build_encodes _ _ Hb))); [|exact Hx].
  intros k _. eapply small_stream; [exact Hb|apply Hl].
Qed.
Lemma hash4_exact_outcome c l p inputs : cfg_ok c -> build l = Ok p ->
  (forall k, N.of_nat (length (qproj k inputs)) + 64 < 2 ^ 64) ->
  (exact_lengths (map (@length byte) (quad_list inputs)) -> exists hs, hash4_exact c p inputs = Ok hs) /\
  (~ exact_lengths (map (@length byte) (quad_list inputs)) -> hash4_exact c p inputs = Panic).
Proof.
  intros Hc Hb Hl. split; [intros Hx|apply hash4_exact_reject].
  eexists. apply (hash4_exact_value c p _ _ inputs Hc (proj2 (build_encodes _ _ Hb))); [|exact Hx].
  intros k _. eapply small_stream; [exact Hb|apply Hl].
Qed.
(** With a key: right exactly when no SIMD implementation is used; otherwise the key
    block is left out (the key length still is in the parameter block). *)
Lemma bare_bytes p sp ln x : encodes p sp ln -> as_bytes (bare_value p sp ln x) = Ok (without_key_block sp ln x).
Proof.
  intros E. pose proof (e_hash _ _ _ E) as H1. pose proof (e_hash_ok _ _ _ E) as H2.
  unfold bare_value, as_bytes, without_key_block. cbn [Params.h_bytes Params.h_len].
  rewrite slice_to_ok; [rewrite H1; reflexivity|]. rewrite words_bytes_32 by apply SpecFacts.hash_words_length. lia.
Qed.
Lemma keyed_bytes p sp ln x : encodes p sp ln -> as_bytes (hash_value p sp ln x) = Ok (Spec.blake2s sp ln x).
Proof.
  intros E. pose proof (e_hash _ _ _ E) as H1. pose proof (e_hash_ok _ _ _ E) as H2.
  unfold hash_value, as_bytes, Spec.blake2s. cbn [Params.h_bytes Params.h_len].
  rewrite slice_to_ok; [rewrite H1; reflexivity|]. rewrite words_bytes_32 by apply SpecFacts.hash_words_length. lia.
Qed.
Lemma hash8_exact_keyed c l p inputs : cfg_ok c -> build l = Ok p ->
  exact_lengths (map (@length byte) (oct_list inputs)) ->
  (forall k, N.of_nat (length (proj k inputs)) + 64 < 2 ^ 64) ->
  exists hs, hash8_exact c p inputs = Ok hs /\ forall k, as_bytes (proj k hs) =
    Ok (if simd c then without_key_block (spec_params l) (spec_last_node l) (proj k inputs)
        else Spec.blake2s (spec_params l) (spec_last_node l) (proj k inputs)).
Proof.
  intros Hc Hb Hx Hl. pose proof (proj2 (build_encodes _ _ Hb)) as E.
  eexists. split; [apply (hash8_exact_value c p _ _ inputs Hc E)|].
  - intros k _. eapply small_stream; [exact Hb|apply Hl].
  - exact Hx.
  - intros k. rewrite proj_of. destruct (simd c); [apply bare_bytes, E|apply keyed_bytes, E].
Qed.
Lemma hash4_exact_keyed c l p inputs : cfg_ok c -> build l = Ok p ->
  exact_lengths (map (@length byte) (quad_list inputs)) ->
  (forall k, N.of_nat (length (qproj k inputs)) + 64 < 2 ^ 64) ->
  exists hs, hash4_exact c p inputs = Ok hs /\ forall k, as_bytes (qproj k hs) =
    Ok (if simd c then without_key_block (spec_params l) (spec_last_node l) (qproj k inputs)
        else Spec.blake2s (spec_params l) (spec_last_node l) (qproj k inputs)).
Proof.
  intros Hc Hb Hx Hl. pose proof (proj2 (build_encodes _ _ Hb)) as E.
  eexists. split; [apply (hash4_exact_value c p _ _ inputs Hc E)|].
  - intros k _. eapply small_stream; [exact Hb|apply Hl].
  - exact Hx.
  - intros k. rewrite qproj_of. destruct (simd c); [apply bare_bytes, E|apply keyed_bytes, E].
Qed.

(** ** Whole programs *)
Lemma program_results c ops : cfg_ok c -> total_bytes ops + 64 < 2 ^ 64 -> existsb sets_sp_key ops = false ->
  existsb sets_key ops && existsb calls_exact ops = false ->
  map mask (fst (run c empty_session ops)) = map mask (fst (arun true empty_asession ops)) /\
  Some (snd (run c empty_session ops)) = snd (arun true empty_asession ops).
Proof.
  intros Hc Hn Hs He.
  destruct (arun_bounded (existsb sets_key ops) (overflow_checks c) ops 0 empty_asession (bounded_empty _))
    as (H1 & H2).
  - lia.
  - exact Hs.
  - exact (fun H => H).
  - intros H. destruct (existsb sets_key ops); [|reflexivity]. rewrite H in He. discriminate.
  - pose proof (run_ok c Hc ops _ _ (Sim_empty c)) as R. rewrite H1 in R.
    destruct (snd (arun true empty_asession ops)) as [e|]; [|contradiction].
    destruct R as (-> & ->). split; reflexivity.
Qed.
Lemma session_hashes c ops s : cfg_ok c -> Forall mem_ok ops -> after c empty_session ops = Some s ->
  Forall hash_wf (s_hashes s).
Proof.
  intros Hc Hm Ha. pose proof (xr_h _ _ _ _ _ (session_self c ops s Hc Hm Ha)) as H.
  generalize dependent (s_hashes s). clear. intros l. induction l as [|h l IH]; intros H; constructor.
  - inversion H as [|? ? ? ? Hh _]; subst. apply Hh.
  - apply IH. inversion H; subst. assumption.
Qed.

(** ** Hashes *)
Lemma held_wf c h : cfg_ok c -> held c h -> hash_wf h.
Proof.
  intros Hc (ops & s & Hm & Ha & Hi). pose proof (session_hashes c ops s Hc Hm Ha) as H.
  rewrite Forall_forall in H. apply H, Hi.
Qed.
Lemma held_bytes c h : cfg_ok c -> held c h ->
  exists b, as_bytes h = Ok b /\ N.of_nat (length b) = val (h_len h) /\ 1 <= val (h_len h) <= 32 /\
    length (Params.h_bytes h) = 32%nat /\ b = firstn (length b) (Params.h_bytes h).
Proof.
  intros Hc Hh. apply held_wf in Hh; [|exact Hc]. exists (visible h).
  pose proof (visible_length h Hh) as Hl. split; [apply as_bytes_ok, Hh|].
  destruct Hh as (H1 & H2). split; [lia|]. split; [exact H2|]. split; [exact H1|].
  rewrite Hl. reflexivity.
Qed.
Lemma hash_length_value c l p x h : cfg_ok c -> build l = Ok p -> N.of_nat (length x) + 64 < 2 ^ 64 ->
  hash_one c p x = Ok h ->
  exists b, as_bytes h = Ok b /\ N.of_nat (length b) = last_call sel_hash_length 32 l /\
    val (h_len h) = last_call sel_hash_length 32 l /\ b = firstn (length b) (Params.h_bytes h) /\
    Params.h_bytes h = Spec.words_bytes (Spec.hash_words (Spec.initial (spec_params l))
      (Spec.key_block (Spec.key (spec_params l)) ++ x) (spec_last_node l)).
Proof.
  intros Hc Hb Hl Hh. pose proof (proj2 (build_encodes _ _ Hb)) as E.
  rewrite (hash_one_value c p _ _ x Hc E) in Hh; [|intros _; eapply small_stream; eassumption].
  pose proof (f_equal (fun o => match o with Ok h => h | _ => h end) Hh) as Eh. cbv beta iota in Eh. subst h. clear Hh.
  pose proof (e_hash _ _ _ E) as H1. pose proof (e_hash_ok _ _ _ E) as H2.
  assert (H32 : length (Spec.words_bytes (Spec.hash_words (Spec.initial (spec_params l)) (stream (spec_params l) x) (spec_last_node l))) = 32%nat)
    by (apply words_bytes_32, SpecFacts.hash_words_length).
  eexists. split; [apply keyed_bytes, E|].
  change (last_call sel_hash_length 32 l) with (Spec.digest_length (spec_params l)).
  unfold Spec.blake2s. fold (stream (spec_params l) x). rewrite firstn_length, H32.
  unfold hash_value. cbn [Params.h_bytes h_len].
  split; [lia|]. split; [exact H1|]. split; [|reflexivity]. f_equal. lia.
Qed.
Lemma hash_eq_bytes c h h' : cfg_ok c -> held c h -> held c h' ->
  exists b b', as_bytes h = Ok b /\ as_bytes h' = Ok b' /\
    hash_eq h h' = Ok (if list_eq_dec Byte.byte_eq_dec b b' then true else false).
Proof.
  intros Hc H H'. apply held_wf in H; [|exact Hc]. apply held_wf in H'; [|exact Hc].
  exists (visible h), (visible h'). split; [apply as_bytes_ok, H|]. split; [apply as_bytes_ok, H'|].
  destruct (hash_eq_ok h h' H H') as (b & E & Hb). rewrite E. f_equal.
  destruct (list_eq_dec _ _ _) as [e|e]; [apply Hb, e|]. destruct b; [|reflexivity]. exfalso. apply e, Hb. reflexivity.
Qed.
Lemma hash_eq_slice_bytes c h x : cfg_ok c -> held c h ->
  exists b, as_bytes h = Ok b /\
    hash_eq_slice h x = Ok (if list_eq_dec Byte.byte_eq_dec b x then true else false).
Proof.
  intros Hc H. apply held_wf in H; [|exact Hc].
  exists (visible h). split; [apply as_bytes_ok, H|].
  destruct (hash_eq_slice_ok h x H) as (b & E & Hb). rewrite E. f_equal.
  destruct (list_eq_dec _ _ _) as [e|e]; [apply Hb, e|]. destruct b; [|reflexivity]. exfalso. apply e, Hb. reflexivity.
Qed.
Lemma hash_eq_equivalence c : cfg_ok c ->
  (forall h, held c h -> hash_eq h h = Ok true) /\
  (forall h h', held c h -> held c h' -> hash_eq h h' = hash_eq h' h) /\
  (forall h h' h'', held c h -> held c h' -> held c h'' ->
     hash_eq h h' = Ok true -> hash_eq h' h'' = Ok true -> hash_eq h h'' = Ok true).
Proof.
  intros Hc. split; [|split].
  - intros h H. destruct (hash_eq_bytes c h h Hc H H) as (b & b' & E & E' & ->).
    assert (b' = b) as -> by congruence. destruct (list_eq_dec _ _ _); [reflexivity|contradiction].
  - intros h h' H H'. destruct (hash_eq_bytes c h h' Hc H H') as (b & b' & E & E' & ->).
    destruct (hash_eq_bytes c h' h Hc H' H) as (d' & d & F' & F & ->).
    assert (d = b) as -> by congruence. assert (d' = b') as -> by congruence. f_equal.
    destruct (list_eq_dec _ b b'), (list_eq_dec _ b' b); congruence.
  - intros h h' h'' H H' H'' E1 E2. destruct (hash_eq_bytes c h h' Hc H H') as (b & b' & F & F' & E1').
    destruct (hash_eq_bytes c h' h'' Hc H' H'') as (d' & d'' & G' & G'' & E2').
    destruct (hash_eq_bytes c h h'' Hc H H'') as (e & e'' & J & J'' & ->).
    assert (d' = b') as -> by congruence. assert (e = b) as -> by congruence.
    assert (e'' = d'') as -> by congruence. rewrite E1' in E1. rewrite E2' in E2. f_equal.
    destruct (list_eq_dec _ b b'); [|discriminate]. destruct (list_eq_dec _ b' d''); [|discriminate].
    destruct (list_eq_dec _ b d''); congruence.
Qed.
Lemma to_hex_bytes c h : cfg_ok c -> held c h ->
  exists b, as_bytes h = Ok b /\ to_hex h = Ok (Spec.hex b) /\
    (length (Spec.hex b) = 2 * length b)%nat /\ (length (Spec.hex b) <= 64)%nat /\
    hash_debug h = Ok (hash_text b).
Proof.
  intros Hc H. apply held_wf in H; [|exact Hc].
  exists (visible h). split; [apply as_bytes_ok, H|]. split; [apply to_hex_ok, H|].
  split; [apply hex_length|]. split.
  - rewrite hex_length, (visible_length h H). destruct H. lia.
  - unfold hash_debug. rewrite (to_hex_ok h H). reflexivity.
Qed.

(** ** What [update] leaves in the state *)
Lemma lazy_blocks D k : (64 * k <= length D)%nat -> (length D <= 64 * k + 64)%nat -> lazy_k D k -> k = blocks_done (length D).
Proof.
  intros H1 H2 Hz. unfold blocks_done, lazy_k in *. destruct Hz as [->|Hz].
  - symmetry. apply Nat.div_small. lia.
  - apply Nat.div_unique with (r := (length D - 1 - 64 * k)%nat); lia.
Qed.
Lemma stands_structure c a st : stands c a st ->
  let D := Spec.key_block (Spec.key (a_sp a)) ++ a_msg a in
  let k := blocks_done (length D) in
  nums (st_h st) = Spec.chain (Spec.initial (a_sp a)) D k /\
  buflen_nat st = (length D - 64 * k)%nat /\
  firstn (buflen_nat st) (st_buf st) = skipn (64 * k) D.
Proof.
  intros [_ _ _ (k & R & Hz)]. cbv zeta. fold (stream (a_sp a) (a_msg a)).
  rewrite <- (lazy_blocks _ k (rep_lo _ _ _ _ _ R) (rep_hi _ _ _ _ _ R) Hz).
  split; [apply (rep_h _ _ _ _ _ R)|]. split; [apply (rep_buflen _ _ _ _ _ R)|].
  rewrite (rep_buflen _ _ _ _ _ R). apply (rep_buf _ _ _ _ _ R).
Qed.
Lemma feed_structure c l p pieces st : cfg_ok c -> build l = Ok p ->
  (s <- to_state c p ;; feed c s pieces) = Ok st ->
  let D := Spec.key_block (Spec.key (spec_params l)) ++ concat pieces in
  let k := blocks_done (length D) in
  nums (st_h st) = Spec.chain (Spec.initial (spec_params l)) D k /\
  buflen_nat st = (length D - 64 * k)%nat /\
  firstn (buflen_nat st) (st_buf st) = skipn (64 * k) D.
Proof.
  intros Hc Hb Hs. apply build_encodes in Hb as (_ & E). destruct (models_new c p _ _ Hc E) as (s0 & E0 & M).
  rewrite E0 in Hs. cbn [bind] in Hs. change (stands c (new_state l) s0) in M.
  destruct (feed_stands c pieces _ s0 M) as [(s1 & E1 & M1)|(E1 & _)]; [|congruence].
  assert (s1 = st) as -> by congruence. exact (stands_structure c _ _ M1).
Qed.
Lemma reachable_structure c st : cfg_ok c -> reachable c st -> exists sp msg,
  let D := Spec.key_block (Spec.key sp) ++ msg in
  let k := blocks_done (length D) in
  val (count st) = N.of_nat (length D) mod 2 ^ 64 /\
  nums (st_h st) = Spec.chain (Spec.initial sp) D k /\
  buflen_nat st = (length D - 64 * k)%nat /\
  firstn (buflen_nat st) (st_buf st) = skipn (64 * k) D.
Proof.
  intros Hc Hr. apply reachable_stands in Hr as (a & M); [|exact Hc]. exists (a_sp a), (a_msg a).
  cbv zeta. split; [apply (models_count _ _ _ _ _ M)|apply (stands_structure c a st M)].
Qed.

(** ** BLAKE2sp *)
Lemma sp_count_value c l p pieces st : cfg_ok c -> sp_build l = Ok p -> sp_last_key [] l = [] ->
  N.of_nat (length (concat pieces)) < 2 ^ 64 ->
  (s <- sp_to_state c p ;; sp_feed c s pieces) = Ok st ->
  exists n, sp_count c st = Ok n /\ val n = N.of_nat (length (concat pieces)).
Proof.
  intros Hc Hb Hk Hl Hs. apply sp_build_encodes in Hb as (_ & E). rewrite Hk in E.
  destruct (sp_models_new c p _ _ Hc E) as (s0 & E0 & M). rewrite E0 in Hs. cbn [bind] in Hs.
  destruct (sp_feed_ok c _ pieces [] s0 M) as (s1 & E1 & M1); [intros _; exact Hl|].
  assert (s1 = st) as -> by congruence.
  destruct (sp_models_count c _ _ _ _ M1) as (n & En & Hn); [intros _; exact Hl|].
  exists n. split; [exact En|]. rewrite Hn. cbn [Spec.key_block length app].
  rewrite Nat.mul_0_r, Nat.add_0_l. apply N.mod_small. exact Hl.
Qed.
Lemma sp_count_keyed c l p pieces st : cfg_ok c -> sp_build l = Ok p -> sp_last_key [] l <> [] ->
  (length (concat pieces) <= 960)%nat ->
  (s <- sp_to_state c p ;; sp_feed c s pieces) = Ok st ->
  exists n, sp_count c st = Ok n /\ val n = 512 + N.of_nat (length (concat pieces)).
Proof.
  intros Hc Hb Hk Hl Hs. apply sp_build_encodes in Hb as (_ & E).
  destruct (sp_models_new c p _ _ Hc E) as (s0 & E0 & M). rewrite E0 in Hs. cbn [bind] in Hs.
  destruct (sp_feed_keyed_ok c _ _ pieces Hk [] s0 M) as (s1 & E1 & M1); [exact Hl|].
  assert (s1 = st) as -> by congruence. cbn [app] in M1.
  assert (Hkb : length (Spec.key_block (sp_last_key [] l)) = 64%nat).
  { rewrite key_block_length by (pose proof (se_key_ok _ _ _ E); lia). destruct (sp_last_key [] l); [contradiction|reflexivity]. }
  destruct (sp_models_count c _ _ _ _ M1) as (n & En & Hn); rewrite Hkb in *.
  - intros _. change (2 ^ 64) with 18446744073709551616. lia.
  - exists n. split; [exact En|]. rewrite Hn, N.mod_small by (change (2 ^ 64) with 18446744073709551616; lia). lia.
Qed.

(** Keyed: at most 1024 bytes in all, and no first piece over 960 bytes. *)
Lemma keyed_fit_room D x : Nat.leb (length D + length x) 1024 && (negb (Nat.eqb (length D) 0) || Nat.leb (length x) 960) = true
  <-> keyed_room D x.
Proof.
  unfold keyed_room. rewrite app_length, andb_true_iff, orb_true_iff, negb_true_iff, !Nat.leb_le, Nat.eqb_neq.
  destruct D; cbn [length]; intuition (try lia; try discriminate; try (left; discriminate)).
Qed.
Lemma sp_feed_fit c dlen key pieces : key <> [] -> forall D st, SpModels c dlen key D st ->
  keyed_fit (length D) pieces = true ->
  exists st', sp_feed c st pieces = Ok st' /\ SpModels c dlen key (D ++ concat pieces) st' /\
    (length (D ++ concat pieces) <= Nat.max 1024 (length D))%nat.
Proof.
  intros Hk. induction pieces as [|x l IH]; intros D st M Hf; cbn [sp_feed concat keyed_fit] in *.
  - exists st. rewrite app_nil_r. split; [reflexivity|]. split; [exact M|lia].
  - apply andb_prop in Hf as (Hf & Hl). pose proof (proj1 (keyed_fit_room D x) Hf) as Hr.
    destruct (sp_models_update_keyed c dlen key D st x M Hk Hr) as (st1 & E1 & M1).
    rewrite E1. cbn [bind]. rewrite app_assoc. rewrite <- app_length in Hl.
    destruct (IH (D ++ x) st1 M1 Hl) as (st2 & E2 & M2 & H2).
    exists st2. split; [exact E2|]. split; [exact M2|]. destruct Hr as (Hr & _). lia.
Qed.
Lemma sp_feed_unfit c dlen key pieces : key <> [] -> debug_assertions c = true -> forall D st, SpModels c dlen key D st ->
  keyed_fit (length D) pieces = false -> sp_feed c st pieces = Panic.
Proof.
  intros Hk Hd. induction pieces as [|x l IH]; intros D st M Hf; cbn [sp_feed keyed_fit] in *; [discriminate|].
  destruct (Nat.leb _ _ && _) eqn:Er.
  - pose proof (proj1 (keyed_fit_room D x) Er) as Hr. cbn [andb] in Hf.
    destruct (sp_models_update_keyed c dlen key D st x M Hk Hr) as (st1 & E1 & M1).
    rewrite E1. cbn [bind]. rewrite <- app_length in Hf. exact (IH (D ++ x) st1 M1 Hf).
  - assert (Hr : ~ keyed_room D x) by (rewrite <- keyed_fit_room, Er; discriminate).
    rewrite (sp_models_update_panic c dlen key D st x M Hk Hd Hr). reflexivity.
Qed.
Lemma sp_hash_pieces_fit c l p pieces : cfg_ok c -> sp_build l = Ok p -> sp_last_key [] l <> [] ->
  keyed_fit 0 pieces = true ->
  sp_hash_pieces c p pieces = Ok (Spec.blake2sp (sp_last_hash_length 32 l) (sp_last_key [] l) (concat pieces)).
Proof.
  intros Hc Hb Hk Hl. apply sp_build_encodes in Hb as (_ & E).
  destruct (sp_models_new c p _ _ Hc E) as (st & Es & M). unfold sp_hash_pieces. rewrite Es. cbn [bind].
  destruct (sp_feed_fit c _ _ pieces Hk [] st M Hl) as (st1 & E1 & M1 & H1).
  rewrite E1. cbn [bind]. cbn [app length] in *.
  destruct (sp_models_finalize c _ _ _ _ M1) as (h & F & _ & _ & _ & B).
  { intros _. pose proof (se_key_ok _ _ _ E). rewrite key_block_length by lia.
    destruct (sp_last_key [] l); change (2 ^ 64) with 18446744073709551616; lia. }
  rewrite F. exact B.
Qed.
Lemma sp_hash_pieces_unfit c l p pieces : cfg_ok c -> sp_build l = Ok p -> sp_last_key [] l <> [] ->
  debug_assertions c = true -> keyed_fit 0 pieces = false -> sp_hash_pieces c p pieces = Panic.
Proof.
  intros Hc Hb Hk Hd Hl. apply sp_build_encodes in Hb as (_ & E).
  destruct (sp_models_new c p _ _ Hc E) as (st & Es & M). unfold sp_hash_pieces. rewrite Es. cbn [bind].
  rewrite (sp_feed_unfit c _ _ pieces Hk Hd [] st M Hl). reflexivity.
Qed.

(** ** Collisions *)
Lemma hash_collision c c' l l' p p' x x' h h' : cfg_ok c -> cfg_ok c' -> build l = Ok p -> build l' = Ok p' ->
  N.of_nat (length x) + 64 < 2 ^ 64 -> N.of_nat (length x') + 64 < 2 ^ 64 ->
  hash_one c p x = Ok h -> hash_one c' p' x' = Ok h' -> as_bytes h = as_bytes h' ->
  last_call sel_hash_length 32 l = 32 ->
  Spec.collision (Spec.blake2s_calls (spec_params l) (spec_last_node l) x)
                 (Spec.blake2s_calls (spec_params l') (spec_last_node l') x') \/
  (Spec.param_block (spec_params l) = Spec.param_block (spec_params l') /\
   Spec.key (spec_params l) = Spec.key (spec_params l') /\ x = x' /\ spec_last_node l = spec_last_node l').
Proof.
  intros Hc Hc' Hb Hb' Hx Hx' Hh Hh' Hbytes H32.
  destruct (hash_length_value c l p x h Hc Hb Hx Hh) as (b & Eb & Lb & _).
  destruct (hash_length_value c' l' p' x' h' Hc' Hb' Hx' Hh') as (b' & Eb' & Lb' & _).
  pose proof (proj2 (build_encodes _ _ Hb)) as E. pose proof (proj2 (build_encodes _ _ Hb')) as E'.
  assert (b' = b) as -> by congruence.
  assert (H32' : last_call sel_hash_length 32 l' = 32) by congruence.
  apply blake2s_digest_collision; [apply (encodes_valid _ _ _ E)|apply (encodes_valid _ _ _ E')|exact H32|exact H32'|].
  rewrite (hash_one_value c p _ _ x Hc E) in Hh by (intros _; eapply small_stream; eassumption).
  rewrite (hash_one_value c' p' _ _ x' Hc' E') in Hh' by (intros _; eapply small_stream; eassumption).
  pose proof (f_equal (fun o => match o with Ok h => h | _ => h end) Hh) as Eh. cbv beta iota in Eh.
  pose proof (f_equal (fun o => match o with Ok h => h | _ => h' end) Hh') as Eh'. cbv beta iota in Eh'.
  rewrite <- Eh, keyed_bytes in Eb by exact E. rewrite <- Eh', keyed_bytes in Eb' by exact E'.
  pose proof (f_equal (fun o => match o with Ok v => v | _ => b end) Eb) as F. cbv beta iota in F.
  pose proof (f_equal (fun o => match o with Ok v => v | _ => b end) Eb') as F'. cbv beta iota in F'.
  rewrite F, F'. reflexivity.
Qed.

(** ** BLAKE2sp, in the terms of [MachineSpec] *)
Lemma sp_last_dlen l : forall d, sp_last_hash_length d l =
  fold_left (fun n s => match s with SpHashLength m => m | _ => n end) l d.
Proof. induction l as [|[] l IH]; intros d; cbn [sp_last_hash_length fold_left]; [reflexivity|apply IH|apply IH]. Qed.
Lemma sp_last_keyval l : forall k, sp_last_key k l =
  fold_left (fun k s => match s with SpKey k' => k' | _ => k end) l k.
Proof. induction l as [|[] l IH]; intros d; cbn [sp_last_key fold_left]; [reflexivity|apply IH|apply IH]. Qed.
Lemma sp_unkeyed_value c l p pieces : cfg_ok c -> sp_build l = Ok p -> sp_keyval l = [] ->
  N.of_nat (length (concat pieces)) < 2 ^ 64 ->
  sp_hash_pieces c p pieces = Ok (Spec.blake2sp (sp_dlen l) [] (concat pieces)).
Proof.
  intros Hc Hb Hk. unfold sp_dlen. unfold sp_keyval in Hk. rewrite <- sp_last_keyval in Hk. rewrite <- sp_last_dlen.
  apply sp_hash_pieces_value; assumption.
Qed.
Lemma sp_one_shot_value c input : cfg_ok c -> N.of_nat (length input) < 2 ^ 64 ->
  (h <- Blake2sp.blake2sp c input ;; as_bytes h) = Ok (Spec.blake2sp 32 [] input).
Proof.
  intros Hc Hn. pose proof (sp_unkeyed_value c [] SpParams_new [input] Hc eq_refl eq_refl) as H.
  cbn [concat] in H. rewrite app_nil_r in H. specialize (H Hn). unfold sp_dlen in H. cbn [fold_left] in H.
  rewrite <- H. unfold sp_hash_pieces, Blake2sp.blake2sp, SpState_new, sp_to_state, SpParams_new.
  destruct (sp_with_params c SpParams_default); try reflexivity. cbn [bind sp_feed].
  destruct (sp_update c a input); reflexivity.
Qed.
Lemma sp_keyed_value c l p pieces : cfg_ok c -> sp_build l = Ok p -> sp_keyval l <> [] ->
  (length (concat pieces) <= 960)%nat ->
  sp_hash_pieces c p pieces = Ok (Spec.blake2sp (sp_dlen l) (sp_keyval l) (concat pieces)).
Proof.
  intros Hc Hb. unfold sp_dlen, sp_keyval. rewrite <- sp_last_keyval, <- sp_last_dlen.
  apply sp_hash_pieces_keyed; assumption.
Qed.
Lemma sp_keyed_fit c l p pieces : cfg_ok c -> sp_build l = Ok p -> sp_keyval l <> [] ->
  keyed_fit 0 pieces = true ->
  sp_hash_pieces c p pieces = Ok (Spec.blake2sp (sp_dlen l) (sp_keyval l) (concat pieces)).
Proof.
  intros Hc Hb. unfold sp_dlen, sp_keyval. rewrite <- sp_last_keyval, <- sp_last_dlen.
  apply sp_hash_pieces_fit; assumption.
Qed.
Lemma sp_keyed_unfit c l p pieces : cfg_ok c -> sp_build l = Ok p -> sp_keyval l <> [] ->
  debug_assertions c = true -> keyed_fit 0 pieces = false -> sp_hash_pieces c p pieces = Panic.
Proof.
  intros Hc Hb. unfold sp_keyval. rewrite <- sp_last_keyval. intros Hk Hd Hf.
  exact (sp_hash_pieces_unfit c l p pieces Hc Hb Hk Hd Hf).
Qed.
Lemma sp_counts c l p pieces st : cfg_ok c -> sp_build l = Ok p ->
  match sp_keyval l with [] => N.of_nat (length (concat pieces)) < 2 ^ 64 | _ => (length (concat pieces) <= 960)%nat end ->
  (s <- sp_to_state c p ;; sp_feed c s pieces) = Ok st ->
  exists n, sp_count c st = Ok n /\ val n = 8 * key_bytes (sp_keyval l) + N.of_nat (length (concat pieces)).
Proof.
  intros Hc Hb Hn Hf. pose proof (sp_count_value c l p pieces st Hc Hb) as H1.
  pose proof (sp_count_keyed c l p pieces st Hc Hb) as H2. rewrite sp_last_keyval in H1, H2. fold (sp_keyval l) in H1, H2.
  destruct (sp_keyval l); cbn [key_bytes].
  - apply H1; [reflexivity|exact Hn|exact Hf].
  - apply H2; [discriminate|exact Hn|exact Hf].
Qed.
Lemma sp_fields l p : sp_build l = Ok p ->
  val (sp_hash_length p) = sp_dlen l /\ val (sp_key_length p) = N.of_nat (length (sp_keyval l)) /\
  sp_key p = Spec.pad 32 (sp_keyval l).
Proof.
  intros Hb. destruct (sp_build_encodes l p Hb) as (_ & E). rewrite sp_last_dlen, sp_last_keyval in E.
  fold (sp_dlen l) (sp_keyval l) in E. destruct E. auto.
Qed.

(** ** Setter chains *)
Lemma built_initial c l : cfg_ok c -> forallb valid_setter l = true ->
  exists p st, build l = Ok p /\ to_state c p = Ok st /\ nums (st_h st) = Spec.initial (spec_params l).
Proof.
  intros Hc V. destruct (build_ok l V) as (p & Hb & _). destruct (to_state_initial c l p Hc Hb) as (st & E & H).
  exists p, st. auto.
Qed.
Lemma build_outcome l :
  (forallb valid_setter l = true -> exists p, build l = Ok p) /\
  (forallb valid_setter l = false -> build l = Panic).
Proof. split; [|apply build_panic]. intros V. destruct (build_ok l V) as (p & Hb & _). eauto. Qed.
Lemma sp_build_outcome l :
  (forallb sp_setter_ok l = true -> exists p, sp_build l = Ok p) /\
  (forallb sp_setter_ok l = false -> sp_build l = Panic).
Proof. split; [|apply sp_build_panic]. intros V. destruct (sp_build_ok l V) as (p & Hb & _). eauto. Qed.
Lemma constructors_agree c :
  State_new c = to_state c Params_new /\ State_default c = to_state c Params_new /\
  SpState_new c = sp_to_state c SpParams_new /\ SpState_default c = sp_to_state c SpParams_new.
Proof. repeat split. Qed.
Lemma new_state_value c : cfg_ok c -> exists st,
  State_new c = Ok st /\ nums (st_h st) = Spec.initial Spec.default_params /\
  val (count st) = 0 /\ exists st' h, finalize c st = Ok (st', h) /\
  as_bytes h = Ok (Spec.blake2s Spec.default_params false []).
Proof.
  intros Hc. destruct (to_state_initial c [] Params_new Hc eq_refl) as (st & E & H).
  assert (Ef : (s <- to_state c Params_new ;; feed c s []) = Ok st) by (rewrite E; reflexivity).
  exists st. split; [exact E|]. split; [exact H|].
  split; [exact (count_value c [] Params_new [] st Hc eq_refl Ef)|].
  exact (finalize_value c st [] [] Params_new Hc eq_refl Ef).
Qed.

(** ** Interleaved [set_last_node] *)
Lemma do_acts_stands c acts : forall a st, stands c a st ->
  total (Spec.key (a_sp a)) (a_msg a ++ acts_bytes acts) < 2 ^ 64 ->
  exists st', do_acts c st acts = Ok st' /\
    stands c (mk_astate (a_sp a) (acts_last (a_last a) acts) (a_msg a ++ acts_bytes acts)) st'.
Proof.
  induction acts as [|[x|b] acts IH]; intros a st M Ht; cbn [do_acts acts_bytes acts_last flat_map fold_left] in *.
  - exists st. split; [reflexivity|]. rewrite app_nil_r. destruct a. exact M.
  - fold (acts_bytes acts) in *. fold (acts_last (a_last a) acts).
    destruct (update_sim c st a x M) as (v & -> & Mv).
    { apply room_small. unfold total, add_msg in *. cbn [a_sp a_msg] in *. rewrite !app_length in *. lia. }
    cbn [bind]. destruct (IH (add_msg a x) v Mv) as (w & E & Mw).
    { unfold add_msg. cbn [a_sp a_msg]. rewrite <- app_assoc. exact Ht. }
    exists w. split; [exact E|]. unfold add_msg in Mw. cbn [a_sp a_last a_msg] in Mw. rewrite <- app_assoc in Mw. exact Mw.
  - fold (acts_bytes acts) in *. fold (acts_last b acts). cbn [app] in *.
    pose proof (models_set_last_node c _ _ _ st b M) as Mb.
    exact (IH (mk_astate (a_sp a) b (a_msg a)) (set_last_node st b) Mb Ht).
Qed.
Lemma acts_value c l p acts : cfg_ok c -> build l = Ok p ->
  total (Spec.key (spec_params l)) (acts_bytes acts) < 2 ^ 64 ->
  (st <- to_state c p ;; st <- do_acts c st acts ;; ' (_, h) <- finalize c st ;; as_bytes h) =
  Ok (Spec.blake2s (spec_params l) (acts_last (spec_last_node l) acts) (acts_bytes acts)).
Proof.
  intros Hc Hb Ht. apply build_encodes in Hb as (_ & E).
  destruct (new_state_sim c p l Hc E) as (st & -> & M). cbn [bind].
  destruct (do_acts_stands c acts (new_state l) st M Ht) as (v & -> & Mv). cbn [bind].
  destruct (finalize_sim c v _ Mv) as (w & h & -> & _ & H). cbn [bind]. apply sim_as_bytes, H.
Qed.
Lemma writes_are_updates c st x sst :
  write c st x = (st' <- update c st x ;; Ok (st', length x)) /\ flush st = Ok st /\
  sp_write c sst x = (st' <- sp_update c sst x ;; Ok (st', length x)) /\ sp_flush sst = Ok sst.
Proof. repeat split. Qed.
Lemma run_terminates c ops : cfg_ok c -> Forall mem_ok ops -> snd (run c empty_session ops) <> Wedged.
Proof. intros Hc Hm. destruct (run_safe c ops Hc Hm) as [-> | ->]; discriminate. Qed.
Lemma sp_hash_collision c c' l l' p p' pieces pieces' : cfg_ok c -> cfg_ok c' ->
  sp_build l = Ok p -> sp_build l' = Ok p' -> sp_dlen l = 32 -> sp_dlen l' = 32 ->
  sp_keyval l = [] /\ N.of_nat (length (concat pieces)) < 2 ^ 64 \/ sp_keyval l <> [] /\ keyed_fit 0 pieces = true ->
  sp_keyval l' = [] /\ N.of_nat (length (concat pieces')) < 2 ^ 64 \/ sp_keyval l' <> [] /\ keyed_fit 0 pieces' = true ->
  sp_hash_pieces c p pieces = sp_hash_pieces c' p' pieces' ->
  Spec.collision (Spec.blake2sp_calls 32 (sp_keyval l) (concat pieces))
                 (Spec.blake2sp_calls 32 (sp_keyval l') (concat pieces')) \/
  (sp_keyval l = sp_keyval l' /\ concat pieces = concat pieces').
Proof.
  intros Hc Hc' Hb Hb' Hd Hd' H H' E.
  assert (V : forall c l p pieces, cfg_ok c -> sp_build l = Ok p -> sp_dlen l = 32 ->
     sp_keyval l = [] /\ N.of_nat (length (concat pieces)) < 2 ^ 64 \/ sp_keyval l <> [] /\ keyed_fit 0 pieces = true ->
     sp_hash_pieces c p pieces = Ok (Spec.blake2sp 32 (sp_keyval l) (concat pieces)) /\ (length (sp_keyval l) <= 32)%nat).
  { intros c0 l0 p0 ps Hc0 Hb0 Hd0 H0. split.
    - rewrite <- Hd0 at 1. destruct H0 as [[Hk Hn]|[Hk Hn]].
      + rewrite Hk. apply sp_unkeyed_value; assumption.
      + apply sp_keyed_fit; assumption.
    - destruct (sp_build_encodes l0 p0 Hb0) as (_ & En). rewrite sp_last_keyval in En. apply En. }
  destruct (V c l p pieces Hc Hb Hd H) as (E1 & L1). destruct (V c' l' p' pieces' Hc' Hb' Hd' H') as (E2 & L2).
  rewrite E1, E2 in E.
  apply blake2sp_digest_collision; [exact L1|exact L2|].
  pose proof (f_equal (fun o => match o with Ok x => x | _ => [] end) E) as Ex. cbv beta iota in Ex. exact Ex.
Qed.
Lemma sp_hash_truncated_collision c c' l l' p p' pieces pieces' : cfg_ok c -> cfg_ok c' ->
  sp_build l = Ok p -> sp_build l' = Ok p' ->
  sp_keyval l = [] /\ N.of_nat (length (concat pieces)) < 2 ^ 64 \/ sp_keyval l <> [] /\ keyed_fit 0 pieces = true ->
  sp_keyval l' = [] /\ N.of_nat (length (concat pieces')) < 2 ^ 64 \/ sp_keyval l' <> [] /\ keyed_fit 0 pieces' = true ->
  sp_hash_pieces c p pieces = sp_hash_pieces c' p' pieces' ->
  sp_dlen l = sp_dlen l' /\
  (Spec.truncated_collision (N.to_nat (sp_dlen l)) (Spec.blake2sp_calls (sp_dlen l) (sp_keyval l) (concat pieces))
                 (Spec.blake2sp_calls (sp_dlen l) (sp_keyval l') (concat pieces')) \/
   (sp_keyval l = sp_keyval l' /\ concat pieces = concat pieces')).
Proof.
  intros Hc Hc' Hb Hb' H H' E.
  assert (V : forall c l p pieces, cfg_ok c -> sp_build l = Ok p ->
     sp_keyval l = [] /\ N.of_nat (length (concat pieces)) < 2 ^ 64 \/ sp_keyval l <> [] /\ keyed_fit 0 pieces = true ->
     sp_hash_pieces c p pieces = Ok (Spec.blake2sp (sp_dlen l) (sp_keyval l) (concat pieces)) /\
     (length (sp_keyval l) <= 32)%nat /\ 1 <= sp_dlen l <= 32).
  { intros c0 l0 p0 ps Hc0 Hb0 H0. split.
    - destruct H0 as [[Hk Hn]|[Hk Hn]].
      + rewrite Hk. apply sp_unkeyed_value; assumption.
      + apply sp_keyed_fit; assumption.
    - destruct (sp_build_encodes l0 p0 Hb0) as (_ & En). rewrite sp_last_keyval, sp_last_dlen in En.
      split; apply En. }
  destruct (V c l p pieces Hc Hb H) as (E1 & L1 & D1). destruct (V c' l' p' pieces' Hc' Hb' H') as (E2 & L2 & D2).
  rewrite E1, E2 in E.
  pose proof (f_equal (fun o => match o with Ok x => x | _ => [] end) E) as Ex. cbv beta iota in Ex.
  assert (Dl : sp_dlen l = sp_dlen l').
  { apply (f_equal (@length _)) in Ex. unfold Spec.blake2sp in Ex.
    rewrite !firstn_length, !words_bytes_32 in Ex by apply SpecFacts.hash_words_length. lia. }
  split; [exact Dl|]. rewrite <- Dl in Ex. apply blake2sp_truncated_collision; assumption.
Qed.
Lemma hash_truncated_collision c c' l l' p p' x x' h h' : cfg_ok c -> cfg_ok c' -> build l = Ok p -> build l' = Ok p' ->
  N.of_nat (length x) + 64 < 2 ^ 64 -> N.of_nat (length x') + 64 < 2 ^ 64 ->
  hash_one c p x = Ok h -> hash_one c' p' x' = Ok h' -> as_bytes h = as_bytes h' ->
  Spec.truncated_collision (N.to_nat (last_call sel_hash_length 32 l))
                 (Spec.blake2s_calls (spec_params l) (spec_last_node l) x)
                 (Spec.blake2s_calls (spec_params l') (spec_last_node l') x') \/
  (Spec.param_block (spec_params l) = Spec.param_block (spec_params l') /\
   Spec.key (spec_params l) = Spec.key (spec_params l') /\ x = x' /\ spec_last_node l = spec_last_node l').
Proof.
  intros Hc Hc' Hb Hb' Hx Hx' Hh Hh' Hbytes.
  destruct (hash_length_value c l p x h Hc Hb Hx Hh) as (b & Eb & Lb & _).
  destruct (hash_length_value c' l' p' x' h' Hc' Hb' Hx' Hh') as (b' & Eb' & Lb' & _).
  pose proof (proj2 (build_encodes _ _ Hb)) as E. pose proof (proj2 (build_encodes _ _ Hb')) as E'.
  assert (b' = b) as -> by congruence.
  apply (blake2s_truncated_collision (spec_params l) (spec_params l'));
    [apply (encodes_valid _ _ _ E)|apply (encodes_valid _ _ _ E')| |].
  { change (last_call sel_hash_length 32 l = last_call sel_hash_length 32 l'). congruence. }
  rewrite (hash_one_value c p _ _ x Hc E) in Hh by (intros _; eapply small_stream; eassumption).
  rewrite (hash_one_value c' p' _ _ x' Hc' E') in Hh' by (intros _; eapply small_stream; eassumption).
  pose proof (f_equal (fun o => match o with Ok h => h | _ => h end) Hh) as Eh. cbv beta iota in Eh.
  pose proof (f_equal (fun o => match o with Ok h => h | _ => h' end) Hh') as Eh'. cbv beta iota in Eh'.
  rewrite <- Eh, keyed_bytes in Eb by exact E. rewrite <- Eh', keyed_bytes in Eb' by exact E'.
  pose proof (f_equal (fun o => match o with Ok v => v | _ => b end) Eb) as F. cbv beta iota in F.
  pose proof (f_equal (fun o => match o with Ok v => v | _ => b end) Eb') as F'. cbv beta iota in F'.
  rewrite F, F'. reflexivity.
Qed.
Lemma program_refines c ops : cfg_ok c ->
  match snd (arun (overflow_checks c) empty_asession ops) with
  | Some e => map mask (fst (run c empty_session ops)) = map mask (fst (arun (overflow_checks c) empty_asession ops)) /\
              snd (run c empty_session ops) = e
  | None => exists more, map mask (fst (run c empty_session ops)) =
                         map mask (fst (arun (overflow_checks c) empty_asession ops)) ++ more
  end.
Proof. intros Hc. exact (run_ok c Hc ops _ _ (Sim_empty c)). Qed.
Lemma hex_injective c h h' : cfg_ok c -> held c h -> held c h' -> to_hex h = to_hex h' -> as_bytes h = as_bytes h'.
Proof.
  intros Hc H H' E. destruct (to_hex_bytes c h Hc H) as (b & Eb & Ex & _).
  destruct (to_hex_bytes c h' Hc H') as (b' & Eb' & Ex' & _). rewrite Eb, Eb'. rewrite Ex, Ex' in E.
  pose proof (f_equal (fun o => match o with Ok x => x | _ => [] end) E) as E1. cbv beta iota in E1.
  apply hex_inj in E1. congruence.
Qed.
