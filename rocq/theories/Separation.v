(** * Separation: the compression calls of a computation say what was hashed. *)
From Verif Require Import Base BaseFacts Portable PortableFacts Params State Blake2sp ParamsSpec ParamsFacts SpecFacts StateFacts Refine SpFacts LeafFacts Behave
  Terms Collision.
From Verif Require Spec.
From Coq Require Import Lia.
Local Open Scope N_scope.

(** Calls without the last-block flag, then one with it. *)
Definition one_final (l : list Spec.call) : Prop :=
  exists m x, l = m ++ [x] /\ Forall (fun y => Spec.c_f0 y = 0) m /\ Spec.c_f0 x = Spec.ones.
Lemma calls_one_final h D b : one_final (Spec.hash_calls h D b).
Proof.
  unfold Spec.hash_calls. cbv zeta. eexists _, _. split; [reflexivity|]. split; [|reflexivity].
  apply Forall_forall. intros y Hy. apply in_map_iff in Hy as (i & <- & _). reflexivity.
Qed.
Lemma one_final_prefix l l' y y' : one_final l -> one_final l' -> l ++ y = l' ++ y' -> l = l' /\ y = y'.
Proof.
  intros (m & x & -> & Hm & Hx) (m' & x' & -> & Hm' & Hx') E. rewrite <- !app_assoc in E. cbn [app] in E.
  revert m' Hm' E. induction m as [|a m IH]; intros [|a' m'] Hm' E; cbn [app] in E.
  - injection E as -> ->. split; reflexivity.
  - exfalso. injection E as -> _. apply Forall_inv in Hm'. rewrite Hx in Hm'. discriminate Hm'.
  - exfalso. injection E as -> _. apply Forall_inv in Hm. rewrite Hx' in Hm. discriminate Hm.
  - injection E as -> E. destruct (IH (Forall_inv_tail Hm) m' (Forall_inv_tail Hm') E) as (H1 & ->). cbn [app]. rewrite H1.
    split; reflexivity.
Qed.
Lemma one_final_last l m x : one_final l -> l = m ++ [x] -> Forall (fun y => Spec.c_f0 y = 0) m /\ Spec.c_f0 x = Spec.ones.
Proof.
  intros (m' & x' & -> & Hm & Hx) E. apply app_inj_tail in E as (<- & <-). split; assumption.
Qed.

Lemma chain_0 h D : Spec.chain h D 0 = h.
Proof. reflexivity. Qed.
Lemma calls_inj h h' D D' b b' : Spec.hash_calls h D b = Spec.hash_calls h' D' b' -> h = h' /\ D = D' /\ b = b'.
Proof.
  unfold Spec.hash_calls. cbv zeta. intros E. apply app_inj_tail in E as (E1 & E2).
  injection E2 as Eh Eb Et Ef. apply Nat2N.inj in Et.
  assert (En : Spec.nblocks D' = Spec.nblocks D) by (unfold Spec.nblocks; rewrite Et; reflexivity).
  rewrite En in *.
  assert (W : forall i, (i < Spec.nblocks D - 1)%nat ->
    Spec.chain h D i = Spec.chain h' D' i /\ Spec.block D i = Spec.block D' i).
  { intros i Hi.
    pose proof (map_nth_error (fun i => Spec.mk_call (Spec.chain h D i) (Spec.block D i) (64 * N.of_nat (i + 1)) 0 0) i
      (seq 0 (Spec.nblocks D - 1)) (d := i)) as A.
    pose proof (map_nth_error (fun i => Spec.mk_call (Spec.chain h' D' i) (Spec.block D' i) (64 * N.of_nat (i + 1)) 0 0) i
      (seq 0 (Spec.nblocks D - 1)) (d := i)) as A'.
    assert (S0 : nth_error (seq 0 (Spec.nblocks D - 1)) i = Some i).
    { rewrite (nth_error_nth' _ 0%nat) by (rewrite seq_length; exact Hi). rewrite seq_nth by exact Hi. reflexivity. }
    specialize (A S0). specialize (A' S0). cbv beta in A, A'. rewrite E1, A' in A. injection A as H1 H2.
    split; symmetry; assumption. }
  assert (Hh : h = h').
  { destruct (Nat.eq_dec (Spec.nblocks D - 1) 0) as [Z|Z].
    - rewrite Z in Eh. exact Eh.
    - exact (proj1 (W 0%nat ltac:(lia))). }
  split; [exact Hh|]. split.
  - apply blocks_inj; [exact Et|]. intros i Hi. destruct (Nat.eq_dec i (Spec.nblocks D - 1)) as [->|]; [exact Eb|].
    apply W. lia.
  - destruct b, b'; try reflexivity; discriminate Ef.
Qed.

(** ** BLAKE2s *)
Theorem blake2s_calls_decode l l' p p' x x' y y' : build l = Ok p -> build l' = Ok p' ->
  Spec.blake2s_calls (spec_params l) (spec_last_node l) x ++ y =
  Spec.blake2s_calls (spec_params l') (spec_last_node l') x' ++ y' ->
  Spec.param_block (spec_params l) = Spec.param_block (spec_params l') /\
  Spec.key (spec_params l) = Spec.key (spec_params l') /\ spec_last_node l = spec_last_node l' /\ x = x' /\ y = y'.
Proof.
  intros Hb Hb' E. destruct (build_encodes l p Hb) as (_ & En). destruct (build_encodes l' p' Hb') as (_ & En').
  pose proof (encodes_valid _ _ _ En) as V. pose proof (encodes_valid _ _ _ En') as V'.
  unfold Spec.blake2s_calls in E.
  destruct (one_final_prefix _ _ _ _ (calls_one_final _ _ _) (calls_one_final _ _ _) E) as (E1 & ->).
  apply calls_inj in E1 as (H1 & H2 & H3).
  pose proof (initial_inj _ _ V V' H1) as Hp. pose proof (param_block_inj _ _ V V' Hp) as (_ & Hk & _).
  destruct V as (_ & Vk & _). destruct (key_block_inj _ _ _ _ Vk Hk H2) as (H4 & H5).
  repeat split; assumption.
Qed.
(** ** BLAKE2sp *)
Lemma leaf_valid dlen k i : 1 <= dlen <= 32 -> (length k <= 32)%nat -> (i < 8)%nat -> Spec.valid (Spec.leaf_params dlen k i).
Proof.
  intros H Hk Hi. unfold Spec.valid, Spec.leaf_params. cbn -[N.pow]. change (2 ^ 48) with 281474976710656.
  change (2 ^ 32) with 4294967296. repeat split; try lia.
Qed.
Lemma flat_prefix (f g : nat -> list Spec.call) : (forall i, one_final (f i)) -> (forall i, one_final (g i)) ->
  forall l y y', flat_map f l ++ y = flat_map g l ++ y' -> (forall i, In i l -> f i = g i) /\ y = y'.
Proof.
  intros Hf Hg. induction l as [|j l IH]; intros y y' E; cbn [flat_map app] in *.
  - split; [intros i []|exact E].
  - rewrite <- !app_assoc in E. destruct (one_final_prefix _ _ _ _ (Hf j) (Hg j) E) as (H1 & E1).
    destruct (IH y y' E1) as (H2 & H3). split; [|exact H3]. intros i [->|Hi]; [exact H1|exact (H2 i Hi)].
Qed.
Lemma sp_calls_decode dlen dlen' k k' data data' y y' : 1 <= dlen <= 32 -> 1 <= dlen' <= 32 ->
  (length k <= 32)%nat -> (length k' <= 32)%nat ->
  Spec.blake2sp_calls dlen k data ++ y = Spec.blake2sp_calls dlen' k' data' ++ y' ->
  dlen = dlen' /\ k = k' /\ data = data' /\ y = y'.
Proof.
  intros Hd Hd' Hk Hk' E. unfold Spec.blake2sp_calls in E. rewrite <- !app_assoc in E.
  apply flat_prefix in E as (E1 & E2); [|intros i; apply calls_one_final|intros i; apply calls_one_final].
  destruct (one_final_prefix _ _ _ _ (calls_one_final _ _ _) (calls_one_final _ _ _) E2) as (_ & E3).
  assert (W : forall i, (i < 8)%nat -> dlen = dlen' /\ k = k' /\ Spec.leaf_input i data = Spec.leaf_input i data').
  { intros i Hi. specialize (E1 i ltac:(apply in_seq; lia)). apply calls_inj in E1 as (H1 & H2 & _).
    apply initial_inj in H1; [|apply leaf_valid; assumption..]. apply param_block_inj in H1; [|apply leaf_valid; assumption..].
    destruct H1 as (H1 & Hl & _). cbn [Spec.leaf_params Spec.digest_length Spec.key] in H1, Hl.
    split; [exact H1|]. exact (key_block_inj _ _ _ _ Hk Hl H2). }
  destruct (W 0%nat ltac:(lia)) as (W1 & W2 & _). split; [exact W1|]. split; [exact W2|]. split; [|exact E3].
  apply (leaf_at_inj data data' 0). intros i Hlt. apply (W i Hlt).
Qed.
Theorem blake2sp_calls_decode l l' p p' x x' y y' : sp_build l = Ok p -> sp_build l' = Ok p' ->
  Spec.blake2sp_calls (sp_last_hash_length 32 l) (sp_last_key [] l) x ++ y =
  Spec.blake2sp_calls (sp_last_hash_length 32 l') (sp_last_key [] l') x' ++ y' ->
  sp_last_hash_length 32 l = sp_last_hash_length 32 l' /\ sp_last_key [] l = sp_last_key [] l' /\ x = x' /\ y = y'.
Proof.
  intros Hb Hb' E. destruct (sp_build_encodes l p Hb) as (_ & En). destruct (sp_build_encodes l' p' Hb') as (_ & En').
  apply sp_calls_decode; try exact E.
  - exact (se_hash_ok _ _ _ En).
  - exact (se_hash_ok _ _ _ En').
  - exact (se_key_ok _ _ _ En).
  - exact (se_key_ok _ _ _ En').
Qed.
(** A computation of BLAKE2s that begins like one of BLAKE2sp has the parameters of a leaf. *)
Theorem modes_apart l l' p p' x x' y y' : build l = Ok p -> sp_build l' = Ok p' ->
  Spec.blake2s_calls (spec_params l) (spec_last_node l) x ++ y =
  Spec.blake2sp_calls (sp_last_hash_length 32 l') (sp_last_key [] l') x' ++ y' ->
  Spec.fanout (spec_params l) = 8 /\ Spec.depth (spec_params l) = 2 /\ Spec.inner_length (spec_params l) = 32.
Proof.
  intros Hb Hb' E. destruct (build_encodes l p Hb) as (_ & En). destruct (sp_build_encodes l' p' Hb') as (_ & En').
  pose proof (encodes_valid _ _ _ En) as V.
  unfold Spec.blake2s_calls, Spec.blake2sp_calls in E. cbn [seq flat_map] in E. rewrite <- !app_assoc in E.
  destruct (one_final_prefix _ _ _ _ (calls_one_final _ _ _) (calls_one_final _ _ _) E) as (E1 & _).
  apply calls_inj in E1 as (H1 & _ & _).
  assert (V' : Spec.valid (Spec.leaf_params (sp_last_hash_length 32 l') (sp_last_key [] l') 0)).
  { apply leaf_valid; [exact (se_hash_ok _ _ _ En')|exact (se_key_ok _ _ _ En')|lia]. }
  pose proof (param_block_inj _ _ V V' (initial_inj _ _ V V' H1)) as (_ & _ & F1 & F2 & _ & _ & _ & F3 & _).
  split; [exact F1|]. split; [exact F2|exact F3].
Qed.
Definition node_params (dlen : N) (k : list byte) (i : nat) : Spec.params :=
  if Nat.ltb i 8 then Spec.leaf_params dlen k i else Spec.root_params dlen k.
Lemma node_valid d k i : 1 <= d <= 32 -> (length k <= 32)%nat -> Spec.valid (node_params d k i).
Proof.
  intros Hd Hk. unfold node_params. destruct (Nat.ltb i 8) eqn:E.
  - apply Nat.ltb_lt in E. apply leaf_valid; assumption.
  - apply root_valid; assumption.
Qed.
Lemma node_params_inj dlen dlen' k k' i j : 1 <= dlen <= 32 -> 1 <= dlen' <= 32 -> (length k <= 32)%nat -> (length k' <= 32)%nat ->
  (i < 9)%nat -> (j < 9)%nat ->
  Spec.initial (node_params dlen k i) = Spec.initial (node_params dlen' k' j) ->
  i = j /\ dlen = dlen' /\ length k = length k'.
Proof.
  intros Hd Hd' Hk Hk' Hi Hj E.
  pose proof (node_valid dlen k i Hd Hk) as V1. pose proof (node_valid dlen' k' j Hd' Hk') as V2.
  pose proof (param_block_inj _ _ V1 V2 (initial_inj _ _ V1 V2 E)) as (P1 & P2 & _ & _ & _ & P3 & P4 & _).
  unfold node_params in *. destruct (Nat.ltb i 8) eqn:Ei, (Nat.ltb j 8) eqn:Ej;
    try apply Nat.ltb_lt in Ei; try apply Nat.ltb_lt in Ej; try apply Nat.ltb_ge in Ei; try apply Nat.ltb_ge in Ej;
    cbn [Spec.leaf_params Spec.root_params Spec.digest_length Spec.key Spec.node_offset Spec.node_depth] in *;
    try discriminate P4; (split; [lia|]; split; [exact P1|exact P2]).
Qed.
Lemma node_words_new c l p st i w : cfg_ok c -> sp_build l = Ok p -> sp_to_state c p = Ok st ->
  nth_error (node_words st) i = Some w ->
  (i < 9)%nat /\ nums w = Spec.initial (node_params (sp_last_hash_length 32 l) (sp_last_key [] l) i).
Proof.
  intros Hc Hb Hs Hn. destruct (sp_build_encodes l p Hb) as (_ & En).
  destruct (sp_with_params_ok c p _ _ Hc En) as (st0 & E0 & R). unfold sp_to_state in Hs. rewrite E0 in Hs.
  injection Hs as ->. pose proof (sr_leaf _ _ _ _ _ _ _ R) as L. pose proof (rep_h _ _ _ _ _ (sr_root _ _ _ _ _ _ _ R)) as Hr.
  assert (W : forall l0, nums (st_h (proj l0 (sp_leaves st))) =
    Spec.initial (Spec.leaf_params (sp_last_hash_length 32 l) (sp_last_key [] l) (idx l0))).
  { intros l0. destruct (L l0) as (k & Rk & _ & Hk). rewrite (rep_h _ _ _ _ _ Rk).
    assert (k = 0%nat) as ->; [|reflexivity].
    destruct (sp_last_key [] l) as [|b0 k0]; [|exact Hk]. cbn in Hk. lia. }
  assert (Hi : (i < 9)%nat).
  { assert (X : nth_error (node_words st) i <> None) by (rewrite Hn; discriminate). apply nth_error_Some in X.
    unfold node_words in X. rewrite app_length, map_length in X. destruct (sp_leaves st). exact X. }
  split; [exact Hi|]. unfold node_words in Hn.
  pose proof (W L0) as W0. pose proof (W L1) as W1. pose proof (W L2) as W2. pose proof (W L3) as W3.
  pose proof (W L4) as W4. pose proof (W L5) as W5. pose proof (W L6) as W6. pose proof (W L7) as W7. clear W L.
  destruct (sp_leaves st) as [a0 a1 a2 a3 a4 a5 a6 a7]. cbn [proj o0 o1 o2 o3 o4 o5 o6 o7 idx] in *.
  do 9 (destruct i as [|i]; [injection Hn as <-; assumption|]). lia.
Qed.
Theorem nodes_apart c c' l l' p p' st st' i j w : cfg_ok c -> cfg_ok c' -> sp_build l = Ok p -> sp_build l' = Ok p' ->
  sp_to_state c p = Ok st -> sp_to_state c' p' = Ok st' ->
  nth_error (node_words st) i = Some w -> nth_error (node_words st') j = Some w ->
  i = j /\ sp_last_hash_length 32 l = sp_last_hash_length 32 l' /\ length (sp_last_key [] l) = length (sp_last_key [] l').
Proof.
  intros Hc Hc' Hb Hb' Hs Hs' Hn Hn'.
  destruct (node_words_new c l p st i w Hc Hb Hs Hn) as (Hi & E). destruct (node_words_new c' l' p' st' j w Hc' Hb' Hs' Hn') as (Hj & E').
  destruct (sp_build_encodes l p Hb) as (_ & En). destruct (sp_build_encodes l' p' Hb') as (_ & En').
  apply (node_params_inj _ _ _ _ i j (se_hash_ok _ _ _ En) (se_hash_ok _ _ _ En') (se_key_ok _ _ _ En) (se_key_ok _ _ _ En') Hi Hj).
  congruence.
Qed.
Theorem node_apart_from_state c c' l l' p p' st s i : cfg_ok c -> cfg_ok c' -> sp_build l = Ok p -> build l' = Ok p' ->
  sp_to_state c p = Ok st -> to_state c' p' = Ok s -> nth_error (node_words st) i = Some (st_h s) ->
  let sp := spec_params l' in
  Spec.fanout sp = 8 /\ Spec.depth sp = 2 /\ Spec.leaf_length sp = 0 /\ Spec.inner_length sp = 32 /\
  Spec.digest_length sp = sp_last_hash_length 32 l /\ length (Spec.key sp) = length (sp_last_key [] l) /\
  (i = 8%nat /\ Spec.node_depth sp = 1 /\ Spec.node_offset sp = 0 \/
   (i < 8)%nat /\ Spec.node_depth sp = 0 /\ Spec.node_offset sp = N.of_nat i).
Proof.
  intros Hc Hc' Hb Hb' Hs Hs' Hn. cbv zeta.
  destruct (node_words_new c l p st i _ Hc Hb Hs Hn) as (Hi & E).
  destruct (sp_build_encodes l p Hb) as (_ & En). destruct (build_encodes l' p' Hb') as (_ & En').
  destruct (models_new c' p' _ _ Hc' En') as (s0 & E0 & M). rewrite E0 in Hs'. injection Hs' as ->.
  destruct (mo_rep _ _ _ _ _ M) as (k & R & Hz).
  assert (Hk : k = 0%nat).
  { destruct Hz as [Hz|Hz]; [exact Hz|]. unfold stream in Hz. rewrite app_nil_r in Hz.
    rewrite key_block_length in Hz by (pose proof (e_key_ok _ _ _ En'); lia).
    destruct (Spec.key (spec_params l')); lia. }
  rewrite (rep_h _ _ _ _ _ R), Hk, chain_0 in E.
  pose proof (encodes_valid _ _ _ En') as V1.
  pose proof (node_valid _ _ i (se_hash_ok _ _ _ En) (se_key_ok _ _ _ En)) as V2.
  pose proof (param_block_inj _ _ V1 V2 (initial_inj _ _ V1 V2 E)) as (P1 & P2 & P3 & P4 & P5 & P6 & P7 & P8 & _).
  rewrite P1, P2, P3, P4, P5, P6, P7, P8. unfold node_params. destruct (Nat.ltb i 8) eqn:Ei.
  - apply Nat.ltb_lt in Ei. do 6 (split; [reflexivity|]). right. split; [exact Ei|]. split; reflexivity.
  - apply Nat.ltb_ge in Ei. do 6 (split; [reflexivity|]). left. split; [lia|]. split; reflexivity.
Qed.
(** The last call of a computation is not a call before the last of any computation. *)
Theorem last_apart h h' D D' b b' m x m' x' : Spec.hash_calls h D b = m ++ [x] -> Spec.hash_calls h' D' b' = m' ++ [x'] ->
  ~ In x m'.
Proof.
  intros E E' Hin.
  pose proof (one_final_last _ _ _ (calls_one_final h D b) E) as (_ & Hx).
  pose proof (one_final_last _ _ _ (calls_one_final h' D' b') E') as (Hm & _).
  rewrite Forall_forall in Hm. rewrite (Hm x Hin) in Hx. discriminate Hx.
Qed.
