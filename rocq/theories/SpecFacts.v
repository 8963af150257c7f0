(** * SpecFacts: lemmas about the specification alone. *)
From Verif Require Import Base BaseFacts.
From Verif Require Spec.
From Coq Require Import ZArith Lia ZifyBool ZifyNat ZifyN.
Local Open Scope N_scope.

(** ** Lists *)
Lemma firstn_app_le {A} n (xs ys : list A) : (n <= length xs)%nat -> firstn n (xs ++ ys) = firstn n xs.
Proof.
  intros H. rewrite firstn_app. replace (n - length xs)%nat with 0%nat by lia.
  cbn. apply app_nil_r.
Qed.
Lemma skipn_app_le {A} n (xs ys : list A) : (n <= length xs)%nat -> skipn n (xs ++ ys) = skipn n xs ++ ys.
Proof. intros H. rewrite skipn_app. replace (n - length xs)%nat with 0%nat by lia. reflexivity. Qed.
Lemma skipn_app_ge {A} n (xs ys : list A) : (length xs <= n)%nat ->
  skipn n (xs ++ ys) = skipn (n - length xs) ys.
Proof. intros H. rewrite skipn_app, (skipn_all2 (n := n) xs H). reflexivity. Qed.
Lemma firstn_min {A} n (xs : list A) : firstn (Nat.min n (length xs)) xs = firstn n xs.
Proof.
  destruct (Nat.le_ge_cases n (length xs)).
  - rewrite Nat.min_l by assumption. reflexivity.
  - rewrite Nat.min_r, firstn_all, (firstn_all2 (n := n)) by assumption. reflexivity.
Qed.
Lemma app_inj_len {A} (a b c d : list A) : length a = length c -> a ++ b = c ++ d -> a = c /\ b = d.
Proof.
  revert c. induction a as [|x a IH]; intros [|y c] Hl H; try discriminate Hl.
  - split; [reflexivity|exact H].
  - cbn in *. injection H as -> H. destruct (IH c ltac:(lia) H) as [-> ->]. split; reflexivity.
Qed.

(** ** Padding *)
Lemma pad_length n xs : length (Spec.pad n xs) = Nat.max n (length xs).
Proof. unfold Spec.pad. rewrite app_length, repeat_length. lia. Qed.
Lemma pad_full n xs : (n <= length xs)%nat -> Spec.pad n xs = xs.
Proof. intros H. unfold Spec.pad. replace (n - length xs)%nat with 0%nat by lia. apply app_nil_r. Qed.

(** ** Compression *)
Lemma F_length h b t f0 f1 : length (Spec.F h b t f0 f1) = 8%nat.
Proof. unfold Spec.F. cbv zeta. rewrite map_length, seq_length. reflexivity. Qed.

(** The counter enters as 64 bits. *)
Lemma F_mod h b t f0 f1 : Spec.F h b (t mod 2 ^ 64) f0 f1 = Spec.F h b t f0 f1.
Proof.
  unfold Spec.F.
  assert (E1 : (t mod 2 ^ 64) mod 2 ^ 32 = t mod 2 ^ 32).
  { change (2 ^ 64) with (2 ^ 32 * 2 ^ 32). rewrite N.mod_mul_r by discriminate.
    rewrite N.mul_comm, N.mod_add by discriminate. apply N.mod_mod. discriminate. }
  assert (E2 : ((t mod 2 ^ 64) / 2 ^ 32) mod 2 ^ 32 = (t / 2 ^ 32) mod 2 ^ 32).
  { change (2 ^ 64) with (2 ^ 32 * 2 ^ 32). rewrite N.mod_mul_r by discriminate.
    rewrite N.mul_comm, N.div_add by discriminate.
    rewrite N.div_small by (apply N.mod_lt; discriminate).
    rewrite N.add_0_l. apply N.mod_mod. discriminate. }
  rewrite E1, E2. reflexivity.
Qed.

(** ** Chaining *)
Lemma block_length D i : length (Spec.block D i) = 64%nat.
Proof.
  unfold Spec.block. rewrite pad_length, firstn_length, skipn_length. lia.
Qed.
Lemma block_app D X i : (64 * i + 64 <= length D)%nat -> Spec.block (D ++ X) i = Spec.block D i.
Proof.
  intros H. unfold Spec.block. rewrite skipn_app_le by lia.
  rewrite firstn_app_le by (rewrite skipn_length; lia). reflexivity.
Qed.
Lemma block_whole D i : (64 * i + 64 <= length D)%nat ->
  Spec.block D i = firstn 64 (skipn (64 * i) D).
Proof.
  intros H. unfold Spec.block. apply pad_full. rewrite firstn_length, skipn_length. lia.
Qed.
Lemma block_last D i : (length D <= 64 * i + 64)%nat ->
  Spec.block D i = Spec.pad 64 (skipn (64 * i) D).
Proof.
  intros H. unfold Spec.block. rewrite firstn_all2 by (rewrite skipn_length; lia). reflexivity.
Qed.

Lemma chain_S h D k : Spec.chain h D (S k) =
  Spec.F (Spec.chain h D k) (Spec.block D k) (64 * N.of_nat (k + 1)) 0 0.
Proof.
  unfold Spec.chain. rewrite seq_S, fold_left_app. reflexivity.
Qed.
Lemma chain_0 h D : Spec.chain h D 0 = h.
Proof. reflexivity. Qed.
Lemma chain_app h D X k : (64 * k <= length D)%nat -> Spec.chain h (D ++ X) k = Spec.chain h D k.
Proof.
  induction k as [|k IH]; intros H; [reflexivity|].
  rewrite !chain_S, IH, block_app by lia. reflexivity.
Qed.
Lemma chain_length h D k : length h = 8%nat -> length (Spec.chain h D k) = 8%nat.
Proof. destruct k; intros; [assumption|]. rewrite chain_S. apply F_length. Qed.

Lemma nblocks_bounds D : let n := Spec.nblocks D in
  (1 <= n /\ length D <= 64 * n /\ (1 < n -> 64 * (n - 1) < length D))%nat.
Proof.
  cbv zeta. unfold Spec.nblocks.
  pose proof (Nat.div_mod (length D + 63) 64 ltac:(lia)).
  pose proof (Nat.mod_upper_bound (length D + 63) 64 ltac:(lia)). lia.
Qed.
(** [k] is the index of the last block of [D]. *)
Lemma nblocks_unique D k : (length D <= 64 * k + 64)%nat -> (k = 0 \/ 64 * k < length D)%nat ->
  Spec.nblocks D = S k.
Proof. intros H1 H2. pose proof (nblocks_bounds D) as H. cbv zeta in H. lia. Qed.

Lemma le_bytes_length k n : length (Spec.le_bytes k n) = k.
Proof. revert n. induction k; intros n; cbn; [reflexivity|]. rewrite IHk. reflexivity. Qed.

Lemma words_bytes_length h : length (Spec.words_bytes h) = (4 * length h)%nat.
Proof.
  induction h as [|x h IH]; [reflexivity|]. unfold Spec.words_bytes in *. cbn [flat_map].
  rewrite app_length, IH, le_bytes_length. cbn [length]. lia.
Qed.
Lemma hash_words_length h D b : length (Spec.hash_words h D b) = 8%nat.
Proof. apply F_length. Qed.

(** ** The parameter block determines the parameters *)
Lemma le_num_bytes k : forall n, n < 256 ^ N.of_nat k -> Spec.le_num (Spec.le_bytes k n) = n.
Proof.
  induction k as [|k IH]; intros n Hn.
  - cbn in *. lia.
  - cbn [Spec.le_bytes Spec.le_num]. fold (byte_of_N n). rewrite to_N_byte_of_N.
    rewrite Nat2N.inj_succ, N.pow_succ_r' in Hn.
    rewrite IH by (apply N.div_lt_upper_bound; [discriminate|exact Hn]).
    rewrite N.add_comm. symmetry. apply N.div_mod. discriminate.
Qed.
Lemma le_bytes_inj k a b : a < 256 ^ N.of_nat k -> b < 256 ^ N.of_nat k ->
  Spec.le_bytes k a = Spec.le_bytes k b -> a = b.
Proof. intros Ha Hb E. rewrite <- (le_num_bytes k a Ha), <- (le_num_bytes k b Hb), E. reflexivity. Qed.

Lemma le_num_lt bs : Spec.le_num bs < 256 ^ N.of_nat (length bs).
Proof.
  induction bs as [|b bs IH]; cbn [Spec.le_num length]; [cbn; lia|].
  rewrite Nat2N.inj_succ, N.pow_succ_r'. pose proof (to_N_lt b). lia.
Qed.
Lemma le_num_inj : forall a b, length a = length b -> Spec.le_num a = Spec.le_num b -> a = b.
Proof.
  induction a as [|x a IH]; intros [|y b] Hl E; try discriminate Hl; [reflexivity|].
  cbn [Spec.le_num] in E. pose proof (to_N_lt x); pose proof (to_N_lt y).
  assert (Hd : Spec.le_num a = Spec.le_num b /\ Byte.to_N x = Byte.to_N y) by lia.
  destruct Hd as [H1 H2]. apply to_N_inj in H2. subst y. f_equal. apply IH; [cbn in Hl; lia|exact H1].
Qed.

Lemma param_block_length p : Spec.valid p -> length (Spec.param_block p) = 32%nat.
Proof.
  intros (_ & _ & _ & _ & _ & _ & _ & _ & Hs & Hp). unfold Spec.param_block.
  rewrite !app_length, !le_bytes_length, !pad_length. lia.
Qed.

Lemma words_inj a b : length a = 32%nat -> length b = 32%nat ->
  (forall i, (i < 8)%nat -> Spec.word a i = Spec.word b i) -> a = b.
Proof.
  intros Ha Hb H.
  assert (W : forall i, (i < 8)%nat -> firstn 4 (skipn (4 * i) a) = firstn 4 (skipn (4 * i) b)).
  { intros i Hi. apply le_num_inj; [rewrite !firstn_length, !skipn_length; lia|]. exact (H i Hi). }
  assert (T : forall n, (n <= 8)%nat -> firstn (4 * n) a = firstn (4 * n) b).
  { induction n as [|n IH]; intros Hn; [reflexivity|].
    assert (S : forall l : list byte, firstn (4 * S n) l = firstn (4 * n) l ++ firstn 4 (skipn (4 * n) l)).
    { intros l. rewrite <- (firstn_skipn (4 * n) (firstn (4 * S n) l)).
      rewrite firstn_firstn, skipn_firstn_comm. f_equal; f_equal; lia. }
    rewrite !S, IH, W by lia. reflexivity. }
  specialize (T 8%nat (le_n _)). rewrite !firstn_all2 in T by lia. exact T.
Qed.

Theorem initial_inj p q : Spec.valid p -> Spec.valid q -> Spec.initial p = Spec.initial q ->
  Spec.param_block p = Spec.param_block q.
Proof.
  intros Vp Vq E. apply words_inj; try (apply param_block_length; assumption).
  intros i Hi. unfold Spec.initial in E.
  pose proof (ext_in_map E i ltac:(apply in_seq; lia)) as Ei. cbv beta in Ei.
  exact (lxor_cancel_l _ _ _ Ei).
Qed.

Theorem param_block_inj p q : Spec.valid p -> Spec.valid q -> Spec.param_block p = Spec.param_block q ->
  Spec.digest_length p = Spec.digest_length q /\ length (Spec.key p) = length (Spec.key q) /\
  Spec.fanout p = Spec.fanout q /\ Spec.depth p = Spec.depth q /\
  Spec.leaf_length p = Spec.leaf_length q /\ Spec.node_offset p = Spec.node_offset q /\
  Spec.node_depth p = Spec.node_depth q /\ Spec.inner_length p = Spec.inner_length q /\
  Spec.pad 8 (Spec.salt p) = Spec.pad 8 (Spec.salt q) /\
  Spec.pad 8 (Spec.personal p) = Spec.pad 8 (Spec.personal q).
Proof.
  intros (P1 & P2 & P3 & P4 & P5 & P6 & P7 & P8 & P9 & P10)
         (Q1 & Q2 & Q3 & Q4 & Q5 & Q6 & Q7 & Q8 & Q9 & Q10) E.
  unfold Spec.param_block in E.
  apply app_inj_len in E as [E1 E]; [|rewrite !le_bytes_length; reflexivity].
  apply app_inj_len in E as [E2 E]; [|rewrite !le_bytes_length; reflexivity].
  apply app_inj_len in E as [E3 E]; [|rewrite !le_bytes_length; reflexivity].
  apply app_inj_len in E as [E4 E]; [|rewrite !le_bytes_length; reflexivity].
  apply app_inj_len in E as [E5 E]; [|rewrite !le_bytes_length; reflexivity].
  apply app_inj_len in E as [E6 E]; [|rewrite !le_bytes_length; reflexivity].
  apply app_inj_len in E as [E7 E]; [|rewrite !le_bytes_length; reflexivity].
  apply app_inj_len in E as [E8 E]; [|rewrite !le_bytes_length; reflexivity].
  apply app_inj_len in E as [E9 E10]; [|rewrite !pad_length; lia].
  change (256 ^ N.of_nat 1) with 256 in *.
  apply le_bytes_inj in E1, E2, E3, E4, E5, E6, E7, E8;
    try (change (256 ^ N.of_nat 1) with 256; lia);
    try assumption.
  repeat split; try assumption. apply Nat2N.inj. assumption.
Qed.
