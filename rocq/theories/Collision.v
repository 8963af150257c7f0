(** * Collision: a hash collision contains a collision of the compression function. *)
From Verif Require Import Base BaseFacts Portable PortableFacts SpecFacts LeafFacts.
From Verif Require Spec.
From Coq Require Import ZArith Lia ZifyBool ZifyNat ZifyN.
Local Open Scope N_scope.

Lemma le_bytes4_inj a b : a < 2 ^ 32 -> b < 2 ^ 32 -> Spec.le_bytes 4 a = Spec.le_bytes 4 b -> a = b.
Proof. intros Ha Hb. apply le_bytes_inj; assumption. Qed.
Lemma words_bytes_inj h : forall h', length h = length h' -> Forall (fun x => x < 2 ^ 32) h ->
  Forall (fun x => x < 2 ^ 32) h' -> Spec.words_bytes h = Spec.words_bytes h' -> h = h'.
Proof.
  induction h as [|x h IH]; intros [|y h'] Hl H H' E; try discriminate Hl; [reflexivity|].
  unfold Spec.words_bytes in E. cbn [flat_map] in E.
  inversion H; subst. inversion H'; subst.
  apply app_inj_len in E as [E1 E2]; [|rewrite !le_bytes_length; reflexivity].
  f_equal; [apply le_bytes4_inj; assumption|]. apply IH; auto.
Qed.

Lemma pad_inj n a b : length a = length b -> Spec.pad n a = Spec.pad n b -> a = b.
Proof. unfold Spec.pad. intros Hl E. apply app_inj_len in E as [E _]; [exact E|exact Hl]. Qed.
Lemma blocks_inj D D' : length D = length D' ->
  (forall i, (i < Spec.nblocks D)%nat -> Spec.block D i = Spec.block D' i) -> D = D'.
Proof.
  intros Hl H.
  assert (W : forall i, (i < Spec.nblocks D)%nat -> firstn 64 (skipn (64 * i) D) = firstn 64 (skipn (64 * i) D')).
  { intros i Hi. apply (pad_inj 64); [rewrite !firstn_length, !skipn_length; lia|]. exact (H i Hi). }
  assert (T : forall n, (n <= Spec.nblocks D)%nat -> firstn (64 * n) D = firstn (64 * n) D').
  { induction n as [|n IH]; intros Hn; [reflexivity|].
    assert (S : forall l : list byte, firstn (64 * S n) l = firstn (64 * n) l ++ firstn 64 (skipn (64 * n) l)).
    { intros l. rewrite <- (firstn_skipn (64 * n) (firstn (64 * S n) l)).
      rewrite firstn_firstn, skipn_firstn_comm. f_equal; f_equal; lia. }
    rewrite !S, IH, W by lia. reflexivity. }
  pose proof (nblocks_bounds D) as B. cbv zeta in B.
  specialize (T (Spec.nblocks D) (le_n _)). rewrite !firstn_all2 in T by lia. exact T.
Qed.

Lemma call_eq_dec (c c' : Spec.call) : {c = c'} + {c <> c'}.
Proof.
  destruct c as [h b t f g], c' as [h' b' t' f' g'].
  destruct (list_eq_dec N.eq_dec h h'); [|right; congruence].
  destruct (list_eq_dec Byte.byte_eq_dec b b'); [|right; congruence].
  destruct (N.eq_dec t t'); [|right; congruence].
  destruct (N.eq_dec f f'); [|right; congruence].
  destruct (N.eq_dec g g'); [left; congruence|right; congruence].
Qed.

(** ** One hash computation *)
Lemma in_calls h D b i : (i < Spec.nblocks D - 1)%nat ->
  In (Spec.mk_call (Spec.chain h D i) (Spec.block D i) (64 * N.of_nat (i + 1)) 0 0) (Spec.hash_calls h D b).
Proof.
  intros H. unfold Spec.hash_calls. cbv zeta. apply in_or_app. left.
  apply in_map_iff. exists i. split; [reflexivity|]. apply in_seq. lia.
Qed.
Lemma in_calls_last h D (b : bool) :
  In (Spec.mk_call (Spec.chain h D (Spec.nblocks D - 1)) (Spec.block D (Spec.nblocks D - 1))
     (N.of_nat (length D)) Spec.ones (if b then Spec.ones else 0)) (Spec.hash_calls h D b).
Proof. unfold Spec.hash_calls. cbv zeta. apply in_or_app. right. left. reflexivity. Qed.

Theorem hash_words_collision h h' D D' b b' :
  Spec.hash_words h D b = Spec.hash_words h' D' b' ->
  Spec.collision (Spec.hash_calls h D b) (Spec.hash_calls h' D' b') \/ (h = h' /\ D = D' /\ b = b').
Proof.
  intros E. unfold Spec.hash_words in E. cbv zeta in E.
  pose proof (in_calls_last h D b) as L. pose proof (in_calls_last h' D' b') as L'.
  match type of L with In ?z _ => set (c := z) in * end.
  match type of L' with In ?z _ => set (c' := z) in * end.
  destruct (call_eq_dec c c') as [Ec|Ec].
  2: { left. exists c, c'. split; [exact L|split; [exact L'|split; [exact Ec|exact E]]]. }
  injection Ec as Eh Eb Et Ef. apply Nat2N.inj in Et.
  assert (En : Spec.nblocks D' = Spec.nblocks D) by (unfold Spec.nblocks; rewrite Et; reflexivity).
  assert (Hb : b = b') by (destruct b, b'; try reflexivity; discriminate Ef).
  rewrite En in Eh, Eb.
  assert (W : forall k, (k <= Spec.nblocks D - 1)%nat -> Spec.chain h D k = Spec.chain h' D' k ->
    Spec.collision (Spec.hash_calls h D b) (Spec.hash_calls h' D' b') \/
    (h = h' /\ forall i, (i < k)%nat -> Spec.block D i = Spec.block D' i)).
  { induction k as [|k IH]; intros Hk Ek; [right; split; [exact Ek|lia]|].
    rewrite !chain_S in Ek.
    pose proof (in_calls h D b k ltac:(lia)) as I. pose proof (in_calls h' D' b' k ltac:(lia)) as I'.
    match type of I with In ?z _ => set (x := z) in * end.
    match type of I' with In ?z _ => set (x' := z) in * end.
    destruct (call_eq_dec x x') as [Ex|Ex].
    2: { left. exists x, x'. split; [exact I|split; [exact I'|split; [exact Ex|exact Ek]]]. }
    injection Ex as Eh' Eb'. destruct (IH ltac:(lia) Eh') as [C|(H1 & H2)]; [left; exact C|right].
    split; [exact H1|]. intros i Hi. destruct (Nat.eq_dec i k) as [->|]; [exact Eb'|apply H2; lia]. }
  destruct (W _ (le_n _) Eh) as [C|(H1 & H2)]; [left; exact C|right]. split; [exact H1|]. split; [|exact Hb].
  apply blocks_inj; [exact Et|]. intros i Hi.
  destruct (Nat.eq_dec i (Spec.nblocks D - 1)) as [->|]; [exact Eb|apply H2; lia].
Qed.

(** ** BLAKE2s *)
Lemma key_block_inj k k' m m' : (length k <= 32)%nat -> length k = length k' ->
  Spec.key_block k ++ m = Spec.key_block k' ++ m' -> k = k' /\ m = m'.
Proof.
  intros Hk Hl E. destruct k as [|x k], k' as [|y k']; try discriminate Hl; [split; [reflexivity|exact E]|].
  cbn [Spec.key_block] in E. apply app_inj_len in E as [E1 E2]; [|rewrite !pad_length; lia].
  split; [|exact E2]. apply (pad_inj 64); assumption.
Qed.

Theorem blake2s_collision p p' b b' msg msg' : Spec.valid p -> Spec.valid p' ->
  Spec.hash_words (Spec.initial p) (Spec.key_block (Spec.key p) ++ msg) b =
  Spec.hash_words (Spec.initial p') (Spec.key_block (Spec.key p') ++ msg') b' ->
  Spec.collision (Spec.blake2s_calls p b msg) (Spec.blake2s_calls p' b' msg') \/
  (Spec.param_block p = Spec.param_block p' /\ Spec.key p = Spec.key p' /\ msg = msg' /\ b = b').
Proof.
  intros V V' E. destruct (hash_words_collision _ _ _ _ _ _ E) as [C|(H1 & H2 & H3)]; [left; exact C|right].
  pose proof (initial_inj p p' V V' H1) as Hp. pose proof (param_block_inj p p' V V' Hp) as (_ & Hk & _).
  destruct V as (_ & Vk & _). destruct (key_block_inj _ _ _ _ Vk Hk H2) as (H4 & H5). split; [exact Hp|split; [exact H4|split; [exact H5|exact H3]]].
Qed.

(** ** Words are 32-bit, so bytes determine them *)
Definition words32 (h : list N) : Prop := length h = 8%nat /\ Forall (fun x => x < 2 ^ 32) h.
Lemma nums_words32 w : words32 (nums w).
Proof.
  split; [destruct w; reflexivity|]. unfold nums. apply Forall_forall. intros x Hx.
  apply in_map_iff in Hx as (y & <- & _). apply val_lt.
Qed.
Lemma words32_nums h : words32 h -> exists w, nums w = h.
Proof.
  intros (Hl & Hw). do 8 (destruct h as [|? h]; [discriminate Hl|]). destruct h; [|discriminate Hl].
  repeat match goal with H : Forall _ (_ :: _) |- _ => inversion H; clear H; subst end.
  match goal with |- exists w, _ = [?a; ?b; ?c; ?d; ?e; ?f; ?g; ?i] =>
    exists (Oct (of_N 32 a) (of_N 32 b) (of_N 32 c) (of_N 32 d) (of_N 32 e) (of_N 32 f) (of_N 32 g) (of_N 32 i)) end.
  unfold nums. cbn [oct_list map]. rewrite !val_of_N_small by assumption. reflexivity.
Qed.
Lemma F_words32 h b t f0 f1 : words32 h -> length b = 64%nat -> f0 < 2 ^ 32 -> f1 < 2 ^ 32 ->
  words32 (Spec.F h b t f0 f1).
Proof.
  intros H Hb H0 H1. destruct (words32_nums h H) as (w & <-).
  rewrite <- F_mod, <- val_of_N, <- (val_of_N_small 32 f0 H0), <- (val_of_N_small 32 f1 H1).
  rewrite <- compress_ok by exact Hb. apply nums_words32.
Qed.
Lemma initial_words32 p : words32 (Spec.initial p).
Proof.
  split; [reflexivity|]. unfold Spec.initial. apply Forall_forall. intros x Hx.
  apply in_map_iff in Hx as (i & <- & Hi). apply in_seq in Hi. apply lxor_lt.
  - do 8 (destruct i as [|i]; [reflexivity|]). lia.
  - unfold Spec.word. eapply N.lt_le_trans; [apply le_num_lt|]. change (2 ^ 32) with (256 ^ 4).
    apply N.pow_le_mono_r; [discriminate|]. rewrite firstn_length. lia.
Qed.
Lemma chain_words32 h D k : words32 h -> words32 (Spec.chain h D k).
Proof.
  intros H. induction k as [|k IH]; [exact H|]. rewrite chain_S.
  apply F_words32; [exact IH|apply block_length|reflexivity|reflexivity].
Qed.
Lemma hash_words_words32 h D b : words32 h -> words32 (Spec.hash_words h D b).
Proof.
  intros H. unfold Spec.hash_words. cbv zeta.
  apply F_words32; [apply chain_words32, H|apply block_length|reflexivity|destruct b; reflexivity].
Qed.
Lemma hash_bytes_inj h h' D D' b b' : words32 h -> words32 h' ->
  Spec.words_bytes (Spec.hash_words h D b) = Spec.words_bytes (Spec.hash_words h' D' b') ->
  Spec.hash_words h D b = Spec.hash_words h' D' b'.
Proof.
  intros H H'. destruct (hash_words_words32 h D b H) as (L & W).
  destruct (hash_words_words32 h' D' b' H') as (L' & W').
  apply words_bytes_inj; [congruence|exact W|exact W'].
Qed.
Lemma firstn_32 h D b : firstn 32 (Spec.words_bytes (Spec.hash_words h D b)) = Spec.words_bytes (Spec.hash_words h D b).
Proof. apply firstn_all2. rewrite words_bytes_length, hash_words_length. lia. Qed.

(** Two different inputs with the same 32-byte hash. *)
Theorem blake2s_digest_collision p p' b b' msg msg' : Spec.valid p -> Spec.valid p' ->
  Spec.digest_length p = 32 -> Spec.digest_length p' = 32 ->
  Spec.blake2s p b msg = Spec.blake2s p' b' msg' ->
  Spec.collision (Spec.blake2s_calls p b msg) (Spec.blake2s_calls p' b' msg') \/
  (Spec.param_block p = Spec.param_block p' /\ Spec.key p = Spec.key p' /\ msg = msg' /\ b = b').
Proof.
  intros V V' Hd Hd' E. unfold Spec.blake2s in E. rewrite Hd, Hd' in E. change (N.to_nat 32) with 32%nat in E.
  rewrite !firstn_32 in E. apply blake2s_collision; [exact V|exact V'|].
  apply hash_bytes_inj; [apply initial_words32|apply initial_words32|exact E].
Qed.

(** ** BLAKE2sp *)
Lemma leaf_at_cons i off x d : leaf_at i off (x :: d) =
  (if Nat.eqb ((off / 64) mod 8) i then [x] else []) ++ leaf_at i (S off) d.
Proof. unfold leaf_at. cbn [length seq combine filter fst]. destruct (_ =? i)%nat; reflexivity. Qed.
Lemma leaf_at_inj d : forall d' off, (forall i, (i < 8)%nat -> leaf_at i off d = leaf_at i off d') -> d = d'.
Proof.
  induction d as [|x d IH]; intros [|y d'] off H; [reflexivity| | |].
  - specialize (H ((off / 64) mod 8)%nat (Nat.mod_upper_bound _ 8 ltac:(discriminate))).
    rewrite leaf_at_cons, Nat.eqb_refl in H. discriminate H.
  - specialize (H ((off / 64) mod 8)%nat (Nat.mod_upper_bound _ 8 ltac:(discriminate))).
    rewrite leaf_at_cons, Nat.eqb_refl in H. discriminate H.
  - assert (E : x = y).
    { specialize (H ((off / 64) mod 8)%nat (Nat.mod_upper_bound _ 8 ltac:(discriminate))).
      rewrite !leaf_at_cons, Nat.eqb_refl in H. injection H as H _. exact H. }
    subst y. f_equal. apply (IH d' (S off)). intros i Hi. specialize (H i Hi). rewrite !leaf_at_cons in H.
    exact (app_inv_head _ _ _ H).
Qed.

Lemma root_valid dlen k : 1 <= dlen <= 32 -> (length k <= 32)%nat -> Spec.valid (Spec.root_params dlen k).
Proof. intros H Hk. unfold Spec.valid, Spec.root_params. cbn -[N.pow]. repeat split; try lia. Qed.

Lemma flat_map_inj {A} (f g : nat -> list A) n : (forall i, length (f i) = n) -> (forall i, length (g i) = n) ->
  forall l, flat_map f l = flat_map g l -> forall i, In i l -> f i = g i.
Proof.
  intros Hf Hg. induction l as [|j l IH]; intros E i Hi; [destruct Hi|]. cbn [flat_map] in E.
  apply app_inj_len in E as [E1 E2]; [|rewrite Hf, Hg; reflexivity].
  destruct Hi as [<-|Hi]; [exact E1|apply IH; assumption].
Qed.
Lemma leaf_digest_length dlen k data i : length (Spec.leaf_digest dlen k data i) = 32%nat.
Proof. unfold Spec.leaf_digest. rewrite words_bytes_length, hash_words_length. reflexivity. Qed.
Lemma all_or {P : nat -> Prop} {C : Prop} l : (forall i, In i l -> C \/ P i) -> C \/ (forall i, In i l -> P i).
Proof.
  induction l as [|j l IH]; intros H; [right; intros i []|].
  destruct (H j (or_introl eq_refl)) as [|Hj]; [left; assumption|].
  destruct IH as [|Hl]; [intros i Hi; apply H; right; exact Hi|left; assumption|].
  right. intros i [<-|Hi]; [exact Hj|apply Hl, Hi].
Qed.
Lemma collision_incl l l' m m' : Spec.collision l l' -> incl l m -> incl l' m' -> Spec.collision m m'.
Proof. intros (c & c' & H1 & H2 & H3) Hl Hl'. exists c, c'. split; [apply Hl, H1|split; [apply Hl', H2|exact H3]]. Qed.

Theorem blake2sp_collision dlen dlen' k k' data data' :
  1 <= dlen <= 32 -> 1 <= dlen' <= 32 -> (length k <= 32)%nat -> (length k' <= 32)%nat ->
  Spec.hash_words (Spec.initial (Spec.root_params dlen k))
    (flat_map (Spec.leaf_digest dlen k data) (seq 0 8)) true =
  Spec.hash_words (Spec.initial (Spec.root_params dlen' k'))
    (flat_map (Spec.leaf_digest dlen' k' data') (seq 0 8)) true ->
  Spec.collision (Spec.blake2sp_calls dlen k data) (Spec.blake2sp_calls dlen' k' data') \/
  (dlen = dlen' /\ k = k' /\ data = data').
Proof.
  intros Hd Hd' Hk Hk' E.
  destruct (hash_words_collision _ _ _ _ _ _ E) as [C|(H1 & H2 & _)].
  { left. apply (collision_incl _ _ _ _ C); apply incl_appr, incl_refl. }
  apply initial_inj in H1; [|apply root_valid; assumption|apply root_valid; assumption].
  apply param_block_inj in H1; [|apply root_valid; assumption|apply root_valid; assumption].
  destruct H1 as (H1 & Hl & _). cbn [Spec.root_params Spec.digest_length Spec.key] in H1, Hl. subst dlen'.
  assert (D := flat_map_inj _ _ 32 (leaf_digest_length dlen k data) (leaf_digest_length dlen k' data') _ H2).
  clear H2 E.
  destruct (@all_or (fun i => Spec.key_block k ++ Spec.leaf_input i data = Spec.key_block k' ++ Spec.leaf_input i data')
    (Spec.collision (Spec.blake2sp_calls dlen k data) (Spec.blake2sp_calls dlen k' data')) (seq 0 8)) as [C|H].
  - intros i Hi. specialize (D i Hi). unfold Spec.leaf_digest in D.
    apply hash_bytes_inj in D; [|apply initial_words32|apply initial_words32].
    destruct (hash_words_collision _ _ _ _ _ _ D) as [C|(_ & H2 & _)]; [left|right; exact H2].
    apply (collision_incl _ _ _ _ C); apply incl_appl; intros c Hc; apply in_flat_map; exists i; split; assumption.
  - left. exact C.
  - right. split; [reflexivity|].
    assert (Hi : forall i, (i < 8)%nat -> k = k' /\ Spec.leaf_input i data = Spec.leaf_input i data').
    { intros i Hi. apply key_block_inj; [exact Hk|exact Hl|]. apply H. apply in_seq. lia. }
    split; [apply (Hi 0%nat); lia|]. apply (leaf_at_inj data data' 0). intros i Hlt. apply (Hi i Hlt).
Qed.
Theorem blake2sp_digest_collision k k' data data' : (length k <= 32)%nat -> (length k' <= 32)%nat ->
  Spec.blake2sp 32 k data = Spec.blake2sp 32 k' data' ->
  Spec.collision (Spec.blake2sp_calls 32 k data) (Spec.blake2sp_calls 32 k' data') \/
  (k = k' /\ data = data').
Proof.
  intros Hk Hk' E. unfold Spec.blake2sp in E. change (N.to_nat 32) with 32%nat in E. rewrite !firstn_32 in E.
  destruct (blake2sp_collision 32 32 k k' data data') as [C|(_ & H)]; try lia; try assumption;
    [|left; exact C|right; exact H].
  apply hash_bytes_inj; [apply initial_words32|apply initial_words32|exact E].
Qed.

(** ** Shorter hashes *)
Lemma last_call_or h h' D D' b b' d :
  firstn d (Spec.words_bytes (Spec.hash_words h D b)) = firstn d (Spec.words_bytes (Spec.hash_words h' D' b')) ->
  Spec.hash_words h D b = Spec.hash_words h' D' b' \/
  exists m c m' c', Spec.hash_calls h D b = m ++ [c] /\ Spec.hash_calls h' D' b' = m' ++ [c'] /\ c <> c' /\
    firstn d (Spec.words_bytes (Spec.run_call c)) = firstn d (Spec.words_bytes (Spec.run_call c')).
Proof.
  intros E. unfold Spec.hash_calls. cbv zeta.
  set (x := Spec.mk_call _ (Spec.block D _) (N.of_nat (length D)) _ _).
  set (x' := Spec.mk_call _ (Spec.block D' _) (N.of_nat (length D')) _ _).
  change (Spec.hash_words h D b) with (Spec.run_call x) in *.
  change (Spec.hash_words h' D' b') with (Spec.run_call x') in *.
  destruct (call_eq_dec x x') as [Ex|Ex]; [left; rewrite Ex; reflexivity|right].
  eexists _, x, _, x'. split; [reflexivity|]. split; [reflexivity|]. split; [exact Ex|exact E].
Qed.
Theorem blake2s_truncated_collision p p' b b' msg msg' : Spec.valid p -> Spec.valid p' ->
  Spec.digest_length p = Spec.digest_length p' ->
  Spec.blake2s p b msg = Spec.blake2s p' b' msg' ->
  Spec.truncated_collision (N.to_nat (Spec.digest_length p)) (Spec.blake2s_calls p b msg) (Spec.blake2s_calls p' b' msg') \/
  (Spec.param_block p = Spec.param_block p' /\ Spec.key p = Spec.key p' /\ msg = msg' /\ b = b').
Proof.
  intros V V' Hd E. unfold Spec.blake2s in E. rewrite <- Hd in E.
  destruct (last_call_or _ _ _ _ _ _ _ E) as [W|W]; [|left; right; exact W].
  destruct (blake2s_collision p p' b b' msg msg' V V' W) as [C|C]; [left; left; exact C|right; exact C].
Qed.
Theorem blake2sp_truncated_collision dlen k k' data data' : 1 <= dlen <= 32 ->
  (length k <= 32)%nat -> (length k' <= 32)%nat ->
  Spec.blake2sp dlen k data = Spec.blake2sp dlen k' data' ->
  Spec.truncated_collision (N.to_nat dlen) (Spec.blake2sp_calls dlen k data) (Spec.blake2sp_calls dlen k' data') \/
  (k = k' /\ data = data').
Proof.
  intros Hd Hk Hk' E. unfold Spec.blake2sp in E.
  destruct (last_call_or _ _ _ _ _ _ _ E) as [W|(m & x & m' & x' & E1 & E2 & E3)].
  - destruct (blake2sp_collision dlen dlen k k' data data' Hd Hd Hk Hk' W) as [C|(_ & C)]; [left; left; exact C|right; exact C].
  - left. right. unfold Spec.blake2sp_calls. rewrite E1, E2. eexists _, x, _, x'.
    split; [apply app_assoc|]. split; [apply app_assoc|exact E3].
Qed.
