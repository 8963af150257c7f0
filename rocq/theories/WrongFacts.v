(** * WrongFacts: the wrong hashes of C20 and C23 are right only by a collision. *)
From Verif Require Import Base BaseFacts Consts Portable PortableFacts SpecFacts Params ParamsSpec ParamsFacts State StateFacts
  Many ManyFacts LeafFacts Blake2sp SpFacts Machine MachineSpec MachineFacts Clients Terms Collision Refine ExactFacts Behave Corollaries
  SpShape SpLate WrongTerms.
From Verif Require Spec.
From Coq Require Import ZArith Lia ZifyBool ZifyNat ZifyN.
Local Open Scope N_scope.

(** ** Streams with early blocks *)
Lemma in_late_calls h k D b i : (i < Spec.nblocks D - 1)%nat ->
  In (Spec.mk_call (late_chain h k D i) (Spec.block D i) (late_count k i) 0 0) (late_calls h k D b).
Proof.
  intros H. unfold late_calls. cbv zeta. apply in_or_app. left.
  apply in_map_iff. exists i. split; [reflexivity|]. apply in_seq. lia.
Qed.
Lemma in_late_last h k D (b : bool) :
  In (Spec.mk_call (late_chain h k D (Spec.nblocks D - 1)) (Spec.block D (Spec.nblocks D - 1))
     (N.of_nat (length D)) Spec.ones (if b then Spec.ones else 0)) (late_calls h k D b).
Proof. unfold late_calls. cbv zeta. apply in_or_app. right. left. reflexivity. Qed.

Lemma late_count_inj k k' n : (k <= n)%nat -> (k' <= n)%nat ->
  (forall i, (i < n)%nat -> late_count k i = late_count k' i) -> k = k'.
Proof.
  intros H H' E. destruct (Nat.lt_trichotomy k k') as [L|[L|L]]; [|exact L|].
  - specialize (E k ltac:(lia)). rewrite late_count_ge, late_count_lt in E by lia. lia.
  - specialize (E k' ltac:(lia)). rewrite late_count_lt, late_count_ge in E by lia. lia.
Qed.

Theorem late_words_collision h h' k k' D D' b b' :
  (k <= Spec.nblocks D - 1)%nat -> (k' <= Spec.nblocks D' - 1)%nat ->
  late_words h k D b = late_words h' k' D' b' ->
  Spec.collision (late_calls h k D b) (late_calls h' k' D' b') \/ (h = h' /\ k = k' /\ D = D' /\ b = b').
Proof.
  intros Hk Hk' E. unfold late_words in E. cbv zeta in E.
  pose proof (in_late_last h k D b) as L. pose proof (in_late_last h' k' D' b') as L'.
  match type of L with In ?z _ => set (c := z) in * end.
  match type of L' with In ?z _ => set (c' := z) in * end.
  destruct (call_eq_dec c c') as [Ec|Ec].
  2: { left. exists c, c'. split; [exact L|split; [exact L'|split; [exact Ec|exact E]]]. }
  injection Ec as Eh Eb Et Ef. apply Nat2N.inj in Et.
  assert (En : Spec.nblocks D' = Spec.nblocks D) by (unfold Spec.nblocks; rewrite Et; reflexivity).
  assert (Hb : b = b') by (destruct b, b'; try reflexivity; discriminate Ef).
  rewrite En in Eh, Eb, Hk'.
  assert (W : forall m, (m <= Spec.nblocks D - 1)%nat -> late_chain h k D m = late_chain h' k' D' m ->
    Spec.collision (late_calls h k D b) (late_calls h' k' D' b') \/
    (h = h' /\ forall i, (i < m)%nat -> Spec.block D i = Spec.block D' i /\ late_count k i = late_count k' i)).
  { induction m as [|m IH]; intros Hm Ek; [right; split; [exact Ek|lia]|].
    rewrite !late_chain_S in Ek.
    pose proof (in_late_calls h k D b m ltac:(lia)) as I. pose proof (in_late_calls h' k' D' b' m ltac:(lia)) as I'.
    match type of I with In ?z _ => set (x := z) in * end.
    match type of I' with In ?z _ => set (x' := z) in * end.
    destruct (call_eq_dec x x') as [Ex|Ex].
    2: { left. exists x, x'. split; [exact I|split; [exact I'|split; [exact Ex|exact Ek]]]. }
    apply (f_equal (fun z => (Spec.c_h z, Spec.c_block z, Spec.c_t z))) in Ex. subst x x'. cbn in Ex.
    injection Ex as Eh' Eb' Et'. destruct (IH ltac:(lia) Eh') as [C|(H1 & H2)]; [left; exact C|right].
    split; [exact H1|]. intros i Hi. destruct (Nat.eq_dec i m) as [->|]; [split; assumption|apply H2; lia]. }
  destruct (W _ (le_n _) Eh) as [C|(H1 & H2)]; [left; exact C|right]. split; [exact H1|].
  split; [|split; [|exact Hb]].
  - apply (late_count_inj k k' (Spec.nblocks D - 1)); [exact Hk|exact Hk'|]. intros i Hi. apply H2, Hi.
  - apply blocks_inj; [exact Et|]. intros i Hi.
    destruct (Nat.eq_dec i (Spec.nblocks D - 1)) as [->|]; [exact Eb|apply H2; lia].
Qed.

Lemma late_chain_words32 h k D n : words32 h -> words32 (late_chain h k D n).
Proof.
  intros H. induction n as [|n IH]; [exact H|]. rewrite late_chain_S.
  apply F_words32; [exact IH|apply block_length|reflexivity|reflexivity].
Qed.
Lemma late_words_words32 h k D b : words32 h -> words32 (late_words h k D b).
Proof.
  intros H. unfold late_words. cbv zeta.
  apply F_words32; [apply late_chain_words32, H|apply block_length|reflexivity|destruct b; reflexivity].
Qed.
Lemma late_bytes_inj h h' k k' D D' b b' : words32 h -> words32 h' ->
  Spec.words_bytes (late_words h k D b) = Spec.words_bytes (late_words h' k' D' b') ->
  late_words h k D b = late_words h' k' D' b'.
Proof.
  intros H H'. destruct (late_words_words32 h k D b H) as (L & W).
  destruct (late_words_words32 h' k' D' b' H') as (L' & W').
  apply words_bytes_inj; [congruence|exact W|exact W'].
Qed.

(** ** BLAKE2sp with early blocks *)
(** Early blocks only with a key, and no more than there are. *)
Definition early_ok (key D : list byte) (k : nat) : Prop :=
  (512 * k <= length D)%nat /\ (key = [] -> k = 0%nat).
Definition late_stream (key D : list byte) (k i : nat) : list byte :=
  let x := Spec.leaf_input i D in firstn (64 * k) x ++ Spec.key_block key ++ skipn (64 * k) x.

Lemma leaf_input_enough i D k : (i < 8)%nat -> (512 * k <= length D)%nat -> (64 * k <= length (Spec.leaf_input i D))%nat.
Proof.
  intros Hi H. assert (HP : length (firstn (512 * k) D) = (512 * k)%nat) by (rewrite firstn_length; lia).
  rewrite <- (firstn_skipn (512 * k) D), (leaf_input_app i _ _ k HP), app_length.
  rewrite (leaf_input_length i k Hi _ HP). lia.
Qed.
Lemma key_block_64 key : key <> [] -> (length key <= 32)%nat -> length (Spec.key_block key) = 64%nat.
Proof. destruct key; [contradiction|]. intros _ H. cbn [Spec.key_block]. rewrite pad_length; lia. Qed.
Lemma late_stream_blocks key D k i : (i < 8)%nat -> (length key <= 32)%nat -> early_ok key D k ->
  (k <= Spec.nblocks (late_stream key D k i) - 1)%nat.
Proof.
  intros Hi Hl (H & H0). pose proof (leaf_input_enough i D k Hi H) as HE.
  destruct key as [|x key]; [rewrite H0 by reflexivity; lia|].
  assert (L : (64 * k + 64 <= length (late_stream (x :: key) D k i))%nat).
  { unfold late_stream. cbv zeta. rewrite !app_length, firstn_length, key_block_64; [lia|discriminate|exact Hl]. }
  pose proof (nblocks_bounds (late_stream (x :: key) D k i)) as B. cbv zeta in B. lia.
Qed.
Lemma late_stream_inj key key' D D' k i : (i < 8)%nat -> (length key <= 32)%nat -> length key = length key' ->
  (512 * k <= length D)%nat -> (512 * k <= length D')%nat ->
  late_stream key D k i = late_stream key' D' k i -> key = key' /\ Spec.leaf_input i D = Spec.leaf_input i D'.
Proof.
  intros Hi Hk Hl H H' E. unfold late_stream in E. cbv zeta in E.
  pose proof (leaf_input_enough i D k Hi H). pose proof (leaf_input_enough i D' k Hi H').
  apply app_inj_len in E as [E1 E2]; [|rewrite !firstn_length; lia].
  destruct (key_block_inj _ _ _ _ Hk Hl E2) as (-> & E3). split; [reflexivity|].
  rewrite <- (firstn_skipn (64 * k) (Spec.leaf_input i D)), E1, E3. apply firstn_skipn.
Qed.
Lemma late_leaf_length dlen key D k i : length (late_leaf dlen key D k i) = 32%nat.
Proof. unfold late_leaf. apply words_bytes_32, late_words_length. Qed.

Theorem late_sp_collision dlen key key' D D' k k' : 1 <= dlen <= 32 ->
  (length key <= 32)%nat -> (length key' <= 32)%nat -> early_ok key D k -> early_ok key' D' k' ->
  Spec.hash_words (Spec.initial (Spec.root_params dlen key)) (flat_map (late_leaf dlen key D k) (seq 0 8)) true =
  Spec.hash_words (Spec.initial (Spec.root_params dlen key')) (flat_map (late_leaf dlen key' D' k') (seq 0 8)) true ->
  Spec.collision (late_sp_calls dlen key D k) (late_sp_calls dlen key' D' k') \/
  (key = key' /\ D = D' /\ k = k').
Proof.
  intros Hd Hk Hk' He He' E.
  destruct (hash_words_collision _ _ _ _ _ _ E) as [C|(H1 & H2 & _)].
  { left. apply (collision_incl _ _ _ _ C); apply incl_appr, incl_refl. }
  apply initial_inj in H1; [|apply root_valid; assumption|apply root_valid; assumption].
  apply param_block_inj in H1; [|apply root_valid; assumption|apply root_valid; assumption].
  destruct H1 as (_ & Hl & _). cbn [Spec.root_params Spec.key] in Hl.
  assert (G := flat_map_inj _ _ 32 (late_leaf_length dlen key D k) (late_leaf_length dlen key' D' k') _ H2).
  clear H2 E.
  destruct (@all_or (fun i => k = k' /\ late_stream key D k i = late_stream key' D' k' i)
    (Spec.collision (late_sp_calls dlen key D k) (late_sp_calls dlen key' D' k')) (seq 0 8)) as [C|H].
  - intros i Hi. specialize (G i Hi). unfold late_leaf in G. cbv zeta in G.
    apply late_bytes_inj in G; [|apply initial_words32|apply initial_words32].
    pose proof (proj1 (in_seq _ _ _) Hi) as Hi8.
    destruct (late_words_collision _ _ k k' (late_stream key D k i) (late_stream key' D' k' i) _ _
      (late_stream_blocks key D k i ltac:(lia) Hk He) (late_stream_blocks key' D' k' i ltac:(lia) Hk' He') G)
      as [C|(_ & H2 & H3 & _)]; [left|right; split; assumption].
    apply (collision_incl _ _ _ _ C); apply incl_appl; intros c Hc; apply in_flat_map; exists i; split; assumption.
  - left. exact C.
  - right. assert (Ek : k = k') by (apply (H 0%nat), in_seq; lia). subst k'.
    assert (Hi : forall i, (i < 8)%nat -> key = key' /\ Spec.leaf_input i D = Spec.leaf_input i D').
    { intros i Hi. apply (late_stream_inj key key' D D' k i Hi Hk Hl); [apply He|apply He'|]. apply H, in_seq. lia. }
    split; [apply (Hi 0%nat); lia|]. split; [|reflexivity].
    apply (leaf_at_inj D D' 0). intros i Hlt. apply (Hi i Hlt).
Qed.
Theorem late_sp_truncated dlen key key' D D' k k' : 1 <= dlen <= 32 ->
  (length key <= 32)%nat -> (length key' <= 32)%nat -> early_ok key D k -> early_ok key' D' k' ->
  late_blake2sp dlen key D k = late_blake2sp dlen key' D' k' ->
  Spec.truncated_collision (N.to_nat dlen) (late_sp_calls dlen key D k) (late_sp_calls dlen key' D' k') \/
  (key = key' /\ D = D' /\ k = k').
Proof.
  intros Hd Hk Hk' He He' E. unfold late_blake2sp in E.
  destruct (last_call_or _ _ _ _ _ _ _ E) as [W|(m & x & m' & x' & E1 & E2 & E3)].
  - destruct (late_sp_collision dlen key key' D D' k k' Hd Hk Hk' He He' W) as [C|C]; [left; left; exact C|right; exact C].
  - left. right. unfold late_sp_calls. rewrite E1, E2. eexists _, x, _, x'.
    split; [apply app_assoc|]. split; [apply app_assoc|exact E3].
Qed.
Lemma late_sp_calls_0 dlen key D : late_sp_calls dlen key D 0 = Spec.blake2sp_calls dlen key D.
Proof. reflexivity. Qed.
(** The last call gives the hash. *)
Lemma late_sp_last dlen key D k : exists m x, late_sp_calls dlen key D k = m ++ [x] /\
  late_blake2sp dlen key D k = firstn (N.to_nat dlen) (Spec.words_bytes (Spec.run_call x)).
Proof.
  unfold late_sp_calls, late_blake2sp. set (D' := flat_map (late_leaf dlen key D k) (seq 0 8)).
  set (ls := flat_map _ (seq 0 8)). set (h := Spec.initial _).
  unfold Spec.hash_calls, Spec.hash_words. cbv zeta. do 2 eexists. split; [apply app_assoc|].
  unfold Spec.run_call. cbn [Spec.c_h Spec.c_block Spec.c_t Spec.c_f0 Spec.c_f1]. reflexivity.
Qed.

(** ** The code *)
Lemma settled_le lens : forall b, (b <= 1024)%nat -> (512 * settled b lens <= b + list_sum lens)%nat.
Proof.
  induction lens as [|n l IH]; intros b Hb; cbn [settled list_sum fold_right]; [lia|].
  destruct (groups_le b n Hb) as (G1 & G2).
  specialize (IH (b + n - 512 * groups b n)%nat ltac:(lia)). unfold list_sum in IH. lia.
Qed.
Lemma length_concat_sum (l : list (list byte)) : length (concat l) = list_sum (map (@length _) l).
Proof. induction l as [|x l IH]; [reflexivity|]. cbn [concat map list_sum fold_right]. rewrite app_length, IH. reflexivity. Qed.
Lemma early_fine l pieces : early_ok (sp_keyval l) (concat pieces) (early l pieces).
Proof.
  unfold early. destruct (sp_keyval l) as [|x k]; (split; [|try reflexivity; discriminate]); [lia|].
  rewrite length_concat_sum. apply (settled_le _ 0). lia.
Qed.

Lemma sp_value c l p pieces r : cfg_ok c -> sp_build l = Ok p ->
  N.of_nat (length (concat pieces)) + 64 < 2 ^ 64 -> sp_hash_pieces c p pieces = Ok r ->
  r = late_blake2sp (sp_dlen l) (sp_keyval l) (concat pieces) (early l pieces) /\
  (length (sp_keyval l) <= 32)%nat /\ 1 <= sp_dlen l <= 32.
Proof.
  intros Hc Hb Hl E. split.
  - unfold early. destruct (sp_keyval l) as [|x k] eqn:Ek.
    + rewrite (sp_unkeyed_value c l p pieces Hc Hb Ek ltac:(lia)) in E. injection E as <-. reflexivity.
    + assert (Hk : sp_keyval l <> []) by (rewrite Ek; discriminate).
      destruct (debug_assertions c) eqn:Hd.
      * destruct (keyed_fit 0 pieces) eqn:Hf.
        -- rewrite (sp_keyed_fit c l p pieces Hc Hb Hk Hf) in E. injection E as <-.
           apply keyed_fit_settled_0 in Hf. rewrite Hf, Ek. reflexivity.
        -- rewrite (sp_keyed_unfit c l p pieces Hc Hb Hk Hd Hf) in E. discriminate E.
      * rewrite (sp_hash_late c l p pieces Hc Hb Hk Hd Hl) in E. injection E as <-. rewrite Ek. reflexivity.
  - destruct (sp_build_encodes l p Hb) as (_ & En). rewrite sp_last_keyval, sp_last_dlen in En. split; apply En.
Qed.

Theorem sp_any_collision c c' l l' p p' pieces pieces' r : cfg_ok c -> cfg_ok c' ->
  sp_build l = Ok p -> sp_build l' = Ok p' ->
  N.of_nat (length (concat pieces)) + 64 < 2 ^ 64 -> N.of_nat (length (concat pieces')) + 64 < 2 ^ 64 ->
  sp_hash_pieces c p pieces = Ok r -> sp_hash_pieces c' p' pieces' = Ok r ->
  sp_dlen l = sp_dlen l' /\
  (Spec.truncated_collision (N.to_nat (sp_dlen l))
     (late_sp_calls (sp_dlen l) (sp_keyval l) (concat pieces) (early l pieces))
     (late_sp_calls (sp_dlen l) (sp_keyval l') (concat pieces') (early l' pieces')) \/
   (sp_keyval l = sp_keyval l' /\ concat pieces = concat pieces' /\ early l pieces = early l' pieces')).
Proof.
  intros Hc Hc' Hb Hb' Hl Hl' E E'.
  destruct (sp_value c l p pieces r Hc Hb Hl E) as (V & K & Dl).
  destruct (sp_value c' l' p' pieces' r Hc' Hb' Hl' E') as (V' & K' & Dl').
  rewrite V in V'.
  assert (D : sp_dlen l = sp_dlen l').
  { apply (f_equal (@length _)) in V'. unfold late_blake2sp in V'.
    rewrite !firstn_length, !words_bytes_32 in V' by apply SpecFacts.hash_words_length. lia. }
  split; [exact D|]. rewrite <- D in V'.
  apply late_sp_truncated; [exact Dl|exact K|exact K'|apply early_fine|apply early_fine|exact V'].
Qed.

Theorem sp_late_wrong c l p pieces : cfg_ok c -> sp_build l = Ok p -> sp_keyval l <> [] ->
  keyed_fit 0 pieces = false -> N.of_nat (length (concat pieces)) + 64 < 2 ^ 64 ->
  sp_hash_pieces c p pieces = Ok (Spec.blake2sp (sp_dlen l) (sp_keyval l) (concat pieces)) ->
  Spec.truncated_collision (N.to_nat (sp_dlen l))
    (late_sp_calls (sp_dlen l) (sp_keyval l) (concat pieces) (early l pieces))
    (Spec.blake2sp_calls (sp_dlen l) (sp_keyval l) (concat pieces)).
Proof.
  intros Hc Hb Hk Hf Hl E. destruct (sp_value c l p pieces _ Hc Hb Hl E) as (V & K & Dl).
  rewrite <- late_blake2sp_0 in V.
  destruct (late_sp_truncated _ _ _ _ _ (early l pieces) 0 Dl K K (early_fine l pieces)
    (conj (Nat.le_0_l _) (fun _ => eq_refl)) (eq_sym V)) as [C|(_ & _ & C)]; [exact C|].
  unfold early in C. destruct (sp_keyval l) as [|x k]; [contradiction|].
  apply keyed_fit_settled_0 in C. congruence.
Qed.

(** ** The exact functions *)
Lemma key_block_grows key msg : key <> [] -> msg <> Spec.key_block key ++ msg.
Proof.
  intros H E. apply (f_equal (@length _)) in E. rewrite app_length in E. destruct key as [|x key]; [contradiction|].
  cbn [Spec.key_block] in E. unfold Spec.pad in E. rewrite app_length in E. cbn [length] in E. lia.
Qed.
Lemma without_key_wrong sp ln msg : Spec.key sp <> [] -> without_key_block sp ln msg = Spec.blake2s sp ln msg ->
  Spec.truncated_collision (N.to_nat (Spec.digest_length sp)) (Spec.hash_calls (Spec.initial sp) msg ln)
    (Spec.blake2s_calls sp ln msg).
Proof.
  intros Hk E. unfold without_key_block, Spec.blake2s in E.
  destruct (last_call_or _ _ _ _ _ _ _ E) as [W|W]; [|right; exact W].
  destruct (hash_words_collision _ _ _ _ _ _ W) as [C|(_ & H & _)]; [left; exact C|].
  destruct (key_block_grows (Spec.key sp) msg Hk H).
Qed.
Lemma exact8_right_only c l p inputs : cfg_ok c -> build l = Ok p -> Spec.key (spec_params l) <> [] ->
  uses_simd c = true -> whole_blocks (map (@length byte) (oct_list inputs)) ->
  (forall k, N.of_nat (length (proj k inputs)) + 64 < 2 ^ 64) ->
  exists hs, hash8_exact c p inputs = Ok hs /\ forall k,
  as_bytes (proj k hs) = Ok (Spec.blake2s (spec_params l) (spec_last_node l) (proj k inputs)) ->
  Spec.truncated_collision (N.to_nat (Spec.digest_length (spec_params l)))
    (Spec.hash_calls (Spec.initial (spec_params l)) (proj k inputs) (spec_last_node l))
    (Spec.blake2s_calls (spec_params l) (spec_last_node l) (proj k inputs)).
Proof.
  intros Hc Hb Hk Hs Hx Hl.
  destruct (hash8_exact_keyed c l p inputs Hc Hb Hx Hl) as (hs & E & V). change (simd c) with (uses_simd c) in V.
  exists hs. split; [exact E|]. intros k Ek. specialize (V k). rewrite Hs in V. rewrite V in Ek.
  injection Ek as Ek. exact (without_key_wrong _ _ _ Hk Ek).
Qed.
Lemma exact4_right_only c l p inputs : cfg_ok c -> build l = Ok p -> Spec.key (spec_params l) <> [] ->
  uses_simd c = true -> whole_blocks (map (@length byte) (quad_list inputs)) ->
  (forall k, N.of_nat (length (qproj k inputs)) + 64 < 2 ^ 64) ->
  exists hs, hash4_exact c p inputs = Ok hs /\ forall k,
  as_bytes (qproj k hs) = Ok (Spec.blake2s (spec_params l) (spec_last_node l) (qproj k inputs)) ->
  Spec.truncated_collision (N.to_nat (Spec.digest_length (spec_params l)))
    (Spec.hash_calls (Spec.initial (spec_params l)) (qproj k inputs) (spec_last_node l))
    (Spec.blake2s_calls (spec_params l) (spec_last_node l) (qproj k inputs)).
Proof.
  intros Hc Hb Hk Hs Hx Hl.
  destruct (hash4_exact_keyed c l p inputs Hc Hb Hx Hl) as (hs & E & V). change (simd c) with (uses_simd c) in V.
  exists hs. split; [exact E|]. intros k Ek. specialize (V k). rewrite Hs in V. rewrite V in Ek.
  injection Ek as Ek. exact (without_key_wrong _ _ _ Hk Ek).
Qed.

(** Setters that differ in the bytes of keys only. *)
Lemma last_call_same {A} (sel : setter -> option A) l l' : (forall k, sel (SKey k) = None) -> Forall2 same_but_key l l' ->
  forall d, last_call sel d l = last_call sel d l'.
Proof.
  intros Hs H. induction H as [|x y l l' Hxy H IH]; intros d; [reflexivity|]. cbn [last_call].
  replace (sel y) with (sel x); [apply IH|].
  destruct x, y; try discriminate Hxy; try (injection Hxy as <-; reflexivity); rewrite !Hs; reflexivity.
Qed.
Lemma key_length_same l l' : Forall2 same_but_key l l' ->
  forall d d' : list byte, length d = length d' -> length (last_call sel_key d l) = length (last_call sel_key d' l').
Proof.
  intros H. induction H as [|x y l l' Hxy H IH]; intros d d' Hd; [exact Hd|]. cbn [last_call]. apply IH.
  destruct x, y; try discriminate Hxy; cbn [sel_key]; try exact Hd. exact Hxy.
Qed.
Lemma param_block_same l l' : Forall2 same_but_key l l' ->
  Spec.initial (spec_params l) = Spec.initial (spec_params l') /\ spec_last_node l = spec_last_node l' /\
  Spec.digest_length (spec_params l) = Spec.digest_length (spec_params l').
Proof.
  intros H. pose proof (key_length_same l l' H (Spec.key Spec.default_params) _ eq_refl) as Hk.
  assert (Hp : Spec.param_block (spec_params l) = Spec.param_block (spec_params l')).
  { unfold Spec.param_block, spec_params. cbv zeta.
    cbn [Spec.digest_length Spec.key Spec.fanout Spec.depth Spec.leaf_length Spec.node_offset Spec.node_depth
         Spec.inner_length Spec.salt Spec.personal] in *.
    rewrite Hk, !(last_call_same _ l l' (fun _ => eq_refl) H). reflexivity. }
  split; [unfold Spec.initial; rewrite Hp; reflexivity|].
  split; apply last_call_same; auto.
Qed.
Lemma exact8_key_ignored c l l' p p' inputs : cfg_ok c -> build l = Ok p -> build l' = Ok p' ->
  Forall2 same_but_key l l' -> uses_simd c = true -> whole_blocks (map (@length byte) (oct_list inputs)) ->
  (forall k, N.of_nat (length (proj k inputs)) + 64 < 2 ^ 64) ->
  exists hs, hash8_exact c p inputs = Ok hs /\ hash8_exact c p' inputs = Ok hs.
Proof.
  intros Hc Hb Hb' H Hs Hx Hl.
  pose proof (proj2 (build_encodes _ _ Hb)) as E. pose proof (proj2 (build_encodes _ _ Hb')) as E'.
  destruct (param_block_same l l' H) as (H1 & H2 & H3).
  assert (Hf : forall k, fits c (N.of_nat (length (stream (spec_params l) (proj k inputs)))))
    by (intros k _; eapply small_stream; [exact Hb|apply Hl]).
  assert (Hf' : forall k, fits c (N.of_nat (length (stream (spec_params l') (proj k inputs)))))
    by (intros k _; eapply small_stream; [exact Hb'|apply Hl]).
  eexists. split; [exact (hash8_exact_value c p _ _ inputs Hc E Hf Hx)|].
  rewrite (hash8_exact_value c p' _ _ inputs Hc E' Hf' Hx). change (simd c) with (uses_simd c). rewrite Hs.
  unfold bare_value. rewrite H1, H2.
  replace (p_hash_length p') with (p_hash_length p); [reflexivity|].
  apply val_inj. pose proof (e_hash _ _ _ E). pose proof (e_hash _ _ _ E'). congruence.
Qed.
Lemma exact4_key_ignored c l l' p p' inputs : cfg_ok c -> build l = Ok p -> build l' = Ok p' ->
  Forall2 same_but_key l l' -> uses_simd c = true -> whole_blocks (map (@length byte) (quad_list inputs)) ->
  (forall k, N.of_nat (length (qproj k inputs)) + 64 < 2 ^ 64) ->
  exists hs, hash4_exact c p inputs = Ok hs /\ hash4_exact c p' inputs = Ok hs.
Proof.
  intros Hc Hb Hb' H Hs Hx Hl.
  pose proof (proj2 (build_encodes _ _ Hb)) as E. pose proof (proj2 (build_encodes _ _ Hb')) as E'.
  destruct (param_block_same l l' H) as (H1 & H2 & H3).
  assert (Hf : forall k, fits c (N.of_nat (length (stream (spec_params l) (qproj k inputs)))))
    by (intros k _; eapply small_stream; [exact Hb|apply Hl]).
  assert (Hf' : forall k, fits c (N.of_nat (length (stream (spec_params l') (qproj k inputs)))))
    by (intros k _; eapply small_stream; [exact Hb'|apply Hl]).
  eexists. split; [exact (hash4_exact_value c p _ _ inputs Hc E Hf Hx)|].
  rewrite (hash4_exact_value c p' _ _ inputs Hc E' Hf' Hx). change (simd c) with (uses_simd c). rewrite Hs.
  unfold bare_value. rewrite H1, H2.
  replace (p_hash_length p') with (p_hash_length p); [reflexivity|].
  apply val_inj. pose proof (e_hash _ _ _ E). pose proof (e_hash _ _ _ E'). congruence.
Qed.
