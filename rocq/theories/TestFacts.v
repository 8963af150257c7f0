(** * TestFacts: the reference implementation of the tests is BLAKE2sp. *)
From Verif Require Import Base BaseFacts Consts Params ParamsSpec ParamsFacts SpecFacts State StateFacts Refine
  HashFacts LeafFacts Blake2sp SpFacts Machine MachineSpec MachineFacts TestCode.
From Verif Require Spec.
From Coq Require Import ZArith Lia.
Local Open Scope N_scope.

(** The abstract states of the leaves when leaf [k] has been given [f k]. *)
Definition aleaf (f : nat -> list byte) (k : nat) : astate :=
  mk_astate (Spec.leaf_params 32 [] k) (Nat.eqb k 7) (f k).
Definition aleaves (f : nat -> list byte) : list astate := map (aleaf f) (seq 0 8).

Lemma ref_leaf_ok c i last l sp ln : cfg_ok c ->
  l = [SFanout (of_N 8 8); SMaxDepth (of_N 8 2); SNodeOffset (of_N 64 i); SInnerHashLength (N.of_nat OUTBYTES)] ++ last ->
  forallb valid_setter l = true -> spec_params l = sp -> spec_last_node l = ln ->
  exists st, ref_leaf c i last = Ok st /\ Models c sp ln [] st.
Proof.
  intros Hc -> Hv <- <-. destruct (build_ok _ Hv) as (p & Eb & Ep).
  unfold ref_leaf. rewrite Eb. cbn [bind]. apply models_new; assumption.
Qed.

Lemma aleaves_upd f j x : (j < 8)%nat ->
  upd (aleaves f) j (aleaf (fun k => f k ++ x) j) = aleaves (fun k => f k ++ if Nat.eqb j k then x else []).
Proof.
  intros H. unfold aleaves, aleaf. cbn [seq map].
  do 8 (destruct j as [|j]; [cbn [upd Nat.eqb]; rewrite ?app_nil_r; reflexivity|]). lia.
Qed.
Lemma aleaves_nth f j : (j < 8)%nat -> nth_error (aleaves f) j = Some (aleaf f j).
Proof. intros H. do 8 (destruct j as [|j]; [reflexivity|]). lia. Qed.

Lemma fits_small c n : N.of_nat n < 2 ^ 64 -> fits c (N.of_nat n).
Proof. intros H _. exact H. Qed.

Lemma Forall2_len {A B} (R : A -> B -> Prop) l l' : Forall2 R l l' -> length l = length l'.
Proof. intros H. induction H; cbn [length]; congruence. Qed.

Lemma deal_ok c fuel : forall i input leaves f, (length input <= fuel)%nat ->
  Forall2 (sim_state c) leaves (aleaves f) ->
  (forall k, N.of_nat (length (f k ++ leaf_at k (64 * i) input)) < 2 ^ 64) ->
  exists leaves', ref_deal c i leaves (chunks_loop fuel input) = Ok leaves' /\
    Forall2 (sim_state c) leaves' (aleaves (fun k => f k ++ leaf_at k (64 * i) input)).
Proof.
  induction fuel as [|fuel IH]; intros i input leaves f Hl Hs Hn.
  - destruct input; [|cbn [length] in Hl; lia]. exists leaves. split; [reflexivity|].
    replace (aleaves _) with (aleaves f); [exact Hs|]. apply map_ext. intros k. unfold aleaf.
    change (leaf_at k (64 * i) []) with (@nil byte). rewrite app_nil_r. reflexivity.
  - destruct input as [|b input].
    { exists leaves. split; [reflexivity|].
      replace (aleaves _) with (aleaves f); [exact Hs|]. apply map_ext. intros k. unfold aleaf.
      change (leaf_at k (64 * i) []) with (@nil byte). rewrite app_nil_r. reflexivity. }
    remember (b :: input) as x eqn:Ex.
    assert (Hfuel : (length (skipn 64 x) <= fuel)%nat).
    { rewrite skipn_length. subst x. cbn [length] in *. lia. }
    replace (chunks_loop (S fuel) x) with (firstn BLOCKBYTES x :: chunks_loop fuel (skipn BLOCKBYTES x))
      by (subst x; reflexivity). cbn [ref_deal].
    assert (Hj : (i mod 8 < 8)%nat) by (apply Nat.mod_upper_bound; discriminate).
    set (j := (i mod 8)%nat) in *.
    pose proof (Forall2_nth _ leaves (aleaves f) j Hs) as Hnth. rewrite (aleaves_nth f j Hj) in Hnth.
    destruct (nth_error leaves j) as [leaf|]; [|contradiction].
    assert (Hstep : forall k, f k ++ leaf_at k (64 * i) x =
        (f k ++ (if Nat.eqb j k then firstn 64 x else [])) ++ leaf_at k (64 * S i) (skipn 64 x)).
    { intros k. rewrite leaf_at_chunk. fold j. apply app_assoc. }
    destruct (models_update c _ _ _ leaf (firstn BLOCKBYTES x) Hnth) as (leaf' & Eu & Mu).
    { apply fits_small. unfold stream. cbn [aleaf a_sp Spec.leaf_params Spec.key Spec.key_block app a_msg].
      specialize (Hn j). rewrite Hstep, Nat.eqb_refl, app_length in Hn. change BLOCKBYTES with 64%nat. lia. }
    rewrite Eu. cbn [bind].
    destruct (IH (S i) (skipn BLOCKBYTES x) (upd leaves j leaf') (fun k => f k ++ if Nat.eqb j k then firstn 64 x else []))
      as (leaves' & Ed & Hd).
    + exact Hfuel.
    + rewrite <- aleaves_upd by exact Hj. apply Forall2_upd; [exact Hs|exact Mu].
    + intros k. rewrite <- Hstep. apply Hn.
    + exists leaves'. split; [exact Ed|].
      replace (aleaves _) with (aleaves (fun k => (f k ++ (if Nat.eqb j k then firstn 64 x else [])) ++
                                   leaf_at k (64 * S i) (skipn 64 x))); [exact Hd|].
      apply map_ext. intros k. unfold aleaf. rewrite Hstep. reflexivity.
Qed.

Lemma digest_32 sp b x : length (Spec.blake2s sp b x) = Nat.min (N.to_nat (Spec.digest_length sp)) 32.
Proof. unfold Spec.blake2s. rewrite firstn_length, words_bytes_length, hash_words_length. reflexivity. Qed.

Lemma collect_ok c sp ln leaves : forall al D root, Forall2 (sim_state c) leaves al -> Models c sp ln D root ->
  Spec.key sp = [] -> N.of_nat (length D + 32 * length leaves) < 2 ^ 64 ->
  exists root', ref_collect c root leaves = Ok root' /\ Models c sp ln (D ++ flat_map digest al) root'.
Proof.
  induction leaves as [|leaf leaves IH]; intros al D root Hs M Hk Hn.
  - inversion Hs; subst. exists root. split; [reflexivity|]. cbn [flat_map]. rewrite app_nil_r. exact M.
  - inversion Hs as [|? a ? al' Ha Hs']; subst. cbn [ref_collect].
    destruct (models_finalize c _ _ _ leaf Ha) as (leaf' & h & Ef & _ & _ & _ & Eb).
    rewrite Ef. cbn [bind]. rewrite Eb. cbn [bind].
    fold (digest a). assert (Hd : (length (digest a) <= 32)%nat) by (unfold digest; rewrite digest_32; lia).
    destruct (models_update c sp ln D root (digest a) M) as (root' & Eu & Mu).
    { apply fits_small. unfold stream. rewrite Hk. cbn [Spec.key_block app]. rewrite app_length.
      cbn [length] in Hn. lia. }
    rewrite Eu. cbn [bind flat_map]. rewrite app_assoc. apply IH; try assumption.
    rewrite app_length. cbn [length] in Hn. lia.
Qed.

Lemma leaf_digests D : flat_map digest (aleaves (fun k => Spec.leaf_input k D)) =
  flat_map (Spec.leaf_digest 32 [] D) (seq 0 8).
Proof.
  unfold aleaves. rewrite !flat_map_concat_map, map_map. apply (f_equal (@concat byte)). apply map_ext. intros k.
  unfold digest, aleaf, Spec.blake2s, Spec.leaf_digest. cbn [a_sp a_last a_msg].
  apply firstn_all2. rewrite words_bytes_length, hash_words_length. reflexivity.
Qed.

Lemma reference_models c input : cfg_ok c -> N.of_nat (length input) < 2 ^ 64 ->
  exists h, blake2sp_reference c input = Ok h /\ hash_wf h /\ as_bytes h = Ok (Spec.blake2sp 32 [] input).
Proof.
  intros Hc Hn. unfold blake2sp_reference.
  destruct (ref_leaf_ok c 0 [] _ (Spec.leaf_params 32 [] 0) false Hc eq_refl eq_refl eq_refl eq_refl) as (l0 & -> & M0).
  destruct (ref_leaf_ok c 1 [] _ (Spec.leaf_params 32 [] 1) false Hc eq_refl eq_refl eq_refl eq_refl) as (l1 & -> & M1).
  destruct (ref_leaf_ok c 2 [] _ (Spec.leaf_params 32 [] 2) false Hc eq_refl eq_refl eq_refl eq_refl) as (l2 & -> & M2).
  destruct (ref_leaf_ok c 3 [] _ (Spec.leaf_params 32 [] 3) false Hc eq_refl eq_refl eq_refl eq_refl) as (l3 & -> & M3).
  destruct (ref_leaf_ok c 4 [] _ (Spec.leaf_params 32 [] 4) false Hc eq_refl eq_refl eq_refl eq_refl) as (l4 & -> & M4).
  destruct (ref_leaf_ok c 5 [] _ (Spec.leaf_params 32 [] 5) false Hc eq_refl eq_refl eq_refl eq_refl) as (l5 & -> & M5).
  destruct (ref_leaf_ok c 6 [] _ (Spec.leaf_params 32 [] 6) false Hc eq_refl eq_refl eq_refl eq_refl) as (l6 & -> & M6).
  destruct (ref_leaf_ok c 7 [SLastNode true] _ (Spec.leaf_params 32 [] 7) true Hc eq_refl eq_refl eq_refl eq_refl) as (l7 & -> & M7).
  cbn [bind].
  destruct (deal_ok c (length input) 0 input [l0; l1; l2; l3; l4; l5; l6; l7] (fun _ => [])) as (leaves & Ed & Hd).
  - lia.
  - unfold aleaves. cbn [seq map]. repeat (constructor; [assumption|]). constructor.
  - intros k. cbn [app]. rewrite Nat.mul_0_r, <- leaf_input_at.
    pose proof (leaf_input_le k input). lia.
  - unfold chunks. rewrite Ed. cbn [bind]. cbn [app] in Hd. rewrite Nat.mul_0_r in Hd.
    change (Forall2 (sim_state c) leaves (aleaves (fun k => Spec.leaf_input k input))) in Hd.
    set (ls := [SFanout (of_N 8 8); SMaxDepth (of_N 8 2); SNodeDepth (of_N 8 1); SInnerHashLength (N.of_nat OUTBYTES); SLastNode true]).
    destruct (build_ok ls eq_refl) as (p & Eb & Ep).
    change (spec_params ls) with (Spec.root_params 32 []) in Ep. change (spec_last_node ls) with true in Ep.
    rewrite Eb. cbn [bind]. destruct (models_new c p _ _ Hc Ep) as (root & Er & Mr).
    rewrite Er. cbn [bind].
    destruct (collect_ok c _ _ leaves _ [] root Hd Mr eq_refl) as (root' & Ec & Mc).
    { rewrite (Forall2_len _ _ _ Hd). reflexivity. }
    rewrite Ec. cbn [bind]. destruct (models_finalize c _ _ _ root' Mc) as (root'' & h & Ef & _ & H32 & Hlen & Hb).
    rewrite Ef. cbn [bind]. exists h. split; [reflexivity|]. split.
    + split; [exact H32|]. rewrite Hlen. cbn [Spec.root_params Spec.digest_length]. lia.
    + rewrite Hb. cbn [app]. rewrite leaf_digests. reflexivity.
Qed.

Theorem reference_value c input : cfg_ok c -> N.of_nat (length input) < 2 ^ 64 ->
  (h <- blake2sp_reference c input ;; as_bytes h) = Ok (Spec.blake2sp 32 [] input).
Proof.
  intros Hc Hn. destruct (reference_models c input Hc Hn) as (h & -> & _ & Hb). exact Hb.
Qed.

Theorem test_buffering_passes c input k : cfg_ok c -> N.of_nat (length input) < 2 ^ 64 -> (k <= length input)%nat ->
  test_buffering c input k = Ok tt.
Proof.
  intros Hc Hn Hk. unfold test_buffering.
  destruct (reference_models c input Hc Hn) as (h & -> & Hw & Hb). cbn [bind].
  assert (En : exists st, SpState_new c = Ok st /\ SpModels c 32 [] [] st).
  { apply (sp_models_new c SpParams_default 32 [] Hc sp_encodes_default). }
  destruct En as (st & En & M). unfold Blake2sp.blake2sp. rewrite En. cbn [bind].
  destruct (sp_models_update c 32 [] st input M) as (s1 & E1 & M1); [apply fits_small; exact Hn|].
  rewrite E1. cbn [bind]. destruct (sp_models_finalize c 32 [] _ s1 M1) as (h1 & F1 & L1 & D1 & _ & B1); [apply fits_small; exact Hn|].
  rewrite F1. cbn [bind].
  assert (Heq : forall h', as_bytes h' = Ok (Spec.blake2sp 32 [] input) -> hash_eq h h' = Ok true).
  { intros h' H'. unfold hash_eq. rewrite Hb. cbn [bind]. rewrite H'. cbn [bind]. f_equal. apply constant_time_eq_ok. reflexivity. }
  cbn [app] in B1. rewrite (Heq h1 B1). cbn [bind].
  rewrite (slice_to_ok input k Hk). cbn [bind].
  assert (Hf : length (firstn k input) = k) by (rewrite firstn_length; lia).
  destruct (sp_models_update c 32 [] st (firstn k input) M) as (s2 & E2 & M2).
  { apply fits_small. cbn [app]. rewrite Hf. lia. }
  rewrite E2. cbn [bind]. cbn [app] in M2.
  destruct (sp_models_count c 32 [] _ s2 M2) as (n2 & C2 & V2).
  { apply fits_small. cbn [Spec.key_block length Nat.mul Nat.add]. lia. }
  rewrite C2. cbn [bind]. rewrite V2. cbn [Spec.key_block length Nat.mul Nat.add]. rewrite Hf, N.mod_small, N.eqb_refl by lia.
  rewrite (slice_from_ok input k Hk). cbn [bind].
  destruct (sp_models_update c 32 _ s2 (skipn k input) M2) as (s3 & E3 & M3).
  { apply fits_small. rewrite firstn_skipn. exact Hn. }
  rewrite firstn_skipn in M3. rewrite E3. cbn [bind].
  destruct (sp_models_count c 32 [] _ s3 M3) as (n3 & C3 & V3).
  { apply fits_small. cbn [Spec.key_block length Nat.mul Nat.add]. exact Hn. }
  rewrite C3. cbn [bind]. rewrite V3. cbn [Spec.key_block length Nat.mul Nat.add].
  rewrite val_of_N, N.eqb_refl.
  destruct (sp_models_finalize c 32 [] _ s3 M3) as (h3 & F3 & _ & _ & _ & B3); [apply fits_small; exact Hn|].
  rewrite F3. cbn [bind]. rewrite (Heq h3 B3). reflexivity.
Qed.
