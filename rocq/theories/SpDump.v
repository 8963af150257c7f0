(** * SpDump: the Debug text of a BLAKE2sp state. *)
From Verif Require Import Base BaseFacts Consts Params ParamsFacts Refine State Many Blake2sp Debug StateFacts Avx2Facts
  LeafFacts SpFacts Machine MachineSpec MachineFacts Clients Terms Behave Corollaries SpShape SpLate.
From Verif Require Spec.
From Coq Require Import ZArith Lia ZifyBool ZifyNat ZifyN String.
Local Notation length := List.length (only parsing).
Local Notation concat := List.concat (only parsing).
Local Open Scope N_scope.

Lemma rep_debug c h0 D k st n hl b : Rep c h0 D k st -> N.of_nat (length D) = n -> n < 2 ^ 64 ->
  val (st_hash_length st) = hl -> st_last_node st = b -> state_debug st = state_text n hl b.
Proof.
  intros R <- Hn <- <-. unfold state_debug, state_text, dec, number_text, dec_bool, bool_text.
  rewrite (rep_count _ _ _ _ _ R), N.mod_small by exact Hn. reflexivity.
Qed.

Lemma sp_rep_debug c dlen key P B st : SpRep c dlen key P B 0 st ->
  N.of_nat (8 * length (Spec.key_block key) + length (P ++ B)) < 2 ^ 64 ->
  exists k, length P = (512 * k)%nat /\ (512 * k <= length (P ++ B))%nat /\ (length (P ++ B) <= 512 * k + 1024)%nat /\
    (k <> 0 -> 512 * k + 448 < length (P ++ B))%nat /\
    sp_state_debug c st = Ok (sp_state_text (N.of_nat (8 * length (Spec.key_block key) + length (P ++ B)))
                                            (N.of_nat (length (Spec.key_block key) + 64 * k)) dlen).
Proof.
  intros R Hn. destruct (sr_P _ _ _ _ _ _ _ R) as (np & Hnp).
  pose proof (sr_B _ _ _ _ _ _ _ R) as HB.
  exists np. split; [exact Hnp|]. rewrite app_length in *. split; [lia|]. split; [lia|]. split.
  - intros H0. destruct (sr_leaf _ _ _ _ _ _ _ R L0) as (k & R1 & Hz & Hk).
    destruct key as [|b key]; [|rewrite (sr_keyed _ _ _ _ _ _ _ R) in Hnp by discriminate; cbn in Hnp; lia].
    unfold leaf_data in *. cbn [Spec.key_block app] in *.
    rewrite (leaf_input_length _ np (idx_lt L0) P Hnp) in *.
    destruct Hz as [[Hz|Hz]|Hz]; [|rewrite (leaf_input_length _ np (idx_lt L0) P Hnp) in Hz|]; lia.
  - unfold sp_state_debug.
    destruct (sp_count_ok c dlen key P B st R) as (n & E & V).
    { intros _. rewrite app_length. exact Hn. }
    rewrite app_length in V. rewrite N.mod_small in V by exact Hn. rewrite E. cbn [bind]. rewrite V.
    assert (Hleaf : forall l, (idx l < 7)%nat ->
       state_debug (proj l (sp_leaves st)) = state_text (N.of_nat (length (Spec.key_block key) + 64 * np)) 32 false).
    { intros l Hl. destruct (sr_leaf _ _ _ _ _ _ _ R l) as (k & R1 & _).
      eapply rep_debug; [exact R1| | | |].
      - unfold leaf_data. rewrite app_length, (leaf_input_length _ np (idx_lt l) P Hnp). reflexivity.
      - lia.
      - rewrite (sr_leaf_hash _ _ _ _ _ _ _ R). reflexivity.
      - rewrite (sr_leaf_last _ _ _ _ _ _ _ R). destruct (Nat.eqb_spec (idx l) 7); [lia|reflexivity]. }
    pose proof (Hleaf L0) as E0. pose proof (Hleaf L1) as E1. pose proof (Hleaf L2) as E2. pose proof (Hleaf L3) as E3.
    cbn [proj idx] in *. rewrite E0, E1, E2, E3 by lia.
    rewrite (rep_debug c _ _ _ _ 0 dlen true (sr_root _ _ _ _ _ _ _ R) eq_refl).
    + reflexivity.
    + reflexivity.
    + apply (sr_root_hash _ _ _ _ _ _ _ R).
    + apply (sr_root_last _ _ _ _ _ _ _ R).
Qed.

(** The same for a state fed by a program: [kb] is 64 for keyed states. *)
Lemma sp_feed_models c dlen : forall pieces D st, SpModels c dlen [] D st ->
  N.of_nat (length (D ++ concat pieces)) < 2 ^ 64 ->
  exists st', sp_feed c st pieces = Ok st' /\ SpModels c dlen [] (D ++ concat pieces) st'.
Proof.
  induction pieces as [|x pieces IH]; intros D st M Hn; cbn [sp_feed concat] in *.
  - exists st. rewrite app_nil_r. auto.
  - destruct (sp_models_update c dlen D st x M) as (st1 & E & M1).
    { intros _. rewrite !app_length in *. lia. }
    rewrite E. cbn [bind]. destruct (IH (D ++ x) st1 M1) as (st2 & E2 & M2).
    { rewrite <- app_assoc. exact Hn. }
    rewrite <- app_assoc in M2. eauto.
Qed.

Lemma leaves_step c dlen bound : N.of_nat bound < 2 ^ 64 ->
  forall P leaves block fn np, leaves_ok c dlen P leaves -> length P = (512 * np)%nat ->
  length block = 512%nat -> fn8_ok c fn -> (length (P ++ block) <= bound)%nat ->
  exists leaves', sp_compress8 c block leaves fn = Ok leaves' /\ leaves_ok c dlen (P ++ block) leaves'.
Proof.
  intros Hb P leaves block fn np HL HP Hl Hfn Hf.
  destruct (sp_compress8_ok c dlen P leaves fn block np HL HP Hl Hfn) as (l' & E & H & _).
  - intros _. lia.
  - eauto.
Qed.

(** Two descriptions of the same state agree on how much the leaves were given. *)
Lemma leaves_same c dlen P P' k k' leaves : leaves_ok c dlen P leaves -> leaves_ok c dlen P' leaves ->
  length P = (512 * k)%nat -> length P' = (512 * k')%nat -> N.of_nat (length P) < 2 ^ 64 -> N.of_nat (length P') < 2 ^ 64 ->
  k = k'.
Proof.
  intros H H' HP HP' Hb Hb'. destruct (H L0) as (a & R & _). destruct (H' L0) as (b & R' & _).
  pose proof (rep_count _ _ _ _ _ R) as E. pose proof (rep_count _ _ _ _ _ R') as E'. rewrite E in E'.
  rewrite (leaf_input_length _ k (idx_lt L0) P HP), (leaf_input_length _ k' (idx_lt L0) P' HP') in E'.
  rewrite !N.mod_small in E' by lia. lia.
Qed.

Lemma sp_debug_value c l p pieces : cfg_ok c -> sp_build l = Ok p -> sp_keyval l = [] ->
  N.of_nat (length (concat pieces)) < 2 ^ 64 ->
  (st <- sp_to_state c p ;; st <- sp_feed c st pieces ;; sp_state_debug c st) =
  Ok (sp_state_text (N.of_nat (length (concat pieces)))
                    (N.of_nat (64 * settled 0 (map (@List.length byte) pieces))) (sp_dlen l)).
Proof.
  intros Hc Hb Hk Hn. unfold sp_dlen. unfold sp_keyval in Hk. rewrite <- sp_last_keyval in Hk. rewrite <- sp_last_dlen.
  apply sp_build_encodes in Hb as (_ & E). rewrite Hk in E.
  destruct (sp_with_params_ok c p _ _ Hc E) as (st0 & Es0 & R0).
  destruct (sp_models_new c p _ _ Hc E) as (st & Es & M).
  assert (st0 = st) as -> by (unfold sp_to_state in Es; congruence). rewrite Es. cbn [bind].
  destruct (sp_feed_models c _ pieces [] st M Hn) as (st' & E1 & (P & B & R & HD)).
  destruct (shape_feed c (leaves_ok c (sp_last_hash_length 32 l)) (length (concat pieces)) (leaves_step c _ _ Hn) pieces [] [] st)
    as (st2 & E2 & S2 & _ & Hn2).
  { destruct R0. constructor; try assumption. apply (SpRep_leaves c _ [] [] 0 st). constructor; assumption. }
  { cbn [app length]. lia. }
  assert (st2 = st') as -> by congruence. cbv zeta in *. cbn [app length] in *.
  destruct (sp_rep_debug c _ _ P B st' R) as (k & H0 & H1 & H2 & H3 & H4).
  { rewrite HD. exact Hn. }
  rewrite E1. cbn [bind]. rewrite H4. rewrite HD in *. cbn [Spec.key_block length]. rewrite Nat.mul_0_r, !Nat.add_0_l.
  rewrite <- (leaves_same c (sp_last_hash_length 32 l) P (firstn (512 * settled 0 (map (length (A:=byte)) pieces)) (concat pieces)) k
               (settled 0 (map (length (A:=byte)) pieces)) (sp_leaves st')).
  - reflexivity.
  - exact (SpRep_leaves _ _ _ _ _ _ R).
  - exact (sh_good _ _ _ _ _ S2).
  - exact H0.
  - rewrite firstn_length. lia.
  - lia.
  - rewrite firstn_length. lia.
Qed.

(** ** Keyed states, in builds without debug assertions *)
Lemma uadd_exact c (a b : u64) : val a + val b < 2 ^ 64 -> exists r, uadd c a b = Ok r /\ val r = val a + val b.
Proof.
  intros H. rewrite uadd_ok by (intros _; exact H). eexists. split; [reflexivity|]. apply val_of_N_small, H.
Qed.
Lemma sp_count_gen c st x b : (forall l, val (st_count (proj l (sp_leaves st))) = x) -> val (sp_buflen st) = b ->
  8 * x + b < 2 ^ 64 -> exists n, sp_count c st = Ok n /\ val n = 8 * x + b.
Proof.
  intros HL Hb Hx. unfold sp_count. cbv zeta.
  assert (Hv : forall l, val (proj l (oct_map count (sp_leaves st))) = x) by (intros l; rewrite proj_map; apply HL).
  assert (Hc : val (cast 64 (sp_buflen st)) = b).
  { unfold cast. rewrite Hb. apply val_of_N_small. lia. }
  set (ls := oct_map count (sp_leaves st)) in *. clearbody ls.
  pose proof (Hv L0) as V0; pose proof (Hv L1) as V1; pose proof (Hv L2) as V2; pose proof (Hv L3) as V3;
  pose proof (Hv L4) as V4; pose proof (Hv L5) as V5; pose proof (Hv L6) as V6; pose proof (Hv L7) as V7.
  cbn [proj] in *. clear Hv HL.
  destruct (uadd_exact c (o0 ls) (o1 ls)) as (n1 & E1 & W1); [lia|]. rewrite (bind_Ok _ _ _ E1).
  destruct (uadd_exact c n1 (o2 ls)) as (n2 & E2 & W2); [lia|]. rewrite (bind_Ok _ _ _ E2).
  destruct (uadd_exact c n2 (o3 ls)) as (n3 & E3 & W3); [lia|]. rewrite (bind_Ok _ _ _ E3).
  destruct (uadd_exact c n3 (o4 ls)) as (n4 & E4 & W4); [lia|]. rewrite (bind_Ok _ _ _ E4).
  destruct (uadd_exact c n4 (o5 ls)) as (n5 & E5 & W5); [lia|]. rewrite (bind_Ok _ _ _ E5).
  destruct (uadd_exact c n5 (o6 ls)) as (n6 & E6 & W6); [lia|]. rewrite (bind_Ok _ _ _ E6).
  destruct (uadd_exact c n6 (o7 ls)) as (n7 & E7 & W7); [lia|]. rewrite (bind_Ok _ _ _ E7).
  destruct (uadd_exact c n7 (cast 64 (sp_buflen st))) as (n8 & E8 & W8); [lia|].
  exists n8. split; [exact E8|]. lia.
Qed.

Lemma late_state c l p pieces : cfg_ok c -> sp_build l = Ok p -> sp_keyval l <> [] -> debug_assertions c = false ->
  N.of_nat (length (concat pieces)) + 64 < 2 ^ 64 ->
  let k := settled 0 (map (@List.length byte) pieces) in
  exists st, (st <- sp_to_state c p ;; sp_feed c st pieces) = Ok st /\ (512 * k <= length (concat pieces))%nat /\
    Shape c (late_leaves c (sp_dlen l) (sp_keyval l)) (firstn (512 * k) (concat pieces)) (skipn (512 * k) (concat pieces)) st /\
    Rep c (Spec.initial (Spec.root_params (sp_dlen l) (sp_keyval l))) [] 0 (sp_root st) /\
    st_last_node (sp_root st) = true /\ val (st_hash_length (sp_root st)) = sp_dlen l.
Proof.
  intros Hc Hb. unfold sp_dlen, sp_keyval. rewrite <- sp_last_keyval, <- sp_last_dlen.
  intros Hk Hd Hl. apply sp_build_encodes in Hb as (_ & E).
  destruct (sp_with_params_ok c p _ _ Hc E) as (st & Es & R).
  unfold sp_to_state. rewrite Es. cbn [bind].
  set (dlen := sp_last_hash_length 32 l) in *. set (key := sp_last_key [] l) in *.
  destruct (shape_feed c (late_leaves c dlen key) (length (concat pieces)) (late_step c dlen key _ Hd Hl)
    pieces [] [] st (late_new c dlen key st Hk R)) as (st1 & E1 & R1 & K1 & Hn); [cbn [app length]; lia|].
  cbv zeta in *. cbn [length app] in *. exists st1. split; [exact E1|]. split; [exact Hn|]. split; [exact R1|].
  rewrite K1. split; [apply (sr_root _ _ _ _ _ _ _ R)|]. split; [apply (sr_root_last _ _ _ _ _ _ _ R)|apply (sr_root_hash _ _ _ _ _ _ _ R)].
Qed.

Lemma late_leaf_count c dlen key P B st k l : Shape c (late_leaves c dlen key) P B st -> length P = (512 * k)%nat ->
  val (st_count (proj l (sp_leaves st))) = N.of_nat (64 * k + 64).
Proof.
  intros S HP. destruct (sh_good _ _ _ _ _ S) as (HL & _ & _). destruct (HL l) as (k' & R).
  pose proof (ll_M _ _ _ _ _ _ R) as Hm. rewrite (leaf_input_length _ k (idx_lt l) P HP) in Hm.
  rewrite (ll_count _ _ _ _ _ _ R). lia.
Qed.

Lemma sp_late_count c l p pieces st : cfg_ok c -> sp_build l = Ok p -> sp_keyval l <> [] -> debug_assertions c = false ->
  512 + N.of_nat (length (concat pieces)) < 2 ^ 64 ->
  (st <- sp_to_state c p ;; sp_feed c st pieces) = Ok st ->
  exists n, sp_count c st = Ok n /\ val n = 512 + N.of_nat (length (concat pieces)).
Proof.
  intros Hc Hb Hk Hd Hl Hst. destruct (late_state c l p pieces Hc Hb Hk Hd ltac:(lia)) as (st1 & E & Hn & S & _).
  assert (st1 = st) as -> by congruence. set (k := settled 0 (map (List.length (A:=byte)) pieces)) in *.
  pose proof (sh_buflen _ _ _ _ _ S) as Hbl. unfold sp_buflen_nat in Hbl. rewrite skipn_length in Hbl.
  destruct (sp_count_gen c st (N.of_nat (64 * k + 64)) (N.of_nat (length (concat pieces) - 512 * k))) as (n & En & Vn).
  - intros l0. eapply late_leaf_count; [exact S|]. rewrite firstn_length. lia.
  - lia.
  - lia.
  - exists n. split; [exact En|]. rewrite Vn. lia.
Qed.

Lemma sp_late_debug c l p pieces : cfg_ok c -> sp_build l = Ok p -> sp_keyval l <> [] -> debug_assertions c = false ->
  512 + N.of_nat (length (concat pieces)) < 2 ^ 64 ->
  (st <- sp_to_state c p ;; st <- sp_feed c st pieces ;; sp_state_debug c st) =
  Ok (sp_state_text (512 + N.of_nat (length (concat pieces)))
                    (64 + N.of_nat (64 * settled 0 (map (@List.length byte) pieces))) (sp_dlen l)).
Proof.
  intros Hc Hb Hk Hd Hl. destruct (late_state c l p pieces Hc Hb Hk Hd ltac:(lia)) as (st & E & Hn & S & Rr & L & D).
  destruct (sp_late_count c l p pieces st Hc Hb Hk Hd Hl E) as (n & En & Vn).
  destruct (sp_to_state c p) as [st0| | |]; try discriminate E. cbn [bind] in *. rewrite E. cbn [bind].
  set (k := settled 0 (map (List.length (A:=byte)) pieces)) in *.
  unfold sp_state_debug. rewrite En. cbn [bind]. rewrite Vn.
  assert (Hleaf : forall l, (idx l < 7)%nat ->
       state_debug (proj l (sp_leaves st)) = state_text (64 + N.of_nat (64 * k)) 32 false).
  { intros l0 Hl0. unfold state_debug, state_text, dec, number_text, dec_bool, bool_text.
    destruct (sh_good _ _ _ _ _ S) as (HL & M1 & M2). rewrite M1, M2.
    rewrite (late_leaf_count _ _ _ _ _ _ k l0 S) by (rewrite firstn_length; lia).
    replace (N.of_nat (64 * k + 64)) with (64 + N.of_nat (64 * k)) by lia.
    replace (Nat.eqb (idx l0) 7) with false by lia. reflexivity. }
  pose proof (Hleaf L0) as E0. pose proof (Hleaf L1) as E1. pose proof (Hleaf L2) as E2. pose proof (Hleaf L3) as E3.
  cbn [proj idx] in *. rewrite E0, E1, E2, E3 by lia.
  rewrite (rep_debug c _ _ _ _ 0 (sp_dlen l) true Rr eq_refl) by (assumption || reflexivity).
  reflexivity.
Qed.

(** ** count, for every state a program can reach *)
Lemma sp_counts_all c l p pieces st : cfg_ok c -> sp_build l = Ok p ->
  8 * key_bytes (sp_keyval l) + N.of_nat (length (concat pieces)) < 2 ^ 64 ->
  (s <- sp_to_state c p ;; sp_feed c s pieces) = Ok st ->
  exists n, sp_count c st = Ok n /\ val n = 8 * key_bytes (sp_keyval l) + N.of_nat (length (concat pieces)).
Proof.
  intros Hc Hb Hn Hst. destruct (sp_keyval l) as [|x key] eqn:Ek.
  { rewrite <- Ek. apply (sp_counts c l p pieces st Hc Hb); [rewrite Ek; cbn in Hn; exact Hn|exact Hst]. }
  assert (Hk : sp_keyval l <> []) by (rewrite Ek; discriminate). clear Ek.
  replace (8 * key_bytes (x :: key)) with 512 in * by reflexivity.
  destruct (debug_assertions c) eqn:Hd; [|apply (sp_late_count c l p pieces st Hc Hb Hk Hd Hn Hst)].
  unfold sp_keyval in Hk. rewrite <- sp_last_keyval in Hk.
  apply sp_build_encodes in Hb as (_ & E).
  destruct (sp_models_new c p _ _ Hc E) as (s0 & E0 & M). rewrite E0 in Hst. cbn [bind] in Hst.
  destruct (keyed_fit 0 pieces) eqn:Hf.
  - destruct (sp_feed_fit c _ _ pieces Hk [] s0 M Hf) as (s1 & E1 & M1 & _).
    assert (s1 = st) as -> by congruence. cbn [app] in M1.
    assert (Hkb : length (Spec.key_block (sp_last_key [] l)) = 64%nat).
    { rewrite key_block_length by (pose proof (se_key_ok _ _ _ E); lia). destruct (sp_last_key [] l); [contradiction|reflexivity]. }
    destruct (sp_models_count c _ _ _ _ M1) as (n & En & Vn); rewrite Hkb in *.
    + intros _. lia.
    + exists n. split; [exact En|]. rewrite Vn, N.mod_small by lia. lia.
  - rewrite (sp_feed_unfit c _ _ pieces Hk Hd [] s0 M Hf) in Hst. discriminate Hst.
Qed.
