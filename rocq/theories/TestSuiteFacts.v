(** * TestSuiteFacts: the tests of the crate pass for every input. *)
From Verif Require Import Base BaseFacts Consts Intrinsics Portable PortableFacts Params ParamsSpec ParamsFacts SpecFacts State
  StateFacts Refine HashFacts Many ManyFacts Avx2Facts Sse41Facts ExactFacts LeafFacts Blake2sp SpFacts Views Machine MachineSpec
  MachineFacts Clients Behave Corollaries TestSuite TestFacts.
From Verif Require Spec Sse41 Avx2.
From Coq Require Import ZArith Lia.
Local Open Scope N_scope.

Lemma str_eq_ok a : forall b, str_eq a b = true <-> a = b.
Proof.
  induction a as [|x a IH]; intros [|y b]; cbn [str_eq]; try (split; [reflexivity || discriminate|reflexivity || discriminate]).
  rewrite andb_true_iff, IH. split.
  - intros [H ->]. apply Byte.byte_dec_bl in H. congruence.
  - intros H; injection H as -> ->. split; [apply Byte.byte_dec_lb; reflexivity|reflexivity].
Qed.
Lemma str_eq_sym a b : str_eq a b = str_eq b a.
Proof.
  destruct (str_eq a b) eqn:E, (str_eq b a) eqn:E'; try reflexivity.
  - apply str_eq_ok in E. subst. rewrite (proj2 (str_eq_ok b b) eq_refl) in E'. discriminate.
  - apply str_eq_ok in E'. subst. rewrite (proj2 (str_eq_ok a a) eq_refl) in E. discriminate.
Qed.
(** A test that compares a hash with what it expects. *)
Definition verdict (b : bool) : outcome unit := if b then Ok tt else Panic.

(** ** The compression functions *)
Lemma hex_short x : (length x <= 32)%nat -> bytes_to_hex x = Ok (Spec.hex x).
Proof. intros H. unfold bytes_to_hex. rewrite hex_loop_ok; [reflexivity|]. cbn [length]. lia. Qed.
Lemma hex_of h x : as_bytes h = Ok x -> (length x <= 32)%nat -> to_hex h = Ok (Spec.hex x).
Proof. intros H Hl. unfold to_hex. rewrite H. apply hex_short, Hl. Qed.
Lemma digest_le sp b x : (length (Spec.blake2s sp b x) <= 32)%nat.
Proof. rewrite digest_32. lia. Qed.

Lemma blake2s_one_block block : length block = 64%nat ->
  Spec.blake2s Spec.default_params false block =
  Spec.words_bytes (Spec.F (Spec.initial Spec.default_params) block 64 Spec.ones 0).
Proof.
  intros H. unfold Spec.blake2s, Spec.hash_words.
  cbn [Spec.key Spec.default_params Spec.key_block app Spec.digest_length].
  assert (E1 : Spec.nblocks block = 1%nat) by (unfold Spec.nblocks; rewrite H; reflexivity).
  rewrite E1, H. change (1 - 1)%nat with 0%nat.
  change (Spec.chain (Spec.initial Spec.default_params) block 0) with (Spec.initial Spec.default_params).
  assert (E2 : Spec.block block 0 = block).
  { unfold Spec.block. change (64 * 0)%nat with 0%nat. cbn [skipn]. rewrite firstn_all2 by lia.
    unfold Spec.pad. rewrite H. cbn [Nat.sub repeat]. apply app_nil_r. }
  rewrite E2. apply firstn_all2. rewrite words_bytes_length, F_length. reflexivity.
Qed.

Lemma compress_one_ok c f block : cfg_ok c -> length block = 64%nat ->
  (f = compress_sse41 -> has_sse41 c = true) ->
  compress_one c f block = Ok (Spec.hex (Spec.blake2s Spec.default_params false block)).
Proof.
  intros Hc Hb Hf. unfold compress_one.
  destruct (to_state_initial c [] Params_new Hc eq_refl) as (st & E & H).
  change (State_new c) with (to_state c Params_new). rewrite E. cbn [bind].
  assert (Ec : exists h, call_compress c f (st_h st) block (of_N 64 (N.of_nat BLOCKBYTES)) (umax 32) (uzero 32) = Ok h /\
                nums h = Spec.F (Spec.initial Spec.default_params) block 64 Spec.ones 0).
  { destruct f; cbn [call_compress].
    - eexists. split; [reflexivity|]. etransitivity; [apply compress_ok, Hb|]. rewrite H. reflexivity.
    - rewrite (Hf eq_refl). eexists. split; [reflexivity|].
      etransitivity; [apply sse41_compress_F, Hb|]. rewrite H. reflexivity. }
  destruct Ec as (h & -> & Hh). cbn [bind]. rewrite state_bytes_ok, Hh, <- blake2s_one_block by exact Hb.
  apply hex_short, digest_le.
Qed.
Lemma compress_eight_ok c f blocks : cfg_ok c -> (forall l, length (proj l blocks) = 64%nat) ->
  (f = compress8_avx2 -> has_avx2 c = true) ->
  compress_eight c f blocks = Ok (oct_of (fun l => Spec.hex (Spec.blake2s Spec.default_params false (proj l blocks)))).
Proof.
  intros Hc Hb Hf. unfold compress_eight.
  destruct (to_state_initial c [] Params_new Hc eq_refl) as (st & E & H).
  change (State_new c) with (to_state c Params_new).
  rewrite (oct_mapM_ok (fun _ => to_state c Params_new) (oct_const tt) (oct_const st)).
  2: { intros l. rewrite E. destruct l; reflexivity. }
  cbn [bind].
  assert (Ec : exists hs, call_compress8 c f (oct_map st_h (oct_const st)) blocks (oct_const (of_N 64 (N.of_nat BLOCKBYTES)))
                 (oct_const (umax 32)) (oct_const (uzero 32)) = Ok hs /\
                forall l, nums (proj l hs) = Spec.F (Spec.initial Spec.default_params) (proj l blocks) 64 Spec.ones 0).
  { destruct f; cbn [call_compress8].
    - eexists. split; [reflexivity|]. intros l. etransitivity; [apply portable_compress8_F, Hb|].
      replace (proj l (oct_map st_h (oct_const st))) with (st_h st) by (destruct l; reflexivity).
      rewrite H. destruct l; reflexivity.
    - rewrite (Hf eq_refl). eexists. split; [reflexivity|]. intros l. etransitivity; [apply avx2_compress8_F, Hb|].
      replace (proj l (oct_map st_h (oct_const st))) with (st_h st) by (destruct l; reflexivity).
      rewrite H. destruct l; reflexivity. }
  destruct Ec as (hs & -> & Hh). cbn [bind]. apply oct_mapM_ok. intros l. rewrite proj_of.
  rewrite state_bytes_ok, Hh, <- blake2s_one_block by apply Hb. apply hex_short, digest_le.
Qed.

Definition one_digest (block : list byte) : list byte := Spec.hex (Spec.blake2s Spec.default_params false block).
Theorem compression_impls_verdict c block blocks e1 e8 : cfg_ok c -> length block = 64%nat ->
  (forall l, length (proj l blocks) = 64%nat) ->
  test_all_compression_impls c block blocks e1 e8 =
  verdict (str_eq e1 (one_digest block) && str8_eq e8 (oct_map one_digest blocks)).
Proof.
  intros Hc Hb Hbs. unfold test_all_compression_impls.
  rewrite (compress_one_ok c compress_portable block Hc Hb) by discriminate. cbn [bind]. fold (one_digest block).
  destruct (str_eq e1 (one_digest block)) eqn:E1; [|reflexivity].
  rewrite (compress_eight_ok c compress8_portable blocks Hc Hbs) by discriminate. cbn [bind].
  replace (oct_of _) with (oct_map one_digest blocks) by (destruct blocks; reflexivity).
  destruct (str8_eq e8 (oct_map one_digest blocks)) eqn:E8; [|reflexivity].
  cbn [andb verdict].
  assert (Es : (if arch_x86 c && feature_std c && cpu_sse41 c then
          found <- compress_one c compress_sse41 block ;;
          assert! (str_eq e1 found) ;; Ok tt
        else Ok tt) = Ok tt).
  { destruct (arch_x86 c && feature_std c && cpu_sse41 c) eqn:Ef; [|reflexivity].
    rewrite (compress_one_ok c compress_sse41 block Hc Hb).
    - cbn [bind]. fold (one_digest block). rewrite E1. reflexivity.
    - intros _. unfold has_sse41. destruct (arch_x86 c), (feature_std c), (cpu_sse41 c); try discriminate Ef; reflexivity. }
  rewrite Es. cbn [bind].
  destruct (arch_x86 c && feature_std c && cpu_avx2 c) eqn:Ef; [|reflexivity].
  rewrite (compress_eight_ok c compress8_avx2 blocks Hc Hbs).
  - cbn [bind]. replace (oct_of _) with (oct_map one_digest blocks) by (destruct blocks; reflexivity).
    rewrite E8. reflexivity.
  - intros _. unfold has_avx2. destruct (arch_x86 c), (feature_std c), (cpu_avx2 c); try discriminate Ef; reflexivity.
Qed.

(** ** Hashing with [State] *)
Lemma new_models c : cfg_ok c -> exists st, State_new c = Ok st /\ Models c Spec.default_params false [] st.
Proof. intros Hc. exact (models_new c Params_new _ _ Hc (proj2 (build_encodes [] Params_new eq_refl))). Qed.
Lemma finalize_hex c sp ln x st : Models c sp ln x st -> exists st' h, finalize c st = Ok (st', h) /\
  Models c sp ln x st' /\ to_hex h = Ok (Spec.hex (Spec.blake2s sp ln x)).
Proof.
  intros M. destruct (models_finalize c _ _ _ _ M) as (st' & h & E & M' & _ & _ & B). exists st', h.
  split; [exact E|]. split; [exact M'|]. apply hex_of; [exact B|apply digest_le].
Qed.
Lemma check_finalize_ok c sp ln x st e : Models c sp ln x st ->
  if str_eq (Spec.hex (Spec.blake2s sp ln x)) e
  then exists st', check_finalize c st e = Ok st' /\ Models c sp ln x st'
  else check_finalize c st e = Panic.
Proof.
  intros M. destruct (finalize_hex c sp ln x st M) as (st' & h & E & M' & Hh). unfold check_finalize.
  rewrite E. cbn [bind]. rewrite Hh. cbn [bind]. destruct (str_eq _ e); [exists st'; split; [reflexivity|exact M']|reflexivity].
Qed.
Lemma default_stream x : stream Spec.default_params x = x.
Proof. reflexivity. Qed.
Lemma update_default c x y st : Models c Spec.default_params false x st -> N.of_nat (length (x ++ y)) < 2 ^ 64 ->
  exists st', update c st y = Ok st' /\ Models c Spec.default_params false (x ++ y) st' /\
    val (count st') = N.of_nat (length (x ++ y)).
Proof.
  intros M H. destruct (models_update c _ _ _ st y M) as (st' & E & M'); [apply fits_small; exact H|].
  exists st'. split; [exact E|]. split; [exact M'|]. rewrite (models_count _ _ _ _ _ M'), default_stream.
  apply N.mod_small, H.
Qed.

Lemma byte_by_byte_ok c y : forall x st, Models c Spec.default_params false x st -> N.of_nat (length (x ++ y)) < 2 ^ 64 ->
  exists st', byte_by_byte c st (of_N 64 (N.of_nat (length x))) y = Ok st' /\
    Models c Spec.default_params false (x ++ y) st'.
Proof.
  induction y as [|b y IH]; intros x st M H; cbn [byte_by_byte].
  - exists st. rewrite app_nil_r. split; [reflexivity|exact M].
  - rewrite app_length in H. cbn [length] in H.
    destruct (update_default c x [b] st M) as (s1 & E1 & M1 & C1); [rewrite app_length; cbn [length]; lia|].
    rewrite E1. cbn [bind].
    assert (Ea : uadd c (of_N 64 (N.of_nat (length x))) (of_N 64 1) = Ok (of_N 64 (N.of_nat (length (x ++ [b]))))).
    { rewrite app_length. cbn [length]. rewrite uadd_ok.
      - f_equal. apply val_inj. rewrite !val_of_N. rewrite (N.mod_small (N.of_nat (length x))) by lia.
        rewrite (N.mod_small 1) by reflexivity. f_equal. lia.
      - rewrite !val_of_N, !N.mod_small by lia. lia. }
    rewrite Ea. cbn [bind]. rewrite C1, val_of_N, N.mod_small by (rewrite app_length; cbn [length]; lia).
    rewrite N.eqb_refl.
    destruct (IH (x ++ [b]) s1 M1) as (s2 & E2 & M2); [rewrite <- app_assoc, app_length; cbn [app length]; lia|].
    exists s2. split; [exact E2|]. rewrite <- app_assoc in M2. exact M2.
Qed.

Theorem vector_verdict c input output : cfg_ok c -> N.of_nat (length input) < 2 ^ 64 ->
  test_vector c input output = verdict (str_eq (Spec.hex (Spec.blake2s Spec.default_params false input)) output).
Proof.
  intros Hc Hn. unfold test_vector. destruct (new_models c Hc) as (s0 & E0 & M0).
  unfold blake2s. rewrite E0. cbn [bind].
  destruct (update_default c [] input s0 M0 Hn) as (s1 & E1 & M1 & _). rewrite E1. cbn [bind].
  destruct (finalize_hex c _ _ _ s1 M1) as (s1' & h1 & F1 & _ & H1). rewrite F1. cbn [bind]. rewrite H1. cbn [bind app].
  destruct (str_eq _ output) eqn:Ev; [|reflexivity]. cbn [verdict].
  assert (Hk : (length input / 2 <= length input)%nat) by (apply Nat.div_le_upper_bound; lia).
  rewrite (slice_to_ok input _ Hk). cbn [bind].
  set (k := (length input / 2)%nat) in *.
  assert (Hf : length (firstn k input) = k) by (rewrite firstn_length; lia).
  destruct (update_default c [] (firstn k input) s0 M0) as (s2 & E2 & M2 & C2); [cbn [app]; lia|].
  rewrite E2. cbn [bind]. rewrite C2. cbn [app]. rewrite Hf, val_of_N, N.mod_small, N.eqb_refl by lia.
  rewrite (slice_from_ok input _ Hk). cbn [bind app] in *.
  destruct (update_default c _ (skipn k input) s2 M2) as (s3 & E3 & M3 & C3); [rewrite firstn_skipn; exact Hn|].
  rewrite firstn_skipn in M3, C3. rewrite E3. cbn [bind]. rewrite C3, val_of_N, N.mod_small, N.eqb_refl by exact Hn.
  destruct (finalize_hex c _ _ _ s3 M3) as (s3' & h3 & F3 & _ & H3). rewrite F3. cbn [bind]. rewrite H3. cbn [bind].
  rewrite Ev.
  destruct (byte_by_byte_ok c input [] s0 M0 Hn) as (s4 & E4 & M4). change (N.of_nat (length [])) with 0 in E4.
  rewrite E4. cbn [bind].
  destruct (finalize_hex c _ _ _ s4 M4) as (s4' & h4 & F4 & _ & H4). rewrite F4. cbn [bind]. rewrite H4. cbn [bind app].
  rewrite Ev. reflexivity.
Qed.

Theorem multiple_finalizes_verdict c input e0 e1 : cfg_ok c -> N.of_nat (length input) < 2 ^ 64 ->
  test_multiple_finalizes c input e0 e1 =
  verdict (str_eq (Spec.hex (Spec.blake2s Spec.default_params false [])) e0 &&
           str_eq (Spec.hex (Spec.blake2s Spec.default_params false input)) e1).
Proof.
  intros Hc Hn. unfold test_multiple_finalizes. destruct (new_models c Hc) as (s0 & E0 & M0). rewrite E0. cbn [bind].
  pose proof (check_finalize_ok c _ _ _ s0 e0 M0) as K1.
  destruct (str_eq _ e0) eqn:V0; [|rewrite K1; reflexivity].
  destruct K1 as (s1 & K1 & M1). rewrite K1. cbn [bind].
  pose proof (check_finalize_ok c _ _ _ s1 e0 M1) as K2. rewrite V0 in K2.
  destruct K2 as (s2 & K2 & M2). rewrite K2. cbn [bind].
  pose proof (check_finalize_ok c _ _ _ s2 e0 M2) as K3. rewrite V0 in K3.
  destruct K3 as (s3 & K3 & M3). rewrite K3. cbn [bind].
  destruct (update_default c [] input s3 M3 Hn) as (t0 & U & T0 & _). rewrite U. cbn [bind app andb] in *.
  pose proof (check_finalize_ok c _ _ _ t0 e1 T0) as Q1.
  destruct (str_eq _ e1) eqn:V1; [|rewrite Q1; reflexivity].
  destruct Q1 as (t1 & Q1 & T1). rewrite Q1. cbn [bind].
  pose proof (check_finalize_ok c _ _ _ t1 e1 T1) as Q2. rewrite V1 in Q2.
  destruct Q2 as (t2 & Q2 & T2). rewrite Q2. cbn [bind].
  pose proof (check_finalize_ok c _ _ _ t2 e1 T2) as Q3. rewrite V1 in Q3.
  destruct Q3 as (t3 & Q3 & T3). rewrite Q3. reflexivity.
Qed.

Theorem write_verdict c input e : cfg_ok c -> N.of_nat (length input) < 2 ^ 64 ->
  test_write c input e = verdict (str_eq (Spec.hex (Spec.blake2s Spec.default_params false input)) e).
Proof.
  intros Hc Hn. unfold test_write. destruct (new_models c Hc) as (s0 & E0 & M0). rewrite E0. cbn [bind].
  rewrite write_all_update.
  assert (H : exists st, match input with [] => Ok (Some s0) | _ :: _ => st' <- update c s0 input ;; Ok (Some st') end = Ok (Some st) /\
                Models c Spec.default_params false input st).
  { destruct input as [|b input]; [exists s0; split; [reflexivity|exact M0]|].
    destruct (update_default c [] (b :: input) s0 M0 Hn) as (s1 & E1 & M1 & _). exists s1. rewrite E1. split; [reflexivity|exact M1]. }
  destruct H as (st & -> & M). cbn [bind].
  destruct (finalize_hex c _ _ _ st M) as (st' & h & F & _ & H). rewrite F. cbn [bind]. rewrite H. cbn [bind].
  destruct (str_eq _ e); reflexivity.
Qed.

Theorem all_parameters_verdict c l b input e : cfg_ok c -> forallb valid_setter l = true ->
  N.of_nat (length input) + 64 < 2 ^ 64 ->
  test_all_parameters c l b input e = verdict (str_eq e (Spec.hex (Spec.blake2s (spec_params l) b input))).
Proof.
  intros Hc V Hn. unfold test_all_parameters. destruct (build_ok l V) as (p & Hb & E). rewrite Hb. cbn [bind].
  destruct (models_new c p _ _ Hc E) as (s0 & E0 & M0). rewrite E0. cbn [bind].
  pose proof (models_set_last_node _ _ _ _ _ b M0) as M0'.
  destruct (models_update c _ _ _ _ input M0') as (s1 & E1 & M1).
  { apply fits_small. cbn [app]. exact (small_stream l p input Hb Hn). }
  rewrite E1. cbn [bind app] in *.
  destruct (finalize_hex c _ _ _ s1 M1) as (s' & h & F & _ & H). rewrite F. cbn [bind]. rewrite H. cbn [bind].
  destruct (str_eq e _); reflexivity.
Qed.

(** *** BLAKE2sp *)
Definition sp_hex (c : cfg) (p : SpParams) (input : list byte) : outcome (list byte) :=
  state <- sp_to_state c p ;; state <- sp_update c state input ;; hash <- sp_finalize c state ;; to_hex hash.
Lemma sp_hex_pieces c p input :
  sp_hex c p input = (x <- sp_hash_pieces c p [input] ;; bytes_to_hex x).
Proof.
  unfold sp_hex, sp_hash_pieces, to_hex. destruct (sp_to_state c p) as [s| | |]; cbn [bind sp_feed]; try reflexivity.
  destruct (sp_update c s input) as [s1| | |]; cbn [bind]; try reflexivity.
  destruct (sp_finalize c s1) as [h| | |]; cbn [bind]; reflexivity.
Qed.
Lemma sp_test_hex c l input e :
  test_all_parameters_blake2sp c l input e =
  (p <- sp_build l ;; hex <- sp_hex c p input ;; verdict (str_eq e hex)).
Proof.
  unfold test_all_parameters_blake2sp, sp_hex. destruct (sp_build l) as [p| | |]; cbn [bind]; try reflexivity.
  destruct (sp_to_state c p) as [s| | |]; cbn [bind]; try reflexivity.
  destruct (sp_update c s input) as [s1| | |]; cbn [bind]; try reflexivity.
  destruct (sp_finalize c s1) as [h| | |]; cbn [bind]; reflexivity.
Qed.
Lemma sp_digest_le d k x : (length (Spec.blake2sp d k x) <= 32)%nat.
Proof. unfold Spec.blake2sp. rewrite firstn_length, words_bytes_length, hash_words_length. lia. Qed.
Theorem sp_all_parameters_verdict c l input e : cfg_ok c -> forallb sp_setter_ok l = true ->
  match sp_keyval l with [] => N.of_nat (length input) < 2 ^ 64 | _ => (length input <= 960)%nat end ->
  test_all_parameters_blake2sp c l input e =
  verdict (str_eq e (Spec.hex (Spec.blake2sp (sp_dlen l) (sp_keyval l) input))).
Proof.
  intros Hc V Hn. rewrite sp_test_hex. destruct (sp_build_ok l V) as (p & Hb & _). rewrite Hb. cbn [bind].
  assert (E : sp_hash_pieces c p [input] = Ok (Spec.blake2sp (sp_dlen l) (sp_keyval l) input)).
  { replace input with (concat [input]) at 2 by apply app_nil_r.
    destruct (sp_keyval l) eqn:Hk.
    - rewrite <- Hk. rewrite (sp_unkeyed_value c l p [input] Hc Hb Hk).
      + rewrite Hk. reflexivity.
      + cbn [concat]. rewrite app_nil_r. exact Hn.
    - rewrite <- Hk. apply sp_keyed_value; try assumption; [rewrite Hk; discriminate|].
      cbn [concat]. rewrite app_nil_r. exact Hn. }
  rewrite sp_hex_pieces, E. cbn [bind]. rewrite hex_short by apply sp_digest_le. reflexivity.
Qed.
Theorem sp_all_parameters_panics c l input e : cfg_ok c -> forallb sp_setter_ok l = true ->
  sp_keyval l <> [] -> (960 < length input)%nat -> debug_assertions c = true ->
  test_all_parameters_blake2sp c l input e = Panic.
Proof.
  intros Hc V Hk Hn Hd. rewrite sp_test_hex. destruct (sp_build_ok l V) as (p & Hb & _). rewrite Hb. cbn [bind].
  rewrite sp_hex_pieces, (sp_keyed_unfit c l p [input] Hc Hb Hk Hd); [reflexivity|].
  cbn [keyed_fit Nat.eqb negb orb Nat.add]. replace (Nat.leb (length input) 960) with false by (symmetry; apply Nat.leb_gt; exact Hn).
  rewrite andb_false_r. reflexivity.
Qed.

(** *** The calls that must panic *)
Theorem panicking_calls_pass :
  Forall (fun s => should_panic (build [s]) = Ok tt) panicking_calls /\
  Forall (fun s => should_panic (sp_build [s]) = Ok tt) sp_panicking_calls.
Proof.
  split; unfold panicking_calls, sp_panicking_calls; repeat constructor.
Qed.
Theorem should_panic_tests s t :
  passes_iff (valid_setter s = false) (should_panic (build [s])) /\
  passes_iff (sp_setter_ok t = false) (should_panic (sp_build [t])).
Proof.
  pose proof (build_outcome [s]) as (A & B). pose proof (sp_build_outcome [t]) as (A' & B').
  cbn [forallb] in A, B, A', B'. rewrite andb_true_r in A, B, A', B'. split; split; intros H.
  - rewrite (B H). reflexivity.
  - destruct (A (proj1 (not_false_iff_true _) H)) as (p & ->). reflexivity.
  - rewrite (B' H). reflexivity.
  - destruct (A' (proj1 (not_false_iff_true _) H)) as (p & ->). reflexivity.
Qed.
(** ** Many inputs at once *)
Lemma hash_eq_same h h' x : as_bytes h = Ok x -> as_bytes h' = Ok x -> hash_eq h h' = Ok true.
Proof.
  intros H H'. unfold hash_eq. rewrite H, H'. cbn [bind]. f_equal. apply constant_time_eq_ok. reflexivity.
Qed.
Lemma assert_hashes_ok l : forall l', Forall2 (fun h h' => hash_eq h h' = Ok true) l l' -> assert_hashes l l' = Ok tt.
Proof.
  unfold assert_hashes. intros l' H. induction H as [|h h' l l' E _ IH]; [reflexivity|].
  cbn [combine fold_left fst snd bind]. rewrite E. cbn [bind]. exact IH.
Qed.
Lemma oct_forall2 {A B} (R : A -> B -> Prop) (a : oct A) (b : oct B) : (forall l, R (proj l a) (proj l b)) ->
  Forall2 R (oct_list a) (oct_list b).
Proof.
  intros H. destruct a, b. cbn [oct_list o0 o1 o2 o3 o4 o5 o6 o7].
  constructor; [exact (H L0)|]. constructor; [exact (H L1)|]. constructor; [exact (H L2)|]. constructor; [exact (H L3)|].
  constructor; [exact (H L4)|]. constructor; [exact (H L5)|]. constructor; [exact (H L6)|]. constructor; [exact (H L7)|].
  constructor.
Qed.
Lemma quad_forall2 {A B} (R : A -> B -> Prop) (a : quad A) (b : quad B) : (forall l, R (qproj l a) (qproj l b)) ->
  Forall2 R (quad_list a) (quad_list b).
Proof.
  intros H. destruct a, b. cbn [quad_list q0 q1 q2 q3].
  constructor; [exact (H M0)|]. constructor; [exact (H M1)|]. constructor; [exact (H M2)|]. constructor; [exact (H M3)|].
  constructor.
Qed.

(** One run: nothing but an overflowing counter can make it fail. *)
Lemma test_run_stands c (a : oct astate) sts x : (forall l, stands c (proj l a) (proj l sts)) ->
  (forall l, fits c (N.of_nat (length (stream (a_sp (proj l a)) (a_msg (proj l a) ++ proj l x))))) ->
  exists sts', test_run c sts x = Ok sts' /\ forall l, stands c (add_msg (proj l a) (proj l x)) (proj l sts').
Proof.
  intros H Hf. unfold test_run.
  assert (Hu : forall l, exists h, update_finalize c (proj l sts) (proj l x) = Ok h /\
            as_bytes h = Ok (digest (add_msg (proj l a) (proj l x)))).
  { intros l. destruct (models_update c _ _ _ _ (proj l x) (H l) (Hf l)) as (u & Eu & Mu).
    destruct (models_finalize c _ _ _ _ Mu) as (v & h & Ev & _ & _ & _ & B). exists h. unfold update_finalize.
    rewrite Eu. cbn [bind]. rewrite Ev. split; [reflexivity|exact B]. }
  apply lane_choice in Hu as (es & Hes).
  rewrite (oct_mapM2_ok (update_finalize c) sts x es) by (intros l; apply Hes). cbn [bind].
  destruct (update8_stands c a sts x H) as [(s1 & E1 & H1)|(E1 & l & El)].
  - rewrite E1. cbn [bind].
    set (a' := oct_of (fun l => add_msg (proj l a) (proj l x))).
    assert (Ha : forall l, proj l a' = add_msg (proj l a) (proj l x)) by (intros l; unfold a'; rewrite proj_of; reflexivity).
    destruct (finalize8_stands c a' s1) as (s2 & hs & E2 & H2); [intros l; rewrite Ha; exact (proj1 (H1 l))|].
    rewrite E2. cbn [bind]. rewrite assert_hashes_ok.
    + cbn [bind]. exists s2. split; [reflexivity|]. intros l. rewrite <- Ha. exact (proj2 (H2 l)).
    + apply oct_forall2. intros l. eapply hash_eq_same; [apply Hes|].
      destruct (H2 l) as (F & _). destruct (H1 l) as (M & _).
      destruct (models_finalize c _ _ _ _ M) as (v & h & Ev & _ & _ & _ & B).
      rewrite F in Ev. assert (proj l hs = h) as -> by congruence. exact B.
  - exfalso. destruct (models_update c _ _ _ _ (proj l x) (H l) (Hf l)) as (u & Eu & _). congruence.
Qed.
Lemma lane_in {A} (l : lane8) (o : oct A) : In (proj l o) (oct_list o).
Proof. destruct o, l; cbn; tauto. Qed.
Lemma in_concat_length {A} (x : list A) l : In x l -> (length x <= length (concat l))%nat.
Proof.
  induction l as [|y l IH]; [contradiction|]. intros [->|H]; cbn [concat]; rewrite app_length; [lia|]. specialize (IH H). lia.
Qed.
Lemma rotate8_all {A} (P : A -> Prop) (o : oct A) : (forall l, P (proj l o)) -> forall l, P (proj l (rotate8 o)).
Proof.
  intros H [| | | | | | |]; [apply (H L1)|apply (H L2)|apply (H L3)|apply (H L4)|apply (H L5)|apply (H L6)|apply (H L7)|apply (H L0)].
Qed.
Lemma test_runs_stands c runs : forall sts,
  (forall l, exists a, stands c a (proj l sts) /\ 
      fits c (N.of_nat (length (stream (a_sp a) (a_msg a))) + run_bytes runs)) ->
  exists sts', test_runs c sts runs = Ok sts' /\ forall l, exists a, stands c a (proj l sts').
Proof.
  induction runs as [|x runs IH]; intros sts H; cbn [test_runs].
  - exists sts. split; [reflexivity|]. intros l. destruct (H l) as (a & S & _). eauto.
  - apply lane_choice in H as (a & H).
    assert (Hb : forall l, N.of_nat (length (proj l x)) + run_bytes runs <= run_bytes (x :: runs)).
    { intros l. unfold run_bytes. cbn [flat_map]. rewrite concat_app, app_length.
      pose proof (in_concat_length _ _ (lane_in l x)). lia. }
    destruct (test_run_stands c a sts x) as (s1 & E1 & H1).
    + intros l. apply H.
    + intros l Ho. destruct (H l) as (_ & Hf). specialize (Hf Ho). specialize (Hb l).
      rewrite stream_app, app_length. lia.
    + rewrite E1. cbn [bind]. apply IH.
      apply (rotate8_all (fun s => exists a, stands c a s /\
        fits c (N.of_nat (length (stream (a_sp a) (a_msg a))) + run_bytes runs))). intros l. eexists. split; [apply H1|].
      intros Ho. destruct (H l) as (_ & Hf). specialize (Hf Ho). specialize (Hb l).
      cbn [add_msg a_sp a_msg]. rewrite stream_app, app_length. lia.
Qed.
Lemma reachable_fits c st : cfg_ok c -> reachable c st -> exists a, stands c a st /\
  fits c (N.of_nat (length (stream (a_sp a) (a_msg a)))).
Proof.
  intros Hc. induction 1 as [l p st Hb Hs|st x st' _ (a & M & F) E|st b _ (a & M & F)|
    st _ (a & M & F)|st st' h _ (a & M & F) E|sts x sts' l Hr IH E|sts sts' hs l Hr IH E].
  - apply build_encodes in Hb as (_ & Hb). destruct (models_new c p _ _ Hc Hb) as (st' & E & M).
    rewrite Hs in E. injection E as <-. exists (new_state l). split; [exact M|].
    apply fits_small. cbn [new_state a_sp a_msg]. rewrite stream_length.
    rewrite key_block_length by (pose proof (e_key_ok _ _ _ Hb); lia).
    destruct (Spec.key (spec_params l)); reflexivity.
  - destruct (fits_dec c (N.of_nat (length (stream (a_sp a) (a_msg a ++ x))))) as [Hf|Hf].
    + destruct (models_update c _ _ _ st x M Hf) as (st2 & E2 & M2).
      rewrite E in E2. injection E2 as <-. exists (add_msg a x). split; [exact M2|exact Hf].
    + rewrite (models_update_panic c _ _ _ st x M Hf) in E. discriminate.
  - exists (mk_astate (a_sp a) b (a_msg a)). split; [eapply models_set_last_node, M|exact F].
  - exists a. split; [apply models_force_portable, M|exact F].
  - destruct (models_finalize c _ _ _ st M) as (st2 & h2 & E2 & M2 & _).
    rewrite E in E2. injection E2 as <- <-. exists a. split; [exact M2|exact F].
  - destruct (lane_choice _ IH) as (a & Ha).
    destruct (fits_dec c (N.of_nat (length (stream (a_sp (proj l a)) (a_msg (proj l a) ++ proj l x))))) as [Hf|Hf].
    + destruct (update8_stands c a sts x (fun l => proj1 (Ha l))) as [(s2 & E2 & H2)|(E2 & _)]; [|congruence].
      rewrite E in E2. injection E2 as <-. exists (add_msg (proj l a) (proj l x)). split; [exact (proj1 (H2 l))|exact Hf].
    + exfalso. destruct (update8_stands c a sts x (fun l => proj1 (Ha l))) as [(s2 & E2 & H2)|(E2 & _)]; [|congruence].
      destruct (H2 l) as (_ & u & Eu & _).
      rewrite (models_update_panic c _ _ _ _ (proj l x) (proj1 (Ha l)) Hf) in Eu. discriminate.
  - destruct (lane_choice _ IH) as (a & Ha).
    destruct (finalize8_stands c a sts (fun l => proj1 (Ha l))) as (s2 & h2 & E2 & H2).
    rewrite E in E2. injection E2 as <- <-. exists (proj l a). split; [exact (proj2 (H2 l))|exact (proj2 (Ha l))].
Qed.
Theorem test_runs_pass c states runs : cfg_ok c -> (forall l, reachable c (proj l states)) ->
  (overflow_checks c = true -> forall l, val (count (proj l states)) + run_bytes runs < 2 ^ 64) ->
  exists states', test_runs c states runs = Ok states'.
Proof.
  intros Hc Hr Hn. destruct (test_runs_stands c runs states) as (sts' & E & _); [|eauto].
  intros l. destruct (reachable_fits c _ Hc (Hr l)) as (a & M & F). exists a. split; [exact M|].
  intros Ho. specialize (Hn Ho l). specialize (F Ho). pose proof (models_count _ _ _ _ _ M) as Hcount.
  rewrite N.mod_small in Hcount by exact F. rewrite <- Hcount. exact Hn.
Qed.
Lemma run_bytes_app r r' : run_bytes (r ++ r') = run_bytes r + run_bytes r'.
Proof. unfold run_bytes. rewrite flat_map_app, concat_app, app_length. lia. Qed.
Lemma run_bytes_repeat x n : run_bytes (repeat x n) = N.of_nat n * run_bytes [x].
Proof.
  induction n as [|n IH]; [reflexivity|]. change (repeat x (S n)) with ([x] ++ repeat x n). rewrite run_bytes_app, IH. lia.
Qed.
Lemma run_bytes_rotate x : run_bytes [rotate8 x] = run_bytes [x].
Proof.
  unfold run_bytes. destruct x. cbn [flat_map rotate8 oct_list o0 o1 o2 o3 o4 o5 o6 o7 app concat].
  rewrite !app_length. cbn [length]. lia.
Qed.
Lemma run_bytes_update8 x : run_bytes (update8_runs x) = 64 * run_bytes [x].
Proof.
  unfold update8_runs. cbn [seq flat_map Nat.iter nat_rect]. rewrite !run_bytes_app, !run_bytes_repeat, !run_bytes_rotate.
  change (run_bytes []) with 0. lia.
Qed.
Theorem test_update8_pass c prefix wacky inputs : cfg_ok c -> forallb valid_setter wacky = true ->
  (overflow_checks c = true -> N.of_nat (length prefix) + 64 * run_bytes [inputs] + 64 < 2 ^ 64) ->
  test_update8 c prefix wacky inputs = Ok tt.
Proof.
  intros Hc V Hn. unfold test_update8. destruct (new_models c Hc) as (s & E & M). rewrite E. cbn [bind].
  destruct (models_update c _ _ _ s prefix M) as (sc & Ec & Mc).
  { intros Ho. specialize (Hn Ho). cbn [app]. rewrite default_stream. lia. }
  rewrite Ec. cbn [bind]. destruct (build_ok wacky V) as (p & Hb & Hp). rewrite Hb. cbn [bind].
  destruct (models_new c p _ _ Hc Hp) as (sd & Ed & Md). rewrite Ed. cbn [bind].
  destruct (test_runs_stands c (update8_runs inputs) (Oct s (set_last_node s true) sc sd s s s s)) as (sts' & Er & _).
  - rewrite run_bytes_update8.
    assert (Hs : forall b st, Models c Spec.default_params b [] st -> exists a, stands c a st /\
        fits c (N.of_nat (length (stream (a_sp a) (a_msg a))) + 64 * run_bytes [inputs])).
    { intros b st M'. exists (mk_astate Spec.default_params b []). split; [exact M'|].
      intros Ho. specialize (Hn Ho). cbn [a_sp a_msg]. rewrite default_stream. cbn [length]. lia. }
    pose proof (models_set_last_node _ _ _ _ _ true M) as Mb.
    assert (Hcc : exists a, stands c a sc /\ fits c (N.of_nat (length (stream (a_sp a) (a_msg a))) + 64 * run_bytes [inputs])).
    { exists (mk_astate Spec.default_params false prefix). split; [exact Mc|].
      intros Ho. specialize (Hn Ho). cbn [a_sp a_msg]. rewrite default_stream. lia. }
    assert (Hdd : exists a, stands c a sd /\ fits c (N.of_nat (length (stream (a_sp a) (a_msg a))) + 64 * run_bytes [inputs])).
    { exists (new_state wacky). split; [exact Md|]. intros Ho. specialize (Hn Ho). cbn [new_state a_sp a_msg].
      rewrite stream_length. rewrite key_block_length by (pose proof (e_key_ok _ _ _ Hp); lia).
      destruct (Spec.key (spec_params wacky)); cbn [length]; lia. }
    intros [| | | | | | |]; cbn [proj o0 o1 o2 o3 o4 o5 o6 o7]; eauto.
  - rewrite Er. reflexivity.
Qed.

Theorem test_hash4_exact_pass c l p inputs : cfg_ok c -> build l = Ok p -> Spec.key (spec_params l) = [] ->
  exact_lengths (map (@length byte) (quad_list inputs)) ->
  (forall k, N.of_nat (length (qproj k inputs)) < 2 ^ 64) -> test_hash4_exact c p inputs = Ok tt.
Proof.
  intros Hc Hb Hk Hx Hl. destruct (hash4_exact_separately c l p inputs Hc Hb Hk Hx Hl) as (hs & E & H).
  unfold test_hash4_exact.
  destruct (H M0) as (A0 & _), (H M1) as (A1 & _), (H M2) as (A2 & _), (H M3) as (A3 & _).
  cbn [qproj] in A0, A1, A2, A3. rewrite A0, A1, A2, A3, E. cbn [bind].
  replace [q0 hs; q1 hs; q2 hs; q3 hs] with (quad_list hs) by (destruct hs; reflexivity).
  apply assert_hashes_ok. apply quad_forall2. intros k. destruct (H k) as (_ & B).
  exact (hash_eq_same _ _ _ B B).
Qed.
Theorem test_hash8_exact_pass c l p inputs : cfg_ok c -> build l = Ok p -> Spec.key (spec_params l) = [] ->
  exact_lengths (map (@length byte) (oct_list inputs)) ->
  (forall k, N.of_nat (length (proj k inputs)) < 2 ^ 64) -> test_hash8_exact c p inputs = Ok tt.
Proof.
  intros Hc Hb Hk Hx Hl. destruct (hash8_exact_separately c l p inputs Hc Hb Hk Hx Hl) as (hs & E & H).
  unfold test_hash8_exact. rewrite (oct_mapM_ok (hash_one c p) inputs hs) by (intros k; apply H). cbn [bind]. rewrite E.
  cbn [bind]. apply assert_hashes_ok, oct_forall2. intros k. destruct (H k) as (_ & B). exact (hash_eq_same _ _ _ B B).
Qed.
Theorem test_hash8_pass c ls ps inputs : cfg_ok c -> (forall l, build (proj l ls) = Ok (proj l ps)) ->
  (forall l, Spec.key (spec_params (proj l ls)) = []) ->
  (forall l, N.of_nat (length (proj l inputs)) < 2 ^ 64) -> test_hash8 c ps inputs = Ok tt.
Proof.
  intros Hc Hb Hk Hl. destruct (hash8_separately c ls ps inputs Hc Hb Hk Hl) as (hs & E & H).
  unfold test_hash8. rewrite (oct_mapM2_ok (hash_one c) ps inputs hs) by (intros k; apply H). cbn [bind]. rewrite E.
  cbn [bind]. apply assert_hashes_ok, oct_forall2. intros k. destruct (H k) as (_ & B). exact (hash_eq_same _ _ _ B B).
Qed.

(** ** The published test vectors *)
Definition with_key (key : list byte) : Spec.params := Spec.mk_params 32 key 1 1 0 0 0 0 [] [].
Theorem kat_blake2s_verdict c key input out : cfg_ok c -> (length key <= 32)%nat -> N.of_nat (length input) + 64 < 2 ^ 64 ->
  kat_blake2s c key input out = verdict (str_eq out (Spec.hex (Spec.blake2s (with_key key) false input))).
Proof.
  intros Hc Hk Hn.
  assert (E : exists h, match key with [] => blake2s c input | _ :: _ => p <- build [SKey key] ;; hash_one c p input end = Ok h /\
               as_bytes h = Ok (Spec.blake2s (with_key key) false input)).
  { destruct key as [|b key].
    - assert (Hl : N.of_nat (length input) < 2 ^ 64) by lia.
      pose proof (one_shot_value c input Hc Hl) as H.
      destruct (blake2s c input) as [h| | |] eqn:E; try discriminate H. exists h. split; [reflexivity|exact H].
    - assert (V : forallb valid_setter [SKey (b :: key)] = true).
      { cbn [forallb valid_setter]. apply andb_true_intro. split; [|reflexivity]. apply N.leb_le.
        change (N.of_nat KEYBYTES) with 32. lia. }
      destruct (build_ok _ V) as (p & Hb & Hp). rewrite Hb. cbn [bind].
      destruct (hash_one_ok c p _ _ input Hc Hp) as (h & Eh & _ & _ & _ & B).
      { apply fits_small. exact (small_stream _ p input Hb Hn). }
      exists h. split; [exact Eh|exact B]. }
  destruct E as (h & E & B). unfold kat_blake2s. rewrite E. cbn [bind].
  rewrite (hex_of h _ B) by apply digest_le. reflexivity.
Qed.
Theorem kat_blake2sp_verdict c key input out : cfg_ok c -> (length key <= 32)%nat ->
  match key with [] => N.of_nat (length input) < 2 ^ 64 | _ :: _ => (length input <= 960)%nat end ->
  kat_blake2sp c key input out = verdict (str_eq out (Spec.hex (Spec.blake2sp 32 key input))).
Proof.
  intros Hc Hk Hn. destruct key as [|b key].
  - unfold kat_blake2sp. pose proof (sp_one_shot_value c input Hc Hn) as H.
    destruct (blake2sp c input) as [h| | |] eqn:E; try discriminate H. cbn [bind] in *.
    rewrite (hex_of h _ H) by apply sp_digest_le. reflexivity.
  - assert (V : forallb sp_setter_ok [SpKey (b :: key)] = true).
    { cbn [forallb sp_setter_ok]. apply andb_true_intro. split; [|reflexivity]. apply N.leb_le. cbn [length] in *. lia. }
    pose proof (sp_all_parameters_verdict c [SpKey (b :: key)] input out Hc V Hn) as H.
    change (Spec.blake2sp 32 (b :: key) input) with (Spec.blake2sp (sp_dlen [SpKey (b :: key)]) (sp_keyval [SpKey (b :: key)]) input).
    rewrite <- H. unfold kat_blake2sp, test_all_parameters_blake2sp.
    destruct (sp_build [SpKey (b :: key)]) as [p| | |]; cbn [bind]; try reflexivity.
    destruct (sp_to_state c p) as [s| | |]; cbn [bind]; try reflexivity.
    destruct (sp_update c s input) as [s1| | |]; cbn [bind]; reflexivity.
Qed.

(** ** The unit tests of the vector code *)
Lemma avx2_units :
  (forall a0 a1 a2 a3 a4 a5 a6 a7 b0 b1 b2 b3 b4 b5 b6 b7 : u32,
     Avx2.interleave128 (Oct a0 a1 a2 a3 a4 a5 a6 a7) (Oct b0 b1 b2 b3 b4 b5 b6 b7) =
     (Oct a0 a1 a2 a3 b0 b1 b2 b3, Oct a4 a5 a6 a7 b4 b5 b6 b7)) /\
  (forall a b : oct u32,
     Avx2.load_2x256 (flat_map u32_to_bytes (oct_list a ++ oct_list b)) = (a, b)) /\
  (forall (vecs : oct m256) l k, proj l (proj k (Avx2.transpose_vecs vecs)) = proj k (proj l vecs)) /\
  (forall vecs : oct m256, Avx2.transpose_vecs (Avx2.transpose_vecs vecs) = vecs).
Proof.
  split; [|split; [|split]].
  - reflexivity.
  - intros a b. destruct a as [a0 a1 a2 a3 a4 a5 a6 a7], b as [b0 b1 b2 b3 b4 b5 b6 b7].
    rewrite load_2x256_spec by reflexivity.
    cbn [oct_list app flat_map u32_to_bytes o0 o1 o2 o3 o4 o5 o6 o7].
    rewrite !read_u32_nth by (cbn [app length]; lia). cbn [app nth Nat.add].
    rewrite !u32_of_bytes_roundtrip. reflexivity.
  - apply transpose_spec.
  - apply transpose_involutive.
Qed.
Lemma sse41_units :
  (forall (a b c d : m128) l k,
     qproj l (qproj k (Sse41.transpose_vecs a b c d)) = qproj k (qproj l (Quad a b c d))) /\
  (forall a b c d : m128,
     let t := Sse41.transpose_vecs a b c d in Sse41.transpose_vecs (q0 t) (q1 t) (q2 t) (q3 t) = Quad a b c d).
Proof.
  split; [apply transpose4_spec|]. intros a b c d. destruct a, b, c, d. reflexivity.
Qed.

(** ** As statements about passing *)
Lemma verdict_iff (P : Prop) b : (b = true <-> P) -> passes_iff P (verdict b).
Proof.
  intros H. split; intros HP.
  - apply H in HP. rewrite HP. reflexivity.
  - destruct b; [|reflexivity]. exfalso. apply HP, H. reflexivity.
Qed.
Lemma passes_compression_impls c block blocks e1 e8 : cfg_ok c -> length block = 64%nat ->
  (forall l, length (proj l blocks) = 64%nat) ->
  passes_iff (e1 = Spec.hex (Spec.blake2s Spec.default_params false block) /\
              forall l, proj l e8 = Spec.hex (Spec.blake2s Spec.default_params false (proj l blocks)))
    (test_all_compression_impls c block blocks e1 e8).
Proof.
  intros Hc Hb Hbs. rewrite (compression_impls_verdict c block blocks e1 e8 Hc Hb Hbs). apply verdict_iff.
  rewrite andb_true_iff, str_eq_ok. fold (one_digest block).
  assert (H8 : str8_eq e8 (oct_map one_digest blocks) = true <-> forall l, proj l e8 = one_digest (proj l blocks)).
  { unfold str8_eq. destruct e8 as [e f g h i j k m], blocks as [b b0 b1 b2 b3 b4 b5 b6].
    cbn [oct_list oct_map o0 o1 o2 o3 o4 o5 o6 o7 combine forallb fst snd].
    rewrite !andb_true_iff, !str_eq_ok. split.
    - intros (H0 & H1 & H2 & H3 & H4 & H5 & H6 & H7 & _) [| | | | | | |]; assumption.
    - intros H. pose proof (H L0); pose proof (H L1); pose proof (H L2); pose proof (H L3);
      pose proof (H L4); pose proof (H L5); pose proof (H L6); pose proof (H L7).
      cbn [proj o0 o1 o2 o3 o4 o5 o6 o7] in *. repeat split; assumption. }
  rewrite H8. reflexivity.
Qed.
Lemma passes_vector c input output : cfg_ok c -> N.of_nat (length input) < 2 ^ 64 ->
  passes_iff (output = Spec.hex (Spec.blake2s Spec.default_params false input)) (test_vector c input output).
Proof. intros Hc Hn. rewrite vector_verdict by assumption. apply verdict_iff. rewrite str_eq_ok. split; congruence. Qed.
Lemma passes_multiple_finalizes c input e0 e1 : cfg_ok c -> N.of_nat (length input) < 2 ^ 64 ->
  passes_iff (e0 = Spec.hex (Spec.blake2s Spec.default_params false []) /\
              e1 = Spec.hex (Spec.blake2s Spec.default_params false input)) (test_multiple_finalizes c input e0 e1).
Proof.
  intros Hc Hn. rewrite multiple_finalizes_verdict by assumption. apply verdict_iff.
  rewrite andb_true_iff, !str_eq_ok. split; intros [H1 H2]; split; congruence.
Qed.
Lemma passes_write c input e : cfg_ok c -> N.of_nat (length input) < 2 ^ 64 ->
  passes_iff (e = Spec.hex (Spec.blake2s Spec.default_params false input)) (test_write c input e).
Proof. intros Hc Hn. rewrite write_verdict by assumption. apply verdict_iff. rewrite str_eq_ok. split; congruence. Qed.
Lemma passes_all_parameters c l b input e : cfg_ok c -> forallb valid_setter l = true ->
  N.of_nat (length input) + 64 < 2 ^ 64 ->
  passes_iff (e = Spec.hex (Spec.blake2s (spec_params l) b input)) (test_all_parameters c l b input e).
Proof. intros Hc V Hn. rewrite all_parameters_verdict by assumption. apply verdict_iff, str_eq_ok. Qed.
Lemma passes_all_parameters_blake2sp c l input e : cfg_ok c -> forallb sp_setter_ok l = true ->
  match sp_keyval l with [] => N.of_nat (length input) < 2 ^ 64 | _ => (length input <= 960)%nat end ->
  passes_iff (e = Spec.hex (Spec.blake2sp (sp_dlen l) (sp_keyval l) input)) (test_all_parameters_blake2sp c l input e).
Proof. intros Hc V Hn. rewrite sp_all_parameters_verdict by assumption. apply verdict_iff, str_eq_ok. Qed.
Lemma passes_kat_blake2s c key input out : cfg_ok c -> (length key <= 32)%nat -> N.of_nat (length input) + 64 < 2 ^ 64 ->
  passes_iff (out = Spec.hex (Spec.blake2s (Spec.mk_params 32 key 1 1 0 0 0 0 [] []) false input)) (kat_blake2s c key input out).
Proof. intros Hc Hk Hn. rewrite kat_blake2s_verdict by assumption. apply verdict_iff, str_eq_ok. Qed.
Lemma passes_kat_blake2sp c key input out : cfg_ok c -> (length key <= 32)%nat ->
  match key with [] => N.of_nat (length input) < 2 ^ 64 | _ :: _ => (length input <= 960)%nat end ->
  passes_iff (out = Spec.hex (Spec.blake2sp 32 key input)) (kat_blake2sp c key input out).
Proof. intros Hc Hk Hn. rewrite kat_blake2sp_verdict by assumption. apply verdict_iff, str_eq_ok. Qed.
