(** * TestRunFacts: the crate's tests pass in every configuration. *)
From Coq Require Import String List.
From Verif Require Import Base BaseFacts Consts Params ParamsSpec ParamsFacts SpecFacts State Many ManyFacts ExactFacts Blake2sp Views
  Clients Behave Corollaries TestCode TestFacts TestSuite TestSuiteFacts TestRun Vectors.
From Verif Require Spec.
From Coq Require Import ZArith Lia.
Local Open Scope list_scope.
Local Open Scope N_scope.

Lemma sub_length_le {A} (x : list A) i n : (length (sub x i n) <= n)%nat.
Proof. unfold sub. rewrite firstn_length. lia. Qed.
Lemma run_bytes_le x n : (forall l, (length (proj l x) <= n)%nat) -> run_bytes [x] <= N.of_nat (8 * n).
Proof.
  intros H. unfold run_bytes. destruct x as [a b c d e f g h]. 
  pose proof (H L0); pose proof (H L1); pose proof (H L2); pose proof (H L3);
  pose proof (H L4); pose proof (H L5); pose proof (H L6); pose proof (H L7).
  cbn [proj o0 o1 o2 o3 o4 o5 o6 o7] in *.
  cbn [flat_map oct_list o0 o1 o2 o3 o4 o5 o6 o7 app concat]. rewrite !app_length. cbn [length]. lia.
Qed.

Lemma paint_length fuel : forall k n, (n <= fuel)%nat -> length (paint_loop fuel k n) = n.
Proof.
  induction fuel as [|fuel IH]; intros k n H; [cbn; lia|].
  destruct n as [|n]; [reflexivity|]. cbn [paint_loop]. cbv zeta. rewrite app_length, firstn_length.
  rewrite IH by lia. change (length (u32_to_bytes (of_N 32 k))) with 4%nat. lia.
Qed.

Lemma plain_text x e : plain x = e -> e = Spec.hex (Spec.blake2s Spec.default_params false x).
Proof. intros H. symmetry. exact H. Qed.
Lemma counting_length n : length (counting n) = n.
Proof. unfold counting. rewrite map_length, seq_length. reflexivity. Qed.
Definition lane_index (l : lane8) : nat :=
  match l with L0 => 0 | L1 => 1 | L2 => 2 | L3 => 3 | L4 => 4 | L5 => 5 | L6 => 6 | L7 => 7 end.
Lemma f_inputs_length f l : length (proj l (f_inputs f)) = (4 * 64 + f (lane_index l))%nat.
Proof. destruct l; cbn [proj f_inputs o0 o1 o2 o3 o4 o5 o6 o7 lane_index]; apply repeat_length. Qed.
Lemma f_inputs_small f : (forall i, (i < 8)%nat -> (f i <= 7)%nat) -> forall l, N.of_nat (length (proj l (f_inputs f))) < 2 ^ 64.
Proof.
  intros H l. rewrite f_inputs_length. assert (Hl : (lane_index l < 8)%nat) by (destruct l; cbn [lane_index]; lia).
  specialize (H _ Hl). lia.
Qed.
Lemma f_built n last : (1 <= n <= 32) -> exists p, build (f_setters n last) = Ok p.
Proof.
  intros H. destruct (build_ok (f_setters n last)) as (p & Hb & _); [|eauto].
  unfold f_setters. cbn [forallb valid_setter andb].
  apply andb_true_intro. split; [|reflexivity]. apply andb_true_intro. split; apply N.leb_le; lia.
Qed.
Lemma f_params_built : exists ps, oct_mapM build f_params = Ok ps /\ forall l, build (proj l f_params) = Ok (proj l ps).
Proof.
  assert (H : forall l, exists p, build (proj l f_params) = Ok p).
  { intros [| | | | | | |]; cbn [proj f_params o0 o1 o2 o3 o4 o5 o6 o7]; apply f_built; lia. }
  apply lane_choice in H as (ps & H). exists ps. split; [|exact H]. apply oct_mapM_ok. exact H.
Qed.

Theorem crate_tests_pass c : cfg_ok c -> Forall (fun t => t = Ok tt) (crate_tests c).
Proof.
  intros Hc. unfold crate_tests. apply Forall_app; split; [|apply Forall_app; split; [|apply Forall_app; split; [|apply Forall_app; split]]].
  - constructor.
    { apply passes_compression_impls; [exact Hc|apply counting_length| |].
      - intros [| | | | | | |]; cbn [proj o0 o1 o2 o3 o4 o5 o6 o7]; apply repeat_length.
      - split; [apply plain_text, COUNTER_BLOCK_HASH|].
        intros [| | | | | | |]; cbn [proj o0 o1 o2 o3 o4 o5 o6 o7]; apply plain_text;
          [exact BLOCK_OF_ONES|exact BLOCK_OF_TWOS|exact BLOCK_OF_THREES|exact BLOCK_OF_FOURS
          |exact BLOCK_OF_FIVES|exact BLOCK_OF_SIXES|exact BLOCK_OF_SEVENS|exact BLOCK_OF_EIGHTS]. }
    constructor.
    { apply passes_vector; [exact Hc|reflexivity|apply plain_text, EMPTY_HASH]. }
    constructor.
    { apply passes_vector; [exact Hc|reflexivity|apply plain_text, ABC_HASH]. }
    constructor.
    { apply passes_vector; [exact Hc|rewrite repeat_length; reflexivity|apply plain_text, ONE_BLOCK_HASH]. }
    constructor.
    { apply passes_vector; [exact Hc|rewrite repeat_length; reflexivity|apply plain_text, THOUSAND_HASH]. }
    constructor.
    { apply passes_multiple_finalizes; [exact Hc|reflexivity|].
      split; apply plain_text; [exact EMPTY_HASH|exact ABC_HASH]. }
    constructor.
    { apply passes_write; [exact Hc|rewrite repeat_length; reflexivity|apply plain_text, THOUSAND_HASH]. }
    constructor.
    { apply passes_all_parameters; [exact Hc|reflexivity|reflexivity|]. symmetry.
      etransitivity; [|exact all_parameters]. 
      match goal with |- context [spec_params ?l] => assert (E : spec_params l = Spec.mk_params 18 (text "bar") 2 3
        0x04050607 (2 ^ 48 - 1) 16 17 (text "bazbazba") (text "bing bin")) by (vm_compute; reflexivity) end.
      rewrite E. reflexivity. }
    constructor.
    { apply passes_all_parameters_blake2sp; [exact Hc|reflexivity| |].
      - change (length (text "foo") <= 960)%nat. cbn. lia.
      - symmetry. exact all_parameters_blake2sp. }
    constructor.
  - apply Forall_map. exact (proj1 panicking_calls_pass).
  - apply Forall_map. exact (proj2 panicking_calls_pass).
  - constructor.
    { apply test_update8_pass; [exact Hc|reflexivity|]. intros _. unfold update8_inputs. cbv zeta.
      match goal with |- _ + 64 * run_bytes [?x] + _ < _ => pose proof (run_bytes_le x 640) as H end.
      specialize (H ltac:(intros [| | | | | | |]; cbn [proj o0 o1 o2 o3 o4 o5 o6 o7]; unfold blocks_from;
        etransitivity; try apply sub_length_le; lia)).
      change (N.of_nat (length (text "foobarbaz"))) with 9. lia. }
    constructor.
    { unfold with_built. destruct (f_built 31 true ltac:(lia)) as (p & Hb). rewrite Hb. cbn [bind]. cbv zeta.
      eapply test_hash4_exact_pass; [exact Hc|exact Hb|reflexivity| |].
      - cbn [f_inputs o0 o1 o2 o3 quad_list map]. rewrite !repeat_length. exists 4%nat. split; [lia|].
        cbn [In]. intros x Hx. lia.
      - intros [| | |]; cbn [f_inputs qproj q0 q1 q2 q3 o0 o1 o2 o3]; rewrite repeat_length; reflexivity. }
    constructor.
    { unfold with_built. destruct (f_built 31 true ltac:(lia)) as (p & Hb). rewrite Hb. cbn [bind].
      eapply test_hash8_exact_pass; [exact Hc|exact Hb|reflexivity| |].
      - cbn [f_inputs oct_list o0 o1 o2 o3 o4 o5 o6 o7 map]. rewrite !repeat_length. exists 4%nat. split; [lia|].
        cbn [In]. intros x Hx. lia.
      - apply f_inputs_small. lia. }
    destruct f_params_built as (ps & Em & Hb).
    assert (Hk : forall l, Spec.key (spec_params (proj l f_params)) = []) by (intros [| | | | | | |]; reflexivity).
    constructor.
    { unfold with_built8. rewrite Em. cbn [bind]. eapply test_hash8_pass; [exact Hc|exact Hb|exact Hk|].
      apply f_inputs_small. lia. }
    constructor.
    { unfold with_built8. rewrite Em. cbn [bind]. eapply test_hash8_pass; [exact Hc|exact Hb|exact Hk|].
      apply f_inputs_small. lia. }
    constructor.
  - apply Forall_map, Forall_forall. intros n Hn. apply in_seq in Hn.
    assert (Hl : length (firstn (n * 64) (paint_input (20 * 64))) = (n * 64)%nat).
    { rewrite firstn_length. unfold paint_input. rewrite paint_length by lia. lia. }
    apply test_buffering_passes; [exact Hc|rewrite Hl; lia|rewrite Hl; lia].
Qed.
