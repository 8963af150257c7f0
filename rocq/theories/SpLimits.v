(** * SpLimits: three messages of about 2^64 and 2^67 bytes, for the example of C63. *)
From Verif Require Import Base Params ParamsSpec State Blake2sp SpFacts Machine MachineSpec Clients Behave Terms Witness Corollaries SpOverflow.
From Verif Require Spec.
From Coq Require Import Lia ZifyBool ZifyNat ZifyN.
Local Open Scope N_scope.

Lemma such_nat (m : N) (Q : nat -> Prop) : (forall n, N.of_nat n = m -> Q n) -> exists n, N.of_nat n = m /\ Q n.
Proof. intros H. exists (N.to_nat m). split; [apply N2Nat.id|apply H, N2Nat.id]. Qed.
Lemma debug_portable_ok : cfg_ok debug_portable.
Proof. discriminate. Qed.
Lemma zeros_length n : length (concat [repeat x00 n]) = n.
Proof. cbn [concat]. rewrite app_nil_r. apply repeat_length. Qed.
Lemma hashes_zeros p n : sp_build [SpHashLength 13] = Ok p -> first_leaf_bytes (N.of_nat n) < 2 ^ 64 ->
  sp_hash_pieces debug_portable p [repeat x00 n] = Ok (Spec.blake2sp 13 [] (repeat x00 n)).
Proof.
  intros Hb Hn. pose proof (sp_hash_limit debug_portable _ _ [repeat x00 n] debug_portable_ok Hb eq_refl) as H.
  cbv zeta in H. rewrite zeros_length in H. apply N.leb_gt in Hn. rewrite Hn, andb_false_r in H. rewrite H.
  cbn [concat]. rewrite app_nil_r. reflexivity.
Qed.
Lemma limit_example : exists p, sp_build [SpHashLength 13] = Ok p /\ sp_keyval [SpHashLength 13] = [] /\
  overflow_checks debug_portable = true /\
  (exists n, N.of_nat n = 2 ^ 64 /\ exists st,
    (s <- sp_to_state debug_portable p ;; sp_feed debug_portable s [repeat x00 n]) = Ok st /\
    sp_count debug_portable st = Panic /\
    sp_hash_pieces debug_portable p [repeat x00 n] = Ok (Spec.blake2sp 13 [] (repeat x00 n))) /\
  (exists n, N.of_nat n = 2 ^ 67 - 449 /\
    sp_hash_pieces debug_portable p [repeat x00 n] = Ok (Spec.blake2sp 13 [] (repeat x00 n))) /\
  (exists n, N.of_nat n = 2 ^ 67 - 448 /\ sp_hash_pieces debug_portable p [repeat x00 n] = Panic).
Proof.
  assert (exists p, sp_build [SpHashLength 13] = Ok p) as (p & Hb) by (eexists; lazy; reflexivity).
  exists p. split; [exact Hb|]. split; [reflexivity|]. split; [reflexivity|]. split; [|split].
  - apply such_nat. intros n Hn.
    assert (H : sp_hash_pieces debug_portable p [repeat x00 n] = Ok (Spec.blake2sp 13 [] (repeat x00 n))).
    { apply hashes_zeros; [exact Hb|]. rewrite Hn. reflexivity. }
    assert (exists st, (s <- sp_to_state debug_portable p ;; sp_feed debug_portable s [repeat x00 n]) = Ok st) as (st & Es).
    { revert H. unfold sp_hash_pieces. destruct (sp_to_state debug_portable p) as [s| | |]; cbn [bind]; try discriminate.
      destruct (sp_feed debug_portable s [repeat x00 n]) as [st| | |]; cbn [bind]; try discriminate. intros _. exists st. reflexivity. }
    exists st. split; [exact Es|]. split; [|exact H].
    pose proof (sp_count_limit debug_portable _ _ _ st debug_portable_ok Hb eq_refl Es) as H2.
    cbv zeta in H2. rewrite zeros_length, Hn in H2. exact H2.
  - apply such_nat. intros n Hn. apply hashes_zeros; [exact Hb|]. rewrite Hn. reflexivity.
  - apply such_nat. intros n Hn.
    pose proof (sp_hash_limit debug_portable _ _ [repeat x00 n] debug_portable_ok Hb eq_refl) as H.
    cbv zeta in H. rewrite zeros_length, Hn in H. exact H.
Qed.
