(** * ReferenceUse: the crate against the C code of RFC 7693 (proofs for C53). *)
From Coq Require Import ZArith Lia ZifyBool ZifyNat ZifyN.
From Verif Require Import Base Consts Params State Views MachineSpec ParamsSpec Clients Corollaries Behave Reference ReferenceFacts.
From Verif Require Spec.
Local Open Scope N_scope.
Local Opaque N.pow.

Lemma valid_two outlen k : forallb valid_setter [SHashLength (N.of_nat outlen); SKey k] =
  (1 <=? outlen)%nat && (outlen <=? 32)%nat && (length k <=? 32)%nat.
Proof. cbn [forallb valid_setter]. lia. Qed.
Lemma valid_two' outlen k : forallb valid_setter [SKey k; SHashLength (N.of_nat outlen)] =
  (1 <=? outlen)%nat && (outlen <=? 32)%nat && (length k <=? 32)%nat.
Proof. cbn [forallb valid_setter]. lia. Qed.

Theorem crate_reference c junk outlen k pieces l : cfg_ok c -> length junk = 64%nat ->
  l = [SHashLength (N.of_nat outlen); SKey k] \/ l = [SKey k; SHashLength (N.of_nat outlen)] ->
  N.of_nat (length (Spec.key_block k)) + N.of_nat (length (concat pieces)) < 2 ^ 64 ->
  (p <- build l ;; hash_pieces c p pieces) =
  match reference junk outlen k pieces with Some d => Ok d | None => Panic end.
Proof.
  intros Hc Hj Hl Ht. rewrite (reference_spec junk outlen k pieces Hj).
  assert (Hv : forallb valid_setter l = (1 <=? outlen)%nat && (outlen <=? 32)%nat && (length k <=? 32)%nat)
    by (destruct Hl as [-> | ->]; [apply valid_two|apply valid_two']).
  assert (Hs : spec_params l = ref_params outlen k /\ spec_last_node l = false)
    by (destruct Hl as [-> | ->]; split; reflexivity).
  destruct Hs as (Hs & Hn).
  destruct ((1 <=? outlen)%nat && (outlen <=? 32)%nat && (length k <=? 32)%nat) eqn:E.
  - destruct (proj1 (build_outcome l) Hv) as (p & Hp). rewrite Hp. cbn [bind].
    rewrite (hash_pieces_value c l p pieces Hc Hp); [rewrite Hs, Hn; reflexivity|].
    rewrite Hs. exact Ht.
  - rewrite (proj2 (build_outcome l) Hv). reflexivity.
Qed.

(** The self-test. *)
Definition plain_spec (outlen : nat) (k inp : list byte) : list byte := Spec.blake2s (ref_params outlen k) false inp.
Definition crate_hash (c : cfg) (outlen : nat) (k inp : list byte) : list byte :=
  match (p <- build [SHashLength (N.of_nat outlen); SKey k] ;; hash_pieces c p [inp]) with Ok d => d | _ => [] end.
Lemma crate_hash_spec c outlen k inp : cfg_ok c -> (1 <= outlen <= 32)%nat -> (length k <= 32)%nat ->
  N.of_nat (length inp) < 2 ^ 63 -> crate_hash c outlen k inp = plain_spec outlen k inp.
Proof.
  intros Hc Ho Hk Hi. unfold crate_hash. 
  rewrite (crate_reference c (repeat x00 64) outlen k [inp] _ Hc eq_refl (or_introl eq_refl)).
  - rewrite reference_spec by reflexivity.
    replace ((1 <=? outlen)%nat && (outlen <=? 32)%nat && (length k <=? 32)%nat) with true by (symmetry; lia).
    cbn [concat]. rewrite app_nil_r. reflexivity.
  - cbn [concat]. rewrite app_nil_r. assert (length (Spec.key_block k) <= 64)%nat.
    { destruct k; [cbn; lia|]. change (Spec.key_block (b :: k)) with (Spec.pad 64 (b :: k)). rewrite SpecFacts.pad_length. lia. }
    change (2 ^ 64) with (2 ^ 63 + 2 ^ 63). change (2 ^ 63) with 9223372036854775808 in *. lia.
Qed.
Lemma selftest_seq_length n s : length (selftest_seq n s) = n.
Proof. unfold selftest_seq. generalize (Spec.low32 (0xDEAD4BAD * N.of_nat s)), 1. induction n as [|n IH]; intros a b; [reflexivity|]. cbn [selftest_loop length]. rewrite IH. reflexivity. Qed.
Lemma flat_map_ext_in {A B} (f g : A -> list B) l : (forall x, In x l -> f x = g x) -> flat_map f l = flat_map g l.
Proof.
  induction l as [|x l IH]; intros H; [reflexivity|]. cbn [flat_map]. rewrite (H x) by (left; reflexivity).
  rewrite IH; [reflexivity|]. intros y Hy. apply H. right. exact Hy.
Qed.
Lemma selftest_ext f g : (forall outlen k inp, (1 <= outlen <= 32)%nat -> (length k <= 32)%nat -> N.of_nat (length inp) < 2 ^ 63 ->
  f outlen k inp = g outlen k inp) -> selftest_hashes f = selftest_hashes g.
Proof.
  intros H. unfold selftest_hashes. apply flat_map_ext_in. intros o Ho. apply flat_map_ext_in. intros n Hn.
  assert (Ho' : (1 <= o <= 32)%nat) by (cbn [In] in Ho; lia).
  assert (Hn' : (n <= 1024)%nat) by (cbn [In] in Hn; lia).
  assert (Hi : N.of_nat (length (selftest_seq n n)) < 2 ^ 63)
    by (rewrite selftest_seq_length; change (2 ^ 63) with 9223372036854775808; lia).
  cbv zeta. f_equal; [apply H; [exact Ho'|cbn; lia|exact Hi]|]. f_equal.
  apply H; [exact Ho'|rewrite selftest_seq_length; lia|exact Hi].
Qed.
Lemma concat_le (l : list (list byte)) : Forall (fun d => length d <= 32)%nat l -> (length (concat l) <= 32 * length l)%nat.
Proof. induction 1 as [|d l Hd _ IH]; [cbn; lia|]. cbn [concat length]. rewrite app_length. lia. Qed.
Lemma selftest_hashes_length f : (forall o k i, length (f o k i) <= 32)%nat -> (length (concat (selftest_hashes f)) <= 1536)%nat.
Proof.
  intros H. assert (E : length (selftest_hashes f) = 48%nat) by reflexivity.
  pose proof (concat_le (selftest_hashes f)) as L. rewrite E in L. apply L. apply Forall_forall. intros d Hd.
  unfold selftest_hashes in Hd. apply in_flat_map in Hd as (o & _ & Hd). apply in_flat_map in Hd as (n & _ & Hd).
  destruct Hd as [<-|[<-|[]]]; apply H.
Qed.
Definition selftest (blake2s : nat -> list byte -> list byte -> list byte) : list byte :=
  blake2s 32%nat [] (concat (selftest_hashes blake2s)).
Lemma spec_selftest : selftest plain_spec = blake2s_res.
Proof. vm_compute. reflexivity. Qed.
Lemma plain_spec_length o k i : (length (plain_spec (Nat.min o 32) k i) <= 32)%nat.
Proof. unfold plain_spec, Spec.blake2s. rewrite firstn_length. unfold ref_params. cbn [Spec.digest_length]. lia. Qed.
Theorem crate_selftest c : cfg_ok c -> selftest (crate_hash c) = blake2s_res.
Proof.
  intros Hc. rewrite <- spec_selftest. unfold selftest.
  assert (E : selftest_hashes (crate_hash c) = selftest_hashes plain_spec)
    by (apply selftest_ext; intros; apply crate_hash_spec; assumption).
  rewrite E. apply crate_hash_spec; [exact Hc|lia|cbn; lia|].
  pose proof (selftest_hashes_length (fun o => plain_spec (Nat.min o 32)) plain_spec_length) as L.
  rewrite (selftest_ext _ plain_spec) in L; [|intros o k i Ho _ _; rewrite Nat.min_l by lia; reflexivity].
  change (2 ^ 63) with 9223372036854775808. lia.
Qed.

Lemma constants_sqrt : nums IV = map (fun p => N.sqrt (p * 2 ^ 64) mod 2 ^ 32) [2; 3; 5; 7; 11; 13; 17; 19].
Proof. vm_compute. reflexivity. Qed.
