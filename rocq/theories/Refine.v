(** * Refine: a [State] stands for (parameters, last-node flag, bytes supplied). *)
From Verif Require Import Base BaseFacts Consts Portable PortableFacts SpecFacts Params ParamsSpec
  State StateFacts ParamsFacts.
From Verif Require Spec.
From Coq Require Import ZArith Lia ZifyBool ZifyNat ZifyN.
Local Open Scope N_scope.

(** The bytes hashed: key block, then message. *)
Definition stream (sp : Spec.params) (msg : list byte) : list byte :=
  Spec.key_block (Spec.key sp) ++ msg.

Record Models (c : cfg) (sp : Spec.params) (ln : bool) (msg : list byte) (st : State) : Prop := {
  mo_valid : Spec.valid sp;
  mo_last : st_last_node st = ln;
  mo_hash : val (st_hash_length st) = Spec.digest_length sp;
  mo_rep : exists k, Rep c (Spec.initial sp) (stream sp msg) k st /\ lazy_k (stream sp msg) k
}.

Lemma stream_app sp msg x : stream sp (msg ++ x) = stream sp msg ++ x.
Proof. apply app_assoc. Qed.
Lemma stream_length sp msg :
  length (stream sp msg) = (length (Spec.key_block (Spec.key sp)) + length msg)%nat.
Proof. apply app_length. Qed.
Lemma key_block_length k : (length k <= 64)%nat ->
  length (Spec.key_block k) = match k with [] => 0%nat | _ => 64%nat end.
Proof. destruct k; intros H; [reflexivity|]. cbn [Spec.key_block]. rewrite pad_length. lia. Qed.

Theorem models_new c p sp ln : cfg_ok c -> encodes p sp ln ->
  exists st, to_state c p = Ok st /\ Models c sp ln [] st.
Proof.
  intros Hc E. destruct (with_params_ok c p sp ln Hc E) as (st & k & Es & R & Hl & M1 & M2 & _).
  exists st. split; [exact Es|]. constructor.
  - eapply encodes_valid, E.
  - exact M1.
  - rewrite M2. apply (e_hash _ _ _ E).
  - exists k. unfold stream. rewrite app_nil_r. split; assumption.
Qed.

Theorem models_update c sp ln msg st input : Models c sp ln msg st ->
  fits c (N.of_nat (length (stream sp (msg ++ input)))) ->
  exists st', update c st input = Ok st' /\ Models c sp ln (msg ++ input) st'.
Proof.
  intros M Hf. destruct M as [Hv Hl Hh (k & R & Hz)].
  rewrite stream_app, app_length in Hf.
  destruct (update_ok c _ _ _ st input R Hf) as (st' & k' & E & R' & (M1 & M2 & M3) & Hz').
  exists st'. split; [exact E|]. constructor.
  - exact Hv.
  - congruence.
  - congruence.
  - exists k'. rewrite stream_app. split; [exact R'|]. apply Hz'. left. exact Hz.
Qed.

Theorem models_update_panic c sp ln msg st input : Models c sp ln msg st ->
  ~ fits c (N.of_nat (length (stream sp (msg ++ input)))) -> update c st input = Panic.
Proof.
  intros M Hf. destruct M as [Hv Hl Hh (k & R & Hz)].
  rewrite stream_app, app_length in Hf. eapply update_overflow; eassumption.
Qed.

Lemma words_bytes_32 h : length h = 8%nat -> length (Spec.words_bytes h) = 32%nat.
Proof. intros H. rewrite words_bytes_length. lia. Qed.

Theorem models_finalize c sp ln msg st : Models c sp ln msg st ->
  exists st' h, finalize c st = Ok (st', h) /\ Models c sp ln msg st' /\
    length (h_bytes h) = 32%nat /\ val (h_len h) = Spec.digest_length sp /\
    as_bytes h = Ok (Spec.blake2s sp ln msg).
Proof.
  intros M. destruct M as [Hv Hl Hh (k & R & Hz)].
  rewrite (finalize_ok c _ _ _ _ R Hz).
  do 2 eexists. split; [reflexivity|].
  assert (H32 : length (Spec.words_bytes
      (Spec.hash_words (Spec.initial sp) (stream sp msg) (st_last_node st))) = 32%nat).
  { apply words_bytes_32, hash_words_length. }
  split; [|split; [exact H32|split; [exact Hh|]]].
  - constructor; try assumption. exists k. split; [|exact Hz]. apply Rep_zeroed, R.
  - unfold as_bytes. cbn [h_bytes h_len]. rewrite slice_to_ok.
    + rewrite Hh, Hl. reflexivity.
    + rewrite H32, Hh. destruct Hv as (Hd & _). lia.
Qed.

Theorem models_set_last_node c sp ln msg st b : Models c sp ln msg st ->
  Models c sp b msg (set_last_node st b).
Proof.
  intros M. destruct M as [Hv Hl Hh (k & R & Hz)]. constructor; try assumption; try reflexivity.
  exists k. split; [|exact Hz]. apply Rep_set_last_node, R.
Qed.

Theorem models_force_portable c sp ln msg st : Models c sp ln msg st ->
  Models c sp ln msg (force_portable st).
Proof.
  intros M. destruct M as [Hv Hl Hh (k & R & Hz)]. constructor; try assumption.
  exists k. split; [|exact Hz]. apply Rep_force_portable, R.
Qed.

Theorem models_count c sp ln msg st : Models c sp ln msg st ->
  val (count st) = N.of_nat (length (stream sp msg)) mod 2 ^ 64.
Proof. intros M. destruct M as [Hv Hl Hh (k & R & Hz)]. apply (rep_count _ _ _ _ _ R). Qed.

Theorem models_write c sp ln msg st input : Models c sp ln msg st ->
  fits c (N.of_nat (length (stream sp (msg ++ input)))) ->
  exists st', write c st input = Ok (st', length input) /\ Models c sp ln (msg ++ input) st'.
Proof.
  intros M Hf. destruct (models_update c sp ln msg st input M Hf) as (st' & E & M').
  exists st'. unfold write. rewrite E. split; [reflexivity|exact M'].
Qed.

(** ** One-shot hashing *)
From Verif Require Import Many.
Theorem hash_one_ok c p sp ln input : cfg_ok c -> encodes p sp ln ->
  fits c (N.of_nat (length (stream sp input))) ->
  exists h, hash_one c p input = Ok h /\ length (h_bytes h) = 32%nat /\
    h_len h = p_hash_length p /\
    h_bytes h = Spec.words_bytes (Spec.hash_words (Spec.initial sp) (stream sp input) ln) /\
    as_bytes h = Ok (Spec.blake2s sp ln input).
Proof.
  intros Hc E Hf. unfold hash_one.
  destruct (with_params_ok c p sp ln Hc E) as (st & k & Es & R & Hl & M1 & M2 & _).
  unfold to_state. rewrite Es. cbn [bind].
  destruct (update_ok c _ _ _ st input R) as (st' & k' & Eu & R' & (N1 & N2 & N3) & Hz').
  { rewrite <- app_length. exact Hf. }
  rewrite Eu. cbn [bind].
  rewrite (finalize_ok c _ _ _ _ R') by (apply Hz'; left; exact Hl). cbn [bind].
  eexists. split; [reflexivity|]. cbn [h_bytes h_len].
  assert (H32 : length (Spec.words_bytes
      (Spec.hash_words (Spec.initial sp) (stream sp input) (st_last_node st'))) = 32%nat).
  { apply words_bytes_32, hash_words_length. }
  split; [exact H32|]. split; [congruence|].
  split; [rewrite N2, M1; reflexivity|].
  assert (Hh : val (st_hash_length st') = Spec.digest_length sp).
  { rewrite N3, M2. apply (e_hash _ _ _ E). }
  unfold as_bytes. cbn [h_bytes h_len]. rewrite slice_to_ok.
  - rewrite Hh, N2, M1. reflexivity.
  - fold (stream sp input). rewrite H32, Hh. destruct E. lia.
Qed.
