(** * VectorFacts: the tests of tests/vector_tests.rs (proofs for C55). *)
From Coq Require Import ZArith Lia ZifyBool ZifyNat ZifyN.
From Verif Require Import Base BaseFacts Params State Blake2sp Machine MachineSpec ParamsSpec Clients Corollaries TestSuite TestSuiteFacts VectorTests Witness.
From Verif Require Spec.
Local Open Scope N_scope.
Local Opaque N.pow.

Definition right (spec : list byte -> list byte -> list byte) (x : TestCase) : bool :=
  match hex_decode (chars (t_key x)), hex_decode (chars (t_in x)) with
  | Some k, Some m => Nat.leb (length k) 32 && str_eq (chars (t_out x)) (Spec.hex (spec k m))
  | _, _ => false
  end.
Lemma right_iff spec x : right spec x = true <-> case_right spec x.
Proof.
  unfold right, case_right. split.
  - destruct (hex_decode (chars (t_key x))) as [k|]; [|discriminate]. destruct (hex_decode (chars (t_in x))) as [m|]; [|discriminate].
    intros H. apply andb_true_iff in H as (H1 & H2). apply Nat.leb_le in H1. apply str_eq_ok in H2. exists k, m. auto.
  - intros (k & m & -> & -> & H1 & H2). apply andb_true_iff. split; [apply Nat.leb_le, H1|apply str_eq_ok, H2].
Qed.
Lemma hex_decode_length n : forall s l, (length s <= n)%nat -> hex_decode s = Some l -> (2 * length l = length s)%nat.
Proof.
  induction n as [|n IH]; intros s l Hn H.
  - destruct s; [|cbn [length] in Hn; lia]. cbn in H. replace l with (@nil byte) by congruence. reflexivity.
  - destruct s as [|a [|b s]]; [cbn in H; replace l with (@nil byte) by congruence; reflexivity|discriminate H|].
    cbn [hex_decode] in H. destruct (hex_val a); [|discriminate H]. destruct (hex_val b); [|discriminate H].
    destruct (hex_decode s) as [t|] eqn:E; [|discriminate H]. replace l with (byte_of_N (16 * n0 + n1) :: t) by congruence.
    cbn [length] in *. rewrite <- (IH s t ltac:(lia) E). lia.
Qed.
Lemma key_bytes s : match s with [] => Ok [] | _ :: _ => unwrap (hex_decode s) end = unwrap (hex_decode s).
Proof. destruct s; reflexivity. Qed.

Lemma vector_loop_value kat spec c name cases : forall n : u64,
  val n + N.of_nat (length cases) < 2 ^ 64 ->
  (forall x k m, In x cases -> hex_decode (chars (t_key x)) = Some k -> hex_decode (chars (t_in x)) = Some m ->
     kat k m (chars (t_out x)) = verdict (Nat.leb (length k) 32 && str_eq (chars (t_out x)) (Spec.hex (spec k m)))) ->
  vector_loop kat c name cases n =
  if forallb (right spec) (filter (named name) cases)
  then Ok (of_N 64 (val n + N.of_nat (length (filter (named name) cases)))) else Panic.
Proof.
  induction cases as [|x cases IH]; intros n Hn Hk.
  - cbn [vector_loop filter forallb length]. rewrite N.add_0_r, of_N_val. reflexivity.
  - cbn [vector_loop filter]. fold (named name x). rewrite key_bytes. cbn [length] in Hn.
    assert (Hk' : forall y k m, In y cases -> hex_decode (chars (t_key y)) = Some k -> hex_decode (chars (t_in y)) = Some m ->
      kat k m (chars (t_out y)) = verdict (Nat.leb (length k) 32 && str_eq (chars (t_out y)) (Spec.hex (spec k m))))
      by (intros y k m Hy; apply Hk; right; exact Hy).
    destruct (named name x).
    + cbn [forallb length]. unfold right at 1.
      destruct (hex_decode (chars (t_in x))) as [m|] eqn:Em;
        [|cbn [unwrap bind]; destruct (hex_decode (chars (t_key x))); reflexivity].
      destruct (hex_decode (chars (t_key x))) as [k|] eqn:Ek; [|reflexivity]. cbn [unwrap bind].
      rewrite (Hk x k m (or_introl eq_refl) Ek Em).
      destruct (Nat.leb (length k) 32 && str_eq (chars (t_out x)) (Spec.hex (spec k m))); cbn [verdict bind andb]; [|reflexivity].
      assert (E1 : val (of_N 64 1) = 1) by (apply val_of_N_small; reflexivity).
      unfold uadd. rewrite E1. replace (val n + 1 <? 2 ^ 64) with true by (symmetry; apply N.ltb_lt; lia). cbn [bind].
      assert (E2 : val (of_N 64 (val n + 1)) = val n + 1) by (apply val_of_N_small; lia).
      rewrite IH by (assumption || (rewrite E2; lia)). rewrite E2. destruct (forallb (right spec) (filter (named name) cases)); [|reflexivity].
      do 2 f_equal. lia.
    + cbn [bind]. apply IH; [lia|exact Hk'].
Qed.
Lemma long_key_blake2s c key input out : (32 < length key)%nat -> kat_blake2s c key input out = Panic.
Proof.
  intros H. destruct key as [|b key]; [cbn [length] in H; lia|]. unfold kat_blake2s.
  rewrite (proj2 (build_outcome [SKey (b :: key)])); [reflexivity|].
  cbn [forallb valid_setter]. rewrite andb_true_r. apply N.leb_gt. lia.
Qed.
Lemma long_key_blake2sp c key input out : (32 < length key)%nat -> kat_blake2sp c key input out = Panic.
Proof.
  intros H. destruct key as [|b key]; [cbn [length] in H; lia|]. unfold kat_blake2sp.
  rewrite (proj2 (sp_build_outcome [SpKey (b :: key)])); [reflexivity|].
  cbn [forallb sp_setter_ok]. rewrite andb_true_r. apply N.leb_gt. lia.
Qed.
Definition keyed_spec (key input : list byte) : list byte := Spec.blake2s (Spec.mk_params 32 key 1 1 0 0 0 0 [] []) false input.

Lemma tests_verdict kat spec c name cases : N.of_nat (length cases) < 2 ^ 64 ->
  (forall x k m, In x cases -> hex_decode (chars (t_key x)) = Some k -> hex_decode (chars (t_in x)) = Some m ->
     kat k m (chars (t_out x)) = verdict (Nat.leb (length k) 32 && str_eq (chars (t_out x)) (Spec.hex (spec k m)))) ->
  passes_iff (length (filter (named name) cases) = 512%nat /\ Forall (case_right spec) (filter (named name) cases))
    (count <- vector_loop kat c name cases (of_N 64 0) ;; assert! (512 =? val count) ;; Ok tt).
Proof.
  intros Hl Hk. assert (E0 : val (of_N 64 0) = 0) by (apply val_of_N_small; reflexivity).
  rewrite (vector_loop_value kat spec) by (assumption || (rewrite E0; lia)). rewrite E0, N.add_0_l.
  assert (Hf : (length (filter (named name) cases) <= length cases)%nat).
  { clear. induction cases as [|x l IH]; [reflexivity|]. cbn [filter length]. destruct (named name x); cbn [length]; lia. }
  assert (Ef : forallb (right spec) (filter (named name) cases) = true <-> Forall (case_right spec) (filter (named name) cases)).
  { rewrite forallb_forall, Forall_forall. split; intros H x Hx; apply right_iff, H, Hx. }
  destruct (forallb (right spec) (filter (named name) cases)) eqn:E; cbn [bind].
  - rewrite val_of_N_small by lia.
    change (passes_iff (length (filter (named name) cases) = 512%nat /\ Forall (case_right spec) (filter (named name) cases))
      (verdict (512 =? N.of_nat (length (filter (named name) cases))))).
    apply verdict_iff. rewrite N.eqb_eq. split.
    + intros H. split; [lia|apply Ef; reflexivity].
    + intros (H & _). rewrite H. reflexivity.
  - split; [|reflexivity]. intros (_ & H). apply Ef in H. discriminate H.
Qed.
Theorem blake2s_vectors_pass c cases : cfg_ok c -> N.of_nat (length cases) < 2 ^ 64 ->
  Forall (fun x => N.of_nat (length (chars (t_in x))) < 2 ^ 64) cases ->
  passes_iff (length (filter (named "blake2s") cases) = 512%nat /\
              Forall (case_right keyed_spec) (filter (named "blake2s") cases)) (blake2s_vectors c cases).
Proof.
  intros Hc Hl Hm. apply tests_verdict; [exact Hl|]. intros x k m Hx Hk Hd.
  rewrite Forall_forall in Hm. specialize (Hm x Hx). apply hex_decode_length with (n := length (chars (t_in x))) in Hd; [|reflexivity].
  destruct (Nat.leb_spec (length k) 32) as [H|H]; cbn [andb]; [|apply long_key_blake2s; lia].
  apply kat_blake2s_verdict; [exact Hc|exact H|]. change (2 ^ 64) with 18446744073709551616 in *. lia.
Qed.
Theorem blake2sp_vectors_pass c cases : cfg_ok c -> N.of_nat (length cases) < 2 ^ 64 ->
  Forall (fun x => match chars (t_key x) with [] => N.of_nat (length (chars (t_in x))) < 2 ^ 64
                   | _ :: _ => (length (chars (t_in x)) <= 1920)%nat end) cases ->
  passes_iff (length (filter (named "blake2sp") cases) = 512%nat /\
              Forall (case_right (Spec.blake2sp 32)) (filter (named "blake2sp") cases)) (blake2sp_vectors c cases).
Proof.
  intros Hc Hl Hm. apply tests_verdict; [exact Hl|]. intros x k m Hx Hk Hd.
  rewrite Forall_forall in Hm. specialize (Hm x Hx). apply hex_decode_length with (n := length (chars (t_in x))) in Hd; [|reflexivity].
  apply hex_decode_length with (n := length (chars (t_key x))) in Hk; [|reflexivity].
  destruct (Nat.leb_spec (length k) 32) as [H|H]; cbn [andb]; [|apply long_key_blake2sp; lia].
  apply kat_blake2sp_verdict; [exact Hc|exact H|]. change (2 ^ 64) with 18446744073709551616 in *.
  destruct k as [|b k], (chars (t_key x)) as [|b' k']; cbn [length] in Hk; try lia.
Qed.

(** Digits. *)
Lemma hex_val_small a n : hex_val a = Some n -> n < 16.
Proof. destruct a; vm_compute; intros H; try discriminate H; injection H as <-; reflexivity. Qed.
Lemma hex_val_digit a n : n < 16 -> hex_val a = Some n <-> lower a = Spec.hex_digit n.
Proof.
  intros Hn.
  assert (G : forallb (fun k => Bool.eqb (match hex_val a with Some m => m =? N.of_nat k | None => false end)
                                         (Byte.eqb (lower a) (Spec.hex_digit (N.of_nat k)))) (seq 0 16) = true)
    by (destruct a; vm_compute; reflexivity).
  rewrite forallb_forall in G. specialize (G (N.to_nat n)).
  assert (I : In (N.to_nat n) (seq 0 16)) by (apply in_seq; lia).
  specialize (G I). rewrite N2Nat.id in G. apply Bool.eqb_prop in G. split; intros H.
  - rewrite H, N.eqb_refl in G. symmetry in G. apply Byte.byte_dec_bl in G. exact G.
  - rewrite (Byte.byte_dec_lb H) in G. destruct (hex_val a); [|discriminate G]. apply N.eqb_eq in G. congruence.
Qed.
Lemma pair_byte x y b : x < 16 -> y < 16 -> byte_of_N (16 * x + y) = b <-> x = Byte.to_N b / 16 /\ y = Byte.to_N b mod 16.
Proof.
  intros Hx Hy. split.
  - intros <-. rewrite to_N_byte_of_N, (N.mod_small _ 256) by lia. rewrite (N.mul_comm 16 x). rewrite N.div_add_l, N.div_small, N.add_0_r by lia. split; [reflexivity|].
    rewrite N.add_comm, N.mod_add, N.mod_small by lia. reflexivity.
  - intros (-> & ->). rewrite <- N.div_mod by lia. apply byte_of_N_to_N.
Qed.
Lemma byte_halves b : Byte.to_N b / 16 < 16 /\ Byte.to_N b mod 16 < 16.
Proof. destruct b; split; vm_compute; reflexivity. Qed.
Lemma hex_decode_text_le n : forall s m, (length s <= n)%nat -> hex_decode s = Some m <-> map lower s = Spec.hex m.
Proof.
  induction n as [|n IH]; intros s m Hn.
  - destruct s; [|cbn [length] in Hn; lia]. destruct m; cbn; split; congruence.
  - destruct s as [|a [|b s]]; [destruct m; cbn; split; congruence| |].
    + cbn [hex_decode map]. destruct m as [|x [|y m]]; cbn; split; discriminate.
    + cbn [hex_decode map]. cbn [length] in Hn. destruct m as [|x m].
      { split; [|discriminate]. destruct (hex_val a); [|discriminate]. destruct (hex_val b); [|discriminate]. destruct (hex_decode s); discriminate. }
      change (Spec.hex (x :: m)) with (Spec.hex_digit (Byte.to_N x / 16) :: Spec.hex_digit (Byte.to_N x mod 16) :: Spec.hex m).
      destruct (byte_halves x) as (H1 & H2). specialize (IH s m ltac:(lia)). split.
      * destruct (hex_val a) as [u|] eqn:Ea; [|discriminate]. destruct (hex_val b) as [v|] eqn:Eb; [|discriminate].
        destruct (hex_decode s) as [t|]; [|discriminate]. intros H. injection H as E1 E2.
        pose proof (hex_val_small _ _ Ea). pose proof (hex_val_small _ _ Eb).
        apply pair_byte in E1 as (-> & ->); [|assumption..]. apply hex_val_digit in Ea; [|assumption]. apply hex_val_digit in Eb; [|assumption].
        rewrite Ea, Eb. do 2 f_equal. apply IH. congruence.
      * intros H. injection H as Ea Eb E. apply hex_val_digit in Ea; [|assumption]. apply hex_val_digit in Eb; [|assumption].
        apply IH in E. rewrite Ea, Eb, E. do 2 f_equal. apply pair_byte; auto.
Qed.
Theorem hex_decode_text s m : hex_decode s = Some m <-> map lower s = Spec.hex m.
Proof. apply hex_decode_text_le with (n := length s). reflexivity. Qed.

(** Cases of other functions. *)
Lemma other_cases kat c name cases : forall n, vector_loop kat c name cases n = vector_loop kat c name (filter (named name) cases) n.
Proof.
  induction cases as [|x l IH]; intros n; [reflexivity|]. cbn [vector_loop filter]. fold (named name x).
  destruct (named name x) eqn:E.
  - cbn [vector_loop]. fold (named name x). rewrite E.
    match goal with |- bind ?a _ = _ => destruct a as [k| | |] end; [apply IH|reflexivity..].
  - cbn [bind]. apply IH.
Qed.
Theorem vectors_others c cases :
  blake2s_vectors c cases = blake2s_vectors c (filter (named "blake2s") cases) /\
  blake2sp_vectors c cases = blake2sp_vectors c (filter (named "blake2sp") cases).
Proof. split; [unfold blake2s_vectors|unfold blake2sp_vectors]; rewrite other_cases at 1; reflexivity. Qed.

Lemma named_repeat name x n : filter (named name) (repeat x n) = if named name x then repeat x n else [].
Proof. destruct (named name x) eqn:E; induction n as [|n IH]; cbn [repeat filter]; rewrite ?E, ?IH; reflexivity. Qed.
Lemma Forall_repeat {A} (P : A -> Prop) x n : P x -> Forall P (repeat x n).
Proof. intros H. apply Forall_forall. intros y Hy. apply repeat_spec in Hy. subst. exact H. Qed.
Lemma right_a : case_right keyed_spec case_a.
Proof. apply right_iff. vm_compute. reflexivity. Qed.
Lemma right_b : case_right (Spec.blake2sp 32) case_b.
Proof. apply right_iff. vm_compute. reflexivity. Qed.
Lemma names : named "blake2s" case_a = true /\ named "blake2s" case_b = false /\ named "blake2sp" case_a = false /\ named "blake2sp" case_b = true.
Proof. repeat split. Qed.
Lemma sizes n : N.of_nat (length (chars (t_in case_a))) < 2 ^ 64 /\ N.of_nat (length (chars (t_in case_b))) < 2 ^ 64 /\
  (length (chars (t_in case_a)) <= n + 1920)%nat /\ (length (chars (t_in case_b)) <= n + 1920)%nat.
Proof. repeat split; cbn [case_a case_b t_in chars length]; lia. Qed.
Lemma short n : (n < 1000)%nat -> N.of_nat n < 2 ^ 64.
Proof. intros H. change (2 ^ 64) with 18446744073709551616. lia. Qed.
Lemma example_1 c n : cfg_ok c -> (n < 999)%nat ->
  passes_iff (n = 512%nat) (blake2s_vectors c (repeat case_a n)) /\
  passes_iff (n = 512%nat) (blake2s_vectors c (case_b :: repeat case_a n)).
Proof.
  intros Hc Hn. destruct names as (N1 & N2 & _). destruct (sizes 0) as (S1 & S2 & _).
  assert (G : forall l, filter (named "blake2s") l = repeat case_a n -> (length l < 1000)%nat ->
    Forall (fun x => N.of_nat (length (chars (t_in x))) < 2 ^ 64) l -> passes_iff (n = 512%nat) (blake2s_vectors c l)).
  { intros l E Hl Hs. destruct (blake2s_vectors_pass c l Hc (short _ Hl) Hs) as (H1 & H2). rewrite E, repeat_length in H1, H2. split; intros H.
    - apply H1. split; [exact H|apply Forall_repeat, right_a].
    - apply H2. intros (H' & _). exact (H H'). }
  split; apply G.
  - rewrite named_repeat, N1. reflexivity.
  - rewrite repeat_length. lia.
  - apply Forall_repeat, S1.
  - cbn [filter]. rewrite N2, named_repeat, N1. reflexivity.
  - cbn [length]. rewrite repeat_length. lia.
  - constructor; [exact S2|]. apply Forall_repeat, S1.
Qed.
Lemma example_2 c n : cfg_ok c -> (n < 999)%nat -> passes_iff (n = 512%nat) (blake2sp_vectors c (case_a :: repeat case_b n)).
Proof.
  intros Hc Hn. destruct names as (_ & _ & N1 & N2). destruct (sizes 0) as (_ & _ & S1 & S2).
  assert (G : forall l, filter (named "blake2sp") l = repeat case_b n -> (length l < 1000)%nat ->
    Forall (fun x => match chars (t_key x) with [] => N.of_nat (length (chars (t_in x))) < 2 ^ 64
                     | _ :: _ => (length (chars (t_in x)) <= 1920)%nat end) l -> passes_iff (n = 512%nat) (blake2sp_vectors c l)).
  { intros l E Hl Hs. destruct (blake2sp_vectors_pass c l Hc (short _ Hl) Hs) as (H1 & H2). rewrite E, repeat_length in H1, H2. split; intros H.
    - apply H1. split; [exact H|apply Forall_repeat, right_b].
    - apply H2. intros (H' & _). exact (H H'). }
  apply G.
  - cbn [filter]. rewrite N1, named_repeat, N2. reflexivity.
  - cbn [length]. rewrite repeat_length. lia.
  - constructor; [exact S1|]. apply Forall_repeat, S2.
Qed.
Lemma example_3 c x l : named "blake2sp" x = true -> hex_decode (chars (t_in x)) = None -> blake2sp_vectors c (x :: l) = Panic.
Proof. intros H1 H2. unfold blake2sp_vectors. cbn [vector_loop]. fold (named "blake2sp" x). rewrite H1, H2. reflexivity. Qed.
Lemma vectors_example :
  case_right (fun key input => Spec.blake2s (Spec.mk_params 32 key 1 1 0 0 0 0 [] []) false input) case_a /\
  case_right (Spec.blake2sp 32) case_b /\
  blake2s_vectors debug_avx2 (case_b :: repeat case_a 512) = Ok tt /\
  blake2s_vectors debug_avx2 (repeat case_a 511) = Panic /\
  blake2sp_vectors release_portable (case_a :: repeat case_b 512) = Ok tt /\
  blake2sp_vectors release_portable (mk_case "blake2sp" "0" "" "" :: repeat case_b 511) = Panic /\
  hex_decode (chars "0aB1") = Some [x0a; xb1] /\ hex_decode (chars "0g") = None.
Proof.
  assert (Hd : cfg_ok debug_avx2) by (vm_compute; intuition congruence).
  assert (Hr : cfg_ok release_portable) by (vm_compute; intuition congruence).
  split; [exact right_a|]. split; [exact right_b|].
  split; [exact (proj1 (proj2 (example_1 debug_avx2 512 Hd ltac:(lia))) eq_refl)|].
  split; [exact (proj2 (proj1 (example_1 debug_avx2 511 Hd ltac:(lia))) ltac:(lia))|].
  split; [exact (proj1 (example_2 release_portable 512 Hr ltac:(lia)) eq_refl)|].
  split; [apply example_3; reflexivity|]. split; reflexivity.
Qed.
