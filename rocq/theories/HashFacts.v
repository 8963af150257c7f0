(** * HashFacts: [Hash] of lib.rs: visible bytes, hexadecimal text, equality. *)
From Verif Require Import Base BaseFacts Consts Params StateFacts.
From Verif Require Spec.
From Coq Require Import ZArith Lia ZifyBool ZifyNat ZifyN.
Local Open Scope N_scope.

(** The shape of every [Hash] the crate hands out. *)
Definition hash_wf (h : Hash) : Prop := length (h_bytes h) = 32%nat /\ 1 <= val (h_len h) <= 32.

Definition visible (h : Hash) : list byte := firstn (N.to_nat (val (h_len h))) (h_bytes h).

Lemma as_bytes_ok h : hash_wf h -> as_bytes h = Ok (visible h).
Proof. intros (H1 & H2). unfold as_bytes. apply slice_to_ok. lia. Qed.
Lemma visible_length h : hash_wf h -> length (visible h) = N.to_nat (val (h_len h)).
Proof. intros (H1 & H2). unfold visible. rewrite firstn_length. lia. Qed.

(** ** Hexadecimal text *)
Lemma hex_digits b :
  nth (N.to_nat (N.shiftr (Byte.to_N b) 4)) hex_table x00 = Spec.hex_digit (Byte.to_N b / 16) /\
  nth (N.to_nat (N.land (Byte.to_N b) 15)) hex_table x00 = Spec.hex_digit (Byte.to_N b mod 16).
Proof. destruct b; split; reflexivity. Qed.

Lemma hex_length bs : length (Spec.hex bs) = (2 * length bs)%nat.
Proof.
  induction bs as [|b bs IH]; [reflexivity|]. cbn [Spec.hex flat_map app length].
  fold (Spec.hex bs). rewrite IH. lia.
Qed.

Lemma hex_loop_ok bs : forall s, (length s + 2 * length bs <= 64)%nat ->
  hex_loop s bs = Ok (s ++ Spec.hex bs).
Proof.
  induction bs as [|b bs IH]; intros s H; cbn [hex_loop length] in *.
  - rewrite app_nil_r. reflexivity.
  - destruct (hex_digits b) as [-> ->]. unfold push_char, HEX_CAP, OUTBYTES.
    replace (Nat.ltb (length s) (2 * 32)) with true by lia. cbn [bind].
    replace (Nat.ltb (length (s ++ _)) (2 * 32)) with true by (rewrite app_length; cbn [length]; lia).
    cbn [bind]. rewrite IH by (rewrite !app_length; cbn [length]; lia).
    rewrite <- !app_assoc. reflexivity.
Qed.

Lemma to_hex_ok h : hash_wf h -> to_hex h = Ok (Spec.hex (visible h)).
Proof.
  intros H. unfold to_hex, bytes_to_hex. rewrite as_bytes_ok by exact H. cbn [bind].
  rewrite hex_loop_ok; [reflexivity|]. rewrite visible_length by exact H. destruct H. cbn [length]. lia.
Qed.

Lemma hex_pair_inj a b :
  Spec.hex_digit (Byte.to_N a / 16) = Spec.hex_digit (Byte.to_N b / 16) ->
  Spec.hex_digit (Byte.to_N a mod 16) = Spec.hex_digit (Byte.to_N b mod 16) -> a = b.
Proof.
  assert (D : forall n m, n < 16 -> m < 16 -> Spec.hex_digit n = Spec.hex_digit m -> n = m).
  { intros n m Hn Hm.
    assert (Cn : In n [0;1;2;3;4;5;6;7;8;9;10;11;12;13;14;15]) by (cbn; lia).
    assert (Cm : In m [0;1;2;3;4;5;6;7;8;9;10;11;12;13;14;15]) by (cbn; lia).
    clear Hn Hm. cbn in Cn, Cm. 
    repeat (destruct Cn as [<-|Cn]; [repeat (destruct Cm as [<-|Cm]; [intros E; (reflexivity || (vm_compute in E; discriminate E))|])|]).
    all: contradiction. }
  intros H1 H2. pose proof (to_N_lt a); pose proof (to_N_lt b).
  apply D in H1; [|apply N.div_lt_upper_bound; lia|apply N.div_lt_upper_bound; lia].
  apply D in H2; [|apply N.mod_lt; lia|apply N.mod_lt; lia].
  apply to_N_inj. rewrite (N.div_mod (Byte.to_N a) 16), (N.div_mod (Byte.to_N b) 16) by lia. congruence.
Qed.

Lemma hex_inj : forall a b, Spec.hex a = Spec.hex b -> a = b.
Proof.
  induction a as [|x a IH]; intros [|y b] H; try discriminate H; [reflexivity|].
  cbn [Spec.hex flat_map app] in H. injection H as H1 H2 H3.
  fold (Spec.hex a) in H3. fold (Spec.hex b) in H3.
  f_equal; [apply hex_pair_inj; assumption|apply IH; exact H3].
Qed.

(** ** Equality *)
Lemma ct_ne_0 : forall a b t, length a = length b -> (ct_ne t a b = 0 <-> t = 0 /\ a = b).
Proof.
  induction a as [|x a IH]; intros [|y b] t Hl; try discriminate Hl; cbn [ct_ne].
  - tauto.
  - rewrite IH by (cbn in Hl; lia). rewrite N.lor_eq_0_iff, N.lxor_eq_0_iff.
    split.
    + intros ((-> & E) & ->). apply to_N_inj in E. subst. auto.
    + intros (-> & E). injection E as -> ->. auto.
Qed.
Lemma constant_time_eq_ok a b : constant_time_eq a b = true <-> a = b.
Proof.
  unfold constant_time_eq. destruct (Nat.eqb (length a) (length b)) eqn:E.
  - apply Nat.eqb_eq in E. rewrite N.eqb_eq, ct_ne_0 by exact E. tauto.
  - apply Nat.eqb_neq in E. split; [discriminate|]. intros ->. congruence.
Qed.

Lemma hash_eq_ok h h' : hash_wf h -> hash_wf h' ->
  exists b, hash_eq h h' = Ok b /\ (b = true <-> visible h = visible h').
Proof.
  intros H H'. unfold hash_eq. rewrite !as_bytes_ok by assumption. cbn [bind].
  eexists; split; [reflexivity|]. apply constant_time_eq_ok.
Qed.
Lemma hash_eq_slice_ok h bs : hash_wf h ->
  exists b, hash_eq_slice h bs = Ok b /\ (b = true <-> visible h = bs).
Proof.
  intros H. unfold hash_eq_slice. rewrite as_bytes_ok by assumption. cbn [bind].
  eexists; split; [reflexivity|]. apply constant_time_eq_ok.
Qed.
