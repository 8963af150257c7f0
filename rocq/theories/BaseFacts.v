(** * BaseFacts: lemmas about machine words, bytes, slices. *)
From Verif Require Import Base.
From Coq Require Import ZArith Lia Eqdep_dec ZifyBool ZifyNat ZifyN.
Ltac Zify.zify_post_hook ::= Z.div_mod_to_equations.
Local Open Scope N_scope.

(** ** Words *)

Lemma val_inj {w} (a b : uint w) : val a = val b -> a = b.
Proof.
  destruct a as [a Ha], b as [b Hb]; cbn [val]; intros ->; f_equal.
  apply UIP_dec, bool_dec.
Qed.

Lemma val_lt {w} (a : uint w) : val a < 2 ^ w.
Proof. destruct a as [a Ha]; cbn [val]; apply N.ltb_lt, Ha. Qed.

Lemma val_of_N w n : val (of_N w n) = n mod 2 ^ w.
Proof. apply N.land_ones. Qed.

Lemma val_of_N_small w n : n < 2 ^ w -> val (of_N w n) = n.
Proof. intros H; rewrite val_of_N; apply N.mod_small, H. Qed.

Lemma of_N_val {w} (a : uint w) : of_N w (val a) = a.
Proof. apply val_inj; rewrite val_of_N; apply N.mod_small, val_lt. Qed.

Lemma of_N_inj w m n : m < 2 ^ w -> n < 2 ^ w -> of_N w m = of_N w n -> m = n.
Proof.
  intros Hm Hn H. rewrite <- (val_of_N_small w m Hm), <- (val_of_N_small w n Hn), H. reflexivity.
Qed.

Lemma val_uzero w : val (uzero w) = 0.
Proof. unfold uzero; rewrite val_of_N; apply N.mod_0_l, N.pow_nonzero; discriminate. Qed.

Lemma val_umax32 : val (umax 32) = 2 ^ 32 - 1.
Proof. reflexivity. Qed.

Lemma lt_pow2_bits n w : n < 2 ^ w -> forall i, w <= i -> N.testbit n i = false.
Proof.
  intros H i Hi. rewrite <- (N.mod_small n (2 ^ w) H). apply N.mod_pow2_bits_high, Hi.
Qed.

Lemma bits_lt_pow2 n w : (forall i, w <= i -> N.testbit n i = false) -> n < 2 ^ w.
Proof.
  intros H. replace n with (n mod 2 ^ w).
  - apply N.mod_lt, N.pow_nonzero; discriminate.
  - apply N.bits_inj; intro i. destruct (N.lt_ge_cases i w) as [Hi|Hi].
    + apply N.mod_pow2_bits_low, Hi.
    + rewrite N.mod_pow2_bits_high by exact Hi. symmetry; apply H, Hi.
Qed.

Lemma lxor_lt w a b : a < 2 ^ w -> b < 2 ^ w -> N.lxor a b < 2 ^ w.
Proof.
  intros Ha Hb. apply bits_lt_pow2; intros i Hi.
  rewrite N.lxor_spec, (lt_pow2_bits a w Ha i Hi), (lt_pow2_bits b w Hb i Hi). reflexivity.
Qed.

Lemma lor_lt w a b : a < 2 ^ w -> b < 2 ^ w -> N.lor a b < 2 ^ w.
Proof.
  intros Ha Hb. apply bits_lt_pow2; intros i Hi.
  rewrite N.lor_spec, (lt_pow2_bits a w Ha i Hi), (lt_pow2_bits b w Hb i Hi). reflexivity.
Qed.

Lemma val_uxor {w} (a b : uint w) : val (uxor a b) = N.lxor (val a) (val b).
Proof. unfold uxor; apply val_of_N_small, lxor_lt; apply val_lt. Qed.

Lemma uxor_assoc {w} (a b c : uint w) : uxor (uxor a b) c = uxor a (uxor b c).
Proof. apply val_inj; rewrite !val_uxor; apply N.lxor_assoc. Qed.

Lemma uxor_comm {w} (a b : uint w) : uxor a b = uxor b a.
Proof. apply val_inj; rewrite !val_uxor; apply N.lxor_comm. Qed.

Lemma uxor_0_r {w} (a : uint w) : uxor a (uzero w) = a.
Proof. apply val_inj; rewrite val_uxor, val_uzero; apply N.lxor_0_r. Qed.

Lemma lxor_cancel_l a x y : N.lxor a x = N.lxor a y -> x = y.
Proof.
  intros H. rewrite <- (N.lxor_0_l x), <- (N.lxor_0_l y), <- (N.lxor_nilpotent a).
  rewrite !N.lxor_assoc, H. reflexivity.
Qed.

Lemma val_wrapping_add {w} (a b : uint w) : val (wrapping_add a b) = (val a + val b) mod 2 ^ w.
Proof. apply val_of_N. Qed.

(** The vector code adds the message word before the second operand. *)
Lemma wrapping_add_swap {w} (a b x : uint w) :
  wrapping_add (wrapping_add a x) b = wrapping_add (wrapping_add a b) x.
Proof.
  apply val_inj; rewrite !val_wrapping_add.
  rewrite !N.add_mod_idemp_l by (apply N.pow_nonzero; discriminate).
  f_equal; lia.
Qed.

(** ** Disjoint bit fields *)

Lemma land_disjoint a b k : a < 2 ^ k -> N.land a (N.shiftl b k) = 0.
Proof.
  intros Ha. apply N.bits_inj_0; intro i. rewrite N.land_spec.
  destruct (N.lt_ge_cases i k) as [Hi|Hi].
  - rewrite N.shiftl_spec_low by exact Hi. apply andb_false_r.
  - rewrite (lt_pow2_bits a k Ha i Hi). reflexivity.
Qed.

Lemma lxor_disjoint a b k : a < 2 ^ k -> N.lxor a (b * 2 ^ k) = a + b * 2 ^ k.
Proof.
  intros Ha. rewrite <- N.shiftl_mul_pow2. symmetry. apply N.add_nocarry_lxor, land_disjoint, Ha.
Qed.

Lemma lor_disjoint a b k : a < 2 ^ k -> N.lor a (b * 2 ^ k) = a + b * 2 ^ k.
Proof.
  intros Ha. rewrite <- (lxor_disjoint a b k Ha), <- N.shiftl_mul_pow2.
  symmetry. apply N.lxor_lor, land_disjoint, Ha.
Qed.

Lemma pow2_split n : n <= 32 -> 2 ^ 32 = 2 ^ n * 2 ^ (32 - n).
Proof. intros H. rewrite <- N.pow_add_r. f_equal; lia. Qed.

Lemma div_pow2_lt x n : n <= 32 -> x < 2 ^ 32 -> x / 2 ^ n < 2 ^ (32 - n).
Proof.
  intros Hn Hx. apply N.div_lt_upper_bound; [apply N.pow_nonzero; discriminate|].
  rewrite <- pow2_split by exact Hn. exact Hx.
Qed.

Lemma shl_mod x n : n <= 32 -> (x * 2 ^ (32 - n)) mod 2 ^ 32 = (x mod 2 ^ n) * 2 ^ (32 - n).
Proof.
  intros Hn. rewrite (pow2_split n Hn).
  apply N.mul_mod_distr_r; apply N.pow_nonzero; discriminate.
Qed.

(** The value of a rotated word. *)
Definition rotval (x n : N) : N := x / 2 ^ n + (x mod 2 ^ n) * 2 ^ (32 - n).

Lemma rotval_lt x n : n <= 32 -> x < 2 ^ 32 -> rotval x n < 2 ^ 32.
Proof.
  intros Hn Hx. unfold rotval.
  pose proof (div_pow2_lt x n Hn Hx) as H1.
  pose proof (N.mod_lt x (2 ^ n) (N.pow_nonzero 2 n ltac:(discriminate))) as H2.
  rewrite (pow2_split n Hn). nia.
Qed.

Lemma val_rotate_right (a : u32) n : n <= 32 -> val (rotate_right a n) = rotval (val a) n.
Proof.
  intros Hn. unfold rotate_right. rewrite val_of_N, N.shiftr_div_pow2, N.shiftl_mul_pow2.
  rewrite lor_disjoint by (apply div_pow2_lt; [exact Hn|apply val_lt]).
  rewrite <- N.add_mod_idemp_r by discriminate. rewrite shl_mod by exact Hn.
  apply N.mod_small, rotval_lt; [exact Hn|apply val_lt].
Qed.

Lemma rot_xor_shifts (a : u32) n : n <= 32 ->
  uxor (ushr a n) (ushl a (32 - n)) = rotate_right a n.
Proof.
  intros Hn. apply val_inj. rewrite val_uxor, val_rotate_right by exact Hn.
  unfold ushr, ushl. rewrite !val_of_N, N.shiftr_div_pow2, N.shiftl_mul_pow2, shl_mod by exact Hn.
  assert (Hd : val a / 2 ^ n < 2 ^ (32 - n)) by (apply div_pow2_lt; [exact Hn|apply val_lt]).
  rewrite N.mod_small with (a := val a / 2 ^ n).
  - apply lxor_disjoint, Hd.
  - eapply N.lt_le_trans; [exact Hd|]. apply N.pow_le_mono_r; [discriminate|lia].
Qed.

Lemma rot_or_shifts (a : u32) n : n <= 32 ->
  of_N 32 (N.lor (val (ushr a n)) (val (ushl a (32 - n)))) = rotate_right a n.
Proof.
  intros Hn. apply val_inj. rewrite val_of_N, val_rotate_right by exact Hn.
  unfold ushr, ushl. rewrite !val_of_N, N.shiftr_div_pow2, N.shiftl_mul_pow2, shl_mod by exact Hn.
  assert (Hd : val a / 2 ^ n < 2 ^ (32 - n)) by (apply div_pow2_lt; [exact Hn|apply val_lt]).
  rewrite N.mod_small with (a := val a / 2 ^ n).
  - rewrite lor_disjoint by exact Hd. apply N.mod_small, rotval_lt; [exact Hn|apply val_lt].
  - eapply N.lt_le_trans; [exact Hd|]. apply N.pow_le_mono_r; [discriminate|lia].
Qed.

(** ** Bytes *)

Lemma to_N_lt (b : byte) : Byte.to_N b < 256.
Proof. pose proof (Byte.to_N_bounded b). lia. Qed.

Lemma to_N_inj (a b : byte) : Byte.to_N a = Byte.to_N b -> a = b.
Proof.
  intros H. pose proof (Byte.of_to_N a) as Ha. rewrite H, Byte.of_to_N in Ha. congruence.
Qed.

Lemma to_N_byte_of_N n : Byte.to_N (byte_of_N n) = n mod 256.
Proof.
  unfold byte_of_N. destruct (Byte.of_N (n mod 256)) as [b|] eqn:E.
  - apply Byte.to_of_N, E.
  - apply Byte.of_N_None_iff in E. pose proof (N.mod_lt n 256 ltac:(discriminate)). lia.
Qed.

Lemma byte_of_N_to_N b : byte_of_N (Byte.to_N b) = b.
Proof. apply to_N_inj. rewrite to_N_byte_of_N. apply N.mod_small, to_N_lt. Qed.

Lemma val_u32_of_bytes b0 b1 b2 b3 :
  val (u32_of_bytes b0 b1 b2 b3) =
  Byte.to_N b0 + 256 * Byte.to_N b1 + 65536 * Byte.to_N b2 + 16777216 * Byte.to_N b3.
Proof.
  unfold u32_of_bytes. apply val_of_N_small.
  pose proof (to_N_lt b0); pose proof (to_N_lt b1); pose proof (to_N_lt b2); pose proof (to_N_lt b3).
  change (2 ^ 8) with 256; change (2 ^ 16) with 65536; change (2 ^ 24) with 16777216;
  change (2 ^ 32) with 4294967296. lia.
Qed.

Lemma u32_of_bytes_roundtrip x :
  u32_of_bytes (u32_byte 0 x) (u32_byte 1 x) (u32_byte 2 x) (u32_byte 3 x) = x.
Proof.
  apply val_inj. rewrite val_u32_of_bytes. unfold u32_byte. rewrite !to_N_byte_of_N.
  pose proof (val_lt x) as H.
  change (2 ^ (8 * 0)) with 1; change (2 ^ (8 * 1)) with 256; change (2 ^ (8 * 2)) with 65536;
  change (2 ^ (8 * 3)) with 16777216; change (2 ^ 32) with 4294967296 in H.
  generalize dependent (val x). clear x. intros x H. lia.
Qed.

Lemma u32_byte_of_bytes b0 b1 b2 b3 :
  u32_byte 0 (u32_of_bytes b0 b1 b2 b3) = b0 /\ u32_byte 1 (u32_of_bytes b0 b1 b2 b3) = b1 /\
  u32_byte 2 (u32_of_bytes b0 b1 b2 b3) = b2 /\ u32_byte 3 (u32_of_bytes b0 b1 b2 b3) = b3.
Proof.
  pose proof (to_N_lt b0); pose proof (to_N_lt b1); pose proof (to_N_lt b2); pose proof (to_N_lt b3).
  repeat split; apply to_N_inj; unfold u32_byte; rewrite to_N_byte_of_N, val_u32_of_bytes;
  [change (2 ^ (8 * 0)) with 1|change (2 ^ (8 * 1)) with 256|
   change (2 ^ (8 * 2)) with 65536|change (2 ^ (8 * 3)) with 16777216]; lia.
Qed.

Lemma bytes_of_word b0 b1 b2 b3 : u32_to_bytes (u32_of_bytes b0 b1 b2 b3) = [b0; b1; b2; b3].
Proof.
  unfold u32_to_bytes. destruct (u32_byte_of_bytes b0 b1 b2 b3) as (-> & -> & -> & ->). reflexivity.
Qed.

Lemma rot8_bytes x :
  u32_of_bytes (u32_byte 1 x) (u32_byte 2 x) (u32_byte 3 x) (u32_byte 0 x) = rotate_right x 8.
Proof.
  apply val_inj. rewrite val_u32_of_bytes, val_rotate_right by discriminate.
  unfold u32_byte, rotval. rewrite !to_N_byte_of_N.
  pose proof (val_lt x) as H.
  change (2 ^ (8 * 0)) with 1; change (2 ^ (8 * 1)) with 256; change (2 ^ (8 * 2)) with 65536;
  change (2 ^ (8 * 3)) with 16777216; change (2 ^ 32) with 4294967296 in H;
  change (2 ^ 8) with 256; change (2 ^ (32 - 8)) with 16777216.
  generalize dependent (val x). clear x. intros x H. lia.
Qed.

Lemma rot16_bytes x :
  u32_of_bytes (u32_byte 2 x) (u32_byte 3 x) (u32_byte 0 x) (u32_byte 1 x) = rotate_right x 16.
Proof.
  apply val_inj. rewrite val_u32_of_bytes, val_rotate_right by discriminate.
  unfold u32_byte, rotval. rewrite !to_N_byte_of_N.
  pose proof (val_lt x) as H.
  change (2 ^ (8 * 0)) with 1; change (2 ^ (8 * 1)) with 256; change (2 ^ (8 * 2)) with 65536;
  change (2 ^ (8 * 3)) with 16777216; change (2 ^ 32) with 4294967296 in H;
  change (2 ^ 16) with 65536; change (2 ^ (32 - 16)) with 65536.
  generalize dependent (val x). clear x. intros x H. lia.
Qed.

(** ** Lists *)

Lemma upd_length {A} (xs : list A) i x : length (upd xs i x) = length xs.
Proof. revert i; induction xs as [|y t IH]; intros [|i]; cbn; congruence. Qed.

Lemma map_upd {A B} (f : A -> B) xs i x : map f (upd xs i x) = upd (map f xs) i (f x).
Proof. revert i; induction xs as [|y t IH]; intros [|i]; cbn; congruence. Qed.

Lemma get_map {A B} (f : A -> B) d xs i : get (f d) (map f xs) i = f (get d xs i).
Proof. apply map_nth. Qed.

(** ** Outcomes *)
Lemma bind_ok {A B} (x : outcome A) (k : A -> outcome B) b :
  bind x k = Ok b -> exists a, x = Ok a /\ k a = Ok b.
Proof. destruct x; cbn; intros H; try discriminate. eauto. Qed.
