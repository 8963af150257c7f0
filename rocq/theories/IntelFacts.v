(** * IntelFacts: [Intrinsics] computes what the operation sections of the guide say. *)
From Coq Require Import ZArith Lia ZifyBool ZifyNat ZifyN.
From Verif Require Import Base BaseFacts Intrinsics IntelOps IntelViews.
Local Open Scope N_scope.
Local Opaque N.pow.
Ltac Zify.zify_post_hook ::= Z.to_euclidean_division_equations.

(** ** Numbers as lists of digits *)
Definition small (w : N) (l : list N) : Prop := Forall (fun d => d < 2 ^ w) l.
Lemma digits_lt w l : small w l -> digits w l < 2 ^ (w * N.of_nat (length l)).
Proof.
  induction 1 as [|d l Hd _ IH]; cbn [digits length]; [rewrite N.mul_0_r; reflexivity|].
  replace (w * N.of_nat (S (length l))) with (w + w * N.of_nat (length l)) by lia. rewrite N.pow_add_r. nia.
Qed.
Lemma digits_app w a b : digits w (a ++ b) = digits w a + 2 ^ (w * N.of_nat (length a)) * digits w b.
Proof.
  induction a as [|d a IH]; cbn [digits length app]; [rewrite N.mul_0_r; change (2 ^ 0) with 1; lia|].
  replace (w * N.of_nat (S (length a))) with (w + w * N.of_nat (length a)) by lia. rewrite N.pow_add_r, IH. nia.
Qed.
Lemma digits_skip w l : small w l -> forall k, digits w l / 2 ^ (w * N.of_nat k) = digits w (skipn k l).
Proof.
  intros H k. destruct (Nat.le_gt_cases k (length l)) as [Hk|Hk].
  - rewrite <- (firstn_skipn k l) at 1. rewrite digits_app, firstn_length, Nat.min_l by exact Hk.
    assert (L : digits w (firstn k l) < 2 ^ (w * N.of_nat k)).
    { pose proof (digits_lt w (firstn k l)) as D. rewrite firstn_length, Nat.min_l in D by exact Hk. apply D.
      unfold small in *. rewrite <- (firstn_skipn k l) in H. apply Forall_app in H. apply H. }
    symmetry. apply (N.div_unique _ _ _ (digits w (firstn k l))); [exact L|lia].
  - rewrite (skipn_all2 l) by lia. apply N.div_small. eapply N.lt_le_trans; [apply digits_lt, H|].
    apply N.pow_le_mono_r; [discriminate|nia].
Qed.
Lemma digits_first w l : small w l -> forall k, digits w l mod 2 ^ (w * N.of_nat k) = digits w (firstn k l).
Proof.
  intros H k. destruct (Nat.le_gt_cases k (length l)) as [Hk|Hk].
  - rewrite <- (firstn_skipn k l) at 1. rewrite digits_app, firstn_length, Nat.min_l by exact Hk.
    assert (L : digits w (firstn k l) < 2 ^ (w * N.of_nat k)).
    { pose proof (digits_lt w (firstn k l)) as D. rewrite firstn_length, Nat.min_l in D by exact Hk. apply D.
      unfold small in *. rewrite <- (firstn_skipn k l) in H. apply Forall_app in H. apply H. }
    symmetry. apply (N.mod_unique _ _ (digits w (skipn k l))); [exact L|lia].
  - rewrite (firstn_all2 l) by lia. apply N.mod_small. eapply N.lt_le_trans; [apply digits_lt, H|].
    apply N.pow_le_mono_r; [discriminate|nia].
Qed.
Lemma small_skipn w l k : small w l -> small w (skipn k l).
Proof. unfold small. intros H. rewrite <- (firstn_skipn k l) in H. apply Forall_app in H. apply H. Qed.
Lemma fld_digits w l i k : small w l -> fld (digits w l) (w * N.of_nat i) (w * N.of_nat k) = digits w (sub l i k).
Proof. intros H. unfold fld, sub. rewrite digits_skip by exact H. apply digits_first, small_skipn, H. Qed.
Lemma fld_nth w l i : small w l -> fld (digits w l) (w * N.of_nat i) w = nth i l 0.
Proof.
  intros H. pose proof (fld_digits w l i 1 H) as E. rewrite N.mul_1_r in E. rewrite E. unfold sub. clear.
  revert i. induction l as [|d l IH]; intros [|i]; cbn [skipn firstn digits nth]; try reflexivity; [lia|apply IH].
Qed.
Lemma put_fields_digits w f : forall n from, put_fields w n (N.of_nat from) f = digits w (map (fun j => f (N.of_nat j)) (seq from n)).
Proof.
  induction n as [|n IH]; intros from; cbn [put_fields seq map digits]; [reflexivity|].
  replace (N.of_nat from + 1) with (N.of_nat (S from)) by lia. rewrite IH. reflexivity.
Qed.
Lemma for_fields_digits w n f : for_fields w n f = digits w (map (fun j => f (N.of_nat j)) (seq 0 n)).
Proof. apply (put_fields_digits w f n 0). Qed.
Lemma fld_fld x lo w c w' : c + w' <= w -> fld (fld x lo w) c w' = fld x (lo + c) w'.
Proof.
  intros H. unfold fld. rewrite N.pow_add_r, <- N.div_div by (apply N.pow_nonzero; discriminate).
  set (y := x / 2 ^ lo). replace w with (c + (w - c)) by lia. rewrite N.pow_add_r.
  rewrite N.mod_mul_r by (apply N.pow_nonzero; discriminate).
  rewrite (N.add_comm (y mod 2 ^ c)), (N.mul_comm (2 ^ c)), N.div_add_l by (apply N.pow_nonzero; discriminate).
  rewrite (N.div_small (y mod 2 ^ c)) by (apply N.mod_lt, N.pow_nonzero; discriminate). rewrite N.add_0_r.
  replace (w - c) with (w' + (w - c - w')) by lia. rewrite N.pow_add_r, N.mod_mul_r by (apply N.pow_nonzero; discriminate).
  rewrite (N.mul_comm (2 ^ w')), N.mod_add by (apply N.pow_nonzero; discriminate).
  apply N.mod_mod, N.pow_nonzero. discriminate.
Qed.

(** ** Lanes and bytes of registers *)
Lemma small_vals (l : list u32) : small 32 (map val l).
Proof. apply Forall_forall. intros d Hd. apply in_map_iff in Hd as (x & <- & _). apply val_lt. Qed.
Lemma small_bytes (l : list byte) : small 8 (map Byte.to_N l).
Proof. apply Forall_forall. intros d Hd. apply in_map_iff in Hd as (x & <- & _). apply to_N_lt. Qed.
Lemma bytes_words (l : list u32) : digits 8 (map Byte.to_N (flat_map u32_to_bytes l)) = digits 32 (map val l).
Proof.
  induction l as [|x l IH]; [reflexivity|]. cbn [flat_map map]. rewrite map_app, digits_app, map_length.
  rewrite IH. cbn [digits]. change (length (u32_to_bytes x)) with 4%nat. change (8 * N.of_nat 4) with 32. f_equal.
  rewrite <- (u32_of_bytes_roundtrip x) at 2. rewrite val_u32_of_bytes. unfold u32_to_bytes. cbn [map digits].
  change (2 ^ 8) with 256. lia.
Qed.
Lemma num128_bytes a : num128 a = digits 8 (map Byte.to_N (m128_bytes a)).
Proof. symmetry. apply bytes_words. Qed.
Lemma num256_bytes a : num256 a = digits 8 (map Byte.to_N (m256_bytes a)).
Proof. symmetry. apply bytes_words. Qed.
Lemma m128_bytes_of bs : length bs = 16%nat -> m128_bytes (m128_of_bytes bs) = bs.
Proof.
  intros H. do 16 (destruct bs as [|? bs]; [discriminate H|]). destruct bs; [|discriminate H].
  unfold m128_bytes, m128_of_bytes, word_at. cbn [quad_list flat_map]. rewrite !bytes_of_word. reflexivity.
Qed.
Lemma m256_bytes_of bs : length bs = 32%nat -> m256_bytes (m256_of_bytes bs) = bs.
Proof.
  intros H. do 32 (destruct bs as [|? bs]; [discriminate H|]). destruct bs; [|discriminate H].
  unfold m256_bytes, m256_of_bytes, word_at. cbn [oct_list flat_map]. rewrite !bytes_of_word. reflexivity.
Qed.
Lemma num128_of bs : length bs = 16%nat -> num128 (m128_of_bytes bs) = digits 8 (map Byte.to_N bs).
Proof. intros H. rewrite num128_bytes, m128_bytes_of by exact H. reflexivity. Qed.
Lemma num256_of bs : length bs = 32%nat -> num256 (m256_of_bytes bs) = digits 8 (map Byte.to_N bs).
Proof. intros H. rewrite num256_bytes, m256_bytes_of by exact H. reflexivity. Qed.
Lemma m128_bytes_length a : length (m128_bytes a) = 16%nat.
Proof. destruct a; reflexivity. Qed.
Lemma m256_bytes_length a : length (m256_bytes a) = 32%nat.
Proof. destruct a; reflexivity. Qed.
Lemma join_bytes a b : m256_bytes (join128 a b) = m128_bytes a ++ m128_bytes b.
Proof. destruct a, b; reflexivity. Qed.
Lemma split_bytes a : m256_bytes a = m128_bytes (lo128 a) ++ m128_bytes (hi128 a).
Proof. destruct a; reflexivity. Qed.
Lemma num_join a b : num256 (join128 a b) = num128 a + 2 ^ 128 * num128 b.
Proof.
  rewrite num256_bytes, join_bytes, map_app, digits_app, map_length, m128_bytes_length, <- !num128_bytes. reflexivity.
Qed.
Lemma num_lt a : num128 a < 2 ^ 128.
Proof. destruct a. apply (digits_lt 32), small_vals. Qed.
Lemma num256_lt a : num256 a < 2 ^ 256.
Proof. destruct a. apply (digits_lt 32), small_vals. Qed.
Lemma num_lo a : fld (num256 a) 0 128 = num128 (lo128 a).
Proof.
  assert (E : a = join128 (lo128 a) (hi128 a)) by (destruct a; reflexivity). rewrite E at 1. rewrite num_join.
  unfold fld. change (2 ^ 0) with 1. rewrite N.div_1_r. symmetry. apply (N.mod_unique _ _ (num128 (hi128 a))); [apply num_lt|lia].
Qed.
Lemma num_hi a : fld (num256 a) 128 128 = num128 (hi128 a).
Proof.
  assert (E : a = join128 (lo128 a) (hi128 a)) by (destruct a; reflexivity). rewrite E at 1. rewrite num_join.
  unfold fld. assert (D : (num128 (lo128 a) + 2 ^ 128 * num128 (hi128 a)) / 2 ^ 128 = num128 (hi128 a))
    by (symmetry; apply (N.div_unique _ _ _ (num128 (lo128 a))); [apply num_lt|lia]).
  rewrite D. apply N.mod_small, num_lt.
Qed.
Lemma lane_q a j : fld (num128 a) (32 * N.of_nat j) 32 = val (qget a j).
Proof. unfold num128. rewrite fld_nth by apply small_vals. unfold qget. rewrite <- (map_nth val), val_uzero. reflexivity. Qed.
Lemma lane_o a j : fld (num256 a) (32 * N.of_nat j) 32 = val (nth j (oct_list a) (uzero 32)).
Proof. unfold num256. rewrite fld_nth by apply small_vals. rewrite <- (map_nth val), val_uzero. reflexivity. Qed.
Lemma byte_q a j : fld (num128 a) (8 * N.of_nat j) 8 = Byte.to_N (bget (m128_bytes a) j).
Proof. rewrite num128_bytes, fld_nth by apply small_bytes. unfold bget. rewrite <- (map_nth Byte.to_N). reflexivity. Qed.
Lemma byte_o a j : fld (num256 a) (8 * N.of_nat j) 8 = Byte.to_N (bget (m256_bytes a) j).
Proof. rewrite num256_bytes, fld_nth by apply small_bytes. unfold bget. rewrite <- (map_nth Byte.to_N). reflexivity. Qed.
Lemma num128_inj a b : num128 a = num128 b -> a = b.
Proof.
  intros E. assert (H : forall j, val (qget a j) = val (qget b j)) by (intros j; rewrite <- !lane_q, E; reflexivity).
  destruct a as [a0 a1 a2 a3], b as [b0 b1 b2 b3].
  f_equal; apply val_inj; [apply (H 0%nat)|apply (H 1%nat)|apply (H 2%nat)|apply (H 3%nat)].
Qed.
Lemma num256_inj a b : num256 a = num256 b -> a = b.
Proof.
  intros E. assert (H : forall j, val (nth j (oct_list a) (uzero 32)) = val (nth j (oct_list b) (uzero 32)))
    by (intros j; rewrite <- !lane_o, E; reflexivity).
  destruct a as [a0 a1 a2 a3 a4 a5 a6 a7], b as [b0 b1 b2 b3 b4 b5 b6 b7].
  f_equal; apply val_inj; [apply (H 0%nat)|apply (H 1%nat)|apply (H 2%nat)|apply (H 3%nat)|apply (H 4%nat)|apply (H 5%nat)|apply (H 6%nat)|apply (H 7%nat)].
Qed.

(** ** Lane by lane *)
Ltac lanes := rewrite for_fields_digits; cbn [seq map].
Lemma paddd128 a b : num128 (_mm_add_epi32 a b) = PADDD 4 (num128 a) (num128 b).
Proof.
  unfold PADDD. cbv zeta. lanes. rewrite !lane_q. destruct a, b. unfold num128, _mm_add_epi32. cbn [quad_map2 quad_list map].
  rewrite !val_wrapping_add. reflexivity.
Qed.
Lemma paddd256 a b : num256 (_mm256_add_epi32 a b) = PADDD 8 (num256 a) (num256 b).
Proof.
  unfold PADDD. cbv zeta. lanes. rewrite !lane_o. destruct a, b. unfold num256, _mm256_add_epi32. cbn [oct_map2 oct_list map].
  rewrite !val_wrapping_add. reflexivity.
Qed.
Lemma shr_val (x : u32) n : val (ushr x n) = if 31 <? n then 0 else N.shiftr (val x) n.
Proof.
  unfold ushr. rewrite val_of_N, N.shiftr_div_pow2. pose proof (val_lt x) as H.
  destruct (N.ltb_spec 31 n).
  - rewrite N.div_small; [reflexivity|]. eapply N.lt_le_trans; [exact H|]. apply N.pow_le_mono_r; [discriminate|lia].
  - apply N.mod_small. eapply N.le_lt_trans; [|exact H]. apply N.div_le_upper_bound; [apply N.pow_nonzero; discriminate|].
    assert (1 <= 2 ^ n) by (change 1 with (2 ^ 0); apply N.pow_le_mono_r; [discriminate|lia]). nia.
Qed.
Lemma shl_val (x : u32) n : val (ushl x n) = if 31 <? n then 0 else (N.shiftl (val x) n) mod 2 ^ 32.
Proof.
  unfold ushl. rewrite val_of_N, N.shiftl_mul_pow2. destruct (N.ltb_spec 31 n); [|reflexivity].
  replace n with (32 + (n - 32)) by lia. rewrite N.pow_add_r.
  replace (val x * (2 ^ 32 * 2 ^ (n - 32))) with (val x * 2 ^ (n - 32) * 2 ^ 32) by lia.
  apply N.mod_mul, N.pow_nonzero. discriminate.
Qed.
Lemma psrld128 a n : num128 (_mm_srli_epi32 a n) = PSRLD 4 (num128 a) n.
Proof.
  unfold PSRLD. cbv zeta. lanes. rewrite !lane_q. destruct a. unfold num128, _mm_srli_epi32. cbn [quad_map quad_list map].
  rewrite !shr_val. reflexivity.
Qed.
Lemma pslld128 a n : num128 (_mm_slli_epi32 a n) = PSLLD 4 (num128 a) n.
Proof.
  unfold PSLLD. cbv zeta. lanes. rewrite !lane_q. destruct a. unfold num128, _mm_slli_epi32. cbn [quad_map quad_list map].
  rewrite !shl_val. reflexivity.
Qed.
Lemma psrld256 a n : num256 (_mm256_srli_epi32 a n) = PSRLD 8 (num256 a) n.
Proof.
  unfold PSRLD. cbv zeta. lanes. rewrite !lane_o. destruct a. unfold num256, _mm256_srli_epi32. cbn [oct_map oct_list map].
  rewrite !shr_val. reflexivity.
Qed.
Lemma pslld256 a n : num256 (_mm256_slli_epi32 a n) = PSLLD 8 (num256 a) n.
Proof.
  unfold PSLLD. cbv zeta. lanes. rewrite !lane_o. destruct a. unfold num256, _mm256_slli_epi32. cbn [oct_map oct_list map].
  rewrite !shl_val. reflexivity.
Qed.

(** ** Logic *)
Lemma xor_digit d e x y : d < 2 ^ 32 -> e < 2 ^ 32 ->
  N.lxor (d + 2 ^ 32 * x) (e + 2 ^ 32 * y) = N.lxor d e + 2 ^ 32 * N.lxor x y.
Proof.
  intros Hd He. rewrite !(N.mul_comm (2 ^ 32)). rewrite <- !lxor_disjoint by (assumption || (apply lxor_lt; assumption)).
  rewrite <- !N.shiftl_mul_pow2, N.shiftl_lxor. rewrite !N.lxor_assoc. f_equal. rewrite <- !N.lxor_assoc. f_equal. apply N.lxor_comm.
Qed.
Lemma lor_sum d x : d < 2 ^ 32 -> d + 2 ^ 32 * x = N.lor d (N.shiftl x 32).
Proof. intros Hd. rewrite (N.mul_comm (2 ^ 32)), <- lor_disjoint by exact Hd. rewrite N.shiftl_mul_pow2. reflexivity. Qed.
Lemma or_digit d e x y : d < 2 ^ 32 -> e < 2 ^ 32 ->
  N.lor (d + 2 ^ 32 * x) (e + 2 ^ 32 * y) = N.lor d e + 2 ^ 32 * N.lor x y.
Proof.
  intros Hd He. rewrite !lor_sum by (assumption || (apply lor_lt; assumption)). rewrite N.shiftl_lor.
  rewrite !N.lor_assoc. f_equal. rewrite <- !N.lor_assoc. f_equal. apply N.lor_comm.
Qed.
Lemma pxor128 a b : num128 (_mm_xor_si128 a b) = PXOR (num128 a) (num128 b).
Proof.
  destruct a, b. unfold num128, _mm_xor_si128, PXOR. cbn [quad_map2 quad_list map digits].
  rewrite !val_uxor. rewrite !xor_digit by apply val_lt. rewrite N.lxor_0_r. reflexivity.
Qed.
Lemma pxor256 a b : num256 (_mm256_xor_si256 a b) = PXOR (num256 a) (num256 b).
Proof.
  destruct a, b. unfold num256, _mm256_xor_si256, PXOR. cbn [oct_map2 oct_list map digits].
  rewrite !val_uxor. rewrite !xor_digit by apply val_lt. rewrite N.lxor_0_r. reflexivity.
Qed.
Lemma por256 a b : num256 (_mm256_or_si256 a b) = POR (num256 a) (num256 b).
Proof.
  destruct a, b. unfold num256, _mm256_or_si256, POR. cbn [oct_map2 oct_list map digits].
  rewrite !val_of_N_small by (apply lor_lt; apply val_lt). rewrite !or_digit by apply val_lt. rewrite N.lor_0_r. reflexivity.
Qed.

(** ** Shuffles of lanes *)
Lemma fld_imm imm k : fld imm (2 * N.of_nat k) 2 = N.of_nat (imm2 imm (N.of_nat k)).
Proof. unfold fld, imm2. change (2 ^ 2) with 4. rewrite N2Nat.id. reflexivity. Qed.
Lemma select_q a imm k : SELECT4 a (fld imm (2 * N.of_nat k) 2) = fld a (32 * N.of_nat (imm2 imm (N.of_nat k))) 32.
Proof. unfold SELECT4. rewrite fld_imm. reflexivity. Qed.
Lemma pshufd a imm : num128 (_mm_shuffle_epi32 a imm) = PSHUFD (num128 a) imm.
Proof. unfold PSHUFD. lanes. rewrite !select_q, !lane_q. reflexivity. Qed.
Lemma shufps a b imm : num128 (_mm_shuffle_ps a b imm) = SHUFPS (num128 a) (num128 b) imm.
Proof.
  unfold SHUFPS. lanes.
  change (N.of_nat 0 <? 2) with true. change (N.of_nat 1 <? 2) with true. change (N.of_nat 2 <? 2) with false. change (N.of_nat 3 <? 2) with false.
  cbn [map]. rewrite !select_q, !lane_q. reflexivity.
Qed.
Lemma unpack_lo32 a b : num128 (_mm_unpacklo_epi32 a b) = INTERLEAVE_DWORDS (num128 a) (num128 b).
Proof.
  unfold INTERLEAVE_DWORDS. lanes. rewrite !Nat2N.id. cbn [nth].
  rewrite (lane_q a 0 : fld (num128 a) 0 32 = _), (lane_q b 0 : fld (num128 b) 0 32 = _), (lane_q a 1 : fld (num128 a) 32 32 = _), (lane_q b 1 : fld (num128 b) 32 32 = _). destruct a, b; reflexivity.
Qed.
Lemma unpack_hi32 a b : num128 (_mm_unpackhi_epi32 a b) = INTERLEAVE_HIGH_DWORDS (num128 a) (num128 b).
Proof.
  unfold INTERLEAVE_HIGH_DWORDS. lanes. rewrite !Nat2N.id. cbn [nth].
  rewrite (lane_q a 2 : fld (num128 a) 64 32 = _), (lane_q b 2 : fld (num128 b) 64 32 = _), (lane_q a 3 : fld (num128 a) 96 32 = _), (lane_q b 3 : fld (num128 b) 96 32 = _). destruct a, b; reflexivity.
Qed.
Lemma pair_q a j : fld (num128 a) (32 * N.of_nat j) 64 = digits 32 (map val (sub (quad_list a) j 2)).
Proof.
  unfold num128. pose proof (fld_digits 32 (map val (quad_list a)) j 2 (small_vals _)) as E.
  change (32 * N.of_nat 2) with 64 in E. rewrite E. unfold sub. rewrite skipn_map, firstn_map. reflexivity.
Qed.
Lemma unpack_lo64 a b : num128 (_mm_unpacklo_epi64 a b) = INTERLEAVE_QWORDS (num128 a) (num128 b).
Proof.
  unfold INTERLEAVE_QWORDS. rewrite (pair_q a 0 : fld (num128 a) 0 64 = _), (pair_q b 0 : fld (num128 b) 0 64 = _). destruct a, b. unfold num128, sub. cbn [_mm_unpacklo_epi64 quad_list map skipn firstn digits].
  change (2 ^ 64) with (2 ^ 32 * 2 ^ 32). lia.
Qed.
Lemma unpack_hi64 a b : num128 (_mm_unpackhi_epi64 a b) = INTERLEAVE_HIGH_QWORDS (num128 a) (num128 b).
Proof.
  unfold INTERLEAVE_HIGH_QWORDS. rewrite (pair_q a 2 : fld (num128 a) 64 64 = _), (pair_q b 2 : fld (num128 b) 64 64 = _). destruct a, b. unfold num128, sub. cbn [_mm_unpackhi_epi64 quad_list map skipn firstn digits].
  change (2 ^ 64) with (2 ^ 32 * 2 ^ 32). lia.
Qed.
Lemma halves_join (f : m128 -> m128 -> m128) g a b : (forall x y, num128 (f x y) = g (num128 x) (num128 y)) ->
  num256 (join128 (f (lo128 a) (lo128 b)) (f (hi128 a) (hi128 b))) = halves g (num256 a) (num256 b).
Proof. intros H. rewrite num_join, !H. unfold halves. rewrite !num_lo, !num_hi. reflexivity. Qed.
Lemma select128 a b c : num128 (perm128 a b c) = SELECT4_128 (num256 a) (num256 b) c.
Proof.
  unfold perm128, SELECT4_128. cbv zeta. rewrite !num_lo, !num_hi.
  assert (Et : N.testbit c 3 = (fld c 3 1 =? 1)).
  { unfold fld. rewrite N.testbit_eqb. change (2 ^ 1) with 2. reflexivity. }
  rewrite Et. destruct (fld c 3 1 =? 1); [reflexivity|].
  assert (Em : fld c 0 2 = c mod 4) by (unfold fld; change (2 ^ 0) with 1; rewrite N.div_1_r; reflexivity).
  rewrite Em. destruct (c mod 4) as [|[p|[p|p|]|]]; reflexivity.
Qed.
Lemma vperm a b imm : imm < 256 -> num256 (_mm256_permute2x128_si256 a b imm) = VPERM2I128 (num256 a) (num256 b) imm.
Proof.
  intros H. unfold _mm256_permute2x128_si256, VPERM2I128. rewrite num_join, !select128. unfold fld.
  change (2 ^ 0) with 1. change (2 ^ 4) with 16. rewrite N.div_1_r, (N.mod_small (imm / 16)) by lia. reflexivity.
Qed.

(** ** Shuffles of bytes *)
Lemma bytes128 bs f : length bs = 16%nat -> (forall j, (j < 16)%nat -> Byte.to_N (bget bs j) = f (N.of_nat j)) ->
  num128 (m128_of_bytes bs) = for_fields 8 16 f.
Proof.
  intros L H. rewrite num128_of by exact L. rewrite for_fields_digits. f_equal.
  transitivity (map (fun j => Byte.to_N (bget bs j)) (seq 0 16)).
  - do 16 (destruct bs as [|? bs]; [discriminate L|]). destruct bs; [|discriminate L]. reflexivity.
  - apply map_ext_in. intros j Hj. apply in_seq in Hj. apply H. lia.
Qed.
Lemma ctl_fld ctl j : small 8 ctl ->
  (fld (digits 8 ctl) (8 * N.of_nat j + 7) 1 =? 1) = negb (nth j ctl 0 <? 128) /\
  fld (digits 8 ctl) (8 * N.of_nat j) 4 = nth j ctl 0 mod 16.
Proof.
  intros H. pose proof (fld_nth 8 ctl j H) as E.
  rewrite <- (fld_fld _ (8 * N.of_nat j) 8 7 1) by lia.
  assert (E4 : fld (digits 8 ctl) (8 * N.of_nat j) 4 = fld (fld (digits 8 ctl) (8 * N.of_nat j) 8) 0 4)
    by (rewrite fld_fld by lia; rewrite N.add_0_r; reflexivity).
  rewrite E4, E.
  assert (Hv : nth j ctl 0 < 256).
  { destruct (Nat.lt_ge_cases j (length ctl)) as [Hj|Hj]; [|rewrite nth_overflow by lia; lia].
    unfold small in H. rewrite Forall_forall in H. apply (H (nth j ctl 0)), nth_In, Hj. }
  unfold fld. change (2 ^ 7) with 128. change (2 ^ 1) with 2. change (2 ^ 0) with 1. change (2 ^ 4) with 16. rewrite N.div_1_r.
  split; [|reflexivity]. generalize dependent (nth j ctl 0). intros v _ Hv. lia.
Qed.
Lemma bget_map (g : N -> byte) ctl j : (j < length ctl)%nat -> bget (map g ctl) j = g (nth j ctl 0).
Proof. intros H. unfold bget. rewrite (nth_indep _ x00 (g 0)) by (rewrite map_length; exact H). apply map_nth. Qed.
Lemma pshufb_byte bs ctl j : (j < length ctl)%nat ->
  Byte.to_N (bget (pshufb16 bs ctl) j) = if nth j ctl 0 <? 128 then Byte.to_N (bget bs (N.to_nat (nth j ctl 0 mod 16))) else 0.
Proof. intros H. unfold pshufb16. rewrite bget_map by exact H. destruct (nth j ctl 0 <? 128); reflexivity. Qed.
Lemma pshufb a ctl : length ctl = 16%nat -> small 8 ctl ->
  num128 (_mm_shuffle_epi8 a ctl) = PSHUFB (num128 a) (digits 8 ctl).
Proof.
  intros L S. unfold _mm_shuffle_epi8, PSHUFB. apply bytes128; [unfold pshufb16; rewrite map_length; exact L|].
  intros j Hj. cbv zeta. destruct (ctl_fld ctl j S) as (-> & ->). rewrite pshufb_byte by lia.
  destruct (nth j ctl 0 <? 128); cbn [negb]; [|reflexivity].
  rewrite <- byte_q. rewrite N2Nat.id, (N.mul_comm 8). reflexivity.
Qed.
Lemma nth_skipn {A} (l : list A) d : forall n j, nth j (skipn n l) d = nth (n + j) l d.
Proof. induction l as [|x l IH]; intros [|n] j; try reflexivity; [destruct j; reflexivity|]. cbn [skipn Nat.add nth]. apply IH. Qed.
Lemma nth_firstn {A} (l : list A) d : forall n j, (j < n)%nat -> nth j (firstn n l) d = nth j l d.
Proof. induction l as [|x l IH]; intros [|n] [|j] H; try reflexivity; try lia. cbn [firstn nth]. apply IH. lia. Qed.
Lemma byte_hi a k : fld (num256 a) (128 + N.of_nat k * 8) 8 = Byte.to_N (bget (m256_bytes a) (16 + k)).
Proof. rewrite <- byte_o. f_equal. lia. Qed.
Lemma seq_from from n : seq from n = map (fun j => (from + j)%nat) (seq 0 n).
Proof.
  revert from. induction n as [|n IH]; intros from; [reflexivity|]. cbn [seq map]. rewrite Nat.add_0_r, IH, (IH 1%nat), map_map.
  f_equal. apply map_ext. intros j. lia.
Qed.
Lemma vpshufb a ctl : length ctl = 32%nat -> small 8 ctl ->
  num256 (_mm256_shuffle_epi8 a ctl) = VPSHUFB (num256 a) (digits 8 ctl).
Proof.
  intros L S. unfold _mm256_shuffle_epi8, VPSHUFB.
  assert (L1 : length (firstn 16 ctl) = 16%nat) by (rewrite firstn_length; lia).
  assert (L2 : length (skipn 16 ctl) = 16%nat) by (rewrite skipn_length; lia).
  rewrite num256_bytes, join_bytes. rewrite !m128_bytes_of by (unfold pshufb16; rewrite map_length; assumption).
  rewrite for_fields_digits. f_equal. rewrite map_app. change (seq 0 32) with (seq 0 16 ++ seq 16 16). rewrite map_app. 
  assert (G : forall (bs : list byte), length bs = 16%nat -> forall f from, (forall j, (j < 16)%nat -> Byte.to_N (bget bs j) = f (from + j)%nat) ->
    map Byte.to_N bs = map f (seq from 16)).
  { intros bs Hb f from H. transitivity (map (fun j => Byte.to_N (bget bs j)) (seq 0 16)).
    - do 16 (destruct bs as [|? bs]; [discriminate Hb|]). destruct bs; [|discriminate Hb]. reflexivity.
    - rewrite (seq_from from), map_map. apply map_ext_in. intros j Hj. apply in_seq in Hj. apply H. lia. }
  f_equal; apply G; try (unfold pshufb16; rewrite map_length; assumption); intros j Hj; cbv zeta.
  - rewrite Nat.add_0_l. destruct (ctl_fld ctl j S) as (-> & ->). rewrite pshufb_byte by lia. rewrite nth_firstn by lia.
    replace (N.of_nat j <? 16) with true by (symmetry; lia).
    destruct (nth j ctl 0 <? 128); cbn [negb]; [|reflexivity].
    pose proof (byte_o a (N.to_nat (nth j ctl 0 mod 16))) as E. rewrite N2Nat.id, (N.mul_comm 8) in E. rewrite E.
    rewrite split_bytes. unfold bget. rewrite app_nth1; [reflexivity|]. rewrite m128_bytes_length. lia.
  - destruct (ctl_fld ctl (16 + j) S) as (-> & ->). rewrite pshufb_byte by lia. rewrite nth_skipn.
    replace (N.of_nat (16 + j) <? 16) with false by (symmetry; lia).
    destruct (nth (16 + j) ctl 0 <? 128); cbn [negb]; [|reflexivity].
    pose proof (byte_hi a (N.to_nat (nth (16 + j) ctl 0 mod 16))) as E. rewrite N2Nat.id in E. rewrite E.
    rewrite split_bytes. unfold bget. rewrite app_nth2 by (rewrite m128_bytes_length; lia).
    rewrite m128_bytes_length. do 2 f_equal. lia.
Qed.

(** ** Pairs of bytes *)
Lemma pairs_digits {A} (g : A -> list byte) l : (forall x, In x l -> length (g x) = 2%nat) ->
  digits 8 (map Byte.to_N (flat_map g l)) = digits 16 (map (fun x => digits 8 (map Byte.to_N (g x))) l).
Proof.
  induction l as [|x l IH]; intros H; [reflexivity|]. cbn [flat_map map digits].
  rewrite map_app, digits_app, map_length, (H x) by (left; reflexivity). rewrite IH by (intros y Hy; apply H; right; exact Hy). reflexivity.
Qed.
Lemma half_q a k : fld (num128 a) (16 * N.of_nat k) 16 = digits 8 (map Byte.to_N (half (m128_bytes a) k)).
Proof.
  rewrite num128_bytes. pose proof (fld_digits 8 (map Byte.to_N (m128_bytes a)) (2 * k) 2 (small_bytes _)) as E.
  change (8 * N.of_nat 2) with 16 in E. replace (8 * N.of_nat (2 * k)) with (16 * N.of_nat k) in E by lia. rewrite E.
  unfold half, sub. rewrite skipn_map, firstn_map. reflexivity.
Qed.
Lemma half_length a k : (k < 8)%nat -> length (half (m128_bytes a) k) = 2%nat.
Proof. intros H. unfold half, sub. rewrite firstn_length, skipn_length, m128_bytes_length. lia. Qed.
Lemma flat_map_length2 {A} (g : A -> list byte) l : (forall x, In x l -> length (g x) = 2%nat) -> length (flat_map g l) = (2 * length l)%nat.
Proof.
  induction l as [|x l IH]; intros H; [reflexivity|]. cbn [flat_map length]. rewrite app_length, (H x) by (left; reflexivity).
  rewrite IH by (intros y Hy; apply H; right; exact Hy). lia.
Qed.
Lemma pblendw a b imm : num128 (_mm_blend_epi16 a b imm) = PBLENDW (num128 a) (num128 b) imm.
Proof.
  unfold _mm_blend_epi16, PBLENDW. cbv zeta.
  assert (H : forall k, In k (seq 0 8) -> length (if N.testbit imm (N.of_nat k) then half (m128_bytes b) k else half (m128_bytes a) k) = 2%nat).
  { intros k Hk. apply in_seq in Hk. destruct (N.testbit imm (N.of_nat k)); apply half_length; lia. }
  rewrite num128_of by (rewrite (flat_map_length2 _ _ H); reflexivity).
  rewrite (pairs_digits _ _ H), for_fields_digits. f_equal. apply map_ext. intros k. rewrite !half_q.
  rewrite N.testbit_eqb. unfold fld. change (2 ^ 1) with 2. destruct ((imm / 2 ^ N.of_nat k) mod 2 =? 1); reflexivity.
Qed.
Lemma pshufhw a imm : num128 (_mm_shufflehi_epi16 a imm) = PSHUFHW (num128 a) imm.
Proof.
  unfold _mm_shufflehi_epi16, PSHUFHW.
  assert (Hi : forall k, (imm2 imm (N.of_nat k) < 4)%nat).
  { intros k. unfold imm2. pose proof (N.mod_lt (imm / 2 ^ (2 * N.of_nat k)) 4 ltac:(discriminate)). lia. }
  assert (H : forall k, In k (seq 0 4) -> length (half (m128_bytes a) (4 + imm2 imm (N.of_nat k))) = 2%nat).
  { intros k _. apply half_length. specialize (Hi k). lia. }
  assert (L : length (sub (m128_bytes a) 0 8) = 8%nat) by (unfold sub; rewrite firstn_length, skipn_length, m128_bytes_length; reflexivity).
  rewrite num128_of by (rewrite app_length, L, (flat_map_length2 _ _ H); reflexivity).
  rewrite map_app, digits_app, map_length, L, (pairs_digits _ _ H), for_fields_digits. change (8 * N.of_nat 8) with 64. f_equal.
  - rewrite num128_bytes. pose proof (fld_digits 8 (map Byte.to_N (m128_bytes a)) 0 8 (small_bytes _)) as E.
    change (8 * N.of_nat 0) with 0 in E. change (8 * N.of_nat 8) with 64 in E. rewrite E. unfold sub. cbn [skipn]. rewrite firstn_map. reflexivity.
  - do 2 f_equal. apply map_ext. intros k. rewrite fld_imm. rewrite <- half_q. unfold fld. rewrite N.shiftr_div_pow2, N.div_div by (apply N.pow_nonzero; discriminate).
    rewrite <- N.pow_add_r. do 3 f_equal. lia.
Qed.

(** ** Shifts of the register *)
Lemma digits_zeros n : digits 8 (map Byte.to_N (repeat x00 n)) = 0.
Proof. induction n as [|n IH]; [reflexivity|]. cbn [repeat map digits]. rewrite IH. reflexivity. Qed.
Lemma pslldq a n : num128 (_mm_slli_si128 a n) = PSLLDQ (num128 a) (N.of_nat n).
Proof.
  unfold _mm_slli_si128, PSLLDQ.
  assert (L : length (firstn 16 (repeat x00 n ++ m128_bytes a)) = 16%nat) by (rewrite firstn_length, app_length, repeat_length, m128_bytes_length; lia).
  rewrite num128_of by exact L. rewrite <- firstn_map.
  rewrite <- (digits_first 8 (map Byte.to_N (repeat x00 n ++ m128_bytes a)) (small_bytes _) 16).
  change (8 * N.of_nat 16) with 128. rewrite map_app, digits_app, digits_zeros, map_length, repeat_length, <- num128_bytes, N.add_0_l.
  rewrite N.shiftl_mul_pow2. destruct (N.ltb_spec 15 (N.of_nat n)) as [H|H].
  - change (16 * 8) with 128. rewrite N.mod_mul by (apply N.pow_nonzero; discriminate).
    replace (8 * N.of_nat n) with (8 * N.of_nat n - 128 + 128) by lia. rewrite N.pow_add_r.
    replace (2 ^ (8 * N.of_nat n - 128) * 2 ^ 128 * num128 a) with (2 ^ (8 * N.of_nat n - 128) * num128 a * 2 ^ 128) by lia.
    apply N.mod_mul, N.pow_nonzero. discriminate.
  - rewrite (N.mul_comm (num128 a)), (N.mul_comm (N.of_nat n)). reflexivity.
Qed.
Lemma digits_padded l n : digits 8 (map Byte.to_N (l ++ repeat x00 n)) = digits 8 (map Byte.to_N l).
Proof. rewrite map_app, digits_app, digits_zeros. lia. Qed.
Lemma m128_of_first bs : (16 <= length bs)%nat -> m128_of_bytes bs = m128_of_bytes (firstn 16 bs).
Proof. intros H. do 16 (destruct bs as [|? bs]; [cbn [length] in H; lia|]). reflexivity. Qed.
Lemma firstn_repeat16 n : (16 <= n)%nat -> firstn 16 (repeat x00 n) = repeat x00 16.
Proof. intros H. replace n with (16 + (n - 16))%nat by lia. rewrite repeat_app. reflexivity. Qed.
Lemma psrldq a n : num128 (_mm_srli_si128 a n) = PSRLDQ (num128 a) (N.of_nat n).
Proof.
  unfold _mm_srli_si128, PSRLDQ. rewrite N.shiftr_div_pow2.
  assert (Hd : forall k, num128 a / 2 ^ (N.of_nat k * 8) = digits 8 (map Byte.to_N (skipn k (m128_bytes a)))).
  { intros k. rewrite num128_bytes, (N.mul_comm _ 8), digits_skip by apply small_bytes. rewrite skipn_map. reflexivity. }
  destruct (N.ltb_spec 15 (N.of_nat n)) as [H|H].
  - rewrite (skipn_all2 (m128_bytes a)) by (rewrite m128_bytes_length; lia). cbn [app].
    rewrite m128_of_first by (rewrite repeat_length; lia). rewrite num128_of by (rewrite firstn_length, repeat_length; lia).
    rewrite (firstn_repeat16 n) by lia. rewrite digits_zeros. change (16 * 8) with (N.of_nat 16 * 8).
    rewrite Hd, skipn_all2 by (rewrite m128_bytes_length; lia). reflexivity.
  - rewrite num128_of by (rewrite app_length, skipn_length, m128_bytes_length, repeat_length; lia).
    rewrite digits_padded, Hd. reflexivity.
Qed.

(** ** Loads and constants *)
Lemma bget_sub bs off n j : (j < n)%nat -> bget (sub bs off n) j = bget bs (off + j).
Proof. intros H. unfold bget, sub. rewrite nth_firstn by exact H. apply nth_skipn. Qed.
Lemma load128 bs off : (off + 16 <= length bs)%nat ->
  num128 (_mm_loadu_si128 bs off) = LOAD 16 (fun j => Byte.to_N (bget bs (off + j))).
Proof.
  intros H. unfold _mm_loadu_si128, LOAD. apply bytes128.
  - unfold sub. rewrite firstn_length, skipn_length. lia.
  - intros j Hj. rewrite Nat2N.id, bget_sub by exact Hj. reflexivity.
Qed.
Lemma list_bgets bs n : length bs = n -> map Byte.to_N bs = map (fun j => Byte.to_N (bget bs j)) (seq 0 n).
Proof.
  intros <-. induction bs as [|b bs IH]; [reflexivity|]. cbn [length seq map]. f_equal. rewrite IH.
  rewrite (seq_from 1), map_map. reflexivity.
Qed.
Lemma load256 bs off : (off + 32 <= length bs)%nat ->
  num256 (_mm256_loadu_si256 bs off) = LOAD 32 (fun j => Byte.to_N (bget bs (off + j))).
Proof.
  intros H. unfold _mm256_loadu_si256, LOAD.
  assert (L : length (sub bs off 32) = 32%nat) by (unfold sub; rewrite firstn_length, skipn_length; lia).
  rewrite num256_of by exact L. rewrite for_fields_digits. f_equal. rewrite (list_bgets _ 32 L).
  apply map_ext_in. intros j Hj. apply in_seq in Hj. rewrite Nat2N.id, bget_sub by lia. reflexivity.
Qed.

(** ** Together *)
Theorem registers : (forall a, num128 a < 2 ^ 128) /\ (forall a, num256 a < 2 ^ 256) /\
  (forall a b, num128 a = num128 b -> a = b) /\ (forall a b, num256 a = num256 b -> a = b) /\
  (forall n, n < 2 ^ 128 -> exists a, num128 a = n) /\ (forall n, n < 2 ^ 256 -> exists a, num256 a = n).
Proof.
  split; [exact num_lt|]. split; [exact num256_lt|]. split; [exact num128_inj|]. split; [exact num256_inj|].
  assert (H : forall k n, n < 2 ^ (32 * N.of_nat k) -> exists l : list u32, length l = k /\ digits 32 (map val l) = n).
  { induction k as [|k IH]; intros n Hn.
    - exists []. split; [reflexivity|]. change (2 ^ (32 * N.of_nat 0)) with 1 in Hn. cbn [map digits]. lia.
    - replace (32 * N.of_nat (S k)) with (32 + 32 * N.of_nat k) in Hn by lia. rewrite N.pow_add_r in Hn.
      destruct (IH (n / 2 ^ 32)) as (l & L & E); [apply N.div_lt_upper_bound; [apply N.pow_nonzero; discriminate|exact Hn]|].
      exists (of_N 32 n :: l). split; [cbn [length]; lia|]. cbn [map digits]. rewrite E, val_of_N.
      rewrite N.add_comm. symmetry. apply N.div_mod, N.pow_nonzero. discriminate. }
  split; intros n Hn.
  - destruct (H 4%nat n Hn) as (l & L & E). do 4 (destruct l as [|? l]; [discriminate L|]). destruct l; [|discriminate L].
    exists (Quad u u0 u1 u2). exact E.
  - destruct (H 8%nat n Hn) as (l & L & E). do 8 (destruct l as [|? l]; [discriminate L|]). destruct l; [|discriminate L].
    exists (Oct u u0 u1 u2 u3 u4 u5 u6). exact E.
Qed.
Theorem sse_instructions a b imm n : 
  num128 (_mm_add_epi32 a b) = PADDD 4 (num128 a) (num128 b) /\
  num128 (_mm_xor_si128 a b) = PXOR (num128 a) (num128 b) /\
  num128 (_mm_srli_epi32 a imm) = PSRLD 4 (num128 a) imm /\
  num128 (_mm_slli_epi32 a imm) = PSLLD 4 (num128 a) imm /\
  num128 (_mm_shuffle_epi32 a imm) = PSHUFD (num128 a) imm /\
  num128 (_mm_shuffle_ps a b imm) = SHUFPS (num128 a) (num128 b) imm /\
  num128 (_mm_blend_epi16 a b imm) = PBLENDW (num128 a) (num128 b) imm /\
  num128 (_mm_shufflehi_epi16 a imm) = PSHUFHW (num128 a) imm /\
  num128 (_mm_slli_si128 a n) = PSLLDQ (num128 a) (N.of_nat n) /\
  num128 (_mm_srli_si128 a n) = PSRLDQ (num128 a) (N.of_nat n) /\
  num128 (_mm_unpacklo_epi32 a b) = INTERLEAVE_DWORDS (num128 a) (num128 b) /\
  num128 (_mm_unpackhi_epi32 a b) = INTERLEAVE_HIGH_DWORDS (num128 a) (num128 b) /\
  num128 (_mm_unpacklo_epi64 a b) = INTERLEAVE_QWORDS (num128 a) (num128 b) /\
  num128 (_mm_unpackhi_epi64 a b) = INTERLEAVE_HIGH_QWORDS (num128 a) (num128 b).
Proof.
  repeat split; [apply paddd128|apply pxor128|apply psrld128|apply pslld128|apply pshufd|apply shufps|apply pblendw|apply pshufhw|
    apply pslldq|apply psrldq|apply unpack_lo32|apply unpack_hi32|apply unpack_lo64|apply unpack_hi64].
Qed.
Theorem avx2_instructions a b imm :
  num256 (_mm256_add_epi32 a b) = PADDD 8 (num256 a) (num256 b) /\
  num256 (_mm256_xor_si256 a b) = PXOR (num256 a) (num256 b) /\
  num256 (_mm256_or_si256 a b) = POR (num256 a) (num256 b) /\
  num256 (_mm256_srli_epi32 a imm) = PSRLD 8 (num256 a) imm /\
  num256 (_mm256_slli_epi32 a imm) = PSLLD 8 (num256 a) imm /\
  num256 (_mm256_unpacklo_epi32 a b) = halves INTERLEAVE_DWORDS (num256 a) (num256 b) /\
  num256 (_mm256_unpackhi_epi32 a b) = halves INTERLEAVE_HIGH_DWORDS (num256 a) (num256 b) /\
  num256 (_mm256_unpacklo_epi64 a b) = halves INTERLEAVE_QWORDS (num256 a) (num256 b) /\
  num256 (_mm256_unpackhi_epi64 a b) = halves INTERLEAVE_HIGH_QWORDS (num256 a) (num256 b) /\
  (imm < 256 -> num256 (_mm256_permute2x128_si256 a b imm) = VPERM2I128 (num256 a) (num256 b) imm).
Proof.
  repeat split; [apply paddd256|apply pxor256|apply por256|apply psrld256|apply pslld256|apply halves_join, unpack_lo32|
    apply halves_join, unpack_hi32|apply halves_join, unpack_lo64|apply halves_join, unpack_hi64|apply vperm].
Qed.
Theorem byte_shuffles a b ctl : Forall (fun d => d < 2 ^ 8) ctl ->
  (length ctl = 16%nat -> num128 (_mm_shuffle_epi8 a ctl) = PSHUFB (num128 a) (digits 8 ctl)) /\
  (length ctl = 32%nat -> num256 (_mm256_shuffle_epi8 b ctl) = VPSHUFB (num256 b) (digits 8 ctl)).
Proof. intros S. split; intros L; [apply pshufb|apply vpshufb]; assumption. Qed.
Theorem loads bs off :
  ((off + 16 <= length bs)%nat ->
   num128 (_mm_loadu_si128 bs off) = LOAD 16 (fun j => Byte.to_N (nth (off + j) bs x00))) /\
  ((off + 32 <= length bs)%nat ->
   num256 (_mm256_loadu_si256 bs off) = LOAD 32 (fun j => Byte.to_N (nth (off + j) bs x00))).
Proof. split; intros H; [apply load128|apply load256]; exact H. Qed.
(** The constants, arguments from the most significant down (setr: up). *)
Lemma of_digits4 w (a b c d : N) : digits w [a; b; c; d] = for_fields w 4 (fun j => nth (N.to_nat j) [a; b; c; d] 0).
Proof. rewrite for_fields_digits. reflexivity. Qed.
Theorem set_instructions a b c d e f g h :
  num128 (_mm_setr_epi32 a b c d) = for_fields 32 4 (fun j => nth (N.to_nat j) [val a; val b; val c; val d] 0) /\
  num128 (_mm_set1_epi32 a) = for_fields 32 4 (fun _ => val a) /\
  num256 (_mm256_set1_epi32 a) = for_fields 32 8 (fun _ => val a) /\
  num256 (_mm256_set_epi32 a b c d e f g h) =
    for_fields 32 8 (fun j => nth (7 - N.to_nat j) [val a; val b; val c; val d; val e; val f; val g; val h] 0).
Proof. repeat split; rewrite for_fields_digits; reflexivity. Qed.
