(** * ReferenceFacts: the C code of RFC 7693 computes [Spec.blake2s]. *)
From Coq Require Import Bool Arith NArith List ZArith Lia ZifyBool ZifyNat ZifyN.
From Coq.Strings Require Import Byte.
From Verif Require Import BaseFacts SpecFacts Spec Reference.
From Verif Require LeafFacts.
Import ListNotations.
Local Open Scope N_scope.
Local Opaque N.pow.

Lemma list8 (l : list N) : length l = 8%nat -> exists a b c d e f g h, l = [a; b; c; d; e; f; g; h].
Proof.
  intros H. do 8 (destruct l as [|? l]; [discriminate H|]). destruct l; [|discriminate H]. do 8 eexists. reflexivity.
Qed.

(** ** Words *)
Lemma four_bytes (l : list byte) : forall i, (i + 4 <= length l)%nat ->
  firstn 4 (skipn i l) = [nth i l x00; nth (i + 1) l x00; nth (i + 2) l x00; nth (i + 3) l x00].
Proof.
  induction l as [|x l IH]; intros i Hi; [cbn [length] in Hi; lia|]. destruct i as [|i].
  - cbn [length] in Hi. do 3 (destruct l as [|? l]; [cbn [length] in Hi; lia|]). reflexivity.
  - cbn [length] in Hi. cbn [skipn Nat.add nth]. apply IH. lia.
Qed.
Lemma GET32_word bs i : (4 * i + 4 <= length bs)%nat -> GET32 bs (4 * i) = word bs i.
Proof.
  intros H. unfold GET32, word. cbv zeta. rewrite four_bytes by exact H. rewrite Nat.add_0_r. cbn [le_num].
  set (a := nth (4 * i) bs x00). set (b := nth (4 * i + 1) bs x00). set (c := nth (4 * i + 2) bs x00). set (d := nth (4 * i + 3) bs x00).
  pose proof (to_N_lt a) as Ha. pose proof (to_N_lt b) as Hb. pose proof (to_N_lt c) as Hc. pose proof (to_N_lt d) as Hd.
  rewrite !N.shiftl_mul_pow2.
  rewrite (lxor_disjoint _ _ 8) by (change (2 ^ 8) with 256; lia).
  rewrite (lxor_disjoint _ _ 16) by (change (2 ^ 8) with 256; change (2 ^ 16) with 65536; lia).
  rewrite (lxor_disjoint _ _ 24) by (change (2 ^ 8) with 256; change (2 ^ 16) with 65536; change (2 ^ 24) with 16777216; lia).
  change (2 ^ 8) with 256. change (2 ^ 16) with 65536. change (2 ^ 24) with 16777216. lia.
Qed.

(** ** Compression *)
Lemma message_words bs : length bs = 64%nat ->
  init_m bs = map (word bs) (seq 0 16).
Proof.
  intros H.
  transitivity (map (fun i => GET32 bs (4 * i)) (seq 0 16)).
  - unfold init_m, for_. cbn [seq fold_left repeat set map]. reflexivity.
  - apply map_ext_in. intros i Hi. apply in_seq in Hi. apply GET32_word. lia.
Qed.
Lemma B2S_G_eq : B2S_G = G.
Proof. reflexivity. Qed.
Lemma sigma_rows : map (fun i => nth i SIGMA []) (seq 0 10) = SIGMA.
Proof. reflexivity. Qed.
Lemma fold_rows {A B} (f : A -> B -> A) (g : nat -> B) (body : A -> nat -> A) : (forall v i, body v i = f v (g i)) ->
  forall l v, fold_left body l v = fold_left f (map g l) v.
Proof. intros H l. induction l as [|i l IH]; intros v; cbn [fold_left map]; [reflexivity|]. rewrite H. apply IH. Qed.
Lemma ref_rounds m v : ten_rounds m v = fold_left (ROUND m) SIGMA v.
Proof.
  unfold ten_rounds.
  rewrite B2S_G_eq. unfold for_. 
  transitivity (fold_left (ROUND m) (map (fun i => nth i SIGMA []) (seq 0 10)) v); [|rewrite sigma_rows; reflexivity].
  apply fold_rows. intros v' i. unfold ROUND.
  generalize G. intros g. reflexivity.
Qed.
Lemma ref_init_v h0 h1 h2 h3 h4 h5 h6 h7 : init_v [h0; h1; h2; h3; h4; h5; h6; h7] =
  [h0; h1; h2; h3; h4; h5; h6; h7; at_ IV 0; at_ IV 1; at_ IV 2; at_ IV 3; at_ IV 4; at_ IV 5; at_ IV 6; at_ IV 7].
Proof. reflexivity. Qed.
Lemma ref_feed h0 h1 h2 h3 h4 h5 h6 h7 v : feed v [h0; h1; h2; h3; h4; h5; h6; h7] =
  map (fun i => N.lxor (N.lxor (at_ [h0; h1; h2; h3; h4; h5; h6; h7] i) (at_ v i)) (at_ v (i + 8))) (seq 0 8).
Proof.
  unfold feed, for_. cbn [seq fold_left set at_ nth map]. rewrite !N.lxor_assoc. reflexivity.
Qed.
Lemma ref_v0 h0 h1 h2 h3 h4 h5 h6 h7 a0 a1 a2 a3 a4 a5 a6 a7 t0 t1 (last : bool) :
  (let v := [h0; h1; h2; h3; h4; h5; h6; h7; a0; a1; a2; a3; a4; a5; a6; a7] in
   let v := set v 12 (N.lxor (at_ v 12) t0) in
   let v := set v 13 (N.lxor (at_ v 13) t1) in
   if last then set v 14 (N.lxor (at_ v 14) ones) else v) =
  [h0; h1; h2; h3; h4; h5; h6; h7] ++
  [a0; a1; a2; a3; N.lxor a4 t0; N.lxor a5 t1; N.lxor a6 (if last then ones else 0); N.lxor a7 0].
Proof. destruct last; cbn [set at_ nth app]; rewrite ?N.lxor_0_r; reflexivity. Qed.
Lemma compress_ref x last t : length (x_h x) = 8%nat -> length (x_b x) = 64%nat ->
  x_t0 x = t mod 2 ^ 32 -> x_t1 x = (t / 2 ^ 32) mod 2 ^ 32 ->
  blake2s_compress x last =
  mk_ctx (x_b x) (F (x_h x) (x_b x) t (if last then ones else 0) 0) (x_t0 x) (x_t1 x) (x_c x) (x_outlen x).
Proof.
  intros Hh Hb H0 H1. unfold blake2s_compress. rewrite (message_words _ Hb).
  destruct (list8 _ Hh) as (h0 & h1 & h2 & h3 & h4 & h5 & h6 & h7 & E). rewrite E, ref_init_v.
  pose proof (ref_v0 h0 h1 h2 h3 h4 h5 h6 h7 (at_ IV 0) (at_ IV 1) (at_ IV 2) (at_ IV 3) (at_ IV 4) (at_ IV 5) (at_ IV 6) (at_ IV 7)
    (x_t0 x) (x_t1 x) last) as Ev. cbv zeta in Ev |- *. rewrite Ev, ref_rounds, ref_feed. rewrite H0, H1. reflexivity.
Qed.

(** ** The counter *)
Lemma add_counter_ref x t : x_t0 x = t mod 2 ^ 32 -> x_t1 x = (t / 2 ^ 32) mod 2 ^ 32 -> (x_c x <= 64)%nat ->
  add_counter x = mk_ctx (x_b x) (x_h x) ((t + N.of_nat (x_c x)) mod 2 ^ 32) (((t + N.of_nat (x_c x)) / 2 ^ 32) mod 2 ^ 32)
                         (x_c x) (x_outlen x).
Proof.
  intros H0 H1 Hc. unfold add_counter. cbv zeta. rewrite H0, H1. unfold add32. rewrite !low32_mod.
  set (n := N.of_nat (x_c x)). assert (Hn : n <= 64) by lia. clearbody n.
  change (2 ^ 32) with 4294967296 in *.
  rewrite N.add_mod_idemp_l by discriminate. f_equal.
  pose proof (N.div_mod t 4294967296 ltac:(discriminate)) as D. pose proof (N.mod_lt t 4294967296 ltac:(discriminate)) as L.
  set (q := t / 4294967296) in *. set (r := t mod 4294967296) in *. clearbody q r. subst t.
  destruct (N.lt_ge_cases (r + n) 4294967296) as [Hs|Hs].
  - assert (E : (4294967296 * q + r + n) / 4294967296 = q) by (symmetry; apply (N.div_unique _ _ q (r + n)); lia).
    assert (M : (4294967296 * q + r + n) mod 4294967296 = r + n) by (symmetry; apply (N.mod_unique _ _ q (r + n)); lia).
    rewrite E, M. replace (r + n <? n) with false by (symmetry; apply N.ltb_ge; lia). reflexivity.
  - assert (E : (4294967296 * q + r + n) / 4294967296 = q + 1)
      by (symmetry; apply (N.div_unique _ _ (q + 1) (r + n - 4294967296)); lia).
    assert (M : (4294967296 * q + r + n) mod 4294967296 = r + n - 4294967296)
      by (symmetry; apply (N.mod_unique _ _ (q + 1) (r + n - 4294967296)); lia).
    rewrite E, M. replace (r + n - 4294967296 <? n) with true by (symmetry; apply N.ltb_lt; lia).
    apply N.add_mod_idemp_l. discriminate.
Qed.

(** ** The buffer *)
Lemma put_app (l : list byte) : forall i x, (i < length l)%nat -> put l i x = firstn i l ++ x :: skipn (S i) l.
Proof.
  induction l as [|y l IH]; intros i x Hi; [cbn [length] in Hi; lia|]. destruct i as [|i]; [reflexivity|].
  cbn [length] in Hi. cbn [put firstn app]. rewrite IH by lia. reflexivity.
Qed.
Lemma put_length (l : list byte) i x : length (put l i x) = length l.
Proof. revert i. induction l as [|y l IH]; intros [|i]; try reflexivity. cbn [put length]. rewrite IH. reflexivity. Qed.
Lemma put_firstn (l : list byte) i x : (i < length l)%nat -> firstn (S i) (put l i x) = firstn i l ++ [x].
Proof.
  revert i. induction l as [|y l IH]; intros i Hi; [cbn [length] in Hi; lia|]. destruct i as [|i]; [reflexivity|].
  cbn [length] in Hi. cbn [put]. rewrite !firstn_cons, IH by lia. reflexivity.
Qed.
Lemma zero_from (l : list byte) : forall n i, (i + n = length l)%nat ->
  for_ i n (fun bb j => put bb j x00) l = firstn i l ++ repeat x00 n.
Proof.
  unfold for_. intros n. revert l. induction n as [|n IH]; intros l i H; cbn [seq fold_left repeat].
  - rewrite app_nil_r, firstn_all2 by lia. reflexivity.
  - rewrite IH by (rewrite put_length; lia). rewrite put_firstn by lia. rewrite <- app_assoc. reflexivity.
Qed.
Lemma zero_buf l i : length l = 64%nat -> (i <= 64)%nat ->
  for_ i (64 - i) (fun bb j => put bb j x00) l = pad 64 (firstn i l).
Proof. intros Hl Hi. rewrite zero_from by lia. unfold pad. rewrite firstn_length, Hl. do 2 f_equal. lia. Qed.

(** ** Updates *)
(** [x] has taken the bytes [D] starting from the chaining value [h0]. *)
Record holds (h0 : list N) (D : list byte) (k : nat) (x : ctx) : Prop := {
  ho_b : length (x_b x) = 64%nat;
  ho_h : x_h x = chain h0 D k;
  ho_t0 : x_t0 x = (64 * N.of_nat k) mod 2 ^ 32;
  ho_t1 : x_t1 x = (64 * N.of_nat k / 2 ^ 32) mod 2 ^ 32;
  ho_c : (64 * k + x_c x = length D)%nat;
  ho_hi : (x_c x <= 64)%nat;
  ho_lazy : (k = 0 \/ 0 < x_c x)%nat;
  ho_buf : firstn (x_c x) (x_b x) = skipn (64 * k) D
}.
Lemma update_byte_holds h0 D k x i : length h0 = 8%nat -> holds h0 D k x ->
  exists k', holds h0 (D ++ [i]) k' (update_byte x i) /\ x_outlen (update_byte x i) = x_outlen x.
Proof.
  intros H8 H. unfold update_byte. destruct (Nat.eqb (x_c x) 64) eqn:Ec.
  - apply Nat.eqb_eq in Ec. cbv zeta.
    rewrite (add_counter_ref x (64 * N.of_nat k) (ho_t0 _ _ _ _ H) (ho_t1 _ _ _ _ H) (ho_hi _ _ _ _ H)).
    erewrite (compress_ref _ _ (64 * N.of_nat k + N.of_nat (x_c x)));
      [|cbn [x_h]; rewrite (ho_h _ _ _ _ H); apply chain_length, H8|exact (ho_b _ _ _ _ H)|reflexivity|reflexivity].
    cbn [x_b x_h x_t0 x_t1 x_c x_outlen].
    pose proof (ho_c _ _ _ _ H) as Hc. pose proof (ho_buf _ _ _ _ H) as Hb. rewrite Ec in *.
    assert (Eb : x_b x = block D k).
    { rewrite block_whole by lia. rewrite <- Hb, firstn_firstn. symmetry. apply firstn_all2. rewrite (ho_b _ _ _ _ H). lia. }
    assert (Et : 64 * N.of_nat k + N.of_nat 64 = 64 * N.of_nat (S k)) by lia. rewrite Et.
    exists (S k). split; [|reflexivity]. constructor; cbn [x_b x_h x_t0 x_t1 x_c x_outlen].
    + rewrite put_length. apply (ho_b _ _ _ _ H).
    + rewrite chain_app by lia. rewrite chain_S, (ho_h _ _ _ _ H), Eb. do 2 f_equal. lia.
    + reflexivity.
    + reflexivity.
    + rewrite app_length. cbn [length]. lia.
    + lia.
    + lia.
    + rewrite put_firstn by (rewrite (ho_b _ _ _ _ H); lia). rewrite skipn_app_ge by lia.
      replace (64 * S k - length D)%nat with 0%nat by lia. reflexivity.
  - apply Nat.eqb_neq in Ec. pose proof (ho_hi _ _ _ _ H) as Hh. pose proof (ho_c _ _ _ _ H) as Hc.
    cbn [x_b x_h x_t0 x_t1 x_c x_outlen]. exists k. split; [|reflexivity]. constructor; cbn [x_b x_h x_t0 x_t1 x_c x_outlen].
    + rewrite put_length. apply (ho_b _ _ _ _ H).
    + rewrite chain_app by lia. apply (ho_h _ _ _ _ H).
    + apply (ho_t0 _ _ _ _ H).
    + apply (ho_t1 _ _ _ _ H).
    + rewrite app_length. cbn [length]. lia.
    + lia.
    + lia.
    + rewrite put_firstn by (rewrite (ho_b _ _ _ _ H); lia). rewrite (ho_buf _ _ _ _ H), skipn_app_le by lia. reflexivity.
Qed.
Lemma update_holds h0 inp : length h0 = 8%nat -> forall D k x, holds h0 D k x ->
  exists k', holds h0 (D ++ inp) k' (blake2s_update x inp) /\ x_outlen (blake2s_update x inp) = x_outlen x.
Proof.
  intros H8. unfold blake2s_update. induction inp as [|i inp IH]; intros D k x H.
  - exists k. rewrite app_nil_r. split; [exact H|reflexivity].
  - cbn [fold_left]. destruct (update_byte_holds h0 D k x i H8 H) as (k1 & H1 & E1).
    destruct (IH _ _ _ H1) as (k2 & H2 & E2). exists k2. rewrite <- app_assoc in H2. split; [exact H2|congruence].
Qed.
Lemma pieces_hold h0 pieces : length h0 = 8%nat -> forall D k x, holds h0 D k x ->
  exists k', holds h0 (D ++ concat pieces) k' (fold_left blake2s_update pieces x) /\
    x_outlen (fold_left blake2s_update pieces x) = x_outlen x.
Proof.
  intros H8. induction pieces as [|p pieces IH]; intros D k x H; cbn [fold_left concat].
  - exists k. rewrite app_nil_r. split; [exact H|reflexivity].
  - destruct (update_holds h0 p H8 D k x H) as (k1 & H1 & E1).
    destruct (IH _ _ _ H1) as (k2 & H2 & E2). exists k2. rewrite <- app_assoc in H2. split; [exact H2|congruence].
Qed.

(** ** Output *)
Lemma out_byte w j : byte_of (N.land (N.shiftr w (8 * j)) 255) =
  match Byte.of_N ((w / 256 ^ j) mod 256) with Some b => b | None => x00 end.
Proof.
  unfold byte_of. change 255 with (N.ones 8). rewrite N.land_ones, N.shiftr_div_pow2, N.pow_mul_r. reflexivity.
Qed.
Lemma out_word w : map (fun i => byte_of (N.land (N.shiftr w (8 * N.of_nat i)) 255)) (seq 0 4) = le_bytes 4 w.
Proof.
  cbn [seq map]. rewrite !out_byte. cbn [le_bytes].
  change (256 ^ N.of_nat 0) with 1. change (256 ^ N.of_nat 1) with 256. change (256 ^ N.of_nat 2) with (256 * 256).
  change (256 ^ N.of_nat 3) with (256 * 256 * 256). rewrite N.div_1_r, !N.div_div by discriminate. reflexivity.
Qed.
Lemma out_bytes h n : length h = 8%nat -> (n <= 32)%nat ->
  map (fun i => byte_of (N.land (N.shiftr (at_ h (Nat.div i 4)) (8 * N.of_nat (Nat.modulo i 4))) 255)) (seq 0 n) =
  firstn n (words_bytes h).
Proof.
  intros Hh Hn. set (f := fun i => byte_of _).
  assert (E : map f (seq 0 32) = words_bytes h).
  { destruct (list8 _ Hh) as (h0 & h1 & h2 & h3 & h4 & h5 & h6 & h7 & ->). unfold words_bytes. cbn [flat_map].
    rewrite <- !out_word. reflexivity. }
  rewrite <- E, firstn_map. f_equal. clear - Hn.
  replace 32%nat with (n + (32 - n))%nat by lia. rewrite seq_app, firstn_app_le by (rewrite seq_length; lia).
  rewrite firstn_all2 by (rewrite seq_length; lia). reflexivity.
Qed.
Lemma final_holds h0 D k x : length h0 = 8%nat -> holds h0 D k x -> (x_outlen x <= 32)%nat ->
  blake2s_final x = firstn (x_outlen x) (words_bytes (hash_words h0 D false)).
Proof.
  intros H8 H Ho. unfold blake2s_final. cbv zeta.
  rewrite (add_counter_ref x (64 * N.of_nat k) (ho_t0 _ _ _ _ H) (ho_t1 _ _ _ _ H) (ho_hi _ _ _ _ H)).
  cbn [x_b x_h x_t0 x_t1 x_c x_outlen]. rewrite zero_buf by (apply H || apply (ho_hi _ _ _ _ H)).
  pose proof (ho_c _ _ _ _ H) as Hc. pose proof (ho_hi _ _ _ _ H) as Hh. pose proof (ho_lazy _ _ _ _ H) as Hl.
  erewrite (compress_ref _ _ (64 * N.of_nat k + N.of_nat (x_c x)));
    [|cbn [x_h]; rewrite (ho_h _ _ _ _ H); apply chain_length, H8| |reflexivity|reflexivity].
  2: { cbn [x_b]. rewrite pad_length, firstn_length, (ho_b _ _ _ _ H). lia. }
  cbn [x_b x_h x_t0 x_t1 x_c x_outlen]. rewrite out_bytes; [|apply F_length|exact Ho]. do 2 f_equal.
  unfold hash_words. cbv zeta. rewrite (nblocks_unique D k) by lia. replace (S k - 1)%nat with k by lia.
  rewrite (ho_h _ _ _ _ H), (ho_buf _ _ _ _ H). replace (64 * N.of_nat k + N.of_nat (x_c x)) with (N.of_nat (length D)) by lia.
  f_equal. unfold block. f_equal. symmetry. apply firstn_all2. rewrite skipn_length. lia.
Qed.

(** ** The beginning *)
Definition ref_params (outlen : nat) (key : list byte) : params := mk_params (N.of_nat outlen) key 1 1 0 0 0 0 [] [].
Definition ref_words (o n : nat) : list N :=
  let h := for_ 0 8 (fun h i => set h i (at_ IV i)) (repeat 0 8) in
  set h 0 (N.lxor (at_ h 0) (N.lxor (N.lxor 0x01010000 (N.shiftl (N.of_nat n) 8)) (N.of_nat o))).
Definition spec_words (o n : nat) : list N :=
  let block := le_bytes 1 (N.of_nat o) ++ le_bytes 1 (N.of_nat n) ++ le_bytes 1 1 ++ le_bytes 1 1
    ++ le_bytes 4 0 ++ le_bytes 6 0 ++ le_bytes 1 0 ++ le_bytes 1 0 ++ pad 8 [] ++ pad 8 [] in
  map (fun i => N.lxor (at_ IV i) (word block i)) (seq 0 8).
Fixpoint same (a b : list N) : bool :=
  match a, b with [], [] => true | x :: a, y :: b => (x =? y) && same a b | _, _ => false end.
Lemma same_eq a : forall b, same a b = true -> a = b.
Proof.
  induction a as [|x a IH]; intros [|y b] H; try discriminate H; [reflexivity|]. cbn [same] in H.
  apply andb_true_iff in H as (H1 & H2). apply N.eqb_eq in H1. f_equal; [exact H1|apply IH, H2].
Qed.
Lemma ref_words_ok o n : (o <= 32)%nat -> (n <= 32)%nat -> ref_words o n = spec_words o n.
Proof.
  intros Ho Hn. apply same_eq.
  assert (H : forallb (fun o => forallb (fun n => same (ref_words o n) (spec_words o n)) (seq 0 33)) (seq 0 33) = true)
    by (vm_compute; reflexivity).
  rewrite forallb_forall in H. specialize (H o ltac:(apply in_seq; lia)). rewrite forallb_forall in H. apply H, in_seq. lia.
Qed.
Lemma ref_words_initial o key : (o <= 32)%nat -> (length key <= 32)%nat ->
  ref_words o (length key) = initial (ref_params o key).
Proof. intros Ho Hk. rewrite ref_words_ok by assumption. reflexivity. Qed.
Lemma initial_length p : length (initial p) = 8%nat.
Proof. unfold initial. rewrite map_length. apply seq_length. Qed.

(** A piece that fits in the buffer. *)
Lemma update_small inp : forall x, length (x_b x) = 64%nat -> (x_c x + length inp <= 64)%nat ->
  blake2s_update x inp = mk_ctx (firstn (x_c x) (x_b x) ++ inp ++ skipn (x_c x + length inp) (x_b x))
    (x_h x) (x_t0 x) (x_t1 x) (x_c x + length inp) (x_outlen x).
Proof.
  unfold blake2s_update. induction inp as [|i inp IH]; intros x Hb Hc; cbn [fold_left].
  - cbn [length app]. rewrite Nat.add_0_r, firstn_skipn. destruct x; reflexivity.
  - cbn [length] in Hc. unfold update_byte at 2. replace (Nat.eqb (x_c x) 64) with false by (symmetry; apply Nat.eqb_neq; lia).
    rewrite IH; cbn [x_b x_h x_t0 x_t1 x_c x_outlen]; [|rewrite put_length; exact Hb|lia].
    rewrite put_firstn by lia. rewrite (put_app (x_b x)) by lia. cbn [length].
    f_equal; [|lia]. rewrite <- app_assoc. f_equal. cbn [app]. do 2 f_equal.
    rewrite skipn_app_ge by (rewrite firstn_length; lia). rewrite firstn_length, Hb, Nat.min_l by lia.
    replace (S (x_c x) + length inp - x_c x)%nat with (S (length inp)) by lia.
    rewrite skipn_cons. rewrite LeafFacts.skipn_plus. f_equal. lia.
Qed.

Theorem reference_spec junk outlen key pieces : length junk = 64%nat ->
  reference junk outlen key pieces =
  if (1 <=? outlen)%nat && (outlen <=? 32)%nat && (length key <=? 32)%nat
  then Some (blake2s (ref_params outlen key) false (concat pieces)) else None.
Proof.
  intros Hj. unfold reference, blake2s_init. cbv zeta.
  destruct (Nat.eqb outlen 0 || Nat.ltb 32 outlen || Nat.ltb 32 (length key)) eqn:Eb.
  { replace ((1 <=? outlen)%nat && (outlen <=? 32)%nat && (length key <=? 32)%nat) with false; [reflexivity|].
    symmetry. apply not_true_iff_false. intros E. lia. }
  assert (Ho : (1 <= outlen <= 32)%nat) by lia. assert (Hk : (length key <= 32)%nat) by lia.
  replace ((1 <=? outlen)%nat && (outlen <=? 32)%nat && (length key <=? 32)%nat) with true by (symmetry; lia).
  fold (ref_words outlen (length key)). rewrite ref_words_initial by lia. rewrite zero_buf by lia.
  set (h0 := initial (ref_params outlen key)).
  assert (H8 : length h0 = 8%nat) by apply initial_length.
  assert (Hs : exists x, (if Nat.ltb 0 (length key)
      then let x := blake2s_update (mk_ctx (pad 64 (firstn (length key) junk)) h0 0 0 0 outlen) key in
           Some (mk_ctx (x_b x) (x_h x) (x_t0 x) (x_t1 x) 64 outlen)
      else Some (mk_ctx (pad 64 (firstn (length key) junk)) h0 0 0 0 outlen)) = Some x /\
    holds h0 (key_block key) 0 x /\ x_outlen x = outlen).
  { destruct key as [|k0 key'].
    - eexists. split; [reflexivity|]. split; [|reflexivity]. constructor; cbn [x_b x_h x_t0 x_t1 x_c x_outlen]; try reflexivity; try lia.
    - set (key := k0 :: key') in *. replace (Nat.ltb 0 (length key)) with true by reflexivity.
      eexists. split; [reflexivity|]. split; [|reflexivity]. cbv zeta.
      assert (Hp : length (pad 64 (firstn (length key) junk)) = 64%nat) by (rewrite pad_length, firstn_length; lia).
      rewrite update_small; cbn [x_b x_h x_t0 x_t1 x_c x_outlen]; [|exact Hp|lia].
      rewrite Nat.add_0_l. cbn [firstn app].
      assert (E : key ++ skipn (length key) (pad 64 (firstn (length key) junk)) = pad 64 key).
      { unfold pad. rewrite skipn_app_ge by (rewrite firstn_length; lia). rewrite firstn_length, Hj, Nat.min_l by lia.
        rewrite Nat.sub_diag. reflexivity. }
      rewrite E. constructor; cbn [x_b x_h x_t0 x_t1 x_c x_outlen]; try reflexivity; try lia.
      all: change (key_block key) with (pad 64 key); rewrite ?firstn_all2 by (rewrite pad_length; lia).
      all: rewrite ?pad_length; try lia; try reflexivity. }
  destruct Hs as (x & Es & H & Ex). cbv zeta in Es. rewrite Es. destruct (pieces_hold h0 pieces H8 _ _ _ H) as (k & H' & E').
  f_equal. rewrite (final_holds h0 _ _ _ H8 H') by lia. rewrite E', Ex. unfold blake2s, ref_params.
  cbn [digest_length Spec.key]. rewrite Nat2N.id. reflexivity.
Qed.
