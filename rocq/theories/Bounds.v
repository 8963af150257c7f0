(** * Bounds: every access of a program is within its slice. *)
From Verif Require Import Base BaseFacts Consts Portable Params State Many Blake2sp Views Debug StateFacts Avx2Facts
  Sse41Facts Machine Clients Terms Traced TracedFacts.
From Verif Require Robust Calls.
From Verif Require Sse41 Avx2.
From Coq Require Import ZArith Lia ZifyBool ZifyNat ZifyN.
Local Open Scope N_scope.

(** An event that does no harm: the range is within the slice, which has at most [cap]
    elements; the table has the entry; the CPU has the instructions of the routine. *)
Definition supported (c : cfg) (r : routine) : Prop :=
  match r with
  | Compress compress_sse41 _ _ _ | Compress4Transposed _ _ _ => has_sse41 c = true
  | Compress8 compress8_avx2 _ _ _ | Vectorize8 vectorize_words8_avx2
  | Compress8Vectorized compress8_vectorized_avx2 _ _ _ _ | Compress8Transposed _ _ _ => has_avx2 c = true
  | _ => True
  end.
Definition harmless (cap : nat) (c : cfg) (e : event) : Prop :=
  match e with
  | Branch _ => True
  | Access lo hi len => (lo <= hi)%nat /\ (hi <= len)%nat /\ (len <= cap)%nat
  | Lookup i => (i < 16)%nat
  | Run r => supported c r
  end.

Section Config.
Context (cap : nat) (Hcap : (1024 <= cap)%nat) (c : cfg) (Hc : cfg_ok c).

(** All events of [x] are harmless, and what it returns is a [P]. *)
Definition calm {A} (P : A -> Prop) (x : traced A) : Prop :=
  Forall (harmless cap c) (events x) /\ forall a, result x = Ok a -> P a.
Lemma calm_bind {A B} (P : A -> Prop) (Q : B -> Prop) x f :
  calm P x -> (forall a, P a -> calm Q (f a)) -> calm Q (tbind x f).
Proof.
  destruct x as [l [a| | |]]; intros (E & H) Hf; cbn [tbind events fst result snd] in *;
    try (split; [exact E|intros ? X; discriminate X]).
  destruct (Hf a (H a eq_refl)) as (E1 & H1). destruct (f a) as [m u]. cbn [events fst result snd] in *.
  split; [apply Forall_app; split; assumption|exact H1].
Qed.
Lemma calm_imp {A} (P Q : A -> Prop) x : calm P x -> (forall a, P a -> Q a) -> calm Q x.
Proof. intros (H1 & H2) H. split; [exact H1|]. intros a Ha. apply H, H2, Ha. Qed.
Lemma calm_note {A} (P : A -> Prop) l x : Forall (harmless cap c) l -> (forall a, x = Ok a -> P a) -> calm P (note l x).
Proof. intros H1 H2. split; assumption. Qed.
Lemma calm_ret {A} (P : A -> Prop) a : P a -> calm P (ret a).
Proof. intros H. split; [constructor|]. intros x E. injection E as <-. exact H. Qed.
Lemma calm_lift {A} (P : A -> Prop) x : (forall a, x = Ok a -> P a) -> calm P (lift x).
Proof. intros H. split; [constructor|exact H]. Qed.
Lemma calm_if {A} (P : A -> Prop) (b : bool) x y : (b = true -> calm P x) -> (b = false -> calm P y) ->
  calm P (tif b x y).
Proof.
  intros H1 H2. unfold tif. apply (calm_bind (fun _ => True)).
  - apply calm_note; [repeat constructor|auto].
  - intros _ _. destruct b; auto.
Qed.
Lemma harmless_branch b : Forall (harmless cap c) [Branch b].
Proof. repeat constructor. Qed.
Ltac cb := eapply calm_bind.

(** ** Arithmetic and slices *)
Lemma uadd_calm {w} (a b : uint w) : calm (fun r => val r = (val a + val b) mod 2 ^ w) (uadd_t c a b).
Proof.
  apply calm_note; [destruct (overflow_checks c); repeat constructor|]. intros r. apply Calls.uadd_val.
Qed.
Lemma usub_calm {w} (a b : uint w) : val b <= val a -> calm (fun r => val r = val a - val b) (usub_t c a b).
Proof.
  intros H. apply calm_note; [destruct (overflow_checks c); repeat constructor|]. intros r. unfold usub.
  apply N.leb_le in H. rewrite H. intros E. injection E as <-. rewrite val_of_N. apply N.mod_small.
  pose proof (val_lt a). lia.
Qed.
Lemma nsub_calm a b : (b <= a)%nat -> calm (fun r => r = (a - b)%nat) (nsub_t c a b).
Proof.
  intros H. apply calm_note; [destruct (overflow_checks c); repeat constructor|]. intros r. unfold nsub.
  apply Nat.leb_le in H. rewrite H. congruence.
Qed.
Lemma debug_assert_calm b : calm (fun _ => True) (debug_assert_t c b).
Proof. apply calm_note; [destruct (debug_assertions c); repeat constructor|auto]. Qed.
Lemma slice_from_calm {A} (xs : list A) lo : (lo <= length xs)%nat -> (length xs <= cap)%nat ->
  calm (fun l => length l = (length xs - lo)%nat) (slice_from_t xs lo).
Proof.
  intros H H0. apply calm_note; [constructor; [repeat split; lia|constructor]|]. intros l. apply Calls.slice_from_len.
Qed.
Lemma slice_to_calm {A} (xs : list A) hi : (hi <= length xs)%nat -> (length xs <= cap)%nat ->
  calm (fun l => length l = hi) (slice_to_t xs hi).
Proof.
  intros H H0. apply calm_note; [constructor; [repeat split; lia|constructor]|]. intros l. unfold slice_to.
  apply Nat.leb_le in H as H'. rewrite H'. intros E. injection E as <-. rewrite firstn_length. lia.
Qed.
Lemma copy_into_calm {A} (dst : list A) lo hi src : (lo <= hi)%nat -> (hi <= length dst)%nat -> (length dst <= cap)%nat -> (length src <= cap)%nat ->
  calm (fun l => length l = length dst) (copy_into_t dst lo hi src).
Proof.
  intros H1 H2 H3 H4. apply calm_note; [constructor; [repeat split; lia|]; constructor; [repeat split; lia|constructor]|].
  intros l E. pose proof (Robust.copy_into_safe dst lo hi src) as H. rewrite E in H. exact H.
Qed.
Lemma array_ref_calm {A} (xs : list A) off len : (off + len <= length xs)%nat -> (length xs <= cap)%nat ->
  calm (fun l => length l = len) (array_ref_t xs off len).
Proof.
  intros H H0. apply calm_note; [constructor; [repeat split; lia|constructor]|].
  intros l E. pose proof (Robust.array_ref_safe xs off len) as H'. rewrite E in H'. exact H'.
Qed.
Lemma raw_read_calm {A} (xs : list A) off len : (off + len <= length xs)%nat -> (length xs <= cap)%nat ->
  calm (fun _ => True) (raw_read_t xs off len).
Proof. intros H H0. apply calm_note; [constructor; [repeat split; lia|constructor]|auto]. Qed.
Lemma all_calm l : calm (fun b => b = forallb (fun x => x) l) (all_t l).
Proof.
  induction l as [|b l IH]; [apply calm_ret; reflexivity|]. cbn [all_t forallb].
  apply calm_if; intros ->; [exact IH|apply calm_ret; reflexivity].
Qed.
Lemma assert_calm b : calm (fun _ => b = true) (assert_t b).
Proof. apply calm_if; intros ->; [apply calm_ret; reflexivity|apply calm_lift; discriminate]. Qed.
Lemma flag_calm b : calm (fun _ => True) (flag32_t b).
Proof. apply calm_note; [repeat constructor|auto]. Qed.
Lemma mapM_calm {A B} (Q : B -> Prop) (f : A -> traced B) (a : oct A) :
  (forall l, calm Q (f (proj l a))) -> calm (fun r => forall l, Q (proj l r)) (oct_mapM_t f a).
Proof.
  intros H. unfold oct_mapM_t.
  cb; [exact (H L0)|]; intros b0 H0. cb; [exact (H L1)|]; intros b1 H1.
  cb; [exact (H L2)|]; intros b2 H2. cb; [exact (H L3)|]; intros b3 H3.
  cb; [exact (H L4)|]; intros b4 H4. cb; [exact (H L5)|]; intros b5 H5.
  cb; [exact (H L6)|]; intros b6 H6. cb; [exact (H L7)|]; intros b7 H7.
  apply calm_ret. intros []; assumption.
Qed.
Lemma mapM2_calm {A B C} (Q : C -> Prop) (f : A -> B -> traced C) (a : oct A) (b : oct B) :
  (forall l, calm Q (f (proj l a) (proj l b))) -> calm (fun r => forall l, Q (proj l r)) (oct_mapM2_t f a b).
Proof.
  intros H. unfold oct_mapM2_t.
  cb; [exact (H L0)|]; intros b0 H0. cb; [exact (H L1)|]; intros b1 H1.
  cb; [exact (H L2)|]; intros b2 H2. cb; [exact (H L3)|]; intros b3 H3.
  cb; [exact (H L4)|]; intros b4 H4. cb; [exact (H L5)|]; intros b5 H5.
  cb; [exact (H L6)|]; intros b6 H6. cb; [exact (H L7)|]; intros b7 H7.
  apply calm_ret. intros []; assumption.
Qed.
Lemma mapM_keeps {A B} (Q : lane8 -> B -> Prop) (f : A -> traced B) (a : oct A) :
  (forall l, calm (Q l) (f (proj l a))) -> calm (fun r => forall l, Q l (proj l r)) (oct_mapM_t f a).
Proof.
  intros H. unfold oct_mapM_t.
  cb; [exact (H L0)|]; intros b0 H0. cb; [exact (H L1)|]; intros b1 H1.
  cb; [exact (H L2)|]; intros b2 H2. cb; [exact (H L3)|]; intros b3 H3.
  cb; [exact (H L4)|]; intros b4 H4. cb; [exact (H L5)|]; intros b5 H5.
  cb; [exact (H L6)|]; intros b6 H6. cb; [exact (H L7)|]; intros b7 H7.
  apply calm_ret. intros []; assumption.
Qed.

(** ** Objects in order *)
Definition wst (st : State) : Prop :=
  length (st_buf st) = 64%nat /\ val (st_buflen st) <= 64 /\
  (st_compress_fn st = compress_sse41 -> has_sse41 c = true) /\ val (st_hash_length st) <= 32.
Definition wpar (p : Params) : Prop := length (p_key p) = 32%nat /\ val (p_hash_length p) <= 32.
Definition whash (h : Hash) : Prop := length (h_bytes h) = 32%nat /\ val (h_len h) <= 32.
Definition wspar (p : SpParams) : Prop :=
  length (sp_key p) = 32%nat /\ val (sp_key_length p) <= 32.
Definition wsp (st : SpState) : Prop :=
  length (sp_buf st) = 1024%nat /\ val (sp_buflen st) <= 1024 /\ (forall l, wst (proj l (sp_leaves st))) /\
  wst (sp_root st) /\ (sp_compress8_fn st = compress8_avx2 -> has_avx2 c = true).

(** ** Calls through pointers *)
Lemma compress_calm f h m n a b : (f = compress_sse41 -> has_sse41 c = true) ->
  calm (fun _ => True) (call_compress_t c f h m n a b).
Proof.
  intros H. apply calm_note; [constructor; [|constructor]|auto]. destruct f; cbn [harmless supported]; auto.
Qed.
Lemma compress8_calm f h m n a b : (f = compress8_avx2 -> has_avx2 c = true) ->
  calm (fun _ => True) (call_compress8_t c f h m n a b).
Proof.
  intros H. apply calm_note; [constructor; [|constructor]|auto]. destruct f; cbn [harmless supported]; auto.
Qed.
Lemma vectorize_calm w : calm (fun _ => True) (call_vectorize8_t c (fn_vectorize8 (default_compress_impl c)) w).
Proof.
  apply calm_note; [constructor; [|constructor]|auto]. unfold default_compress_impl, harmless, supported, has_avx2.
  destruct (arch_x86 c), (feature_std c), (cpu_avx2 c); reflexivity || exact I.
Qed.
Lemma compress_vectorized_calm w b lo hi x y :
  calm (fun _ => True) (call_compress8_vectorized_t c (fn_compress8_vectorized (default_compress_impl c)) w b lo hi x y).
Proof.
  apply calm_note; [constructor; [|constructor]|auto]. unfold default_compress_impl, harmless, supported, has_avx2.
  destruct (arch_x86 c), (feature_std c), (cpu_avx2 c); reflexivity || exact I.
Qed.

(** ** [State] *)
Lemma fill_buf_calm st input : wst st -> (length input <= cap)%nat ->
  calm (fun x => wst (fst x) /\ (length (snd x) <= length input)%nat) (fill_buf_t c st input).
Proof.
  intros (Hb & Hl & Hf & Hh) Hi. unfold fill_buf_t, buflen_nat.
  cb; [apply nsub_calm; unfold BLOCKBYTES; lia|]; intros room ->. unfold BLOCKBYTES.
  apply (calm_bind (fun t => t = Nat.min (64 - N.to_nat (val (st_buflen st))) (length input))).
  { apply calm_note; [repeat constructor|]. congruence. }
  intros take ->.
  cb; [apply slice_to_calm; lia|]; intros src Hsrc. cbv beta in Hsrc.
  cb; [apply copy_into_calm; lia|]; intros buf Hbuf. cbv beta in Hbuf.
  cb; [apply uadd_calm|]; intros n Hn. cb; [apply uadd_calm|]; intros m _.
  cb; [apply slice_from_calm; lia|]; intros rest Hr. cbv beta in Hr, Hn.
  apply calm_ret. cbn [fst snd]. split; [|lia]. unfold wst.
  cbn [st_buf st_buflen st_compress_fn st_hash_length]. repeat split; try assumption; [congruence|].
  rewrite Hn, val_of_N. change (2 ^ 8) with 256.
  rewrite (N.mod_small (N.of_nat _)) by lia. rewrite N.mod_small by lia. lia.
Qed.
Lemma compress_buffer_calm st input : wst st -> (length input <= cap)%nat ->
  calm (fun x => wst (fst x) /\ (length (snd x) <= cap)%nat) (compress_buffer_if_possible_t c st input).
Proof.
  intros H Hi. unfold compress_buffer_if_possible_t. apply calm_if; intros _; [|apply calm_ret; split; [exact H|exact Hi]].
  cb; [apply fill_buf_calm; [exact H|exact Hi]|]. intros (st', rest) (H' & Hr'). cbn [fst snd] in *.
  destruct rest; [apply calm_note; [repeat constructor|]; intros a E; injection E as <-; split; [exact H'|cbn [snd length]; lia]|].
  apply (calm_bind (fun _ => True)); [apply calm_note; [repeat constructor|auto]|]. intros _ _.
  destruct H' as (Hb & Hl & Hf & Hh).
  cb; [apply compress_calm, Hf|]; intros h _. apply calm_ret. split; [|cbn [snd]; lia]. unfold wst.
  cbn [fst st_buf st_buflen st_compress_fn st_hash_length]. repeat split; try assumption.
  change (0 <= 64). lia.
Qed.
Lemma update_loop_calm fuel : forall st input, wst st -> (length input <= cap)%nat ->
  calm (fun x => wst (fst x) /\ (length (snd x) <= cap)%nat) (update_loop_t fuel c st input).
Proof.
  induction fuel as [|fuel IH]; intros st input H Hi; [apply calm_lift; discriminate|]. cbn [update_loop_t].
  apply calm_if; intros Hg; [|apply calm_ret; split; [exact H|exact Hi]]. apply Nat.ltb_lt in Hg. unfold BLOCKBYTES in *.
  cb; [apply uadd_calm|]; intros n _. cb; [apply array_ref_calm; lia|]; intros b _.
  cb; [apply compress_calm, H|]; intros h _. cb; [apply slice_from_calm; lia|]; intros r Hr. cbv beta in Hr.
  apply IH; [exact H|lia].
Qed.
Lemma update_calm st input : wst st -> (length input <= cap)%nat -> calm wst (update_t c st input).
Proof.
  intros H Hi. unfold update_t. cb; [apply compress_buffer_calm; [exact H|exact Hi]|]. intros (s1, i1) (H1 & L1). cbn [fst snd] in *.
  cb; [apply update_loop_calm; [exact H1|exact L1]|]. intros (s2, i2) (H2 & L2). cbn [fst snd] in *.
  cb; [apply fill_buf_calm; [exact H2|exact L2]|]. intros (s3, i3) (H3 & _). apply calm_ret, H3.
Qed.
Lemma with_params_calm p : wpar p -> calm wst (with_params_t c p).
Proof.
  intros (Hk & Hl). unfold with_params_t. cbv zeta.
  assert (H0 : wst {| st_h := make_words p; st_compress_fn := fn_compress (default_compress_impl c);
    st_buf := repeat x00 BLOCKBYTES; st_buflen := of_N 8 0; st_count := of_N 64 0;
    st_last_node := p_last_node p; st_hash_length := p_hash_length p |}).
  { unfold wst. cbn [st_buf st_buflen st_compress_fn st_hash_length].
    split; [apply repeat_length|]. split; [change (0 <= 64); lia|]. split; [apply Robust.default_fns, Hc|exact Hl]. }
  apply calm_if; intros _; [|apply calm_ret; exact H0].
  cb; [apply copy_into_calm; rewrite ?repeat_length; unfold KEYBYTES, BLOCKBYTES; lia|].
  intros k Hk'. cbv beta in Hk'. rewrite repeat_length in Hk'. unfold BLOCKBYTES in Hk'. apply update_calm; [exact H0|lia].
Qed.
Lemma zero_tail_calm b n : length b = 64%nat ->
  calm (fun r => length r = 64%nat) (zero_tail_t b n).
Proof.
  intros H. apply calm_note.
  - apply Forall_app. split; [|repeat constructor]. apply Forall_flat_map, Forall_forall.
    intros i Hi. apply in_seq in Hi. unfold BLOCKBYTES in Hi.
    constructor; [exact I|]. constructor; [repeat split; lia|constructor].
  - intros r E. injection E as <-. rewrite Robust.zero_tail_length. exact H.
Qed.
Lemma finalize_calm st : wst st -> calm (fun x => wst (fst x) /\ whash (snd x)) (finalize_t c st).
Proof.
  intros (Hb & Hl & Hf & Hh). unfold finalize_t. cb; [apply zero_tail_calm, Hb|]. intros b Hb'. cbv zeta beta in *.
  cbn [st_last_node st_compress_fn st_h st_buf st_count st_hash_length].
  cb; [apply flag_calm|]; intros fl _.
  cb; [apply compress_calm, Hf|]; intros h _. apply calm_ret. cbn [fst snd]. split.
  - unfold wst. cbn [st_buf st_buflen st_compress_fn st_hash_length]. auto.
  - split; [apply Robust.words_bytes_length|exact Hh].
Qed.
Lemma hash_one_calm p x : wpar p -> (length x <= cap)%nat -> calm whash (hash_one_t c p x).
Proof.
  intros H Hx. unfold hash_one_t. cb; [apply with_params_calm, H|]. intros s Hs.
  cb; [apply update_calm; [exact Hs|exact Hx]|]. intros s1 H1. cb; [apply finalize_calm, H1|]. intros (s2, h) (_ & H2).
  apply calm_ret, H2.
Qed.
Lemma as_bytes_calm h : whash h -> calm (fun b => length b = N.to_nat (val (h_len h))) (as_bytes_t h).
Proof. intros (H1 & H2). unfold as_bytes_t. apply slice_to_calm; lia. Qed.
Lemma push_calm s i : (i < 16)%nat -> (length s < 64)%nat ->
  calm (fun r => length r = S (length s)) (push_digit_t s i).
Proof.
  intros Hi Hs. apply calm_note.
  - constructor; [exact Hi|]. constructor; [exact I|]. constructor; [|constructor]. unfold harmless, HEX_CAP, OUTBYTES. lia.
  - intros r. unfold push_char. destruct (Nat.ltb _ _); [|discriminate]. intros E. injection E as <-.
    rewrite app_length. cbn [length]. lia.
Qed.
Lemma byte_lt b : Byte.to_N b < 256.
Proof. pose proof (Byte.to_N_bounded b). lia. Qed.
Lemma hex_loop_calm l : forall s, (length s + 2 * length l <= 64)%nat -> calm (fun _ => True) (hex_loop_t s l).
Proof.
  induction l as [|b l IH]; intros s H; [apply calm_ret; exact I|]. cbn [hex_loop_t length] in *.
  cb; [apply push_calm; [|lia]|]; [|intros s1 H1; cbv beta in H1].
  { rewrite N.shiftr_div_pow2. change (2 ^ 4) with 16. pose proof (byte_lt b).
    assert (Byte.to_N b / 16 < 16) by (apply N.div_lt_upper_bound; lia). lia. }
  cb; [apply push_calm; [|lia]|]; [|intros s2 H2; cbv beta in H2].
  { change 15 with (N.ones 4). rewrite N.land_ones. change (2 ^ 4) with 16.
    assert (Byte.to_N b mod 16 < 16) by (apply N.mod_lt; discriminate). lia. }
  apply IH. lia.
Qed.
Lemma to_hex_calm h : whash h -> calm (fun _ => True) (to_hex_t h).
Proof.
  intros H. unfold to_hex_t. cb; [apply as_bytes_calm, H|]. intros b Hb. cbv beta in Hb. apply hex_loop_calm.
  destruct H as (_ & H). cbn [length]. lia.
Qed.
Lemma ct_ne_calm len : forall a b i tmp, (length a = len - i)%nat -> (length b = len - i)%nat -> (i <= len)%nat -> (len <= cap)%nat ->
  calm (fun _ => True) (ct_ne_t i len tmp a b).
Proof.
  induction a as [|x a IH]; intros b i tmp Ha Hb Hi Hlen; [apply calm_note; [repeat constructor|auto]|].
  destruct b as [|y b]; [apply calm_note; [repeat constructor|auto]|]. cbn [ct_ne_t length] in *.
  apply (calm_bind (fun _ => True)).
  { apply calm_note; [|auto]. constructor; [exact I|]. constructor; [repeat split; lia|]. constructor; [repeat split; lia|constructor]. }
  intros _ _. apply IH; lia.
Qed.
Lemma ct_eq_calm a b : (length a <= cap)%nat -> calm (fun _ => True) (constant_time_eq_t a b).
Proof.
  intros Ha. unfold constant_time_eq_t. apply calm_if; intros H; [|apply calm_ret; exact I]. apply Nat.eqb_eq in H.
  cb; [apply slice_to_calm; lia|]; intros _ _. cb; [apply slice_to_calm; lia|]; intros _ _.
  cb; [apply ct_ne_calm; lia|]. intros n _. apply calm_ret. exact I.
Qed.
Lemma hash_eq_calm x y : whash x -> whash y -> calm (fun _ => True) (hash_eq_t x y).
Proof.
  intros Hx Hy. unfold hash_eq_t. cb; [apply as_bytes_calm, Hx|]; intros a Ha. cb; [apply as_bytes_calm, Hy|]; intros b _.
  cbv beta in Ha. destruct Hx as (_ & Hx). apply ct_eq_calm. lia.
Qed.
Lemma hash_eq_slice_calm x y : whash x -> calm (fun _ => True) (hash_eq_slice_t x y).
Proof. intros Hx. unfold hash_eq_slice_t. cb; [apply as_bytes_calm, Hx|]; intros a Ha.
  cbv beta in Ha. destruct Hx as (_ & Hx). apply ct_eq_calm. lia. Qed.

(** ** Eight at a time *)
Lemma bump_calm st : wst st -> calm wst (bump_count_t c st).
Proof. intros H. unfold bump_count_t. cb; [apply uadd_calm|]. intros n _. apply calm_ret. exact H. Qed.
Lemma oct_all_calm {A} (f : A -> bool) (a : oct A) :
  calm (fun b => b = true -> forall l, f (proj l a) = true) (oct_all_t f a).
Proof.
  unfold oct_all_t. eapply calm_imp; [apply all_calm|]. cbv beta. intros b -> H.
  rewrite forallb_forall in H. intros l. apply H. destruct a, l; cbn; tauto.
Qed.
Lemma update8_loop_calm fuel f : (f = compress8_avx2 -> has_avx2 c = true) -> forall sts inputs,
  (forall l, wst (proj l sts)) -> (forall l, length (proj l inputs) <= cap)%nat ->
  calm (fun x => (forall l, wst (proj l (fst x))) /\ forall l, (length (proj l (snd x)) <= cap)%nat) (update8_loop_t fuel c f sts inputs).
Proof.
  intros Hf. induction fuel as [|fuel IH]; intros sts inputs H Hi; [apply calm_lift; discriminate|]. cbn [update8_loop_t].
  cb; [apply oct_all_calm|]. intros more Hm. cbv beta in Hm.
  apply calm_if; intros Hg; [|apply calm_ret; split; [exact H|exact Hi]]. specialize (Hm Hg).
  assert (Hl : forall l, (64 < length (proj l inputs))%nat) by (intros l; apply Nat.ltb_lt, Hm).
  cb; [apply (mapM_calm wst); intros l; apply bump_calm, H|]. intros s1 H1.
  cb; [apply (mapM_calm (fun l => length l = BLOCKBYTES)); intros l; apply array_ref_calm; specialize (Hl l); specialize (Hi l); unfold BLOCKBYTES; lia|].
  intros b _. cb; [apply compress8_calm, Hf|]. intros hs _.
  cb; [apply (mapM_calm (fun r => (length r <= cap)%nat)); intros l; specialize (Hl l); specialize (Hi l);
      eapply calm_imp; [apply slice_from_calm; unfold BLOCKBYTES; lia|cbv beta; intros a Ha; lia]|].
  intros r Hr. apply IH; [|exact Hr]. intros l. rewrite proj_map2. exact (H1 l).
Qed.
Lemma update8_calm sts inputs : (forall l, wst (proj l sts)) -> (forall l, length (proj l inputs) <= cap)%nat ->
  calm (fun r => forall l, wst (proj l r)) (update8_t c sts inputs).
Proof.
  intros H Hi. unfold update8_t.
  cb; [apply (mapM2_calm (fun x => wst (fst x) /\ (length (snd x) <= cap)%nat)); intros l; apply compress_buffer_calm; [apply H|apply Hi]|].
  intros si Hsi. cbv zeta. cbv beta in Hsi.
  cb; [apply update8_loop_calm; [apply Robust.default_fns, Hc| |]; intros l; rewrite proj_map; apply Hsi|].
  intros (s1, i1) (H1 & L1). cbn [fst snd] in *. apply mapM2_calm. intros l. apply update_calm; [apply H1|apply L1].
Qed.
Lemma finalize8_calm sts : (forall l, wst (proj l sts)) ->
  calm (fun x => (forall l, wst (proj l (fst x))) /\ forall l, whash (proj l (snd x))) (finalize8_t c sts).
Proof.
  intros H. unfold finalize8_t.
  cb; [apply (mapM_calm wst); intros l|].
  { destruct (H l) as (Hb & Hl & Hf & Hh). cb; [apply zero_tail_calm, Hb|]. intros b Hb'. cbv beta in Hb'. apply calm_ret.
    unfold wst. cbn [set_buf st_buf st_buflen st_compress_fn st_hash_length]. auto. }
  intros s1 H1. cbv beta in H1. cb; [apply (mapM_calm (fun _ => True)); intros l; apply flag_calm|]. intros ln _. cbv zeta.
  cb; [apply compress8_calm, Robust.default_fns, Hc|]. intros hs _. apply calm_ret. cbn [fst snd]. split; [exact H1|].
  intros l. rewrite proj_map2. split; [apply Robust.words_bytes_length|apply H1].
Qed.

(** ** Exact lengths *)
Lemma export4 h n : val n <= 32 -> let q := Sse41.export_hashes h n in whash (q0 q) /\ whash (q1 q) /\ whash (q2 q) /\ whash (q3 q).
Proof.
  intros Hn. pose proof (Robust.export4 h n) as H. cbv zeta in *. destruct H as (A & B & C & D).
  repeat split; try assumption; exact Hn.
Qed.
Lemma export8 h n l : val n <= 32 -> whash (proj l (Avx2.export_hashes h n)).
Proof. intros Hn. split; [apply Robust.export8|]. unfold Avx2.export_hashes. destruct l; exact Hn. Qed.
Definition whash4 (q : quad Hash) : Prop := whash (q0 q) /\ whash (q1 q) /\ whash (q2 q) /\ whash (q3 q).
Lemma hash4_loop_calm p a b x y len : wpar p -> has_sse41 c = true ->
  length a = len -> length b = len -> length x = len -> length y = len -> (len <= cap)%nat ->
  forall fuel h k n, (len = n + 64 * S k)%nat ->
  calm whash4 (sse41_hash4_exact_loop_t fuel p a b x y len h n).
Proof.
  intros (_ & Hp) Hs Ha Hb Hx Hy Hi. induction fuel as [|fuel IH]; intros h k n E; [apply calm_lift; discriminate|].
  cbn [sse41_hash4_exact_loop_t].
  unfold BLOCKBYTES. do 4 (cb; [apply raw_read_calm; lia|]; intros ? _). cbv zeta.
  cb; [apply flag_calm|]; intros last _. cb; [apply all_calm|]; intros node _. cb; [apply flag_calm|]; intros nd _.
  apply (calm_bind (fun _ => True)); [apply calm_note; [constructor; [exact Hs|constructor]|auto]|]. intros hv _.
  apply calm_if; intros Hn; [apply calm_ret; exact (export4 _ _ Hp)|]. apply Nat.eqb_neq in Hn.
  destruct k as [|k]; [lia|]. apply (IH _ k). lia.
Qed.
Lemma hash8_exact_loop_calm p inputs len : wpar p -> has_avx2 c = true -> (forall l, length (proj l inputs) = len) -> (len <= cap)%nat ->
  forall fuel h k n, (len = n + 64 * S k)%nat ->
  calm (fun r => forall l, whash (proj l r)) (avx2_hash8_exact_loop_t fuel p inputs len h n).
Proof.
  intros (_ & Hp) Hs Hl Hi. induction fuel as [|fuel IH]; intros h k n E; [apply calm_lift; discriminate|].
  cbn [avx2_hash8_exact_loop_t]. unfold BLOCKBYTES.
  cb; [apply (mapM_calm (fun _ => True)); intros l; apply raw_read_calm; rewrite Hl; lia|]. intros msgs _. cbv zeta.
  cb; [apply flag_calm|]; intros last _. cb; [apply all_calm|]; intros node _. cb; [apply flag_calm|]; intros nd _.
  apply (calm_bind (fun _ => True)); [apply calm_note; [constructor; [exact Hs|constructor]|auto]|]. intros hv _.
  apply calm_if; intros Hn; [apply calm_ret; intros l; exact (export8 _ _ l Hp)|]. apply Nat.eqb_neq in Hn.
  destruct k as [|k]; [lia|]. apply (IH _ k). lia.
Qed.
Lemma hash4_exact_calm p q : wpar p -> (length (q0 q) <= cap)%nat -> (length (q1 q) <= cap)%nat ->
  (length (q2 q) <= cap)%nat -> (length (q3 q) <= cap)%nat -> calm whash4 (hash4_exact_t c p q).
Proof.
  intros Hp Q0 Q1 Q2 Q3. unfold hash4_exact_t. cbv zeta. cb; [apply all_calm|]. intros same Hsame.
  cb; [apply all_calm|]. intros ok Hok. cb; [apply assert_calm|]. intros u Ht. cbv beta in *. subst.
  cbn [forallb] in Ht. rewrite !andb_true_r in Ht. apply andb_prop in Ht as (Ht & Hm). apply andb_prop in Hm as (Hm & Hne).
  apply andb_prop in Ht as (H1 & Ht). apply andb_prop in Ht as (H2 & H3). apply Nat.eqb_eq in H1, H2, H3.
  unfold BLOCKBYTES in Hm. destruct (Robust.whole_multiple _ Hm Hne) as (k & E). unfold default_compress_impl.
  destruct (arch_x86 c && feature_std c && cpu_avx2 c) eqn:Ed; cbn [fn_hash4_exact call_hash4_exact_t].
  - assert (Hs : has_sse41 c = true).
    { apply andb_prop in Ed as (Ed & Ha). apply andb_prop in Ed as (Ex & _). unfold has_sse41. rewrite Ex. apply Hc, Ha. }
    rewrite Hs. unfold sse41_hash4_exact_t. cbv zeta.
    apply (hash4_loop_calm _ _ _ _ _ _ Hp Hs eq_refl H1 H2 H3 Q0 _ _ k). lia.
  - do 4 (cb; [apply hash_one_calm; [exact Hp|assumption]|]; intros ? ?). apply calm_ret. repeat split; try apply H; try apply H0; try apply H4; apply H5.
Qed.
Lemma hash8_exact_calm p x : wpar p -> (forall l, length (proj l x) <= cap)%nat -> calm (fun r => forall l, whash (proj l r)) (hash8_exact_t c p x).
Proof.
  intros Hp Hi. unfold hash8_exact_t. cbv zeta. cb; [apply all_calm|]. intros same Hsame.
  cb; [apply all_calm|]. intros ok Hok. cb; [apply assert_calm|]. intros u Ht. cbv beta in *. subst.
  cbn [forallb] in Ht. rewrite !andb_true_r in Ht. apply andb_prop in Ht as (Ht & Hm). apply andb_prop in Hm as (Hm & Hne).
  apply andb_prop in Ht as (H1 & Ht). apply andb_prop in Ht as (H2 & Ht). apply andb_prop in Ht as (H3 & Ht).
  apply andb_prop in Ht as (H4 & Ht). apply andb_prop in Ht as (H5 & Ht). apply andb_prop in Ht as (H6 & H7).
  apply Nat.eqb_eq in H1, H2, H3, H4, H5, H6, H7.
  unfold BLOCKBYTES in Hm. destruct (Robust.whole_multiple _ Hm Hne) as (k & E). unfold default_compress_impl.
  destruct (arch_x86 c && feature_std c && cpu_avx2 c) eqn:Ed; cbn [fn_hash8_exact call_hash8_exact_t].
  - assert (Hs : has_avx2 c = true).
    { apply andb_prop in Ed as (Ed & Ha). apply andb_prop in Ed as (Ex & _). unfold has_avx2. rewrite Ex. exact Ha. }
    rewrite Hs. unfold avx2_hash8_exact_t. cbv zeta.
    apply (hash8_exact_loop_calm _ _ _ Hp Hs) with (k := k); [|exact (Hi L0)|lia].
    intros []; cbn [proj]; congruence.
  - apply mapM_calm. intros l. apply hash_one_calm; [exact Hp|apply Hi].
Qed.

(** ** hash8 *)
Lemma all_remaining_calm t n l : (forall x, In x l -> (n <= x)%nat) ->
  calm (fun b => b = true -> forall x, In x l -> t (x - n)%nat = true) (all_remaining_t c t n l).
Proof.
  induction l as [|x l IH]; intros Hl; cbn [all_remaining_t]; [apply calm_ret; intros _ y []|].
  cb; [apply nsub_calm, Hl; left; reflexivity|]. intros d ->.
  apply calm_if; intros Ht; [|apply calm_ret; discriminate].
  eapply calm_imp; [apply IH; intros y Hy; apply Hl; right; exact Hy|]. cbv beta.
  intros b Hb Hbt y [<-|Hy]; [exact Ht|exact (Hb Hbt y Hy)].
Qed.
Lemma hash8_finish_calm n p w x : wpar p -> (n <= length x)%nat -> (length x <= cap)%nat ->
  calm whash (hash8_finish_t c (fn_compress (default_compress_impl c)) n p w x).
Proof.
  intros (_ & Hp) Hn Hi. unfold hash8_finish_t. cbv zeta. cb; [apply slice_from_calm; [exact Hn|exact Hi]|]. intros r Hr. cbv beta in Hr.
  cb; [apply update_calm; [|lia]|].
  { unfold wst. cbn [st_buf st_buflen st_compress_fn st_hash_length].
    split; [apply repeat_length|]. split; [change (0 <= 64); lia|]. split; [apply Robust.default_fns, Hc|exact Hp]. }
  intros s Hs. cb; [apply finalize_calm, Hs|]. intros (s1, h) (_ & H). apply calm_ret, H.
Qed.
Lemma in_lengths (inputs : oct (list byte)) x :
  In x (oct_list (oct_map (@List.length byte) inputs)) <-> exists l, x = length (proj l inputs).
Proof.
  destruct inputs. cbn [oct_map oct_list o0 o1 o2 o3 o4 o5 o6 o7 In]. split.
  - intros H. repeat (destruct H as [<-|H]); [exists L0|exists L1|exists L2|exists L3|exists L4|exists L5|exists L6|exists L7|];
      try reflexivity. destruct H.
  - intros ([] & ->); cbn [proj o0 o1 o2 o3 o4 o5 o6 o7]; tauto.
Qed.
Lemma hash8_loop_calm ps inputs : (forall l, wpar (proj l ps)) -> (forall l, length (proj l inputs) <= cap)%nat -> forall fuel w n, (forall l, n <= length (proj l inputs))%nat ->
  calm (fun r => forall l, whash (proj l r)) (hash8_loop_t fuel c (default_compress_impl c) ps inputs w n).
Proof.
  intros Hp Hi. induction fuel as [|fuel IH]; intros w n Hn; [apply calm_lift; discriminate|]. cbn [hash8_loop_t]. cbv zeta.
  assert (Hn' : forall x, In x (oct_list (oct_map (@List.length byte) inputs)) -> (n <= x)%nat).
  { intros x Hx. apply in_lengths in Hx as (l & ->). apply Hn. }
  cb; [apply all_remaining_calm, Hn'|]. intros ua Hua. cb; [apply all_remaining_calm, Hn'|]. intros fa Hfa.
  cb; [apply all_calm|]. intros sp Hsp. cbv beta in *. subst sp.
  apply calm_if; intros Hb.
  - cb; [apply vectorize_calm|]. intros w' _.
    pose proof (Hp L0). pose proof (Hp L1). pose proof (Hp L2). pose proof (Hp L3).
    pose proof (Hp L4). pose proof (Hp L5). pose proof (Hp L6). pose proof (Hp L7).
    pose proof (Hn L0). pose proof (Hn L1). pose proof (Hn L2). pose proof (Hn L3).
    pose proof (Hn L4). pose proof (Hn L5). pose proof (Hn L6). pose proof (Hn L7).
    pose proof (Hi L0). pose proof (Hi L1). pose proof (Hi L2). pose proof (Hi L3).
    pose proof (Hi L4). pose proof (Hi L5). pose proof (Hi L6). pose proof (Hi L7).
    cbn [proj] in *.
    do 8 (cb; [apply hash8_finish_calm; assumption|]; intros ? ?). apply calm_ret. intros []; assumption.
  - assert (Hl : forall l, (n + 64 <= length (proj l inputs))%nat).
    { intros l. cbn [forallb] in Hb. rewrite andb_true_r in Hb.
      assert (Hin : In (length (proj l inputs)) (oct_list (oct_map (@List.length byte) inputs))) by (apply in_lengths; exists l; reflexivity).
      destruct ua.
      - specialize (Hua eq_refl _ Hin). apply Nat.ltb_lt in Hua. unfold BLOCKBYTES in Hua. lia.
      - destruct fa; [|discriminate Hb]. specialize (Hfa eq_refl _ Hin). apply Nat.eqb_eq in Hfa. unfold BLOCKBYTES in Hfa. lia. }
    cb; [apply (mapM_calm (fun l => length l = BLOCKBYTES)); intros l; apply array_ref_calm; [apply Hl|apply Hi]|]. intros b _.
    apply (calm_bind (fun _ => True)).
    { apply calm_if; intros _; [|apply calm_ret; exact I].
      eapply calm_imp; [apply (mapM_calm (fun _ => True)); intros l; apply flag_calm|auto]. }
    intros ln _. cb; [apply compress_vectorized_calm|]. intros w' _.
    apply calm_if; intros Ef.
    + cb; [apply vectorize_calm|]. intros w2 _. apply calm_ret. intros l. rewrite proj_map2.
      split; [apply Robust.words_bytes_length|apply Hp].
    + apply IH. exact Hl.
Qed.
Lemma hash8_calm ps inputs : (forall l, wpar (proj l ps)) -> (forall l, length (proj l inputs) <= cap)%nat -> calm (fun r => forall l, whash (proj l r)) (hash8_t c ps inputs).
Proof.
  intros Hp Hi. unfold hash8_t. cb; [apply oct_all_calm|]. intros ok _. cb; [apply assert_calm|]. intros _ _. cbv zeta.
  cb; [apply vectorize_calm|]. intros w _. apply hash8_loop_calm; [exact Hp|exact Hi|]. intros l. lia.
Qed.

(** ** Parameters *)
Lemma wpar_kept p s p' : wpar p -> apply_setter p s = Ok p' -> wpar p'.
Proof.
  intros (H1 & H2) E. split.
  - pose proof (Robust.apply_setter_safe p s H1) as H. rewrite E in H. exact H.
  - destruct s; cbn [apply_setter] in E;
      unfold set_hash_length, set_key, set_salt, set_personal, set_fanout, set_max_depth, set_max_leaf_length,
        set_node_offset, set_node_depth, set_inner_hash_length, set_last_node_param in E;
      repeat match type of E with
      | (if ?b then _ else _) = _ => let X := fresh "X" in destruct b eqn:X; [|discriminate E]
      | bind ?x _ = _ => let X := fresh "X" in destruct x eqn:X; cbn [bind] in E; try discriminate E
      end; injection E as <-; try exact H2.
    cbn [p_hash_length]. rewrite val_of_N. apply andb_prop in X as (X1 & X2). apply N.leb_le in X2. unfold OUTBYTES in X2.
    rewrite N.mod_small; [lia|]. change (2 ^ 8) with 256. lia.
Qed.
Lemma apply_setter_calm p s : wpar p -> calm wpar (apply_setter_t p s).
Proof.
  intros Hp. pose proof (fun p' => wpar_kept p s p' Hp) as K.
  destruct s; cbn [apply_setter_t apply_setter] in *; try (apply calm_lift; exact K).
  - unfold set_hash_length_t. cb; [apply all_calm|]. intros b _. cb; [apply assert_calm|]. intros _ _. apply calm_lift, K.
  - unfold set_key_t. cb; [apply assert_calm|]. intros u H. apply Nat.leb_le in H. unfold KEYBYTES, SALTBYTES, PERSONALBYTES in *.
    apply calm_note; [|exact K]. constructor; [repeat split; lia|]. constructor; [repeat split; lia|constructor].
  - unfold set_salt_t. cb; [apply assert_calm|]. intros u H. apply Nat.leb_le in H. unfold KEYBYTES, SALTBYTES, PERSONALBYTES in *.
    apply calm_note; [|exact K]. constructor; [repeat split; lia|]. constructor; [repeat split; lia|constructor].
  - unfold set_personal_t. cb; [apply assert_calm|]. intros u H. apply Nat.leb_le in H. unfold KEYBYTES, SALTBYTES, PERSONALBYTES in *.
    apply calm_note; [|exact K]. constructor; [repeat split; lia|]. constructor; [repeat split; lia|constructor].
  - apply calm_note; [repeat constructor|exact K].
  - apply calm_note; [repeat constructor|exact K].
  - apply calm_note; [repeat constructor|exact K].
Qed.
Lemma wspar_kept p s p' : wspar p -> sp_apply_setter p s = Ok p' -> wspar p'.
Proof.
  intros (H1 & H2) E. split.
  - pose proof (Robust.sp_apply_setter_safe p s H1) as H. rewrite E in H. exact H.
  - destruct s; cbn [sp_apply_setter] in E; unfold sp_set_hash_length, sp_set_key in E;
      repeat match type of E with
      | (if ?b then _ else _) = _ => let X := fresh "X" in destruct b eqn:X; [|discriminate E]
      | bind ?x _ = _ => let X := fresh "X" in destruct x eqn:X; cbn [bind] in E; try discriminate E
      end; injection E as <-; try exact H2.
    cbn [sp_key_length]. rewrite val_of_N. apply Nat.leb_le in X. unfold KEYBYTES in X.
    rewrite N.mod_small; [lia|]. change (2 ^ 8) with 256. lia.
Qed.
Lemma sp_apply_setter_calm p s : wspar p -> calm wspar (sp_apply_setter_t p s).
Proof.
  intros Hp. pose proof (fun p' => wspar_kept p s p' Hp) as K.
  destruct s; cbn [sp_apply_setter_t sp_apply_setter] in *.
  - cb; [apply all_calm|]. intros b _. cb; [apply assert_calm|]. intros _ _. apply calm_lift, K.
  - cb; [apply assert_calm|]. intros u H. apply Nat.leb_le in H. unfold KEYBYTES, SALTBYTES, PERSONALBYTES in *.
    apply calm_note; [|exact K]. constructor; [repeat split; lia|]. constructor; [repeat split; lia|constructor].
Qed.

(** ** BLAKE2sp *)
Lemma leaf_state_calm p i : wpar p -> calm wst (leaf_state_t c p i).
Proof.
  intros H. unfold leaf_state_t. cb; [apply (apply_setter_calm p (SNodeOffset _)), H|]. intros p1 H1.
  cb; [apply (apply_setter_calm p1 (SNodeDepth _)), H1|]. intros p2 H2.
  cb; [apply (apply_setter_calm p2 (SLastNode _)), H2|]. intros p3 H3.
  cb; [apply with_params_calm, H3|]. intros s (A & B & C & D). apply calm_ret. unfold wst, set_st_hash_length.
  cbn [st_buf st_buflen st_compress_fn st_hash_length]. repeat split; try assumption. change (32 <= 32). lia.
Qed.
Lemma sp_with_params_calm p : wspar p -> calm wsp (sp_with_params_t c p).
Proof.
  intros (Hk & Hl). unfold sp_with_params_t.
  assert (H0 : wpar Params_new) by (split; [reflexivity|vm_compute; discriminate]).
  cb; [apply (apply_setter_calm Params_new (SHashLength _)), H0|]. intros p1 H1.
  cb; [apply slice_to_calm; lia|]. intros k _.
  cb; [apply (apply_setter_calm p1 (SKey _)), H1|]. intros p2 H2.
  cb; [apply (apply_setter_calm p2 (SFanout _)), H2|]. intros p3 H3.
  cb; [apply (apply_setter_calm p3 (SMaxDepth _)), H3|]. intros p4 H4.
  cb; [apply (apply_setter_calm p4 (SMaxLeafLength _)), H4|]. intros p5 H5.
  cb; [apply (apply_setter_calm p5 (SInnerHashLength _)), H5|]. intros p6 H6.
  cb; [apply (apply_setter_calm p6 (SNodeOffset _)), H6|]. intros p7 H7.
  cb; [apply (apply_setter_calm p7 (SNodeDepth _)), H7|]. intros p8 H8.
  cb; [apply (apply_setter_calm p8 (SLastNode _)), H8|]. intros p9 H9.
  cb; [apply with_params_calm, H9|]. intros r (A & B & C & D). cbv zeta.
  cb; [apply (mapM_calm wst); intros l; apply leaf_state_calm, H6|]. intros ls Hls. apply calm_ret.
  unfold wsp. cbn [sp_buf sp_buflen sp_leaves sp_root sp_compress8_fn].
  split; [apply repeat_length|]. split; [change (0 <= 1024); lia|]. split; [exact Hls|].
  split; [|apply Robust.default_fns, Hc]. unfold wst. cbn [st_buf st_buflen st_compress_fn st_hash_length].
  repeat split; try assumption. change (0 <= 64). lia.
Qed.
Lemma sp_fill_buf_calm st input : wsp st -> (length input <= cap)%nat ->
  calm (fun x => wsp (fst x) /\ (snd x <> [] -> val (sp_buflen (fst x)) = 1024) /\ (length (snd x) <= cap)%nat) (sp_fill_buf_t c st input).
Proof.
  intros (Hb & Hl & Hrest) Hi. unfold sp_fill_buf_t, sp_buflen_nat. rewrite Hb.
  cb; [apply nsub_calm; lia|]; intros room ->.
  apply (calm_bind (fun t => t = Nat.min (1024 - N.to_nat (val (sp_buflen st))) (length input))).
  { apply calm_note; [repeat constructor|]. congruence. }
  intros take ->.
  cb; [apply slice_to_calm; lia|]; intros src Hsrc. cbv beta in Hsrc.
  cb; [apply copy_into_calm; lia|]; intros buf Hbuf. cbv beta in Hbuf.
  cb; [apply uadd_calm|]; intros n Hn.
  cb; [apply slice_from_calm; lia|]; intros rest Hr. cbv beta in Hr, Hn.
  assert (Hn' : val n = N.min 1024 (val (sp_buflen st) + N.of_nat (length input))).
  { rewrite Hn, val_of_N. change (2 ^ 16) with 65536.
    rewrite (N.mod_small (N.of_nat _)) by lia. rewrite N.mod_small by lia. lia. }
  apply calm_ret. cbn [fst snd]. unfold wsp. cbn [sp_buf sp_buflen sp_leaves sp_root sp_compress8_fn].
  split; [split; [congruence|]; split; [lia|exact Hrest]|]. split; [|lia].
  intros Hne. destruct rest as [|z rest]; [congruence|]. cbn [length] in Hr. lia.
Qed.
Lemma debug_asserts_calm l : calm (fun _ => True) (debug_asserts_t c l).
Proof.
  unfold debug_asserts_t. destruct (debug_assertions c); [|apply calm_ret; exact I].
  cb; [apply all_calm|]. intros b _. apply debug_assert_calm.
Qed.
Lemma sp_compress8_calm b ls f : (forall l, wst (proj l ls)) -> (f = compress8_avx2 -> has_avx2 c = true) ->
  calm (fun r => forall l, wst (proj l r)) (sp_compress8_t c b ls f).
Proof.
  intros H Hf. unfold sp_compress8_t. cb; [apply debug_asserts_calm|]; intros _ _. cb; [apply debug_asserts_calm|]; intros _ _.
  cb; [apply (mapM_calm wst); intros l; apply bump_calm, H|]. intros s1 H1.
  cb; [apply compress8_calm, Hf|]. intros hs _. apply calm_ret. intros l. rewrite proj_map2. exact (H1 l).
Qed.
Lemma sp_empty_buffer_calm st input : wsp st -> (length input <= cap)%nat -> 
  calm (fun x => wsp (fst x) /\ (length (snd x) <= cap)%nat) (sp_empty_buffer_t c st input).
Proof.
  intros H Hi. unfold sp_empty_buffer_t. apply calm_if; intros _; [|apply calm_ret; split; [exact H|exact Hi]].
  cb; [apply sp_fill_buf_calm; [exact H|exact Hi]|]. intros (s1, i1) (H1 & Hfull & Hi1). cbn [fst snd] in *.
  destruct i1 as [|x i1]; [apply calm_note; [repeat constructor|]; intros a E; injection E as <-; split; [exact H1|exact Hi1]|].
  specialize (Hfull ltac:(discriminate)). destruct H1 as (Hb & Hn & Hl & Hr & Hf).
  apply (calm_bind (fun _ => True)); [apply calm_note; [repeat constructor|auto]|]. intros _ _.
  change (8 * BLOCKBYTES)%nat with 512%nat.
  cb; [apply array_ref_calm; lia|]. intros b _.
  cb; [apply sp_compress8_calm; [exact Hl|exact Hf]|]. intros ls Hls. cbv zeta.
  cbn [sp_set_leaves sp_buflen]. change (of_N 16 (N.of_nat 512)) with (of_N 16 512).
  cb; [apply usub_calm; rewrite Hfull; vm_compute; discriminate|]. intros n Hn'. cbv beta in Hn'.
  rewrite Hfull in Hn'. change (val n = 512) in Hn'. apply calm_if; intros _.
  - cbn [sp_set_buflen sp_set_leaves sp_buf sp_leaves sp_compress8_fn].
    cb; [apply array_ref_calm; lia|]. intros b' _.
    cb; [apply sp_compress8_calm; [exact Hls|exact Hf]|]. intros ls' Hls'. apply calm_ret. split; [|exact Hi1]. cbn [fst].
    unfold wsp. cbn [sp_set_buflen sp_set_leaves sp_buf sp_buflen sp_leaves sp_root sp_compress8_fn].
    split; [exact Hb|]. split; [change (0 <= 1024); lia|]. split; [exact Hls'|]. split; [exact Hr|exact Hf].
  - unfold sp_buflen_nat. cbn [sp_set_buflen sp_set_leaves sp_buf sp_buflen].
    cb; [apply slice_to_calm; lia|]. intros left Hleft. cb; [apply slice_from_calm; lia|]. intros right Hright.
    cbv beta in *. cb; [apply slice_to_calm; lia|]. intros src Hsrc. cbv beta in Hsrc.
    cb; [apply copy_into_calm; lia|]. intros left' Hleft'.
    cbv beta in *. apply calm_ret. split; [|exact Hi1]. cbn [fst]. unfold wsp.
    cbn [sp_set_buf sp_set_buflen sp_set_leaves sp_buf sp_buflen sp_leaves sp_root sp_compress8_fn].
    split; [rewrite app_length; lia|]. split; [lia|]. split; [exact Hls|]. split; [exact Hr|exact Hf].
Qed.
Lemma sp_update_loop_calm fuel : forall st input, wsp st -> (length input <= cap)%nat ->
  calm (fun x => wsp (fst x) /\ (length (snd x) <= cap)%nat) (sp_update_loop_t fuel c st input).
Proof.
  induction fuel as [|fuel IH]; intros st input H Hi; [apply calm_lift; discriminate|]. cbn [sp_update_loop_t].
  apply calm_if; intros Hg; [|apply calm_ret; split; [exact H|exact Hi]]. apply Nat.ltb_lt in Hg. unfold BLOCKBYTES in *.
  cb; [apply array_ref_calm; lia|]; intros b _. destruct H as (Hb & Hn & Hs & Hr & Hf).
  cb; [apply sp_compress8_calm; [exact Hs|exact Hf]|]. intros ls Hls.
  cb; [apply slice_from_calm; lia|]; intros r Hr'. cbv beta in Hr'. apply IH; [|lia].
  split; [exact Hb|]. split; [exact Hn|]. split; [exact Hls|]. split; [exact Hr|exact Hf].
Qed.
Lemma sp_update_calm st input : wsp st -> (length input <= cap)%nat -> calm wsp (sp_update_t c st input).
Proof.
  intros H Hi. unfold sp_update_t. cb; [apply sp_empty_buffer_calm; [exact H|exact Hi]|]. intros (s1, i1) (H1 & L1). cbn [fst snd] in *.
  cb; [apply sp_update_loop_calm; [exact H1|exact L1]|]. intros (s2, i2) (H2 & L2). cbn [fst snd] in *.
  cb; [apply sp_fill_buf_calm; [exact H2|exact L2]|]. intros (s3, i3) (H3 & _). cbn [fst] in H3.
  cb; [apply debug_assert_calm|]. intros _ _. apply calm_ret. exact H3.
Qed.
Lemma feed_chunk_calm buf k n leaf : length buf = 1024%nat -> (k < 16)%nat -> wst leaf ->
  calm wst (feed_chunk_t c buf k n leaf).
Proof.
  intros Hb Hk H. unfold feed_chunk_t.
  apply (calm_bind (fun t => t = Nat.min n BLOCKBYTES)); [apply calm_note; [repeat constructor|]; congruence|].
  intros m ->. cb; [apply slice_to_calm; unfold sub; rewrite firstn_length, skipn_length, Hb; unfold BLOCKBYTES; lia|].
  intros s Hs. cbv beta in Hs. unfold BLOCKBYTES in Hs. apply update_calm; [exact H|lia].
Qed.
Lemma feed_root_calm root leaf : wst root -> wst leaf -> calm wst (feed_root_t c root leaf).
Proof.
  intros H Hl. unfold feed_root_t. cb; [apply finalize_calm, Hl|]. intros (s, h) (_ & Hh).
  cb; [apply as_bytes_calm, Hh|]. intros b Hb. cbv beta in Hb. destruct Hh as (_ & Hh). cbn [snd] in *. apply update_calm; [exact H|lia].
Qed.
Lemma sp_finalize_calm st : wsp st -> calm whash (sp_finalize_t c st).
Proof.
  intros (Hb & _ & Hl & Hr & _). unfold sp_finalize_t. cbv zeta. destruct (sp_leaves st) as [a0 a1 a2 a3 a4 a5 a6 a7].
  pose proof (Hl L0) as H0. pose proof (Hl L1) as H1. pose proof (Hl L2) as H2. pose proof (Hl L3) as H3.
  pose proof (Hl L4) as H4. pose proof (Hl L5) as H5. pose proof (Hl L6) as H6. pose proof (Hl L7) as H7.
  cbn [proj o0 o1 o2 o3 o4 o5 o6 o7] in *.
  do 15 (cb; [apply feed_chunk_calm; [assumption|lia|assumption]|]; intros ? ?;
         apply (calm_bind (fun _ => True)); [apply calm_note; [repeat constructor|auto]|]; intros ? _).
  cb; [apply feed_chunk_calm; [assumption|lia|assumption]|]; intros ? ?.
  do 8 (cb; [apply feed_root_calm; assumption|]; intros ? ?).
  cb; [apply finalize_calm; assumption|]. intros (s, h) (_ & Hfin). apply calm_ret, Hfin.
Qed.
Lemma sp_count_calm st : calm (fun _ => True) (sp_count_t c st).
Proof. unfold sp_count_t. cbv zeta. do 7 (cb; [apply uadd_calm|]; intros ? _). eapply calm_imp; [apply uadd_calm|auto]. Qed.

(** ** Programs *)
(** The inputs of a call: the slices of any length that it is given to hash. *)
Definition op_inputs (o : op) : list (list byte) :=
  match o with
  | Update _ x | Write _ x | Blake2s x | SpUpdate _ x | SpWrite _ x | OneShotSp x => [x]
  | Update8 _ xs | Hash8 _ xs | Hash8Exact _ xs => oct_list xs
  | Hash4Exact _ xs => [q0 xs; q1 xs; q2 xs; q3 xs]
  | _ => []
  end.
Definition wses (s : session) : Prop :=
  Forall wpar (s_params s) /\ Forall wst (s_states s) /\ Forall whash (s_hashes s) /\
  Forall wspar (s_sparams s) /\ Forall wsp (s_sstates s).
Definition wxs (x : session * obs) : Prop := wses (fst x).
Lemma at_obj_calm {A B} (P : A -> Prop) (Q : B -> Prop) l i no f : Forall P l -> calm Q no ->
  (forall x, P x -> calm Q (f x)) -> calm Q (at_obj l i no f).
Proof.
  intros H Hn Hf. unfold at_obj. destruct (nth_error l i) eqn:E; [|exact Hn].
  apply Hf. rewrite Forall_forall in H. apply H. eapply nth_error_In, E.
Qed.
Lemma all_bytes_calm l : Forall whash l -> calm (fun _ => True) (all_bytes_t l).
Proof.
  induction 1 as [|h l Hh Hl IH]; cbn [all_bytes_t]; [apply calm_ret; exact I|]. cb; [apply as_bytes_calm, Hh|]. intros b _.
  cb; [exact IH|]. intros bs _. apply calm_ret. exact I.
Qed.
Lemma give_hash_calm s h : wses s -> whash h -> calm wxs (give_hash_t s h).
Proof.
  intros (H1 & H2 & H3 & H4 & H5) H. unfold give_hash_t. cb; [apply as_bytes_calm, H|]. intros b _. apply calm_ret.
  split; [exact H1|]. split; [exact H2|]. split; [apply Robust.push_Forall; assumption|]. split; [exact H4|exact H5].
Qed.
Lemma give_hashes_calm s l : wses s -> Forall whash l -> calm wxs (give_hashes_t s l).
Proof.
  intros (H1 & H2 & H3 & H4 & H5) H. unfold give_hashes_t. cb; [apply all_bytes_calm, H|]. intros b _. apply calm_ret.
  split; [exact H1|]. split; [exact H2|]. split; [apply Forall_app; split; assumption|]. split; [exact H4|exact H5].
Qed.
Definition short (o : op) : Prop := Forall (fun x => length x <= cap)%nat (op_inputs o).
Lemma short_oct (xs : oct (list byte)) : Forall (fun x => length x <= cap)%nat (oct_list xs) ->
  forall l, (length (proj l xs) <= cap)%nat.
Proof. intros H l. rewrite Forall_forall in H. apply H. destruct xs, l; cbn; tauto. Qed.
Theorem step_calm s o : wses s -> short o -> calm wxs (step_t c s o).
Proof.
  intros H Hshort. unfold short in Hshort. pose proof H as (HP & HS & HH & HQ & HT).
  assert (Hinv : calm wxs (ret (s, OInvalid))) by (apply calm_ret; exact H).
  assert (Hst : forall l, Forall wst l -> wses (with_states s l)) by (intros l X; repeat (split; [assumption|]); exact HT).
  assert (Hss : forall l, Forall wsp l -> wses (with_sstates s l)) by (intros l X; repeat (split; [assumption|]); exact X).
  assert (Hpl : forall l, Forall wpar l -> wses (with_params_list s l)) by (intros l X; repeat (split; [assumption|]); exact HT).
  assert (Hsl : forall l, Forall wspar l -> wses (with_sparams s l)) by (intros l X; repeat (split; [assumption|]); exact HT).
  assert (D1 : wpar Params_default) by (split; [reflexivity|vm_compute; discriminate]).
  assert (D2 : wspar SpParams_default) by (split; [reflexivity|vm_compute; discriminate]).
  destruct o; cbn [step_t op_inputs] in *; cbv zeta;
    try (pose proof (short_oct _ Hshort) as Hi); try (pose proof (Forall_inv Hshort) as Hi; cbv beta in Hi);
    try (lazymatch goal with |- calm _ (at_obj ?l _ _ _) =>
           match goal with F : Forall _ l |- _ => apply (at_obj_calm _ _ _ _ _ _ F Hinv); intros x Hx end end);
    try (match goal with |- context [pick8 ?l ?i] => destruct (pick8 l i) as [xs|] eqn:Ex; [|exact Hinv] end;
         match type of Ex with pick8 ?l ?i = _ =>
           match goal with F : Forall _ l |- _ => pose proof (Robust.pick8_typed _ _ _ _ F Ex) as Hxs end end).
  (* lib.rs *)
  - apply calm_ret, Hpl, Robust.push_Forall; [exact HP|exact D1].
  - apply calm_ret, Hpl, Robust.push_Forall; [exact HP|exact Hx].
  - cb; [apply apply_setter_calm, Hx|]. intros p Hp. apply calm_ret, Hpl, Robust.upd_Forall; [exact HP|exact Hp].
  - cb; [apply with_params_calm, D1|]. intros st Hs. apply calm_ret, Hst, Robust.push_Forall; [exact HS|exact Hs].
  - cb; [apply with_params_calm, Hx|]. intros st Hs. apply calm_ret, Hst, Robust.push_Forall; [exact HS|exact Hs].
  - apply calm_ret, Hst, Robust.push_Forall; [exact HS|exact Hx].
  - cb; [apply update_calm; [exact Hx|exact Hi]|]. intros st Hs. apply calm_ret, Hst, Robust.upd_Forall; [exact HS|exact Hs].
  - unfold write_t. apply (calm_bind (fun p => wst (fst p))).
    { cb; [apply update_calm; [exact Hx|exact Hi]|]. intros st Hs. apply calm_ret. exact Hs. }
    intros (st, n) Hs. apply calm_ret, Hst, Robust.upd_Forall; [exact HS|exact Hs].
  - apply (calm_bind wst); [apply calm_lift; intros a E; injection E as <-; exact Hx|].
    intros st Hs. apply calm_ret, Hst, Robust.upd_Forall; [exact HS|exact Hs].
  - apply calm_ret, Hst, Robust.upd_Forall; [exact HS|exact Hx].
  - apply calm_ret. exact H.
  - apply calm_ret. exact H.
  - apply calm_ret, Hst, Robust.upd_Forall; [exact HS|]. destruct Hx as (A & B & _ & D). split; [exact A|]. split; [exact B|].
    split; [discriminate|exact D].
  - cb; [apply finalize_calm, Hx|]. intros (st, h) (Hs & Hh). cbn [fst snd] in *.
    apply give_hash_calm; [apply Hst, Robust.upd_Forall; [exact HS|exact Hs]|exact Hh].
  - destruct (distinct _); [|exact Hinv]. cb; [apply update8_calm; [exact Hxs|exact Hi]|]. intros ys Hys.
    apply calm_ret, Hst, Robust.put8_Forall; [exact HS|exact Hys].
  - destruct (distinct _); [|exact Hinv]. cb; [apply finalize8_calm, Hxs|]. intros (ys, hs) (Hys & Hh). cbn [fst snd] in *.
    apply give_hashes_calm; [apply Hst, Robust.put8_Forall; [exact HS|exact Hys]|apply Robust.oct_Forall, Hh].
  - cb; [apply (hash_one_calm Params_default); [exact D1|exact Hi]|]. intros h Hh. apply give_hash_calm; [exact H|exact Hh].
  - cb; [apply hash8_calm; [exact Hxs|exact Hi]|]. intros hs Hh. apply give_hashes_calm; [exact H|apply Robust.oct_Forall, Hh].
  - cb; [apply hash8_exact_calm; [exact Hx|exact Hi]|]. intros hs Hh. apply give_hashes_calm; [exact H|apply Robust.oct_Forall, Hh].
  - rewrite !Forall_cons_iff in Hshort. destruct Hshort as (Q0 & Q1 & Q2 & Q3 & _).
    cb; [apply hash4_exact_calm; assumption|]. intros hs (A & B & C & D). apply give_hashes_calm; [exact H|].
    destruct hs. repeat (constructor; [assumption|]). constructor.
  - cb; [apply as_bytes_calm, Hx|]. intros b _. apply calm_ret. exact H.
  - cb; [apply to_hex_calm, Hx|]. intros b _. apply calm_ret. exact H.
  - unfold hash_debug_t. apply (calm_bind (fun _ => True)).
    { cb; [apply to_hex_calm, Hx|]. intros b _. apply calm_ret. exact I. }
    intros t _. apply calm_ret. exact H.
  - apply (at_obj_calm _ _ _ _ _ _ HH Hinv). intros y Hy. cb; [apply hash_eq_calm; assumption|]. intros b _. apply calm_ret. exact H.
  - cb; [apply hash_eq_slice_calm, Hx|]. intros b _. apply calm_ret. exact H.
  (* blake2sp.rs *)
  - apply calm_ret, Hsl, Robust.push_Forall; [exact HQ|exact D2].
  - apply calm_ret, Hsl, Robust.push_Forall; [exact HQ|exact Hx].
  - cb; [apply sp_apply_setter_calm, Hx|]. intros p Hp. apply calm_ret, Hsl, Robust.upd_Forall; [exact HQ|exact Hp].
  - apply calm_ret. exact H.
  - cb; [apply sp_with_params_calm, D2|]. intros st Hs. apply calm_ret, Hss, Robust.push_Forall; [exact HT|exact Hs].
  - cb; [apply sp_with_params_calm, Hx|]. intros st Hs. apply calm_ret, Hss, Robust.push_Forall; [exact HT|exact Hs].
  - apply calm_ret, Hss, Robust.push_Forall; [exact HT|exact Hx].
  - cb; [apply sp_update_calm; [exact Hx|exact Hi]|]. intros st Hs. apply calm_ret, Hss, Robust.upd_Forall; [exact HT|exact Hs].
  - unfold sp_write_t. apply (calm_bind (fun p => wsp (fst p))).
    { cb; [apply sp_update_calm; [exact Hx|exact Hi]|]. intros st Hs. apply calm_ret. exact Hs. }
    intros (st, n) Hs. apply calm_ret, Hss, Robust.upd_Forall; [exact HT|exact Hs].
  - apply (calm_bind wsp); [apply calm_lift; intros a E; injection E as <-; exact Hx|].
    intros st Hs. apply calm_ret, Hss, Robust.upd_Forall; [exact HT|exact Hs].
  - cb; [apply sp_count_calm|]. intros n _. apply calm_ret. exact H.
  - unfold sp_state_debug_t. apply (calm_bind (fun _ => True)).
    { cb; [apply sp_count_calm|]. intros n _. apply calm_ret. exact I. }
    intros t _. apply calm_ret. exact H.
  - apply calm_ret, Hss, Robust.upd_Forall; [exact HT|]. destruct Hx as (Hb & Hn & Hl & Hr & Hf).
    split; [exact Hb|]. split; [exact Hn|]. split; [|split; [|discriminate]].
    + intros l. cbn [sp_force_portable sp_leaves]. rewrite proj_map. destruct (Hl l) as (A & B & _ & D).
      split; [exact A|]. split; [exact B|]. split; [discriminate|exact D].
    + destruct Hr as (A & B & _ & D). split; [exact A|]. split; [exact B|]. split; [discriminate|exact D].
  - cb; [apply sp_finalize_calm, Hx|]. intros h Hh. apply give_hash_calm; [exact H|exact Hh].
  - unfold blake2sp_t. apply (calm_bind whash).
    { cb; [apply sp_with_params_calm, D2|]. intros st Hs. cb; [apply sp_update_calm; [exact Hs|exact Hi]|]. intros st' Hs'. apply sp_finalize_calm, Hs'. }
    intros h Hh. apply give_hash_calm; [exact H|exact Hh].
Qed.

Lemma trace_calm ops : forall s, wses s -> Forall short ops -> Forall (harmless cap c) (trace c s ops).
Proof.
  induction ops as [|o ops IH]; intros s H Hs; [constructor|]. cbn [trace]. apply Forall_cons_iff in Hs as (Ho & Hs).
  destruct (step_calm s o H Ho) as (H1 & H2). destruct (step_t c s o) as [l [[s' x]| | |]]; cbn [events fst result snd] in *;
    try exact H1.
  apply Forall_app. split; [exact H1|]. apply IH; [exact (H2 _ eq_refl)|exact Hs].
Qed.
Theorem programs_harmless ops : Forall short ops -> Forall (harmless cap c) (trace c empty_session ops).
Proof. apply trace_calm. repeat split; constructor. Qed.
End Config.

Lemma longest (l : list (list byte)) : exists n, Forall (fun x => length x <= n)%nat l.
Proof.
  induction l as [|x l (n & IH)]; [exists 0%nat; constructor|]. exists (Nat.max (length x) n).
  constructor; [lia|]. eapply Forall_impl; [|exact IH]. cbv beta. intros a Ha. lia.
Qed.
Lemma all_short ops : exists cap, (1024 <= cap)%nat /\ Forall (short cap) ops.
Proof.
  destruct (longest (flat_map op_inputs ops)) as (n & H). exists (Nat.max 1024 n). split; [lia|].
  rewrite Forall_flat_map in H. eapply Forall_impl; [|exact H]. intros o Ho. unfold short.
  eapply Forall_impl; [|exact Ho]. cbv beta. intros a Ha. lia.
Qed.
Theorem programs_in_bounds : forall c ops, cfg_ok c -> forall e, In e (trace c empty_session ops) ->
  match e with
  | Access lo hi len => (lo <= hi)%nat /\ (hi <= len)%nat
  | Lookup i => (i < 16)%nat
  | Run (Compress compress_sse41 _ _ _) | Run (Compress4Transposed _ _ _) => has_sse41 c = true
  | Run (Compress8 compress8_avx2 _ _ _) | Run (Vectorize8 vectorize_words8_avx2)
  | Run (Compress8Vectorized compress8_vectorized_avx2 _ _ _ _) | Run (Compress8Transposed _ _ _) => has_avx2 c = true
  | Branch _ | Run _ => True
  end.
Proof.
  intros c ops Hc e He. destruct (all_short ops) as (cap & Hcap & Hs).
  pose proof (programs_harmless cap Hcap c Hc ops Hs) as H. rewrite Forall_forall in H. specialize (H e He).
  destruct e as [| | |[[] | [] |[]|[]| |]]; exact H || exact I || (destruct H as (A & B & _); exact (conj A B)).
Qed.
Theorem programs_offsets : forall bits c ops, 12 <= bits -> cfg_ok c ->
  Forall (fun o => Forall (fun x => N.of_nat (length x) < 2 ^ (bits - 1)) (op_inputs o)) ops ->
  forall lo hi len, In (Access lo hi len) (trace c empty_session ops) ->
  N.of_nat lo <= N.of_nat hi /\ N.of_nat hi <= N.of_nat len /\ N.of_nat len < 2 ^ (bits - 1).
Proof.
  intros bits c ops Hb Hc Hs lo hi len Hin.
  assert (P : 2 ^ 11 <= 2 ^ (bits - 1)) by (apply N.pow_le_mono_r; lia). change (2 ^ 11) with 2048 in P.
  set (B := 2 ^ (bits - 1)) in *. clearbody B.
  assert (H : Forall (short (N.to_nat (B - 1))) ops).
  { eapply Forall_impl; [|exact Hs]. intros o Ho. unfold short. eapply Forall_impl; [|exact Ho].
    cbv beta. intros x Hx. lia. }
  assert (Hcap : (1024 <= N.to_nat (B - 1))%nat) by lia.
  pose proof (programs_harmless _ Hcap c Hc ops H) as G. rewrite Forall_forall in G. specialize (G _ Hin).
  destruct G as (G1 & G2 & G3). lia.
Qed.
