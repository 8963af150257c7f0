(** * Truthful: the recorded primitives record what they do. *)
From Verif Require Import Base BaseFacts Consts Params State StateFacts Blake2sp Traced.
From Verif Require TracedFacts.
From Coq Require Import Lia.
Local Open Scope nat_scope.

(** A check that holds, or an access within its slice. *)
Definition passes (e : event) : Prop :=
  match e with Branch b => b = true | Access lo hi len => lo <= hi <= len | _ => True end.
(** It succeeds exactly if all the checks and accesses it records pass. *)
Definition truthful {A} (t : traced A) : Prop := (exists a, result t = Ok a) <-> Forall passes (events t).

Lemma truthful_note1 {A} (t : traced A) e : events t = [e] -> ((exists a, result t = Ok a) <-> passes e) -> truthful t.
Proof.
  intros E H. unfold truthful. rewrite E, H. split; [intros K; repeat constructor; exact K|intros K; exact (Forall_inv K)].
Qed.
Ltac by_cases := match goal with |- context [if ?b then _ else _] => destruct b end.
Ltac ok_iff := split; [intros [? K]; try discriminate K; auto|intros K; try discriminate K; eauto].
Lemma uadd_truthful {w} c (a b : uint w) : truthful (uadd_t c a b).
Proof.
  unfold truthful, uadd_t, note, result, events, uadd. cbn [fst snd].
  destruct (overflow_checks c); destruct (N.ltb_spec (val a + val b)%N (2 ^ w)%N); ok_iff; repeat constructor.
  apply Forall_inv in K. discriminate K.
Qed.
Lemma usub_truthful {w} c (a b : uint w) : truthful (usub_t c a b).
Proof.
  unfold truthful, usub_t, note, result, events, usub. cbn [fst snd].
  destruct (overflow_checks c); destruct (N.leb_spec (val b) (val a)); ok_iff; repeat constructor.
  apply Forall_inv in K. discriminate K.
Qed.
Lemma nsub_truthful c a b : truthful (nsub_t c a b).
Proof.
  unfold truthful, nsub_t, note, result, events, nsub. cbn [fst snd].
  destruct (overflow_checks c); destruct (Nat.leb_spec b a); ok_iff; repeat constructor.
  apply Forall_inv in K. discriminate K.
Qed.
Lemma debug_assert_truthful c b : truthful (debug_assert_t c b).
Proof.
  unfold truthful, debug_assert_t, note, result, events, debug_assert. cbn [fst snd].
  destruct (debug_assertions c), b; ok_iff; repeat constructor. apply Forall_inv in K. discriminate K.
Qed.
Lemma assert_truthful b : truthful (assert_t b).
Proof.
  destruct b; unfold truthful; cbn; ok_iff; repeat constructor. apply Forall_inv in K. discriminate K.
Qed.

(** ** Slices: and the result is what was accessed. *)
Definition reads {A} (xs : list A) (t : traced (list A)) : Prop :=
  truthful t /\ exists lo hi, events t = [Access lo hi (length xs)] /\
  forall r, result t = Ok r -> r = sub xs lo (hi - lo) /\ length r = hi - lo.
Lemma sub_length {A} (xs : list A) lo n : lo + n <= length xs -> length (sub xs lo n) = n.
Proof. intros H. unfold sub. rewrite firstn_length, skipn_length. lia. Qed.
Lemma slice_iff {A} (xs : list A) lo hi :
  ((exists r, slice xs lo hi = Ok r) <-> lo <= hi <= length xs) /\
  forall r, slice xs lo hi = Ok r -> r = sub xs lo (hi - lo) /\ length r = hi - lo.
Proof.
  unfold slice. destruct (Nat.leb_spec lo hi), (Nat.leb_spec hi (length xs)); cbn [andb].
  - split; [split; [intros _; lia|eauto]|]. intros r E. injection E as <-. split; [reflexivity|apply sub_length; lia].
  - split; [split; [intros [? K]; discriminate K|lia]|]. discriminate.
  - split; [split; [intros [? K]; discriminate K|lia]|]. discriminate.
  - split; [split; [intros [? K]; discriminate K|lia]|]. discriminate.
Qed.
Lemma slice_from_truthful {A} (xs : list A) lo : reads xs (slice_from_t xs lo).
Proof.
  destruct (slice_iff xs lo (length xs)) as [S R].
  assert (E : slice_from xs lo = slice xs lo (length xs)).
  { unfold slice_from, slice. destruct (Nat.leb_spec lo (length xs)); cbn [andb]; [|reflexivity].
    rewrite Nat.leb_refl. unfold sub. f_equal. symmetry. apply firstn_all2. rewrite skipn_length. lia. }
  unfold reads, slice_from_t, note, result, events. cbn [fst snd]. rewrite E. split.
  - apply truthful_note1 with (e := Access lo (length xs) (length xs)); [reflexivity|exact S].
  - exists lo, (length xs). split; [reflexivity|exact R].
Qed.
Lemma slice_to_truthful {A} (xs : list A) hi : reads xs (slice_to_t xs hi).
Proof.
  destruct (slice_iff xs 0 hi) as [S R].
  assert (E : slice_to xs hi = slice xs 0 hi).
  { unfold slice_to, slice. change (0 <=? hi) with true. cbn [andb]. destruct (hi <=? length xs); [|reflexivity].
    unfold sub. rewrite Nat.sub_0_r. reflexivity. }
  unfold reads, slice_to_t, note, result, events. cbn [fst snd]. rewrite E. split.
  - apply truthful_note1 with (e := Access 0 hi (length xs)); [reflexivity|exact S].
  - exists 0, hi. split; [reflexivity|exact R].
Qed.
Lemma array_ref_truthful {A} (xs : list A) off len : reads xs (array_ref_t xs off len).
Proof.
  destruct (slice_iff xs off (off + len)) as [S R].
  unfold reads, array_ref_t, note, result, events, array_ref. cbn [fst snd]. split.
  - apply truthful_note1 with (e := Access off (off + len) (length xs)); [reflexivity|exact S].
  - exists off, (off + len). split; [reflexivity|exact R].
Qed.
Lemma raw_read_truthful {A} (xs : list A) off len : reads xs (raw_read_t xs off len).
Proof.
  unfold reads, raw_read_t, note, result, events, raw_read. cbn [fst snd].
  destruct (Nat.leb_spec (off + len) (length xs)) as [H|H].
  - split; [apply truthful_note1 with (e := Access off (off + len) (length xs)); [reflexivity|]; split; [intros _; cbn; lia|cbn; eauto]|].
    exists off, (off + len). split; [reflexivity|]. intros r E. injection E as <-.
    replace (off + len - off) with len by lia. split; [reflexivity|apply (sub_length xs off len H)].
  - split; [apply truthful_note1 with (e := Access off (off + len) (length xs)); [reflexivity|]; split; [intros [? K]; discriminate K|cbn; lia]|].
    exists off, (off + len). split; [reflexivity|]. discriminate.
Qed.
(** The length is compared as well; it is right wherever the crate copies. *)
Lemma copy_into_truthful {A} (dst : list A) lo hi src : length src = hi - lo ->
  truthful (copy_into_t dst lo hi src) /\ events (copy_into_t dst lo hi src) = [Access lo hi (length dst); Access 0 (length src) (length src)] /\
  forall r, result (copy_into_t dst lo hi src) = Ok r -> r = firstn lo dst ++ src ++ skipn hi dst.
Proof.
  intros L. unfold truthful, copy_into_t, note, result, events, copy_into. cbn [fst snd].
  rewrite L, Nat.eqb_refl, !Bool.andb_true_r.
  destruct (Nat.leb_spec lo hi), (Nat.leb_spec hi (length dst)); cbn [andb].
  - split; [|split; [reflexivity|intros r E; injection E as <-; reflexivity]].
    split; [intros _; repeat (constructor; [cbn; lia|]); constructor|eauto].
  - split; [|split; [reflexivity|discriminate]]. split; [intros [? K]; discriminate K|intros K; apply Forall_inv in K; cbn in K; lia].
  - split; [|split; [reflexivity|discriminate]]. split; [intros [? K]; discriminate K|intros K; apply Forall_inv in K; cbn in K; lia].
  - split; [|split; [reflexivity|discriminate]]. split; [intros [? K]; discriminate K|intros K; apply Forall_inv in K; cbn in K; lia].
Qed.

(** ** Setters and digits. *)
Lemma truthful_iff {A} (t : traced A) b : ((exists a, result t = Ok a) <-> b = true) -> (Forall passes (events t) <-> b = true) -> truthful t.
Proof. intros H K. unfold truthful. rewrite H, K. reflexivity. Qed.
Ltac decide_list := let K := fresh in split;
  [intros K; repeat match goal with F : Forall passes (_ :: _) |- _ => inversion F; clear F; subst end;
     cbn [passes] in *; try reflexivity; try discriminate; try lia
  |intros K; try discriminate K; repeat (apply Forall_cons; [cbn [passes]; try reflexivity; try exact I; try lia|]); apply Forall_nil].
Lemma copy_front {A} n (x : A) (src : list A) : (length src <=? n) = true ->
  exists r, copy_into (repeat x n) 0 (length src) src = Ok r.
Proof. intros H. unfold copy_into. rewrite repeat_length, H, Nat.sub_0_r, Nat.eqb_refl. cbn [andb Nat.leb]. eauto. Qed.
Lemma copy_checked {A B} n (x : A) (src : list A) (f : list A -> outcome B) : (forall r, exists b, f r = Ok b) ->
  (exists b, (assert! (length src <=? n) ;; (r <- copy_into (repeat x n) 0 (length src) src ;; f r)) = Ok b)
  <-> (length src <=? n) = true.
Proof.
  intros Hf. destruct (length src <=? n) eqn:E; [|split; [intros [? K]; discriminate K|discriminate]].
  split; [reflexivity|intros _]. destruct (copy_front n x src E) as [r Hr]. rewrite Hr. apply Hf.
Qed.
Lemma checked {A} (b : bool) (a : A) : (exists x, (assert! b ;; Ok a) = Ok x) <-> b = true.
Proof. destruct b; ok_iff. Qed.
(** What [assert_t] followed by the copy of a setter records. *)
Lemma copy_events {A} (p : outcome A) n len :
  Forall passes (events (_ <~ assert_t (len <=? n) ;; note [Access 0 len n; Access 0 len len] p)) <-> (len <=? n) = true.
Proof.
  unfold assert_t, tif. destruct (Nat.leb_spec len n); cbn [note lift ret tbind events fst app]; decide_list.
Qed.
Lemma branch_events {A} (p : outcome A) b : Forall passes (events (note [Branch b] p)) <-> b = true.
Proof. destruct b; cbn [note events fst]; decide_list. Qed.
Lemma range_events {A} (p : outcome A) b1 b2 :
  Forall passes (events (b <~ all_t [b1; b2] ;; _ <~ assert_t b ;; lift p)) <-> (b1 && b2)%bool = true.
Proof. destruct b1, b2; cbn; decide_list. Qed.
Lemma set_hash_length_truthful p n : truthful (set_hash_length_t p n).
Proof.
  apply (truthful_iff _ ((1 <=? n) && (n <=? N.of_nat OUTBYTES))%N); [|apply range_events].
  rewrite TracedFacts.erase_set_hash_length. apply checked.
Qed.
Lemma apply_setter_truthful p s : truthful (apply_setter_t p s).
Proof.
  destruct s; cbn [apply_setter_t].
  - apply set_hash_length_truthful.
  - apply (truthful_iff _ (length key <=? KEYBYTES)); [|apply copy_events].
    rewrite TracedFacts.erase_set_key. apply copy_checked. eauto.
  - apply (truthful_iff _ (length salt <=? SALTBYTES)); [|apply copy_events].
    change (set_salt_t p salt) with (apply_setter_t p (SSalt salt)).
    rewrite TracedFacts.erase_setter. apply copy_checked. eauto.
  - apply (truthful_iff _ (length personal <=? PERSONALBYTES)); [|apply copy_events].
    change (set_personal_t p personal) with (apply_setter_t p (SPersonal personal)).
    rewrite TracedFacts.erase_setter. apply copy_checked. eauto.
  - split; [constructor|intros _; eexists; reflexivity].
  - eapply truthful_iff; [|apply branch_events]. apply checked.
  - split; [constructor|intros _; eexists; reflexivity].
  - eapply truthful_iff; [|apply branch_events]. apply checked.
  - split; [constructor|intros _; eexists; reflexivity].
  - eapply truthful_iff; [|apply branch_events]. apply checked.
  - split; [constructor|intros _; eexists; reflexivity].
Qed.
Lemma sp_apply_setter_truthful p s : truthful (sp_apply_setter_t p s).
Proof.
  destruct s as [n|k]; cbn [sp_apply_setter_t].
  - apply (truthful_iff _ ((1 <=? n) && (n <=? N.of_nat OUTBYTES))%N); [|apply range_events].
    unfold sp_set_hash_length. destruct (1 <=? n)%N, (n <=? N.of_nat OUTBYTES)%N; cbn; ok_iff.
  - apply (truthful_iff _ (length k <=? KEYBYTES)); [|apply copy_events].
    change (_ <~ assert_t _ ;; _) with (sp_apply_setter_t p (SpKey k)).
    rewrite TracedFacts.erase_sp_setter. apply copy_checked. eauto.
Qed.
Lemma push_digit_truthful s i : truthful (push_digit_t s i).
Proof.
  apply (truthful_iff _ (length s <? HEX_CAP)).
  - unfold push_digit_t, note, result, push_char. cbn [snd]. destruct (length s <? HEX_CAP); ok_iff.
  - unfold push_digit_t. cbn [note events fst]. destruct (Nat.ltb_spec (length s) HEX_CAP); decide_list.
Qed.

(** ** Conditions that choose a value. *)
Lemma min_is_if a b : min_t a b = tif (a <=? b) (ret a) (ret b).
Proof. unfold min_t, tif. destruct (Nat.leb_spec a b); cbn; rewrite ?Nat.min_l, ?Nat.min_r by lia; reflexivity. Qed.
Lemma saturating_sub_is_if a b : saturating_sub_t a b = tif (b <=? a) (ret (a - b)) (ret 0).
Proof. unfold saturating_sub_t, tif. destruct (Nat.leb_spec b a); cbn; [reflexivity|]. replace (a - b) with 0 by lia. reflexivity. Qed.
Lemma flag_is_if b : flag32_t b = tif b (ret (umax 32)) (ret (uzero 32)).
Proof. destruct b; reflexivity. Qed.
(** The conditions of [compress_buffer_if_possible]: whether there is anything in the
    buffer, and whether there is input left after filling it. *)
Lemma buffer_conditions c st x st' rest : result (compress_buffer_if_possible_t c st x) = Ok (st', rest) ->
  events (compress_buffer_if_possible_t c st x) =
  if buflen_nat st =? 0 then [Branch false]
  else Branch true :: events (fill_buf_t c st x) ++ Branch (negb (length rest =? 0)) ::
       (if length rest =? 0 then [] else [Run (Compress (st_compress_fn st) (st_count st') (uzero 32) (uzero 32))]).
Proof.
  unfold compress_buffer_if_possible_t, tif, buflen_nat.
  assert (E : (0 <? val (st_buflen st))%N = negb (N.to_nat (val (st_buflen st)) =? 0)).
  { destruct (N.ltb_spec 0 (val (st_buflen st))), (Nat.eqb_spec (N.to_nat (val (st_buflen st))) 0); try reflexivity; lia. }
  rewrite E. destruct (N.to_nat (val (st_buflen st)) =? 0); cbn [negb]; [reflexivity|].
  assert (F : forall s r, result (fill_buf_t c st x) = Ok (s, r) -> st_compress_fn s = st_compress_fn st).
  { intros s r. rewrite TracedFacts.erase_fill. unfold fill_buf.
    repeat match goal with |- bind ?e _ = _ -> _ => destruct e; cbn [bind]; try discriminate end.
    intros [= <- _]. reflexivity. }
  destruct (fill_buf_t c st x) as [l [[s r]| | |]] eqn:Ef; try discriminate. specialize (F s r eq_refl).
  cbn [note tbind fst snd result events app]. destruct r as [|y r]; cbn [note tbind fst snd result events app].
  - intros [= <- <-]. reflexivity.
  - unfold call_compress_t. cbn [note]. destruct (call_compress c _ _ _ _ _ _); try discriminate.
    cbn [tbind ret lift fst snd app]. intros [= <- <-]. rewrite F. reflexivity.
Qed.
Lemma last_bind {A B} (t : traced A) (k : A -> traced B) (Q : B -> Prop) :
  (forall a z, snd (k a) = Ok z -> Q z) -> forall z, snd (tbind t k) = Ok z -> Q z.
Proof.
  intros H z. destruct t as [l [a| | |]]; try discriminate. cbn [tbind]. specialize (H a z).
  destruct (k a). exact H.
Qed.
Lemma sp_buffer_conditions c st x st' rest : result (sp_empty_buffer_t c st x) = Ok (st', rest) ->
  exists more, events (sp_empty_buffer_t c st x) =
  if sp_buflen_nat st =? 0 then [Branch false]
  else Branch true :: events (sp_fill_buf_t c st x) ++ Branch (negb (length rest =? 0)) :: more.
Proof.
  unfold sp_empty_buffer_t, tif, sp_buflen_nat.
  assert (E : (0 <? val (sp_buflen st))%N = negb (N.to_nat (val (sp_buflen st)) =? 0)).
  { destruct (N.ltb_spec 0 (val (sp_buflen st))), (Nat.eqb_spec (N.to_nat (val (sp_buflen st))) 0); try reflexivity; lia. }
  rewrite E. destruct (N.to_nat (val (sp_buflen st)) =? 0); cbn [negb]; [exists []; reflexivity|].
  destruct (sp_fill_buf_t c st x) as [l [[s r]| | |]] eqn:Ef; try discriminate.
  cbn [note tbind fst snd result events app]. destruct r as [|y r]; cbn [note tbind fst snd result events app].
  - intros [= <- <-]. exists []. reflexivity.
  - match goal with |- context [tbind (array_ref_t ?a ?b ?d) ?k] => set (T := tbind (array_ref_t a b d) k) end.
    assert (R : forall z, snd T = Ok z -> snd z = y :: r).
    { subst T. do 3 (apply last_bind; intros ?). cbv beta zeta.
      match goal with |- forall z, snd (let '(_, _) := ?t in _) = _ -> _ => assert (G : forall z, snd t = Ok z -> snd z = y :: r); [|destruct t; exact G] end.
      match goal with |- context [if ?b then _ else _] => destruct b end.
      - do 2 (apply last_bind; intros ?). intros z [= <-]. reflexivity.
      - do 4 (apply last_bind; intros ?). intros z [= <-]. reflexivity. }
    destruct T as [m u]. cbn [fst snd] in *. intros U. cbv beta iota delta [result snd] in U. subst u. specialize (R _ eq_refl). cbn [snd] in R. subst rest.
    exists m. reflexivity.
Qed.

(** ** Together. *)
Lemma checks_truthful c :
  (forall w (a b : uint w), truthful (uadd_t c a b) /\ truthful (usub_t c a b)) /\
  (forall a b, truthful (nsub_t c a b)) /\
  (forall b, truthful (debug_assert_t c b) /\ truthful (assert_t b)) /\
  (forall p s, truthful (apply_setter_t p s)) /\ (forall p s, truthful (sp_apply_setter_t p s)) /\
  (forall s i, truthful (push_digit_t s i)).
Proof.
  split; [intros w a b; split; [apply uadd_truthful|apply usub_truthful]|]. split; [intros; apply nsub_truthful|].
  split; [intros b; split; [apply debug_assert_truthful|apply assert_truthful]|].
  split; [intros; apply apply_setter_truthful|]. split; [intros; apply sp_apply_setter_truthful|].
  intros; apply push_digit_truthful.
Qed.
Lemma accesses_truthful (A : Type) (xs : list A) :
  (forall lo, reads xs (slice_from_t xs lo)) /\ (forall hi, reads xs (slice_to_t xs hi)) /\
  (forall off len, reads xs (array_ref_t xs off len)) /\ (forall off len, reads xs (raw_read_t xs off len)) /\
  (forall lo hi src, length src = hi - lo ->
     truthful (copy_into_t xs lo hi src) /\
     events (copy_into_t xs lo hi src) = [Access lo hi (length xs); Access 0 (length src) (length src)] /\
     forall r, result (copy_into_t xs lo hi src) = Ok r -> r = firstn lo xs ++ src ++ skipn hi xs).
Proof.
  split; [intros; apply slice_from_truthful|]. split; [intros; apply slice_to_truthful|].
  split; [intros; apply array_ref_truthful|]. split; [intros; apply raw_read_truthful|].
  intros; apply copy_into_truthful; assumption.
Qed.
Lemma choices_truthful :
  (forall a b, min_t a b = tif (a <=? b) (ret a) (ret b)) /\
  (forall a b, saturating_sub_t a b = tif (b <=? a) (ret (a - b)) (ret 0)) /\
  (forall b, flag32_t b = tif b (ret (umax 32)) (ret (uzero 32))) /\
  (forall c st x st' rest, result (compress_buffer_if_possible_t c st x) = Ok (st', rest) ->
     events (compress_buffer_if_possible_t c st x) =
     if buflen_nat st =? 0 then [Branch false]
     else Branch true :: events (fill_buf_t c st x) ++ Branch (negb (length rest =? 0)) ::
          (if length rest =? 0 then [] else [Run (Compress (st_compress_fn st) (st_count st') (uzero 32) (uzero 32))])) /\
  (forall c st x st' rest, result (sp_empty_buffer_t c st x) = Ok (st', rest) -> exists more,
     events (sp_empty_buffer_t c st x) =
     if sp_buflen_nat st =? 0 then [Branch false]
     else Branch true :: events (sp_fill_buf_t c st x) ++ Branch (negb (length rest =? 0)) :: more).
Proof.
  split; [exact min_is_if|]. split; [exact saturating_sub_is_if|]. split; [exact flag_is_if|].
  split; [exact buffer_conditions|exact sp_buffer_conditions].
Qed.
