(** * TracedFacts: the traced functions are the model's functions, and their traces do
    not depend on the contents of byte strings. *)
From Verif Require Import Base Consts Portable Params State Many Blake2sp Debug Machine BaseFacts Avx2Facts MachineFacts Clients Terms NoLeak Traced.
From Verif Require Sse41 Avx2.
From Coq Require Import Lia String.
Local Notation length := List.length (only parsing).
Local Open Scope N_scope.

(** ** The results are the model's *)
Lemma erase_bind {A B} (x : traced A) (f : A -> traced B) y g :
  result x = y -> (forall a, result (f a) = g a) -> result (tbind x f) = bind y g.
Proof.
  destruct x as [l [a| | |]]; cbn [result snd tbind]; intros <- H; cbn [bind]; try reflexivity.
  rewrite <- H. destruct (f a). reflexivity.
Qed.
Lemma erase_if {A} b (x y : traced A) x' y' : result x = x' -> result y = y' ->
  result (tif b x y) = if b then x' else y'.
Proof. intros <- <-. unfold tif. destruct b; cbn [tbind note]; [destruct x|destruct y]; reflexivity. Qed.
(** A step that only adds events. *)
Lemma erase_pure {A B} (x : traced A) a (f : A -> traced B) y :
  result x = Ok a -> result (f a) = y -> result (tbind x f) = y.
Proof.
  destruct x as [l z]. cbn [result snd]. intros -> H. cbn [tbind]. rewrite <- H. destruct (f a). reflexivity.
Qed.
Lemma erase_all l : result (all_t l) = Ok (forallb (fun b => b) l).
Proof.
  induction l as [|b l IH]; [reflexivity|]. cbn [all_t forallb].
  etransitivity; [apply erase_if; [exact IH|reflexivity]|]. destruct b; reflexivity.
Qed.
Lemma erase_assert {B} b (f : unit -> traced B) y : result (f tt) = y ->
  result (tbind (assert_t b) f) = if b then y else Panic.
Proof.
  intros <-. unfold assert_t, tif. destruct b; cbn [note tbind ret lift app].
  - destruct (f tt). reflexivity.
  - reflexivity.
Qed.
Ltac erase_step := eapply erase_bind; [first [reflexivity|assumption]|intros ?].

Lemma erase_set_hash_length p n : result (set_hash_length_t p n) = set_hash_length p n.
Proof.
  unfold set_hash_length_t. eapply erase_pure; [apply erase_all|].
  etransitivity; [apply erase_assert; reflexivity|]. cbn [forallb]. unfold set_hash_length.
  destruct (1 <=? n), (n <=? N.of_nat OUTBYTES); reflexivity.
Qed.
Lemma erase_set_key p k : result (set_key_t p k) = set_key p k.
Proof.
  unfold set_key_t. etransitivity; [apply erase_assert; reflexivity|]. unfold set_key.
  destruct (Nat.leb _ _); reflexivity.
Qed.
Lemma erase_setter p s : result (apply_setter_t p s) = apply_setter p s.
Proof.
  destruct s; cbn [apply_setter_t apply_setter]; try reflexivity.
  - apply erase_set_hash_length.
  - apply erase_set_key.
  - unfold set_salt_t. etransitivity; [apply erase_assert; reflexivity|]. unfold set_salt.
    destruct (Nat.leb _ _); reflexivity.
  - unfold set_personal_t. etransitivity; [apply erase_assert; reflexivity|]. unfold set_personal.
    destruct (Nat.leb _ _); reflexivity.
Qed.
Lemma erase_hex l : forall s, result (hex_loop_t s l) = hex_loop s l.
Proof.
  induction l as [|b l IH]; intros s; [reflexivity|]. cbn [hex_loop_t hex_loop].
  erase_step. erase_step. apply IH.
Qed.
Lemma erase_to_hex h : result (to_hex_t h) = to_hex h.
Proof. unfold to_hex_t, to_hex. erase_step. apply erase_hex. Qed.
Lemma erase_ct_ne a : forall b i len tmp, result (ct_ne_t i len tmp a b) = Ok (ct_ne tmp a b).
Proof.
  induction a as [|x a IH]; intros [|y b] i len tmp; try reflexivity. cbn [ct_ne_t ct_ne].
  eapply erase_pure; [reflexivity|]. apply IH.
Qed.
Lemma erase_ct_eq a b : result (constant_time_eq_t a b) = Ok (constant_time_eq a b).
Proof.
  unfold constant_time_eq_t, constant_time_eq.
  destruct (Nat.eqb (length a) (length b)) eqn:E; [|reflexivity].
  eapply erase_pure; [reflexivity|]. apply Nat.eqb_eq in E.
  eapply erase_pure; [unfold slice_to_t, slice_to; rewrite Nat.leb_refl; reflexivity|].
  eapply erase_pure; [unfold slice_to_t, slice_to; rewrite E, Nat.leb_refl; reflexivity|].
  eapply erase_pure; [apply erase_ct_ne|]. reflexivity.
Qed.
Lemma erase_hash_eq x y : result (hash_eq_t x y) = hash_eq x y.
Proof. unfold hash_eq_t, hash_eq. erase_step. erase_step. apply erase_ct_eq. Qed.
Lemma erase_hash_eq_slice x y : result (hash_eq_slice_t x y) = hash_eq_slice x y.
Proof. unfold hash_eq_slice_t, hash_eq_slice. erase_step. apply erase_ct_eq. Qed.

Lemma erase_fill c st i : result (fill_buf_t c st i) = fill_buf c st i.
Proof.
  unfold fill_buf_t, fill_buf. erase_step. eapply erase_pure; [reflexivity|]. cbv zeta.
  repeat erase_step. reflexivity.
Qed.
Lemma erase_compress_buffer c st i :
  result (compress_buffer_if_possible_t c st i) = compress_buffer_if_possible c st i.
Proof.
  unfold compress_buffer_if_possible_t, compress_buffer_if_possible. apply erase_if; [|reflexivity].
  eapply erase_bind; [apply erase_fill|]. intros [s [|x r]]; [reflexivity|].
  eapply erase_pure; [reflexivity|]. erase_step. reflexivity.
Qed.
Lemma erase_update_loop c fuel : forall st i, result (update_loop_t fuel c st i) = update_loop fuel c st i.
Proof.
  induction fuel as [|fuel IH]; intros st i; [reflexivity|]. cbn [update_loop_t update_loop].
  apply erase_if; [|reflexivity]. repeat erase_step. apply IH.
Qed.
Lemma erase_update c st i : result (update_t c st i) = update c st i.
Proof.
  unfold update_t, update. eapply erase_bind; [apply erase_compress_buffer|]. intros [s r].
  eapply erase_bind; [apply erase_update_loop|]. intros [s1 r1].
  eapply erase_bind; [apply erase_fill|]. intros [s2 r2]. reflexivity.
Qed.
Lemma erase_with_params c p : result (with_params_t c p) = with_params c p.
Proof.
  unfold with_params_t, with_params. cbv zeta. apply erase_if; [|reflexivity]. erase_step. apply erase_update.
Qed.
Lemma erase_finalize c st : result (finalize_t c st) = finalize c st.
Proof.
  unfold finalize_t, finalize. eapply erase_pure; [reflexivity|]. cbv zeta.
  eapply erase_pure; [reflexivity|]. erase_step. reflexivity.
Qed.
Lemma erase_hash_one c p i : result (hash_one_t c p i) = hash_one c p i.
Proof.
  unfold hash_one_t, hash_one. eapply erase_bind; [apply erase_with_params|]. intros s.
  eapply erase_bind; [apply erase_update|]. intros s1.
  eapply erase_bind; [apply erase_finalize|]. intros [s2 h]. reflexivity.
Qed.

Lemma erase_mapM {A B} (f : A -> traced B) g (a : oct A) : (forall x, result (f x) = g x) ->
  result (oct_mapM_t f a) = oct_mapM g a.
Proof.
  intros H. unfold oct_mapM_t, oct_mapM.
  do 8 (eapply erase_bind; [apply H|]; intros ?). reflexivity.
Qed.
Lemma erase_mapM2 {A B C} (f : A -> B -> traced C) g (a : oct A) (b : oct B) :
  (forall x y, result (f x y) = g x y) -> result (oct_mapM2_t f a b) = oct_mapM2 g a b.
Proof.
  intros H. unfold oct_mapM2_t, oct_mapM2.
  do 8 (eapply erase_bind; [apply H|]; intros ?). reflexivity.
Qed.
Lemma forallb_oct {A} (f : A -> bool) a : forallb (fun b => b) (oct_list (oct_map f a)) = oct_all f a.
Proof.
  destruct a. unfold oct_all. cbn [oct_map oct_list forallb o0 o1 o2 o3 o4 o5 o6 o7].
  rewrite andb_true_r, !andb_assoc. reflexivity.
Qed.
Lemma erase_oct_all {A} (f : A -> bool) a : result (oct_all_t f a) = Ok (oct_all f a).
Proof. unfold oct_all_t. etransitivity; [apply erase_all|]. rewrite forallb_oct. reflexivity. Qed.
Lemma erase_bump c st : result (bump_count_t c st) = bump_count c st.
Proof. unfold bump_count_t, bump_count. erase_step. reflexivity. Qed.
Lemma erase_update8_loop c f fuel : forall a i, result (update8_loop_t fuel c f a i) = update8_loop fuel c f a i.
Proof.
  induction fuel as [|fuel IH]; intros a i; [reflexivity|]. cbn [update8_loop_t update8_loop].
  eapply erase_pure; [apply erase_oct_all|]. apply erase_if; [|reflexivity].
  eapply erase_bind; [apply erase_mapM, erase_bump|]. intros a1.
  eapply erase_bind; [apply erase_mapM; reflexivity|]. intros m.
  erase_step. eapply erase_bind; [apply erase_mapM; reflexivity|]. intros r. apply IH.
Qed.
Lemma erase_update8 c a i : result (update8_t c a i) = update8 c a i.
Proof.
  unfold update8_t, update8. eapply erase_bind; [apply erase_mapM2, erase_compress_buffer|]. intros si. cbv zeta.
  eapply erase_bind; [apply erase_update8_loop|]. intros [a1 i1]. apply erase_mapM2, erase_update.
Qed.
Lemma mapM_Ok {A B} (f : A -> B) a : oct_mapM (fun x => Ok (f x)) a = Ok (oct_map f a).
Proof. destruct a. reflexivity. Qed.
Lemma erase_finalize8 c a : result (finalize8_t c a) = finalize8 c a.
Proof.
  unfold finalize8_t, finalize8. eapply erase_pure.
  { etransitivity; [apply (erase_mapM _ (fun st => Ok (set_buf st (zero_tail (st_buf st) (buflen_nat st))))); reflexivity|].
    apply mapM_Ok. }
  eapply erase_pure.
  { etransitivity; [apply (erase_mapM _ (fun st => Ok (flag32 (st_last_node st)))); reflexivity|]. apply mapM_Ok. }
  cbv zeta. erase_step. reflexivity.
Qed.
Lemma erase_exact4_loop p len fuel : forall i0 i1 i2 i3 h n,
  result (sse41_hash4_exact_loop_t fuel p i0 i1 i2 i3 len h n) = Sse41.hash4_exact_loop fuel p i0 i1 i2 i3 len h n.
Proof.
  induction fuel as [|fuel IH]; intros i0 i1 i2 i3 h n; [reflexivity|].
  cbn [sse41_hash4_exact_loop_t Sse41.hash4_exact_loop].
  do 4 erase_step. cbv zeta. eapply erase_pure; [reflexivity|]. eapply erase_pure; [apply erase_all|].
  eapply erase_pure; [reflexivity|]. eapply erase_pure; [reflexivity|].
  cbn [forallb]. rewrite andb_true_r. apply erase_if; [reflexivity|apply IH].
Qed.
Lemma erase_exact8_loop p len fuel : forall i h n,
  result (avx2_hash8_exact_loop_t fuel p i len h n) = Avx2.hash8_exact_loop fuel p i len h n.
Proof.
  induction fuel as [|fuel IH]; intros i h n; [reflexivity|].
  cbn [avx2_hash8_exact_loop_t Avx2.hash8_exact_loop].
  set (k := fun msgs : oct (list byte) => _).
  assert (E : forall msgs, result (k msgs) =
    (let n := (n + BLOCKBYTES)%nat in
     let h := Avx2.compress8_transposed h (Avx2.load_msg_vecs_interleave msgs)
       (Avx2.load_256_from_u32 (of_N 32 (N.of_nat n)))
       (Avx2.load_256_from_u32 (cast 32 (ushr (of_N 64 (N.of_nat n)) 32)))
       (Avx2.load_256_from_u32 (if Nat.eqb n len then umax 32 else uzero 32))
       (Avx2.load_256_from_u32 (if p_last_node p && Nat.eqb n len then umax 32 else uzero 32)) in
     if Nat.eqb n len then Ok (Avx2.export_hashes h (p_hash_length p)) else Avx2.hash8_exact_loop fuel p i len h n)).
  { intros msgs. unfold k. cbv zeta. eapply erase_pure; [reflexivity|]. eapply erase_pure; [apply erase_all|].
    eapply erase_pure; [reflexivity|]. eapply erase_pure; [reflexivity|].
    cbn [forallb]. rewrite andb_true_r. apply erase_if; [reflexivity|apply IH]. }
  clearbody k. etransitivity; [eapply erase_bind; [apply (erase_mapM _ (fun j => raw_read j n BLOCKBYTES)); reflexivity|exact E]|]. clear.
  unfold oct_mapM.
  destruct (raw_read (o0 i) n BLOCKBYTES); [|reflexivity..]. destruct (raw_read (o1 i) n BLOCKBYTES); [|reflexivity..].
  destruct (raw_read (o2 i) n BLOCKBYTES); [|reflexivity..]. destruct (raw_read (o3 i) n BLOCKBYTES); [|reflexivity..].
  destruct (raw_read (o4 i) n BLOCKBYTES); [|reflexivity..]. destruct (raw_read (o5 i) n BLOCKBYTES); [|reflexivity..].
  destruct (raw_read (o6 i) n BLOCKBYTES); [|reflexivity..]. destruct (raw_read (o7 i) n BLOCKBYTES); reflexivity.
Qed.
Lemma erase_hash4_exact c p i : result (hash4_exact_t c p i) = hash4_exact c p i.
Proof.
  unfold hash4_exact_t, hash4_exact. cbv zeta. eapply erase_pure; [apply erase_all|].
  eapply erase_pure; [apply erase_all|]. etransitivity; [apply erase_assert; reflexivity|].
  cbn [forallb]. rewrite !andb_true_r, !andb_assoc. destruct (_ && _ && _ && _ && _); [|reflexivity].
  unfold call_hash4_exact_t, call_hash4_exact. destruct (fn_hash4_exact _).
  - unfold hash4_exact_port. do 4 (eapply erase_bind; [apply erase_hash_one|]; intros ?). reflexivity.
  - destruct (has_sse41 c); [|reflexivity]. unfold sse41_hash4_exact_t, Sse41.hash4_exact. cbv zeta.
    rewrite erase_exact4_loop. destruct (make_words p). reflexivity.
Qed.
Lemma erase_hash8_exact c p i : result (hash8_exact_t c p i) = hash8_exact c p i.
Proof.
  unfold hash8_exact_t, hash8_exact. cbv zeta. eapply erase_pure; [apply erase_all|].
  eapply erase_pure; [apply erase_all|]. etransitivity; [apply erase_assert; reflexivity|].
  cbn [forallb]. rewrite !andb_true_r, !andb_assoc. destruct (_ && _); [|reflexivity].
  unfold call_hash8_exact_t, call_hash8_exact. destruct (fn_hash8_exact _).
  - apply erase_mapM, erase_hash_one.
  - destruct (has_avx2 c); [|reflexivity]. unfold avx2_hash8_exact_t, Avx2.hash8_exact. cbv zeta.
    rewrite erase_exact8_loop. destruct (make_words p). reflexivity.
Qed.
Lemma erase_remaining c test n l : result (all_remaining_t c test n l) = all_remaining c test n l.
Proof.
  induction l as [|x l IH]; [reflexivity|]. cbn [all_remaining_t all_remaining]. erase_step.
  apply erase_if; [exact IH|reflexivity].
Qed.
Lemma erase_finish c f n p w i : result (hash8_finish_t c f n p w i) = hash8_finish c f n p w i.
Proof.
  unfold hash8_finish_t, hash8_finish. cbv zeta. erase_step.
  eapply erase_bind; [apply erase_update|]. intros s.
  eapply erase_bind; [apply erase_finalize|]. intros [s2 h]. reflexivity.
Qed.
Lemma erase_hash8_loop c fns p i fuel : forall w n,
  result (hash8_loop_t fuel c fns p i w n) = hash8_loop fuel c fns p i w n.
Proof.
  induction fuel as [|fuel IH]; intros w n; [reflexivity|]. cbn [hash8_loop_t hash8_loop]. cbv zeta.
  eapply erase_bind; [apply erase_remaining|]. intros u. eapply erase_bind; [apply erase_remaining|]. intros v.
  eapply erase_pure; [apply erase_all|]. cbn [forallb]. rewrite andb_true_r. apply erase_if.
  - erase_step. do 8 (eapply erase_bind; [apply erase_finish|]; intros ?). reflexivity.
  - eapply erase_bind; [apply erase_mapM; reflexivity|]. intros m.
    eapply (erase_pure _ (if v then oct_map (fun p => flag32 (p_last_node p)) p else oct_const (uzero 32))).
    { etransitivity; [apply erase_if; [|reflexivity]|].
      - etransitivity; [apply (erase_mapM _ (fun p => Ok (flag32 (p_last_node p)))); reflexivity|]. apply mapM_Ok.
      - destruct v; reflexivity. }
    erase_step. apply erase_if; [|apply IH]. erase_step. reflexivity.
Qed.
Lemma erase_hash8 c p i : result (hash8_t c p i) = hash8 c p i.
Proof.
  unfold hash8_t, hash8. eapply erase_pure; [apply erase_oct_all|].
  etransitivity; [apply erase_assert; reflexivity|]. destruct (oct_all _ _); [|reflexivity]. cbv zeta.
  erase_step. apply erase_hash8_loop.
Qed.
Lemma erase_sp_setter p s : result (sp_apply_setter_t p s) = sp_apply_setter p s.
Proof.
  destruct s as [n|k]; cbn [sp_apply_setter_t sp_apply_setter].
  - eapply erase_pure; [apply erase_all|].
    etransitivity; [apply erase_assert; reflexivity|]. cbn [forallb]. unfold sp_set_hash_length.
    destruct (1 <=? n), (n <=? N.of_nat OUTBYTES); reflexivity.
  - etransitivity; [apply erase_assert; reflexivity|]. unfold sp_set_key. destruct (Nat.leb _ _); reflexivity.
Qed.
Lemma erase_leaf c p i : result (leaf_state_t c p i) = leaf_state c p i.
Proof.
  unfold leaf_state_t, leaf_state. do 3 erase_step.
  eapply erase_bind; [apply erase_with_params|]. intros s. reflexivity.
Qed.
Lemma erase_sp_with_params c p : result (sp_with_params_t c p) = sp_with_params c p.
Proof.
  unfold sp_with_params_t, sp_with_params. eapply erase_bind; [apply erase_set_hash_length|]. intros ?.
  erase_step. eapply erase_bind; [apply erase_set_key|]. intros ?. do 7 erase_step.
  eapply erase_bind; [apply erase_with_params|]. intros s. cbv zeta.
  eapply erase_bind; [apply erase_mapM, erase_leaf|]. intros l. reflexivity.
Qed.
Lemma erase_sp_fill c st i : result (sp_fill_buf_t c st i) = sp_fill_buf c st i.
Proof.
  unfold sp_fill_buf_t, sp_fill_buf. erase_step. eapply erase_pure; [reflexivity|]. cbv zeta.
  repeat erase_step. reflexivity.
Qed.
Lemma erase_debug_asserts c l : result (debug_asserts_t c l) = debug_assert c (forallb (fun b => b) l).
Proof.
  unfold debug_asserts_t. destruct (debug_assertions c) eqn:E.
  - eapply erase_pure; [apply erase_all|]. reflexivity.
  - unfold debug_assert. rewrite E. reflexivity.
Qed.
Lemma erase_sp_compress8 c m l f : result (sp_compress8_t c m l f) = sp_compress8 c m l f.
Proof.
  unfold sp_compress8_t, sp_compress8. rewrite <- !forallb_oct.
  eapply erase_bind; [apply erase_debug_asserts|]. intros _.
  eapply erase_bind; [apply erase_debug_asserts|]. intros _.
  eapply erase_bind; [apply erase_mapM, erase_bump|]. intros l1. erase_step. reflexivity.
Qed.
Lemma erase_sp_empty c st i : result (sp_empty_buffer_t c st i) = sp_empty_buffer c st i.
Proof.
  unfold sp_empty_buffer_t, sp_empty_buffer. apply erase_if; [|reflexivity].
  eapply erase_bind; [apply erase_sp_fill|]. intros [s [|x r]]; [reflexivity|].
  eapply erase_pure; [reflexivity|]. erase_step. eapply erase_bind; [apply erase_sp_compress8|]. intros l. cbv zeta.
  erase_step. apply erase_if.
  - erase_step. eapply erase_bind; [apply erase_sp_compress8|]. intros m. reflexivity.
  - repeat erase_step. reflexivity.
Qed.
Lemma erase_sp_loop c fuel : forall st i, result (sp_update_loop_t fuel c st i) = sp_update_loop fuel c st i.
Proof.
  induction fuel as [|fuel IH]; intros st i; [reflexivity|]. cbn [sp_update_loop_t sp_update_loop].
  apply erase_if; [|reflexivity]. erase_step. eapply erase_bind; [apply erase_sp_compress8|]. intros l.
  erase_step. apply IH.
Qed.
Lemma erase_sp_update c st i : result (sp_update_t c st i) = sp_update c st i.
Proof.
  unfold sp_update_t, sp_update. eapply erase_bind; [apply erase_sp_empty|]. intros [s r].
  eapply erase_bind; [apply erase_sp_loop|]. intros [s1 r1].
  eapply erase_bind; [apply erase_sp_fill|]. intros [s2 r2]. erase_step. reflexivity.
Qed.
Lemma erase_feed_chunk c b k n s : result (feed_chunk_t c b k n s) = feed_chunk c b k n s.
Proof.
  unfold feed_chunk_t, feed_chunk. eapply erase_pure; [reflexivity|]. erase_step. apply erase_update.
Qed.
Lemma erase_feed_root c r s : result (feed_root_t c r s) = feed_root c r s.
Proof.
  unfold feed_root_t, feed_root. eapply erase_bind; [apply erase_finalize|]. intros [s1 h].
  erase_step. apply erase_update.
Qed.
Lemma erase_sp_finalize c st : result (sp_finalize_t c st) = sp_finalize c st.
Proof.
  unfold sp_finalize_t, sp_finalize. cbv zeta. destruct (sp_leaves st).
  do 15 (eapply erase_bind; [apply erase_feed_chunk|]; intros ?; eapply erase_pure; [reflexivity|]).
  eapply erase_bind; [apply erase_feed_chunk|]; intros ?.
  do 8 (eapply erase_bind; [apply erase_feed_root|]; intros ?).
  eapply erase_bind; [apply erase_finalize|]. intros [s h]. reflexivity.
Qed.
Lemma erase_sp_count c st : result (sp_count_t c st) = sp_count c st.
Proof. unfold sp_count_t, sp_count. cbv zeta. repeat erase_step. reflexivity. Qed.
Lemma erase_sp_debug c st : result (sp_state_debug_t c st) = sp_state_debug c st.
Proof. unfold sp_state_debug_t, sp_state_debug. eapply erase_bind; [apply erase_sp_count|]. intros n. reflexivity. Qed.
Lemma erase_give_hash s h : result (give_hash_t s h) = give_hash s h.
Proof. unfold give_hash_t, give_hash. erase_step. reflexivity. Qed.
Lemma erase_all_bytes l : result (all_bytes_t l) = all_bytes l.
Proof.
  induction l as [|h l IH]; [reflexivity|]. cbn [all_bytes_t all_bytes]. erase_step. erase_step. reflexivity.
Qed.
Lemma erase_give_hashes s l : result (give_hashes_t s l) = give_hashes s l.
Proof. unfold give_hashes_t, give_hashes. eapply erase_bind; [apply erase_all_bytes|]. intros b. reflexivity. Qed.

Lemma erase_at {A B} (l : list A) i (no : traced B) no' f f' :
  result no = no' -> (forall x, result (f x) = f' x) -> result (at_obj l i no f) = at_obj l i no' f'.
Proof. intros Hn Hf. unfold at_obj. destruct (nth_error l i); auto. Qed.
Theorem erase_step_t c s o : result (step_t c s o) = step c s o.
Proof.
  destruct o; cbn [step_t step]; cbv zeta;
    try (lazymatch goal with |- result (at_obj _ _ _ _) = _ => apply erase_at; [reflexivity|]; intros x end);
    try (lazymatch goal with
         | |- result (ret _) = Ok _ => reflexivity
         | |- result (tbind (lift (_ _)) _) = _ => reflexivity
         end).
  - eapply erase_bind; [apply erase_setter|]. intros ?. reflexivity.
  - eapply erase_bind; [apply erase_with_params|]. intros ?. reflexivity.
  - eapply erase_bind; [apply erase_with_params|]. intros ?. reflexivity.
  - eapply erase_bind; [apply erase_update|]. intros ?. reflexivity.
  - eapply erase_bind; [eapply erase_bind; [apply erase_update|]; intros ?; reflexivity|]. intros [? ?]. reflexivity.
  - eapply erase_bind; [apply erase_finalize|]. intros [? ?]. apply erase_give_hash.
  - destruct (pick8 _ _); [|reflexivity]. destruct (distinct _); [|reflexivity].
    eapply erase_bind; [apply erase_update8|]. intros ?. reflexivity.
  - destruct (pick8 _ _); [|reflexivity]. destruct (distinct _); [|reflexivity].
    eapply erase_bind; [apply erase_finalize8|]. intros [? ?]. apply erase_give_hashes.
  - eapply erase_bind; [apply erase_hash_one|]. intros ?. apply erase_give_hash.
  - destruct (pick8 _ _); [|reflexivity]. eapply erase_bind; [apply erase_hash8|]. intros ?. apply erase_give_hashes.
  - eapply erase_bind; [apply erase_hash8_exact|]. intros ?. apply erase_give_hashes.
  - eapply erase_bind; [apply erase_hash4_exact|]. intros ?. apply erase_give_hashes.
  - eapply erase_bind; [reflexivity|]. intros ?. reflexivity.
  - eapply erase_bind; [apply erase_to_hex|]. intros ?. reflexivity.
  - eapply erase_bind; [|intros ?; reflexivity]. eapply erase_bind; [apply erase_to_hex|]. intros ?. reflexivity.
  - apply erase_at; [reflexivity|]. intros y.
    eapply erase_bind; [apply erase_hash_eq|]. intros ?. reflexivity.
  - eapply erase_bind; [apply erase_hash_eq_slice|]. intros ?. reflexivity.
  - eapply erase_bind; [apply erase_sp_setter|]. intros ?. reflexivity.
  - eapply erase_bind; [apply erase_sp_with_params|]. intros ?. reflexivity.
  - eapply erase_bind; [apply erase_sp_with_params|]. intros ?. reflexivity.
  - eapply erase_bind; [apply erase_sp_update|]. intros ?. reflexivity.
  - eapply erase_bind; [eapply erase_bind; [apply erase_sp_update|]; intros ?; reflexivity|]. intros [? ?]. reflexivity.
  - eapply erase_bind; [apply erase_sp_count|]. intros ?. reflexivity.
  - eapply erase_bind; [apply erase_sp_debug|]. intros ?. reflexivity.
  - eapply erase_bind; [apply erase_sp_finalize|]. intros ?. apply erase_give_hash.
  - eapply erase_bind; [|intros ?; apply erase_give_hash]. unfold blake2sp_t, Blake2sp.blake2sp, SpState_new.
    eapply erase_bind; [apply erase_sp_with_params|]. intros ?.
    eapply erase_bind; [apply erase_sp_update|]. intros ?. apply erase_sp_finalize.
Qed.
