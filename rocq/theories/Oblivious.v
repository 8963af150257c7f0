(** * Oblivious: traces do not depend on the contents of byte strings.

    The relations between two runs are those of [NoLeak]; here the traces are compared
    too.  With [hidden = true] the table lookups are left out of the comparison. *)
From Verif Require Import Base Consts Portable Params State Many Blake2sp Debug Machine BaseFacts Avx2Facts MachineFacts Clients Terms NoLeak Traced TracedFacts.
From Verif Require HashFacts Corollaries.
From Verif Require Sse41 Avx2 Relate.
From Coq Require Import Lia String.
Local Notation length := List.length (only parsing).
Local Open Scope N_scope.

Section Hiding.
Variable hidden : bool.

Definition view (l : list event) : list event := filter (fun e => negb (hidden && is_lookup e)) l.
Lemma view_app a b : view (a ++ b) = view a ++ view b.
Proof. apply filter_app. Qed.
Definition tsim {A B} (R : A -> B -> Prop) (x : traced A) (y : traced B) : Prop :=
  view (events x) = view (events y) /\ osim R (result x) (result y).

Lemma tsim_bind {A B C D} (R : A -> B -> Prop) (Q : C -> D -> Prop) x y f g :
  tsim R x y -> (forall a b, R a b -> tsim Q (f a) (g b)) -> tsim Q (tbind x f) (tbind y g).
Proof.
  destruct x as [l [a| | |]], y as [l' [b| | |]]; intros (E & H) Hf; cbn [events fst result snd osim] in *;
    try contradiction; try (split; [exact E|exact I]).
  cbn [tbind]. destruct (Hf a b H) as (E1 & H1). destruct (f a) as [m u], (g b) as [m' u'].
  cbn [events fst result snd] in *. split; [|exact H1]. cbn [events fst]. rewrite !view_app, E, E1. reflexivity.
Qed.
Lemma tsim_note {A B} (R : A -> B -> Prop) l x y : osim R x y -> tsim R (note l x) (note l y).
Proof. intros H. split; [reflexivity|exact H]. Qed.
Lemma tsim_ret {A B} (R : A -> B -> Prop) a b : R a b -> tsim R (ret a) (ret b).
Proof. intros H. split; [reflexivity|exact H]. Qed.
Lemma tsim_lift {A B} (R : A -> B -> Prop) x y : osim R x y -> tsim R (lift x) (lift y).
Proof. intros H. split; [reflexivity|exact H]. Qed.
Lemma tsim_refl {A} (x : traced A) : tsim eq x x.
Proof. split; [reflexivity|apply osim_refl]. Qed.
Lemma tsim_if {A B} (R : A -> B -> Prop) (b : bool) x y z t :
  tsim R x y -> tsim R z t -> tsim R (tif b x z) (tif b y t).
Proof.
  intros H1 H2. unfold tif. eapply tsim_bind; [apply (tsim_note eq); reflexivity|]. intros ? ? _. destruct b; assumption.
Qed.
Lemma tsim_same {A B} (Q : B -> B -> Prop) (x : traced A) f g :
  (forall a, tsim Q (f a) (g a)) -> tsim Q (tbind x f) (tbind x g).
Proof. intros H. eapply tsim_bind; [apply tsim_refl|]. intros a ? <-. apply H. Qed.

Lemma tsim_weaken {A B} (R Q : A -> B -> Prop) x y : (forall a b, R a b -> Q a b) -> tsim R x y -> tsim Q x y.
Proof.
  intros H (T1 & T2). split; [exact T1|]. revert T2.
  destruct (result x), (result y); cbn [osim]; intros; try contradiction; try exact I. apply H. assumption.
Qed.

Lemma slice_from_obl a b lo : leq a b -> tsim leq (slice_from_t a lo) (slice_from_t b lo).
Proof. intros H. unfold slice_from_t. rewrite H. apply tsim_note, slice_from_sim, H. Qed.
Lemma slice_to_obl a b hi : leq a b -> tsim leq (slice_to_t a hi) (slice_to_t b hi).
Proof. intros H. unfold slice_to_t. rewrite H. apply tsim_note, slice_to_sim, H. Qed.
Lemma copy_into_obl a b lo hi s t : leq a b -> leq s t ->
  tsim leq (copy_into_t a lo hi s) (copy_into_t b lo hi t).
Proof. intros H H'. unfold copy_into_t. rewrite H, H'. apply tsim_note, copy_into_sim; assumption. Qed.
Lemma array_ref_obl a b off n : leq a b -> tsim leq (array_ref_t a off n) (array_ref_t b off n).
Proof. intros H. unfold array_ref_t. rewrite H. apply tsim_note, array_ref_sim, H. Qed.
Lemma raw_read_obl a b off n : leq a b -> tsim leq (raw_read_t a off n) (raw_read_t b off n).
Proof. intros H. unfold raw_read_t. rewrite H. apply tsim_note, raw_read_sim, H. Qed.
Lemma compress_obl c f h h' m m' n lb ln : tsim any (call_compress_t c f h m n lb ln) (call_compress_t c f h' m' n lb ln).
Proof. apply tsim_note, compress_sim. Qed.
Lemma compress8_obl c f h h' m m' n lb ln :
  tsim any (call_compress8_t c f h m n lb ln) (call_compress8_t c f h' m' n lb ln).
Proof. apply tsim_note, compress8_sim. Qed.
Lemma vectorize_obl c f w w' : tsim any (call_vectorize8_t c f w) (call_vectorize8_t c f w').
Proof. apply tsim_note, vectorize_sim. Qed.
Lemma vectorized_obl c f w w' m m' a b d e :
  tsim any (call_compress8_vectorized_t c f w m a b d e) (call_compress8_vectorized_t c f w' m' a b d e).
Proof. apply tsim_note, vectorized_sim. Qed.

Lemma oct_mapM_obl {A A' B B'} (R : A -> A' -> Prop) (Q : B -> B' -> Prop) f f' a a' :
  (forall l, R (proj l a) (proj l a')) -> (forall x y, R x y -> tsim Q (f x) (f' y)) ->
  tsim (fun b b' => forall l, Q (proj l b) (proj l b')) (oct_mapM_t f a) (oct_mapM_t f' a').
Proof.
  intros H Hf. unfold oct_mapM_t.
  eapply tsim_bind; [apply Hf, (H L0)|]. intros b0 c0 Q0.
  eapply tsim_bind; [apply Hf, (H L1)|]. intros b1 c1 Q1.
  eapply tsim_bind; [apply Hf, (H L2)|]. intros b2 c2 Q2.
  eapply tsim_bind; [apply Hf, (H L3)|]. intros b3 c3 Q3.
  eapply tsim_bind; [apply Hf, (H L4)|]. intros b4 c4 Q4.
  eapply tsim_bind; [apply Hf, (H L5)|]. intros b5 c5 Q5.
  eapply tsim_bind; [apply Hf, (H L6)|]. intros b6 c6 Q6.
  eapply tsim_bind; [apply Hf, (H L7)|]. intros b7 c7 Q7.
  apply tsim_ret. intros []; cbn [proj o0 o1 o2 o3 o4 o5 o6 o7]; assumption.
Qed.
Lemma oct_mapM2_obl {A A' B B' C C'} (R : A -> A' -> Prop) (T : B -> B' -> Prop) (Q : C -> C' -> Prop)
    f f' a a' b b' :
  (forall l, R (proj l a) (proj l a')) -> (forall l, T (proj l b) (proj l b')) ->
  (forall x x' y y', R x x' -> T y y' -> tsim Q (f x y) (f' x' y')) ->
  tsim (fun b b' => forall l, Q (proj l b) (proj l b')) (oct_mapM2_t f a b) (oct_mapM2_t f' a' b').
Proof.
  intros H1 H2 Hf. unfold oct_mapM2_t.
  eapply tsim_bind; [apply Hf; [apply (H1 L0)|apply (H2 L0)]|]. intros b0 c0 Q0.
  eapply tsim_bind; [apply Hf; [apply (H1 L1)|apply (H2 L1)]|]. intros b1 c1 Q1.
  eapply tsim_bind; [apply Hf; [apply (H1 L2)|apply (H2 L2)]|]. intros b2 c2 Q2.
  eapply tsim_bind; [apply Hf; [apply (H1 L3)|apply (H2 L3)]|]. intros b3 c3 Q3.
  eapply tsim_bind; [apply Hf; [apply (H1 L4)|apply (H2 L4)]|]. intros b4 c4 Q4.
  eapply tsim_bind; [apply Hf; [apply (H1 L5)|apply (H2 L5)]|]. intros b5 c5 Q5.
  eapply tsim_bind; [apply Hf; [apply (H1 L6)|apply (H2 L6)]|]. intros b6 c6 Q6.
  eapply tsim_bind; [apply Hf; [apply (H1 L7)|apply (H2 L7)]|]. intros b7 c7 Q7.
  apply tsim_ret. intros []; cbn [proj o0 o1 o2 o3 o4 o5 o6 o7]; assumption.
Qed.
Lemma counts_obl a b : nst8 a b -> oct_map st_count a = oct_map st_count b.
Proof. intros H. apply oct_ext. intros l. rewrite !proj_map. apply (n_count _ _ (H l)). Qed.
Lemma oct_flags {A A'} (R : A -> A' -> Prop) (f : A -> bool) f' (a : oct A) (a' : oct A') :
  (forall l, R (proj l a) (proj l a')) -> (forall x y, R x y -> f x = f' y) ->
  oct_list (oct_map f a) = oct_list (oct_map f' a').
Proof.
  intros H Hf. f_equal. apply oct_ext. intros l. rewrite !proj_map. apply Hf, H.
Qed.

(** ** States *)
Lemma fill_buf_obl c s t i j : nst s t -> leq i j -> tsim npair (fill_buf_t c s i) (fill_buf_t c t j).
Proof.
  intros [] Hi. unfold fill_buf_t, buflen_nat. rewrite n_buflen, n_count, Hi.
  apply tsim_same. intros room. apply tsim_same. intros take.
  eapply tsim_bind; [apply slice_to_obl, Hi|]. intros src src' Hs.
  eapply tsim_bind; [apply copy_into_obl; eassumption|]. intros b b' Hb.
  apply tsim_same. intros n. apply tsim_same. intros m.
  eapply tsim_bind; [apply slice_from_obl, Hi|]. intros r r' Hr.
  apply tsim_ret. split; [|exact Hr]. constructor; fields; try congruence; try assumption.
Qed.
Lemma compress_buffer_obl c s t i j : nst s t -> leq i j ->
  tsim npair (compress_buffer_if_possible_t c s i) (compress_buffer_if_possible_t c t j).
Proof.
  intros H Hi. unfold compress_buffer_if_possible_t. rewrite (n_buflen _ _ H).
  apply tsim_if; [|apply tsim_ret; split; assumption].
  eapply tsim_bind; [apply fill_buf_obl; eassumption|]. intros [s1 r1] [t1 r2] (H1 & Hr). cbn [fst snd] in *.
  destruct r1, r2; try discriminate Hr; [apply tsim_note; split; assumption|].
  rewrite (n_fn _ _ H1), (n_count _ _ H1). apply tsim_same. intros _.
  eapply tsim_bind; [apply compress_obl|]. intros h h' _. apply tsim_ret. split; [|exact Hr].
  destruct H1. constructor; fields; try congruence; try assumption.
Qed.
Lemma update_loop_obl c fuel : forall s t i j, nst s t -> leq i j ->
  tsim npair (update_loop_t fuel c s i) (update_loop_t fuel c t j).
Proof.
  induction fuel as [|fuel IH]; intros s t i j H Hi; [apply tsim_lift; exact I|]. cbn [update_loop_t].
  rewrite Hi. apply tsim_if; [|apply tsim_ret; split; assumption].
  rewrite (n_count _ _ H), (n_fn _ _ H). apply tsim_same. intros n.
  eapply tsim_bind; [apply array_ref_obl, Hi|]. intros b b' Hb.
  eapply tsim_bind; [apply compress_obl|]. intros h h' _.
  eapply tsim_bind; [apply slice_from_obl, Hi|]. intros r r' Hr.
  apply IH; [|exact Hr]. destruct H. constructor; fields; try congruence; try assumption.
Qed.
Lemma update_obl c s t i j : nst s t -> leq i j -> tsim nst (update_t c s i) (update_t c t j).
Proof.
  intros H Hi. unfold update_t.
  eapply tsim_bind; [apply compress_buffer_obl; eassumption|]. intros [s1 i1] [t1 j1] (H1 & Hi1). cbn [fst snd] in *.
  rewrite Hi1.
  eapply tsim_bind; [apply update_loop_obl; eassumption|]. intros [s2 i2] [t2 j2] (H2 & Hi2). cbn [fst snd] in *.
  eapply tsim_bind; [apply fill_buf_obl; eassumption|]. intros [s3 i3] [t3 j3] (H3 & _). apply tsim_ret, H3.
Qed.
Lemma with_params_obl c p q : npar p q -> tsim nst (with_params_t c p) (with_params_t c q).
Proof.
  intros H. unfold with_params_t. cbv zeta. rewrite (np_kl _ _ H).
  assert (H0 : nst
    {| st_h := make_words p; st_buf := repeat x00 BLOCKBYTES; st_buflen := of_N 8 0; st_count := of_N 64 0;
       st_compress_fn := fn_compress (default_compress_impl c); st_last_node := p_last_node p;
       st_hash_length := p_hash_length p |}
    {| st_h := make_words q; st_buf := repeat x00 BLOCKBYTES; st_buflen := of_N 8 0; st_count := of_N 64 0;
       st_compress_fn := fn_compress (default_compress_impl c); st_last_node := p_last_node q;
       st_hash_length := p_hash_length q |}).
  { destruct H. constructor; fields; try congruence; try reflexivity. }
  apply tsim_if; [|apply tsim_ret, H0].
  eapply tsim_bind; [apply copy_into_obl; [reflexivity|apply (np_key _ _ H)]|]. intros b b' Hb.
  apply update_obl; [exact H0|exact Hb].
Qed.
Lemma zero_tail_obl s t : nst s t ->
  tsim leq (zero_tail_t (st_buf s) (buflen_nat s)) (zero_tail_t (st_buf t) (buflen_nat t)).
Proof.
  intros H. unfold zero_tail_t, buflen_nat. rewrite (n_buflen _ _ H), (n_buf _ _ H). apply tsim_note.
  cbn [osim]. unfold leq. rewrite !Relate.zero_tail_length. apply H.
Qed.
Lemma finalize_obl c s t : nst s t ->
  tsim (fun x y => nst (fst x) (fst y) /\ nhash (snd x) (snd y)) (finalize_t c s) (finalize_t c t).
Proof.
  intros H. unfold finalize_t. eapply tsim_bind; [apply zero_tail_obl, H|]. intros b b' Hb. cbv zeta. fields.
  rewrite (n_fn _ _ H), (n_count _ _ H), (n_last _ _ H). apply tsim_same. intros ln.
  eapply tsim_bind; [apply compress_obl|]. intros h h' _. apply tsim_ret. cbn [fst snd].
  destruct H. split; [constructor; fields; try reflexivity; assumption|]. split; [apply words_leq|assumption].
Qed.
Lemma as_bytes_obl h k : nhash h k -> tsim leq (as_bytes_t h) (as_bytes_t k).
Proof. intros (Hb & Hl). unfold as_bytes_t. rewrite Hl. apply slice_to_obl, Hb. Qed.
Lemma hash_one_obl c p q i j : npar p q -> leq i j -> tsim nhash (hash_one_t c p i) (hash_one_t c q j).
Proof.
  intros Hp Hi. unfold hash_one_t. eapply tsim_bind; [apply with_params_obl, Hp|]. intros s t H.
  eapply tsim_bind; [apply update_obl; eassumption|]. intros s1 t1 H1.
  eapply tsim_bind; [apply finalize_obl, H1|]. intros [s2 h] [t2 k] (_ & Hh). apply tsim_ret, Hh.
Qed.

(** ** Eight at a time *)
Lemma bump_obl c s t : nst s t -> tsim nst (bump_count_t c s) (bump_count_t c t).
Proof.
  intros H. unfold bump_count_t. rewrite (n_count _ _ H). apply tsim_same. intros n. apply tsim_ret.
  destruct H. constructor; cbn [set_count st_h st_buf st_buflen st_count st_compress_fn st_last_node st_hash_length];
    assumption || reflexivity.
Qed.
Lemma update8_loop_obl c f fuel : forall a b i j, nst8 a b -> leq8 i j ->
  tsim (fun x y => nst8 (fst x) (fst y) /\ leq8 (snd x) (snd y)) (update8_loop_t fuel c f a i) (update8_loop_t fuel c f b j).
Proof.
  induction fuel as [|fuel IH]; intros a b i j H Hi; [apply tsim_lift; exact I|]. cbn [update8_loop_t]. unfold oct_all_t.
  rewrite (oct_flags leq _ (fun i => Nat.ltb BLOCKBYTES (length i)) i j Hi)
    by (intros x y Hxy; rewrite Hxy; reflexivity).
  apply tsim_same. intros more. apply tsim_if; [|apply tsim_ret; split; assumption].
  eapply tsim_bind; [apply (oct_mapM_obl nst nst); [exact H|intros; apply bump_obl; assumption]|]. intros a1 b1 H1.
  eapply tsim_bind; [apply (oct_mapM_obl leq leq); [exact Hi|intros; apply array_ref_obl; assumption]|]. intros m m' _.
  rewrite (counts_obl _ _ H1).
  eapply tsim_bind; [apply compress8_obl|]. intros h h' _.
  eapply tsim_bind; [apply (oct_mapM_obl leq leq); [exact Hi|intros; apply slice_from_obl; assumption]|]. intros r r' Hr.
  apply IH; [apply set_h8_sim; exact H1|exact Hr].
Qed.
Lemma update8_obl c a b i j : nst8 a b -> leq8 i j -> tsim nst8 (update8_t c a i) (update8_t c b j).
Proof.
  intros H Hi. unfold update8_t.
  eapply tsim_bind; [apply (oct_mapM2_obl nst leq npair); [exact H|exact Hi|intros; apply compress_buffer_obl; assumption]|].
  intros x y Hxy. cbv zeta.
  assert (E : length (snd (o0 x)) = length (snd (o0 y))) by apply (Hxy L0). rewrite E.
  eapply tsim_bind.
  { apply update8_loop_obl; intros l; rewrite !proj_map; apply Hxy. }
  intros [s1 i1] [s2 i2] (Hs & Hi'). cbn [fst snd] in *.
  apply (oct_mapM2_obl nst leq nst); [exact Hs|exact Hi'|intros; apply update_obl; assumption].
Qed.
Lemma nst_buf s t b b' : nst s t -> leq b b' -> nst (set_buf s b) (set_buf t b').
Proof. intros [] H. constructor; cbn [set_buf st_h st_buf st_buflen st_count st_compress_fn st_last_node st_hash_length]; assumption. Qed.
Lemma finalize8_obl c a b : nst8 a b ->
  tsim (fun x y => nst8 (fst x) (fst y) /\ nhash8 (snd x) (snd y)) (finalize8_t c a) (finalize8_t c b).
Proof.
  intros H. unfold finalize8_t.
  eapply tsim_bind.
  { apply (oct_mapM_obl nst nst); [exact H|]. intros s t Hs.
    eapply tsim_bind; [apply zero_tail_obl, Hs|]. intros x y Hx. apply tsim_ret, nst_buf; assumption. }
  intros a1 b1 H1.
  eapply tsim_bind.
  { apply (oct_mapM_obl nst eq); [exact H1|]. intros s t Hs. rewrite (n_last _ _ Hs).
    apply tsim_note. reflexivity. }
  intros l l' Hl. apply oct_ext in Hl. subst l'. cbv zeta. rewrite (counts_obl _ _ H1).
  eapply tsim_bind; [apply compress8_obl|]. intros h h' _. apply tsim_ret. cbn [fst snd].
  split; [exact H1|]. intros k. rewrite !proj_map2. split; [apply words_leq|]. apply (n_hash _ _ (H1 k)).
Qed.
Lemma finish_obl c f n p q w w' i j : npar p q -> leq i j ->
  tsim nhash (hash8_finish_t c f n p w i) (hash8_finish_t c f n q w' j).
Proof.
  intros Hp Hi. unfold hash8_finish_t. cbv zeta.
  eapply tsim_bind; [apply slice_from_obl, Hi|]. intros r r' Hr.
  eapply tsim_bind.
  { apply update_obl; [|exact Hr]. destruct Hp. constructor; fields; try congruence; try reflexivity. }
  intros s t H. eapply tsim_bind; [apply finalize_obl, H|]. intros [s2 h] [t2 k] (_ & Hh). apply tsim_ret, Hh.
Qed.
Lemma hash8_loop_obl c fns fuel : forall p q i j w w' n, npar8 p q -> leq8 i j ->
  tsim nhash8 (hash8_loop_t fuel c fns p i w n) (hash8_loop_t fuel c fns q j w' n).
Proof.
  induction fuel as [|fuel IH]; intros p q i j w w' n Hp Hi; [apply tsim_lift; exact I|]. cbn [hash8_loop_t]. cbv zeta.
  assert (E : oct_map (@length byte) i = oct_map (@length byte) j).
  { apply oct_ext. intros l. rewrite !proj_map. apply Hi. }
  rewrite E. apply tsim_same. intros u. apply tsim_same. intros v. apply tsim_same. intros z.
  apply tsim_if.
  - eapply tsim_bind; [apply vectorize_obl|]. intros x x' _.
    eapply tsim_bind; [apply finish_obl; [apply (Hp L0)|apply (Hi L0)]|]. intros h0 k0 H0.
    eapply tsim_bind; [apply finish_obl; [apply (Hp L1)|apply (Hi L1)]|]. intros h1 k1 H1.
    eapply tsim_bind; [apply finish_obl; [apply (Hp L2)|apply (Hi L2)]|]. intros h2 k2 H2.
    eapply tsim_bind; [apply finish_obl; [apply (Hp L3)|apply (Hi L3)]|]. intros h3 k3 H3.
    eapply tsim_bind; [apply finish_obl; [apply (Hp L4)|apply (Hi L4)]|]. intros h4 k4 H4.
    eapply tsim_bind; [apply finish_obl; [apply (Hp L5)|apply (Hi L5)]|]. intros h5 k5 H5.
    eapply tsim_bind; [apply finish_obl; [apply (Hp L6)|apply (Hi L6)]|]. intros h6 k6 H6.
    eapply tsim_bind; [apply finish_obl; [apply (Hp L7)|apply (Hi L7)]|]. intros h7 k7 H7.
    apply tsim_ret. intros []; assumption.
  - eapply tsim_bind; [apply (oct_mapM_obl leq leq); [exact Hi|intros; apply array_ref_obl; assumption]|].
    intros m m' _.
    eapply (tsim_bind eq).
    { apply tsim_if; [|apply tsim_ret; reflexivity].
      apply (tsim_weaken (fun b b' => forall l, proj l b = proj l b') eq _ _ (fun a b => oct_ext a b)).
      apply (oct_mapM_obl npar eq); [exact Hp|]. intros x y Hx. rewrite (np_last _ _ Hx).
      apply tsim_note. reflexivity. }
    intros ln ? <-. eapply tsim_bind; [apply vectorized_obl|]. intros x x' _.
    apply tsim_if; [|apply IH; assumption].
    eapply tsim_bind; [apply vectorize_obl|]. intros y y' _. apply tsim_ret.
    intros l. rewrite !proj_map2. split; [apply words_leq|]. apply (np_hash _ _ (Hp l)).
Qed.
Lemma hash8_obl c p q i j : npar8 p q -> leq8 i j -> tsim nhash8 (hash8_t c p i) (hash8_t c q j).
Proof.
  intros Hp Hi. unfold hash8_t, oct_all_t.
  rewrite (oct_flags npar _ (fun p => val (p_key_length p) =? 0) p q Hp)
    by (intros x y Hxy; rewrite (np_kl _ _ Hxy); reflexivity).
  apply tsim_same. intros ok. apply tsim_same. intros _. cbv zeta.
  eapply tsim_bind; [apply vectorize_obl|]. intros w w' _.
  pose proof (Hi L0) as H0. cbn [proj] in H0. rewrite H0. apply hash8_loop_obl; assumption.
Qed.

(** ** The exact functions *)
Lemma exact4_loop_obl p q len fuel : forall i0 i1 i2 i3 j0 j1 j2 j3 h h' n, npar p q ->
  leq i0 j0 -> leq i1 j1 -> leq i2 j2 -> leq i3 j3 ->
  tsim nhash4 (sse41_hash4_exact_loop_t fuel p i0 i1 i2 i3 len h n) (sse41_hash4_exact_loop_t fuel q j0 j1 j2 j3 len h' n).
Proof.
  induction fuel as [|fuel IH]; intros i0 i1 i2 i3 j0 j1 j2 j3 h h' n Hp H0 H1 H2 H3; [apply tsim_lift; exact I|].
  cbn [sse41_hash4_exact_loop_t]. rewrite (np_hash _ _ Hp), (np_last _ _ Hp).
  eapply tsim_bind; [apply raw_read_obl, H0|]. intros ? ? _.
  eapply tsim_bind; [apply raw_read_obl, H1|]. intros ? ? _.
  eapply tsim_bind; [apply raw_read_obl, H2|]. intros ? ? _.
  eapply tsim_bind; [apply raw_read_obl, H3|]. intros ? ? _.
  cbv zeta. apply tsim_same. intros ?. apply tsim_same. intros ?. apply tsim_same. intros ?.
  eapply (tsim_bind any); [apply tsim_note; exact I|]. intros x y _.
  apply tsim_if; [|apply IH; assumption]. apply tsim_ret.
  unfold nhash4, nhash, leq, Sse41.export_hashes. cbv zeta. cbn [q0 q1 q2 q3 h_bytes h_len].
  rewrite !app_length, !m128_length. repeat split.
Qed.
Lemma exact8_loop_obl p q len fuel : forall i j h h' n, npar p q -> leq8 i j ->
  tsim nhash8 (avx2_hash8_exact_loop_t fuel p i len h n) (avx2_hash8_exact_loop_t fuel q j len h' n).
Proof.
  induction fuel as [|fuel IH]; intros i j h h' n Hp Hi; [apply tsim_lift; exact I|]. cbn [avx2_hash8_exact_loop_t].
  rewrite (np_hash _ _ Hp), (np_last _ _ Hp).
  eapply tsim_bind; [apply (oct_mapM_obl leq leq); [exact Hi|intros; apply raw_read_obl; assumption]|].
  intros m m' _. cbv zeta. apply tsim_same. intros ?. apply tsim_same. intros ?. apply tsim_same. intros ?.
  eapply (tsim_bind any); [apply tsim_note; exact I|]. intros x y _.
  apply tsim_if; [|apply IH; assumption]. apply tsim_ret.
  intros l. unfold nhash, leq, Avx2.export_hashes. cbv zeta.
  destruct l; cbn [proj o0 o1 o2 o3 o4 o5 o6 o7 h_bytes h_len]; rewrite !m256_length; split; reflexivity.
Qed.
Lemma hash8_exact_obl c p q i j : npar p q -> leq8 i j -> tsim nhash8 (hash8_exact_t c p i) (hash8_exact_t c q j).
Proof.
  intros Hp Hi. unfold hash8_exact_t. cbv zeta.
  pose proof (Hi L0) as E0. pose proof (Hi L1) as E1. pose proof (Hi L2) as E2. pose proof (Hi L3) as E3.
  pose proof (Hi L4) as E4. pose proof (Hi L5) as E5. pose proof (Hi L6) as E6. pose proof (Hi L7) as E7.
  cbn [proj] in *. unfold leq in *. rewrite E0, E1, E2, E3, E4, E5, E6, E7.
  apply tsim_same. intros ?. apply tsim_same. intros ?. apply tsim_same. intros _.
  unfold call_hash8_exact_t. destruct (fn_hash8_exact _).
  - apply (oct_mapM_obl leq nhash); [exact Hi|]. intros x y Hx. apply hash_one_obl; assumption.
  - destruct (has_avx2 c); [|apply tsim_lift; exact I]. unfold avx2_hash8_exact_t. cbv zeta. rewrite E0.
    apply exact8_loop_obl; assumption.
Qed.
Lemma hash4_exact_obl c p q i j : npar p q -> leq4 i j -> tsim nhash4 (hash4_exact_t c p i) (hash4_exact_t c q j).
Proof.
  intros Hp (E0 & E1 & E2 & E3). unfold hash4_exact_t. cbv zeta. unfold leq in *. rewrite E0, E1, E2, E3.
  apply tsim_same. intros ?. apply tsim_same. intros ?. apply tsim_same. intros _.
  unfold call_hash4_exact_t. destruct (fn_hash4_exact _).
  - eapply tsim_bind; [apply hash_one_obl; eassumption|]. intros h0 k0 H0.
    eapply tsim_bind; [apply hash_one_obl; eassumption|]. intros h1 k1 H1.
    eapply tsim_bind; [apply hash_one_obl; eassumption|]. intros h2 k2 H2.
    eapply tsim_bind; [apply hash_one_obl; eassumption|]. intros h3 k3 H3.
    apply tsim_ret. unfold nhash4. cbn [q0 q1 q2 q3]. auto.
  - destruct (has_sse41 c); [|apply tsim_lift; exact I]. unfold sse41_hash4_exact_t. cbv zeta. rewrite E0.
    apply exact4_loop_obl; assumption.
Qed.

(** ** Parameters *)
Lemma events_assert {B C} b (f : unit -> traced B) (g : unit -> traced C) :
  view (events (f tt)) = view (events (g tt)) ->
  view (events (tbind (assert_t b) f)) = view (events (tbind (assert_t b) g)).
Proof.
  intros H. unfold assert_t, tif. destruct b; cbn [note tbind ret lift app].
  - destruct (f tt), (g tt). cbn [events fst] in *.
    change (view (Branch true :: l) = view (Branch true :: l0)).
    change (Branch true :: l) with ([Branch true] ++ l). change (Branch true :: l0) with ([Branch true] ++ l0).
    rewrite !view_app, H. reflexivity.
  - reflexivity.
Qed.
Lemma tsim_result {A B} (R : A -> B -> Prop) x y : view (events x) = view (events y) ->
  osim R (result x) (result y) -> tsim R x y.
Proof. intros H1 H2. split; assumption. Qed.
Lemma setter_obl p q s : npar p q -> tsim npar (apply_setter_t p s) (apply_setter_t q (blank_setter s)).
Proof.
  intros H. apply tsim_result.
  - destruct s; cbn [apply_setter_t blank_setter]; try reflexivity.
    + unfold set_hash_length_t. destruct (all_t _) as [l [b| | |]]; try reflexivity. cbn [tbind].
      unfold assert_t. destruct b; reflexivity.
    + unfold set_key_t. rewrite !blank_length. apply events_assert. reflexivity.
    + unfold set_salt_t. rewrite !blank_length. apply events_assert. reflexivity.
    + unfold set_personal_t. rewrite !blank_length. apply events_assert. reflexivity.
  - rewrite !erase_setter. apply setter_sim, H.
Qed.
Lemma same_setter_obl p q s : npar p q -> blank_setter s = s -> tsim npar (apply_setter_t p s) (apply_setter_t q s).
Proof. intros H E. rewrite <- E at 2. apply setter_obl, H. Qed.
Lemma key_setter_obl p q k k' : npar p q -> leq k k' -> tsim npar (set_key_t p k) (set_key_t q k').
Proof.
  intros H Hk. apply tsim_result.
  - unfold set_key_t. rewrite Hk. apply events_assert. reflexivity.
  - rewrite !erase_set_key. apply key_setter_sim; assumption.
Qed.
Lemma sp_setter_obl p q s : nsp_par p q -> tsim nsp_par (sp_apply_setter_t p s) (sp_apply_setter_t q (blank_sp_setter s)).
Proof.
  intros H. apply tsim_result.
  - destruct s; cbn [sp_apply_setter_t blank_sp_setter].
    + destruct (all_t _) as [l [b| | |]]; try reflexivity. cbn [tbind]. unfold assert_t. destruct b; reflexivity.
    + rewrite !blank_length. apply events_assert. reflexivity.
  - rewrite !erase_sp_setter. apply sp_setter_sim, H.
Qed.

(** ** BLAKE2sp *)
Lemma leaf_obl c p q i : npar p q -> tsim nst (leaf_state_t c p i) (leaf_state_t c q i).
Proof.
  intros H. unfold leaf_state_t.
  eapply tsim_bind; [apply (same_setter_obl p q (SNodeOffset _) H); reflexivity|]. intros p1 q1 H1.
  eapply tsim_bind; [apply (same_setter_obl p1 q1 (SNodeDepth _) H1); reflexivity|]. intros p2 q2 H2.
  eapply tsim_bind; [apply (same_setter_obl p2 q2 (SLastNode _) H2); reflexivity|]. intros p3 q3 H3.
  eapply tsim_bind; [apply with_params_obl, H3|]. intros s t H4. apply tsim_ret, set_hash_sim, H4.
Qed.
Lemma sp_with_params_obl c p q : nsp_par p q -> tsim nsp (sp_with_params_t c p) (sp_with_params_t c q).
Proof.
  intros []. unfold sp_with_params_t. rewrite nq_hash, nq_kl.
  eapply tsim_bind; [apply (same_setter_obl Params_new Params_new (SHashLength _) (npar_refl _)); reflexivity|].
  intros p1 q1 H1.
  eapply tsim_bind; [apply slice_to_obl, nq_key|]. intros k k' Hk.
  eapply tsim_bind; [apply key_setter_obl; eassumption|]. intros p2 q2 H2.
  eapply tsim_bind; [apply (same_setter_obl p2 q2 (SFanout _) H2); reflexivity|]. intros p3 q3 H3.
  eapply tsim_bind; [apply (same_setter_obl p3 q3 (SMaxDepth _) H3); reflexivity|]. intros p4 q4 H4.
  eapply tsim_bind; [apply (same_setter_obl p4 q4 (SMaxLeafLength _) H4); reflexivity|]. intros p5 q5 H5.
  eapply tsim_bind; [apply (same_setter_obl p5 q5 (SInnerHashLength _) H5); reflexivity|]. intros bp bq Hb.
  eapply tsim_bind; [apply (same_setter_obl bp bq (SNodeOffset _) Hb); reflexivity|]. intros p6 q6 H6.
  eapply tsim_bind; [apply (same_setter_obl p6 q6 (SNodeDepth _) H6); reflexivity|]. intros p7 q7 H7.
  eapply tsim_bind; [apply (same_setter_obl p7 q7 (SLastNode _) H7); reflexivity|]. intros p8 q8 H8.
  eapply tsim_bind; [apply with_params_obl, H8|]. intros r r' Hr. cbv zeta.
  eapply tsim_bind.
  { apply (oct_mapM_obl eq nst); [reflexivity|]. intros i ? <-. apply leaf_obl, Hb. }
  intros l l' Hl. apply tsim_ret. constructor; sp_fields; try reflexivity; [exact Hl|].
  destruct Hr. constructor; fields; try assumption; reflexivity.
Qed.
Lemma sp_fill_obl c s t i j : nsp s t -> leq i j -> tsim nsp_pair (sp_fill_buf_t c s i) (sp_fill_buf_t c t j).
Proof.
  intros [] Hi. unfold sp_fill_buf_t, sp_buflen_nat. rewrite ns_buflen, ns_buf, Hi.
  apply tsim_same. intros room. apply tsim_same. intros take.
  eapply tsim_bind; [apply slice_to_obl, Hi|]. intros src src' Hs.
  eapply tsim_bind; [apply copy_into_obl; eassumption|]. intros b b' Hb.
  apply tsim_same. intros n.
  eapply tsim_bind; [apply slice_from_obl, Hi|]. intros r r' Hr.
  apply tsim_ret. split; [|exact Hr]. constructor; sp_fields; try assumption; reflexivity.
Qed.
Lemma sp_compress8_obl c m m' a b f : nst8 a b -> tsim nst8 (sp_compress8_t c m a f) (sp_compress8_t c m' b f).
Proof.
  intros H. unfold sp_compress8_t.
  rewrite (oct_flags nst _ (fun l => 0 =? val (st_buflen l)) a b H)
    by (intros x y Hx; rewrite (n_buflen _ _ Hx); reflexivity).
  rewrite (oct_flags nst _ (fun l => val (st_count (o0 b)) =? val (st_count l)) a b H).
  2: { intros x y Hx. rewrite (n_count _ _ Hx). pose proof (n_count _ _ (H L0)) as E. cbn [proj] in E.
       rewrite E. reflexivity. }
  apply tsim_same. intros _. apply tsim_same. intros _.
  eapply tsim_bind; [apply (oct_mapM_obl nst nst); [exact H|intros; apply bump_obl; assumption]|]. intros x1 y1 H1.
  rewrite (counts_obl _ _ H1). eapply tsim_bind; [apply compress8_obl|]. intros h h' _. apply tsim_ret, set_h8_sim. exact H1.
Qed.
Lemma sp_empty_obl c s t i j : nsp s t -> leq i j -> tsim nsp_pair (sp_empty_buffer_t c s i) (sp_empty_buffer_t c t j).
Proof.
  intros H Hi. unfold sp_empty_buffer_t. rewrite (ns_buflen _ _ H).
  apply tsim_if; [|apply tsim_ret; split; assumption].
  eapply tsim_bind; [apply sp_fill_obl; eassumption|]. intros [s1 r1] [t1 r2] (H1 & Hr). cbn [fst snd] in *.
  destruct r1 as [|x r1], r2 as [|y r2]; try discriminate Hr; [apply tsim_note; split; assumption|].
  apply tsim_same. intros _.
  eapply tsim_bind; [apply array_ref_obl, (ns_buf _ _ H1)|]. intros b b' _.
  rewrite (ns_fn _ _ H1).
  eapply tsim_bind; [apply sp_compress8_obl, (ns_leaves _ _ H1)|]. intros l l' Hl. cbv zeta.
  pose proof (nsp_leaves _ _ _ _ H1 Hl) as H2. set (s2 := sp_set_leaves s1 l) in *. set (t2 := sp_set_leaves t1 l') in *.
  rewrite (ns_buflen _ _ H2). apply tsim_same. intros n.
  pose proof (nsp_buflen _ _ n H2) as H3. set (s3 := sp_set_buflen s2 n) in *. set (t3 := sp_set_buflen t2 n) in *.
  rewrite Hr. apply tsim_if.
  - eapply tsim_bind; [apply array_ref_obl, (ns_buf _ _ H3)|]. intros d d' _.
    rewrite (ns_fn _ _ H3).
    eapply tsim_bind; [apply sp_compress8_obl, (ns_leaves _ _ H3)|]. intros m m' Hm.
    apply tsim_ret. split; [|exact Hr]. apply nsp_buflen, nsp_leaves; assumption.
  - eapply tsim_bind; [apply slice_to_obl, (ns_buf _ _ H3)|]. intros lf lf' Hlf.
    eapply tsim_bind; [apply slice_from_obl, (ns_buf _ _ H3)|]. intros rt rt' Hrt.
    unfold sp_buflen_nat. rewrite (ns_buflen _ _ H3).
    eapply tsim_bind; [apply slice_to_obl, Hrt|]. intros sr sr' Hsr.
    eapply tsim_bind; [apply copy_into_obl; eassumption|]. intros q q' Hq.
    apply tsim_ret. split; [|exact Hr]. apply nsp_buf; [exact H3|]. unfold leq in *. rewrite !app_length. congruence.
Qed.
Lemma sp_loop_obl c fuel : forall s t i j, nsp s t -> leq i j ->
  tsim nsp_pair (sp_update_loop_t fuel c s i) (sp_update_loop_t fuel c t j).
Proof.
  induction fuel as [|fuel IH]; intros s t i j H Hi; [apply tsim_lift; exact I|]. cbn [sp_update_loop_t].
  rewrite Hi. apply tsim_if; [|apply tsim_ret; split; assumption].
  eapply tsim_bind; [apply array_ref_obl, Hi|]. intros b b' _. rewrite (ns_fn _ _ H).
  eapply tsim_bind; [apply sp_compress8_obl, (ns_leaves _ _ H)|]. intros l l' Hl.
  eapply tsim_bind; [apply slice_from_obl, Hi|]. intros r r' Hr.
  apply IH; [apply nsp_leaves; assumption|exact Hr].
Qed.
Lemma sp_update_obl c s t i j : nsp s t -> leq i j -> tsim nsp (sp_update_t c s i) (sp_update_t c t j).
Proof.
  intros H Hi. unfold sp_update_t.
  eapply tsim_bind; [apply sp_empty_obl; eassumption|]. intros [s1 i1] [t1 j1] (H1 & Hi1). cbn [fst snd] in *.
  rewrite Hi1.
  eapply tsim_bind; [apply sp_loop_obl; eassumption|]. intros [s2 i2] [t2 j2] (H2 & Hi2). cbn [fst snd] in *.
  eapply tsim_bind; [apply sp_fill_obl; eassumption|]. intros [s3 i3] [t3 j3] (H3 & Hi3). cbn [fst snd] in *.
  rewrite Hi3. apply tsim_same. intros _. apply tsim_ret, H3.
Qed.
Lemma feed_chunk_obl c b b' k n s t : leq b b' -> nst s t -> tsim nst (feed_chunk_t c b k n s) (feed_chunk_t c b' k n t).
Proof.
  intros Hb H. unfold feed_chunk_t. apply tsim_same. intros m.
  eapply tsim_bind; [apply slice_to_obl, sub_sim, Hb|]. intros x y Hx. apply update_obl; assumption.
Qed.
Lemma feed_root_obl c r r' s t : nst r r' -> nst s t -> tsim nst (feed_root_t c r s) (feed_root_t c r' t).
Proof.
  intros Hr H. unfold feed_root_t.
  eapply tsim_bind; [apply finalize_obl, H|]. intros [s1 h] [t1 k] (_ & Hh). cbn [fst snd] in *.
  eapply tsim_bind; [apply as_bytes_obl, Hh|]. intros x y Hx. apply update_obl; assumption.
Qed.
Lemma sp_finalize_obl c s t : nsp s t -> tsim nhash (sp_finalize_t c s) (sp_finalize_t c t).
Proof.
  intros H. unfold sp_finalize_t. cbv zeta. unfold sp_buflen_nat. rewrite (ns_buflen _ _ H).
  pose proof (ns_leaves _ _ H) as Hl. pose proof (ns_buf _ _ H) as Hb.
  destruct (sp_leaves s) as [a0 a1 a2 a3 a4 a5 a6 a7], (sp_leaves t) as [b0 b1 b2 b3 b4 b5 b6 b7].
  pose proof (Hl L0) as H0. pose proof (Hl L1) as H1. pose proof (Hl L2) as H2. pose proof (Hl L3) as H3.
  pose proof (Hl L4) as H4. pose proof (Hl L5) as H5. pose proof (Hl L6) as H6. pose proof (Hl L7) as H7.
  cbn [proj o0 o1 o2 o3 o4 o5 o6 o7] in *. clear Hl.
  do 15 (eapply tsim_bind; [apply feed_chunk_obl; eassumption|]; intros ? ? ?; apply tsim_same; intros ?).
  eapply tsim_bind; [apply feed_chunk_obl; eassumption|]; intros ? ? ?.
  pose proof (ns_root _ _ H) as Hr.
  do 8 (eapply tsim_bind; [apply feed_root_obl; eassumption|]; clear Hr; intros ? ? Hr).
  eapply tsim_bind; [apply finalize_obl, Hr|]. intros [? ?] [? ?] (_ & Hh). apply tsim_ret, Hh.
Qed.
Lemma sp_count_obl c s t : nsp s t -> sp_count_t c s = sp_count_t c t.
Proof.
  intros H. unfold sp_count_t. cbv zeta. rewrite (ns_buflen _ _ H).
  replace (oct_map count (sp_leaves s)) with (oct_map count (sp_leaves t)); [reflexivity|].
  apply oct_ext. intros l. rewrite !proj_map. symmetry. apply (n_count _ _ (ns_leaves _ _ H l)).
Qed.
Lemma sp_debug_obl c s t : nsp s t -> sp_state_debug_t c s = sp_state_debug_t c t.
Proof.
  intros H. unfold sp_state_debug_t. rewrite (sp_count_obl c _ _ H), (state_debug_sim _ _ (ns_root _ _ H)).
  pose proof (ns_leaves _ _ H) as Hl.
  pose proof (state_debug_sim _ _ (Hl L0)) as E0. pose proof (state_debug_sim _ _ (Hl L1)) as E1.
  pose proof (state_debug_sim _ _ (Hl L2)) as E2. pose proof (state_debug_sim _ _ (Hl L3)) as E3.
  cbn [proj] in *. rewrite E0, E1, E2, E3. reflexivity.
Qed.

(** ** Hashes *)
Lemma ct_ne_events a : forall b i len tmp, length a = length b ->
  events (ct_ne_t i len tmp a b) =
  flat_map (fun j => [Branch true; Access j (S j) len; Access j (S j) len]) (seq i (length a)) ++ [Branch false].
Proof.
  induction a as [|x a IH]; intros [|y b] i len tmp H; try discriminate H; [reflexivity|].
  injection H as H. cbn [ct_ne_t length seq flat_map]. cbn [note tbind].
  specialize (IH b (S i) len (N.lor tmp (N.lxor (Byte.to_N x) (Byte.to_N y))) H).
  destruct (ct_ne_t _ _ _ _ _) as [l r]. cbn [events fst] in *. rewrite IH. reflexivity.
Qed.
Lemma ct_eq_events a b : events (constant_time_eq_t a b) =
  if Nat.eqb (length a) (length b)
  then [Branch true; Access 0 (length a) (length a); Access 0 (length a) (length a)]
       ++ flat_map (fun i => [Branch true; Access i (S i) (length a); Access i (S i) (length a)]) (seq 0 (length a))
       ++ [Branch false]
  else [Branch false].
Proof.
  unfold constant_time_eq_t. destruct (Nat.eqb (length a) (length b)) eqn:E; [|reflexivity].
  apply Nat.eqb_eq in E. unfold tif, slice_to_t, slice_to. rewrite <- E, !Nat.leb_refl. cbn [note tbind].
  pose proof (ct_ne_events a b 0 (length a) 0 E) as H. pose proof (erase_ct_ne a b 0%nat (length a) 0) as H'.
  destruct (ct_ne_t 0 (length a) 0 a b) as [l r]. cbn [events fst result snd] in *. subst r l.
  cbn [tbind ret lift app]. rewrite app_nil_r. reflexivity.
Qed.
Lemma ct_eq_obl a b a' b' : leq a a' -> leq b b' -> tsim any (constant_time_eq_t a b) (constant_time_eq_t a' b').
Proof.
  intros Ha Hb. apply tsim_result; [rewrite !ct_eq_events, Ha, Hb; reflexivity|].
  rewrite !erase_ct_eq. exact I.
Qed.
Lemma hash_eq_obl h k h' k' : nhash h k -> nhash h' k' -> tsim any (hash_eq_t h h') (hash_eq_t k k').
Proof.
  intros H H'. unfold hash_eq_t. eapply tsim_bind; [apply as_bytes_obl, H|]. intros a a' Ha.
  eapply tsim_bind; [apply as_bytes_obl, H'|]. intros b b' Hb. apply ct_eq_obl; assumption.
Qed.
Lemma hash_eq_slice_obl h k x y : nhash h k -> leq x y -> tsim any (hash_eq_slice_t h x) (hash_eq_slice_t k y).
Proof.
  intros H Hx. unfold hash_eq_slice_t. eapply tsim_bind; [apply as_bytes_obl, H|]. intros a a' Ha.
  apply ct_eq_obl; assumption.
Qed.
Lemma push_obl s t i j : hidden = true -> leq s t -> tsim leq (push_digit_t s i) (push_digit_t t j).
Proof.
  intros E H. apply tsim_result.
  - unfold push_digit_t, view. cbn [events note fst filter is_lookup]. rewrite E, H. reflexivity.
  - unfold push_digit_t, push_char. cbn [result note snd]. rewrite H. destruct (Nat.ltb _ _); [|exact I].
    cbn [osim]. unfold leq in *. rewrite !app_length, H. reflexivity.
Qed.
Lemma hex_loop_obl a b : hidden = true -> leq a b -> forall s t, leq s t -> tsim leq (hex_loop_t s a) (hex_loop_t t b).
Proof.
  intros E. revert b. induction a as [|x a IH]; intros [|y b] H; try discriminate H; intros s t Hs; [apply tsim_ret, Hs|].
  cbn [hex_loop_t].
  eapply tsim_bind; [apply push_obl; [exact E|exact Hs]|]. intros u v Huv.
  eapply tsim_bind; [apply push_obl; [exact E|exact Huv]|]. intros u' v' Huv'.
  apply IH; [|exact Huv']. injection H as H. exact H.
Qed.
Lemma to_hex_obl h k : hidden = true -> nhash h k -> tsim leq (to_hex_t h) (to_hex_t k).
Proof.
  intros E H. unfold to_hex_t. eapply tsim_bind; [apply as_bytes_obl, H|]. intros a b Hab.
  apply hex_loop_obl; [exact E|exact Hab|reflexivity].
Qed.
Lemma hash_debug_obl h k : hidden = true -> nhash h k ->
  tsim (fun x y => String.length x = String.length y) (hash_debug_t h) (hash_debug_t k).
Proof.
  intros E H. unfold hash_debug_t. eapply tsim_bind; [apply to_hex_obl; [exact E|exact H]|]. intros a b Hab.
  apply tsim_ret. rewrite !string_length_app, !string_length_bytes, Hab. reflexivity.
Qed.

(** ** Programs *)
Lemma give_hash_obl s t h k : nsess s t -> nhash h k ->
  tsim (fun x y => nsess (fst x) (fst y)) (give_hash_t s h) (give_hash_t t k).
Proof.
  intros S H. unfold give_hash_t. eapply tsim_bind; [apply as_bytes_obl, H|]. intros a b Hab.
  apply tsim_ret. apply nsess_hashes; [exact S|]. apply Forall2_snoc; [apply S|exact H].
Qed.
Lemma all_bytes_obl l l' : Forall2 nhash l l' -> tsim any (all_bytes_t l) (all_bytes_t l').
Proof.
  intros H. induction H as [|h k l l' Hh H IH]; [apply tsim_ret; exact I|]. cbn [all_bytes_t].
  eapply tsim_bind; [apply as_bytes_obl, Hh|]. intros a b Hab.
  eapply tsim_bind; [exact IH|]. intros x y Hxy. apply tsim_ret. exact I.
Qed.
Lemma give_hashes_obl s t l l' : nsess s t -> Forall2 nhash l l' ->
  tsim (fun x y => nsess (fst x) (fst y)) (give_hashes_t s l) (give_hashes_t t l').
Proof.
  intros S H. unfold give_hashes_t. eapply tsim_bind; [apply all_bytes_obl, H|]. intros a b Hab.
  apply tsim_ret. apply nsess_hashes; [exact S|]. apply Forall2_app; [apply S|exact H].
Qed.
Lemma at_obj_tsim {A A' B B'} (R : A -> A' -> Prop) (Q : B -> B' -> Prop) l l' i no no' f f' :
  Forall2 R l l' -> tsim Q no no' -> (forall x y, R x y -> tsim Q (f x) (f' y)) ->
  tsim Q (at_obj l i no f) (at_obj l' i no' f').
Proof. intros H Hno Hf. apply (at_obj_sim R l l' i no no' f f' (tsim Q) H Hno (fun x y _ _ => Hf x y)). Qed.
Lemma step_obl c s t o : hidden = true \/ makes_text o = false -> nsess s t ->
  tsim (fun x y => nsess (fst x) (fst y)) (step_t c s o) (step_t c t (blank_op o)).
Proof.
  intros HM S.
  assert (Hinv : tsim (fun x y => nsess (fst x) (fst y)) (ret (s, OInvalid)) (ret (t, OInvalid))).
  { apply tsim_ret. exact S. }
  destruct o; cbn [step_t blank_op]; cbv zeta.
  - apply tsim_ret; cbn [fst]. apply nsess_params; [exact S|]. apply Forall2_snoc; [apply S|apply npar_refl].
  - apply (at_obj_tsim npar); [apply S|exact Hinv|]. intros p q H. apply tsim_ret; cbn [fst].
    apply nsess_params; [exact S|]. apply Forall2_snoc; [apply S|exact H].
  - apply (at_obj_tsim npar); [apply S|exact Hinv|]. intros p q H.
    eapply tsim_bind; [apply setter_obl, H|]. intros p1 q1 H1. apply tsim_ret; cbn [fst].
    apply nsess_params; [exact S|]. apply Forall2_upd; [apply S|exact H1].
  - eapply tsim_bind; [apply with_params_obl, npar_refl|]. intros x y H. apply tsim_ret; cbn [fst].
    apply nsess_states; [exact S|]. apply Forall2_snoc; [apply S|exact H].
  - apply (at_obj_tsim npar); [apply S|exact Hinv|]. intros p q H.
    eapply tsim_bind; [apply with_params_obl, H|]. intros x y Hx. apply tsim_ret; cbn [fst].
    apply nsess_states; [exact S|]. apply Forall2_snoc; [apply S|exact Hx].
  - apply (at_obj_tsim nst); [apply S|exact Hinv|]. intros x y H. apply tsim_ret; cbn [fst].
    apply nsess_states; [exact S|]. apply Forall2_snoc; [apply S|exact H].
  - apply (at_obj_tsim nst); [apply S|exact Hinv|]. intros x y H.
    eapply tsim_bind; [apply update_obl; [exact H|apply blank_sim]|]. intros x1 y1 H1. apply tsim_ret; cbn [fst].
    apply nsess_states; [exact S|]. apply Forall2_upd; [apply S|exact H1].
  - apply (at_obj_tsim nst); [apply S|exact Hinv|]. intros x y H. unfold write_t.
    eapply tsim_bind.
    { eapply tsim_bind; [apply update_obl; [exact H|apply blank_sim]|]. intros x1 y1 H1.
      instantiate (1 := fun a b => nst (fst a) (fst b) /\ snd a = snd b). apply tsim_ret. cbn [fst snd].
      split; [exact H1|]. symmetry. apply blank_length. }
    intros [x1 n] [y1 m] (H1 & E). cbn [fst snd] in *. subst m. apply tsim_ret; cbn [fst].
    apply nsess_states; [exact S|]. apply Forall2_upd; [apply S|exact H1].
  - apply (at_obj_tsim nst); [apply S|exact Hinv|]. intros x y H. apply tsim_ret; cbn [fst].
    apply nsess_states; [exact S|]. apply Forall2_upd; [apply S|exact H].
  - apply (at_obj_tsim nst); [apply S|exact Hinv|]. intros x y H. apply tsim_ret; cbn [fst].
    apply nsess_states; [exact S|]. apply Forall2_upd; [apply S|]. apply nst_set_last, H.
  - apply (at_obj_tsim nst); [apply S|exact Hinv|]. intros x y H. apply tsim_ret. exact S.
  - apply (at_obj_tsim nst); [apply S|exact Hinv|]. intros x y H. apply tsim_ret. exact S.
  - apply (at_obj_tsim nst); [apply S|exact Hinv|]. intros x y H. apply tsim_ret; cbn [fst].
    apply nsess_states; [exact S|]. apply Forall2_upd; [apply S|]. apply nst_portable, H.
  - apply (at_obj_tsim nst); [apply S|exact Hinv|]. intros x y H.
    eapply tsim_bind; [apply finalize_obl, H|]. intros [x1 h] [y1 k] (H1 & Hh). cbn [fst snd] in *.
    apply give_hash_obl; [|exact Hh].
    apply nsess_states; [exact S|]. apply Forall2_upd; [apply S|exact H1].
  - pose proof (pick8_sim nst _ _ i (nx_states _ _ S)) as P.
    destruct (pick8 (s_states s) i) as [a|], (pick8 (s_states t) i) as [b|]; try contradiction; [|exact Hinv].
    destruct (distinct _); [|exact Hinv].
    eapply tsim_bind; [apply update8_obl; [exact P|apply blank8_sim]|]. intros x y H. apply tsim_ret; cbn [fst].
    apply nsess_states; [exact S|]. apply put8_sim; [apply S|exact H].
  - pose proof (pick8_sim nst _ _ i (nx_states _ _ S)) as P.
    destruct (pick8 (s_states s) i) as [a|], (pick8 (s_states t) i) as [b|]; try contradiction; [|exact Hinv].
    destruct (distinct _); [|exact Hinv].
    eapply tsim_bind; [apply finalize8_obl; exact P|]. intros [x h] [y k] (H & Hh). cbn [fst snd] in *.
    apply give_hashes_obl; [|apply Forall2_oct; exact Hh].
    apply nsess_states; [exact S|]. apply put8_sim; [apply S|exact H].
  - eapply tsim_bind; [|intros h k H; apply give_hash_obl; [exact S|exact H]].
    unfold blake2s_t. eapply tsim_bind; [apply with_params_obl, npar_refl|]. intros x y H.
    eapply tsim_bind; [apply update_obl; [exact H|apply blank_sim]|]. intros x1 y1 H1.
    eapply tsim_bind; [apply finalize_obl, H1|]. intros [? ?] [? ?] (_ & Hh). apply tsim_ret, Hh.
  - pose proof (pick8_sim npar _ _ i (nx_params _ _ S)) as P.
    destruct (pick8 (s_params s) i) as [a|], (pick8 (s_params t) i) as [b|]; try contradiction; [|exact Hinv].
    eapply tsim_bind; [apply hash8_obl; [exact P|apply blank8_sim]|]. intros x y H.
    apply give_hashes_obl; [exact S|apply Forall2_oct; exact H].
  - apply (at_obj_tsim npar); [apply S|exact Hinv|]. intros p q H.
    eapply tsim_bind; [apply hash8_exact_obl; [exact H|apply blank8_sim]|]. intros x y Hx.
    apply give_hashes_obl; [exact S|apply Forall2_oct; exact Hx].
  - apply (at_obj_tsim npar); [apply S|exact Hinv|]. intros p q H.
    eapply tsim_bind; [apply hash4_exact_obl; [exact H|apply blank4_sim]|]. intros x y Hx.
    apply give_hashes_obl; [exact S|apply nhash4_list, Hx].
  - apply (at_obj_tsim nhash); [apply S|exact Hinv|]. intros h k H.
    eapply tsim_bind; [apply as_bytes_obl, H|]. intros a b Hab. apply tsim_ret. exact S.
  - apply (at_obj_tsim nhash); [apply S|exact Hinv|]. intros h k H.
    eapply tsim_bind; [apply to_hex_obl; [destruct HM as [HM|HM]; [exact HM|discriminate HM]|exact H]|]. intros a b Hab. apply tsim_ret. exact S.
  - apply (at_obj_tsim nhash); [apply S|exact Hinv|]. intros h k H.
    eapply tsim_bind; [apply hash_debug_obl; [destruct HM as [HM|HM]; [exact HM|discriminate HM]|exact H]|]. intros a b Hab. apply tsim_ret. exact S.
  - apply (at_obj_tsim nhash); [apply S|exact Hinv|]. intros h k H.
    apply (at_obj_tsim nhash); [apply S|exact Hinv|]. intros h' k' H'.
    eapply tsim_bind; [apply hash_eq_obl; eassumption|]. intros a b _. apply tsim_ret. exact S.
  - apply (at_obj_tsim nhash); [apply S|exact Hinv|]. intros h k H.
    eapply tsim_bind; [apply hash_eq_slice_obl; [exact H|apply blank_sim]|]. intros a b _. apply tsim_ret. exact S.
  - apply tsim_ret; cbn [fst]. apply nsess_sparams; [exact S|]. apply Forall2_snoc; [apply S|]. constructor; reflexivity.
  - apply (at_obj_tsim nsp_par); [apply S|exact Hinv|]. intros p q H. apply tsim_ret; cbn [fst].
    apply nsess_sparams; [exact S|]. apply Forall2_snoc; [apply S|exact H].
  - apply (at_obj_tsim nsp_par); [apply S|exact Hinv|]. intros p q H.
    eapply tsim_bind; [apply sp_setter_obl, H|]. intros p1 q1 H1. apply tsim_ret; cbn [fst].
    apply nsess_sparams; [exact S|]. apply Forall2_upd; [apply S|exact H1].
  - apply (at_obj_tsim nsp_par); [apply S|exact Hinv|]. intros p q H. apply tsim_ret. exact S.
  - eapply tsim_bind; [apply (sp_with_params_obl c SpParams_default SpParams_default); constructor; reflexivity|].
    intros x y H. apply tsim_ret; cbn [fst].
    apply nsess_sstates; [exact S|]. apply Forall2_snoc; [apply S|exact H].
  - apply (at_obj_tsim nsp_par); [apply S|exact Hinv|]. intros p q H.
    eapply tsim_bind; [apply sp_with_params_obl, H|]. intros x y Hx. apply tsim_ret; cbn [fst].
    apply nsess_sstates; [exact S|]. apply Forall2_snoc; [apply S|exact Hx].
  - apply (at_obj_tsim nsp); [apply S|exact Hinv|]. intros x y H. apply tsim_ret; cbn [fst].
    apply nsess_sstates; [exact S|]. apply Forall2_snoc; [apply S|exact H].
  - apply (at_obj_tsim nsp); [apply S|exact Hinv|]. intros x y H.
    eapply tsim_bind; [apply sp_update_obl; [exact H|apply blank_sim]|]. intros x1 y1 H1. apply tsim_ret; cbn [fst].
    apply nsess_sstates; [exact S|]. apply Forall2_upd; [apply S|exact H1].
  - apply (at_obj_tsim nsp); [apply S|exact Hinv|]. intros x y H. unfold sp_write_t.
    eapply tsim_bind.
    { eapply tsim_bind; [apply sp_update_obl; [exact H|apply blank_sim]|]. intros x1 y1 H1.
      instantiate (1 := fun a b => nsp (fst a) (fst b) /\ snd a = snd b). apply tsim_ret. cbn [fst snd].
      split; [exact H1|]. symmetry. apply blank_length. }
    intros [x1 n] [y1 m] (H1 & E). cbn [fst snd] in *. subst m. apply tsim_ret; cbn [fst].
    apply nsess_sstates; [exact S|]. apply Forall2_upd; [apply S|exact H1].
  - apply (at_obj_tsim nsp); [apply S|exact Hinv|]. intros x y H. apply tsim_ret; cbn [fst].
    apply nsess_sstates; [exact S|]. apply Forall2_upd; [apply S|exact H].
  - apply (at_obj_tsim nsp); [apply S|exact Hinv|]. intros x y H. rewrite (sp_count_obl c _ _ H).
    eapply tsim_bind; [apply tsim_refl|]. intros n ? <-. apply tsim_ret. exact S.
  - apply (at_obj_tsim nsp); [apply S|exact Hinv|]. intros x y H. rewrite (sp_debug_obl c _ _ H).
    eapply tsim_bind; [apply tsim_refl|]. intros n ? <-. apply tsim_ret. exact S.
  - apply (at_obj_tsim nsp); [apply S|exact Hinv|]. intros x y H. apply tsim_ret; cbn [fst].
    apply nsess_sstates; [exact S|]. apply Forall2_upd; [apply S|]. apply nsp_portable, H.
  - apply (at_obj_tsim nsp); [apply S|exact Hinv|]. intros x y H.
    eapply tsim_bind; [apply sp_finalize_obl, H|]. intros h k Hh.
    apply give_hash_obl; [exact S|exact Hh].
  - eapply tsim_bind; [|intros h k H; apply give_hash_obl; [exact S|exact H]].
    unfold blake2sp_t.
    eapply tsim_bind; [apply (sp_with_params_obl c SpParams_default SpParams_default); constructor; reflexivity|].
    intros x y H. eapply tsim_bind; [apply sp_update_obl; [exact H|apply blank_sim]|]. intros x1 y1 H1.
    apply sp_finalize_obl, H1.
Qed.
Lemma trace_obl c ops : hidden = true \/ existsb makes_text ops = false -> forall s t, nsess s t ->
  view (trace c s ops) = view (trace c t (map blank_op ops)).
Proof.
  induction ops as [|o ops IH]; intros HM s t S; [reflexivity|]. cbn [map trace].
  assert (HM1 : hidden = true \/ makes_text o = false).
  { destruct HM as [HM|HM]; [left; exact HM|right]. cbn [existsb] in HM. apply orb_false_elim in HM. apply HM. }
  assert (HM2 : hidden = true \/ existsb makes_text ops = false).
  { destruct HM as [HM|HM]; [left; exact HM|right]. cbn [existsb] in HM. apply orb_false_elim in HM. apply HM. }
  pose proof (step_obl c s t o HM1 S) as (E & H).
  destruct (step_t c s o) as [l [[s1 x]| | |]], (step_t c t (blank_op o)) as [l' [[t1 y]| | |]];
    cbn [events fst result snd osim] in *; try contradiction; try exact E.
  rewrite !view_app, E, (IH HM2 s1 t1 H). reflexivity.
Qed.
End Hiding.

Lemma view_false l : view false l = l.
Proof. unfold view. cbn [negb andb]. induction l as [|x l IH]; [reflexivity|]. cbn [filter]. rewrite IH. reflexivity. Qed.

(** Two programs whose calls differ only in the contents of byte strings have the same
    trace, if they make no text from hashes. *)
Theorem same_trace c ops1 ops2 : map blank_op ops1 = map blank_op ops2 -> existsb makes_text ops1 = false ->
  trace c empty_session ops1 = trace c empty_session ops2.
Proof.
  intros E H1.
  assert (T : forall l, existsb makes_text l = existsb makes_text (map blank_op l)).
  { induction l as [|o l IH]; [reflexivity|]. cbn [existsb map]. rewrite IH. destruct o; reflexivity. }
  assert (H2 : existsb makes_text ops2 = false) by (rewrite T, <- E, <- T; exact H1).
  pose proof (trace_obl false c ops1 (or_intror H1) _ _ nsess_empty) as A1.
  pose proof (trace_obl false c ops2 (or_intror H2) _ _ nsess_empty) as A2.
  rewrite !view_false in A1, A2. rewrite A1, A2, E. reflexivity.
Qed.

(** In any case the table lookups are all that differs. *)
Theorem same_trace_but_lookups c ops1 ops2 : map blank_op ops1 = map blank_op ops2 ->
  filter (fun e => negb (is_lookup e)) (trace c empty_session ops1) =
  filter (fun e => negb (is_lookup e)) (trace c empty_session ops2).
Proof.
  intros E. change (view true (trace c empty_session ops1) = view true (trace c empty_session ops2)).
  rewrite (trace_obl true c ops1 (or_introl eq_refl) _ _ nsess_empty),
    (trace_obl true c ops2 (or_introl eq_refl) _ _ nsess_empty), E. reflexivity.
Qed.

(** What the table lookups of [to_hex] are. *)
Definition hex_lookups (bytes : list byte) : list event :=
  flat_map (fun b => [Lookup (N.to_nat (Byte.to_N b / 16)); Lookup (N.to_nat (Byte.to_N b mod 16))]) bytes.
Lemma hex_loop_lookups bs : forall s, (length s + 2 * length bs <= 64)%nat ->
  filter is_lookup (events (hex_loop_t s bs)) = hex_lookups bs.
Proof.
  induction bs as [|b bs IH]; intros s H; [reflexivity|].
  cbn [hex_loop_t hex_lookups flat_map app length] in *. fold (hex_lookups bs).
  unfold push_digit_t, push_char, HEX_CAP, OUTBYTES.
  assert (L1 : Nat.ltb (length s) (2 * 32) = true) by (apply Nat.ltb_lt; lia). rewrite L1. cbn [note tbind].
  assert (L2 : forall x : byte, Nat.ltb (length (s ++ [x])) (2 * 32) = true)
    by (intros x; apply Nat.ltb_lt; rewrite app_length; cbn [length]; lia).
  rewrite L2. cbn [note tbind].
  match goal with |- context [hex_loop_t ?u bs] =>
    specialize (IH u ltac:(rewrite !app_length; cbn [length]; lia)); destruct (hex_loop_t u bs) as [l r] end.
  cbn [events fst app filter is_lookup] in *. rewrite IH.
  change 15 with (N.ones 4). rewrite N.land_ones, N.shiftr_div_pow2. reflexivity.
Qed.
Lemma to_hex_lookups h : (N.to_nat (val (h_len h)) <= 32)%nat -> length (h_bytes h) = 32%nat ->
  filter is_lookup (events (to_hex_t h)) = hex_lookups (firstn (N.to_nat (val (h_len h))) (h_bytes h)).
Proof.
  intros H L. unfold to_hex_t, as_bytes_t, slice_to_t, slice_to.
  assert (E : Nat.leb (N.to_nat (val (h_len h))) (length (h_bytes h)) = true) by (apply Nat.leb_le; lia).
  rewrite E. cbn [note tbind].
  pose proof (hex_loop_lookups (firstn (N.to_nat (val (h_len h))) (h_bytes h)) []
    ltac:(cbn [length]; rewrite firstn_length; lia)) as HH.
  destruct (hex_loop_t [] _) as [l r]. cbn [events fst app filter is_lookup] in *. exact HH.
Qed.
Lemma lookups_inj x y : hex_lookups x = hex_lookups y -> x = y.
Proof.
  revert y. induction x as [|a x IH]; intros [|b y] H; try discriminate H; [reflexivity|].
  cbn [hex_lookups flat_map app] in H. injection H as H1 H2 H. rewrite (IH y H). f_equal.
  assert (E : Byte.to_N a = Byte.to_N b).
  { rewrite (N.div_mod (Byte.to_N a) 16), (N.div_mod (Byte.to_N b) 16) by discriminate. lia. }
  pose proof (Byte.of_to_N a) as A. rewrite E, Byte.of_to_N in A. injection A as ->. reflexivity.
Qed.
Lemma held_lookups c h b : cfg_ok c -> held c h -> as_bytes h = Ok b ->
  filter is_lookup (events (to_hex_t h)) =
  flat_map (fun x => [Lookup (N.to_nat (Byte.to_N x / 16)); Lookup (N.to_nat (Byte.to_N x mod 16))]) b.
Proof.
  intros Hc H E. apply Corollaries.held_wf in H; [|exact Hc].
  rewrite (HashFacts.as_bytes_ok h H) in E. injection E as <-. apply to_hex_lookups; destruct H; [lia|assumption].
Qed.
Lemma eq_events h k b b' : as_bytes h = Ok b -> as_bytes k = Ok b' -> events (hash_eq_t h k) =
  [Access 0 (length b) (length (h_bytes h)); Access 0 (length b') (length (h_bytes k))] ++
  (if Nat.eqb (length b) (length b')
   then [Branch true; Access 0 (length b) (length b); Access 0 (length b) (length b)]
        ++ flat_map (fun i => [Branch true; Access i (S i) (length b); Access i (S i) (length b)]) (seq 0 (length b))
        ++ [Branch false]
   else [Branch false]).
Proof.
  intros H K. assert (L : forall h b, as_bytes h = Ok b -> length b = N.to_nat (val (h_len h))).
  { intros x y. unfold as_bytes, slice_to. destruct (Nat.leb _ _) eqn:E; [|discriminate]. intros X. injection X as <-.
    apply Nat.leb_le in E. rewrite firstn_length. lia. }
  pose proof (L h b H) as E1. pose proof (L k b' K) as E2. clear L.
  unfold hash_eq_t, as_bytes_t, slice_to_t. unfold as_bytes in H, K. rewrite H, K, <- E1, <- E2. cbn [note tbind].
  pose proof (ct_eq_events b b') as E. destruct (constant_time_eq_t b b') as [l r]. cbn [events fst app] in *.
  rewrite E. reflexivity.
Qed.
Lemma printing_traces_differ : exists c ops1 ops2, cfg_ok c /\ map blank_op ops1 = map blank_op ops2 /\
  trace c empty_session ops1 <> trace c empty_session ops2.
Proof.
  exists (mk_cfg false false false false false false), [Blake2s [x00]; HashHex 0], [Blake2s [x01]; HashHex 0].
  split; [intros X; discriminate X|]. split; [reflexivity|]. intros E.
  apply (f_equal (map (fun e => match e with Lookup i => i | _ => 0%nat end))) in E. vm_compute in E. discriminate E.
Qed.
