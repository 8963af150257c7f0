(** * NoLeak: what the contents of keys and messages can influence.

    Two runs of programs that make the same calls with byte strings of the same
    lengths but different contents: everything stays the same except the bytes of
    hashes, and the comparisons and texts made from them. *)
From Verif Require Import Base Consts Portable Params State Many Blake2sp Debug Machine BaseFacts Avx2Facts MachineFacts Clients Terms.
From Verif Require Sse41 Avx2 Relate.
From Coq Require Import Lia String.
Local Notation length := List.length (only parsing).
Local Open Scope N_scope.

(** ** The statement's vocabulary *)

Lemma blank_length l : length (blank l) = length l.
Proof. apply repeat_length. Qed.
Lemma blank_eq a b : length a = length b -> blank a = blank b.
Proof. unfold blank. intros ->. reflexivity. Qed.

(** ** Outcomes of the same kind *)
Definition osim {A B} (R : A -> B -> Prop) (x : outcome A) (y : outcome B) : Prop :=
  match x, y with
  | Ok a, Ok b => R a b
  | Panic, Panic | UB, UB | Stuck, Stuck => True
  | _, _ => False
  end.
Lemma osim_bind {A B C D} (R : A -> B -> Prop) (Q : C -> D -> Prop) x y f g :
  osim R x y -> (forall a b, R a b -> osim Q (f a) (g b)) -> osim Q (bind x f) (bind y g).
Proof. destruct x, y; cbn [osim bind]; intros H Hf; auto; contradiction. Qed.
Lemma osim_refl {A} (x : outcome A) : osim eq x x.
Proof. destruct x; cbn; auto. Qed.
Lemma osim_if {A B} (R : A -> B -> Prop) (b : bool) x y z t :
  osim R x y -> osim R z t -> osim R (if b then x else z) (if b then y else t).
Proof. destruct b; auto. Qed.
Definition leq (a b : list byte) : Prop := length a = length b.
Definition any {A B} (_ : A) (_ : B) : Prop := True.

Lemma slice_sim a b lo hi : leq a b -> osim leq (slice a lo hi) (slice b lo hi).
Proof.
  unfold leq, slice. intros H. rewrite H. destruct (_ && _); cbn [osim]; auto.
  rewrite !firstn_length, !skipn_length. congruence.
Qed.
Lemma slice_from_sim a b lo : leq a b -> osim leq (slice_from a lo) (slice_from b lo).
Proof.
  unfold leq, slice_from. intros H. rewrite H. destruct (Nat.leb _ _); cbn [osim]; auto.
  rewrite !skipn_length. congruence.
Qed.
Lemma slice_to_sim a b hi : leq a b -> osim leq (slice_to a hi) (slice_to b hi).
Proof.
  unfold leq, slice_to. intros H. rewrite H. destruct (Nat.leb _ _); cbn [osim]; auto.
  rewrite !firstn_length. congruence.
Qed.
Lemma copy_into_sim a b lo hi s t : leq a b -> leq s t ->
  osim leq (copy_into a lo hi s) (copy_into b lo hi t).
Proof.
  unfold leq, copy_into. intros H H'. rewrite H, H'. destruct (_ && _); cbn [osim]; auto.
  rewrite !app_length, !firstn_length, !skipn_length. congruence.
Qed.
Lemma array_ref_sim a b off n : leq a b -> osim leq (array_ref a off n) (array_ref b off n).
Proof. apply slice_sim. Qed.
Lemma raw_read_sim a b off n : leq a b -> osim leq (raw_read a off n) (raw_read b off n).
Proof.
  unfold leq, raw_read. intros H. rewrite H. destruct (Nat.leb _ _); cbn [osim]; auto.
  rewrite !firstn_length, !skipn_length. congruence.
Qed.
Lemma sub_sim a b off n : leq a b -> leq (sub a off n) (sub b off n).
Proof. unfold leq, sub. rewrite !firstn_length, !skipn_length. congruence. Qed.

Lemma oct_mapM_sim {A A' B B'} (R : A -> A' -> Prop) (Q : B -> B' -> Prop) f f' a a' :
  (forall l, R (proj l a) (proj l a')) -> (forall x y, R x y -> osim Q (f x) (f' y)) ->
  osim (fun b b' => forall l, Q (proj l b) (proj l b')) (oct_mapM f a) (oct_mapM f' a').
Proof.
  intros H Hf. unfold oct_mapM.
  eapply osim_bind; [apply Hf, (H L0)|]. intros b0 c0 Q0.
  eapply osim_bind; [apply Hf, (H L1)|]. intros b1 c1 Q1.
  eapply osim_bind; [apply Hf, (H L2)|]. intros b2 c2 Q2.
  eapply osim_bind; [apply Hf, (H L3)|]. intros b3 c3 Q3.
  eapply osim_bind; [apply Hf, (H L4)|]. intros b4 c4 Q4.
  eapply osim_bind; [apply Hf, (H L5)|]. intros b5 c5 Q5.
  eapply osim_bind; [apply Hf, (H L6)|]. intros b6 c6 Q6.
  eapply osim_bind; [apply Hf, (H L7)|]. intros b7 c7 Q7.
  cbn [osim]. intros []; cbn [proj o0 o1 o2 o3 o4 o5 o6 o7]; assumption.
Qed.
Lemma oct_mapM2_sim {A A' B B' C C'} (R : A -> A' -> Prop) (T : B -> B' -> Prop) (Q : C -> C' -> Prop)
    f f' a a' b b' :
  (forall l, R (proj l a) (proj l a')) -> (forall l, T (proj l b) (proj l b')) ->
  (forall x x' y y', R x x' -> T y y' -> osim Q (f x y) (f' x' y')) ->
  osim (fun b b' => forall l, Q (proj l b) (proj l b')) (oct_mapM2 f a b) (oct_mapM2 f' a' b').
Proof.
  intros H1 H2 Hf. unfold oct_mapM2.
  eapply osim_bind; [apply Hf; [apply (H1 L0)|apply (H2 L0)]|]. intros b0 c0 Q0.
  eapply osim_bind; [apply Hf; [apply (H1 L1)|apply (H2 L1)]|]. intros b1 c1 Q1.
  eapply osim_bind; [apply Hf; [apply (H1 L2)|apply (H2 L2)]|]. intros b2 c2 Q2.
  eapply osim_bind; [apply Hf; [apply (H1 L3)|apply (H2 L3)]|]. intros b3 c3 Q3.
  eapply osim_bind; [apply Hf; [apply (H1 L4)|apply (H2 L4)]|]. intros b4 c4 Q4.
  eapply osim_bind; [apply Hf; [apply (H1 L5)|apply (H2 L5)]|]. intros b5 c5 Q5.
  eapply osim_bind; [apply Hf; [apply (H1 L6)|apply (H2 L6)]|]. intros b6 c6 Q6.
  eapply osim_bind; [apply Hf; [apply (H1 L7)|apply (H2 L7)]|]. intros b7 c7 Q7.
  cbn [osim]. intros []; cbn [proj o0 o1 o2 o3 o4 o5 o6 o7]; assumption.
Qed.
Lemma oct_all_sim {A A'} (R : A -> A' -> Prop) f f' (a : oct A) (a' : oct A') :
  (forall l, R (proj l a) (proj l a')) -> (forall x y, R x y -> f x = f' y) -> oct_all f a = oct_all f' a'.
Proof.
  intros H Hf. unfold oct_all.
  pose proof (Hf _ _ (H L0)) as E0. pose proof (Hf _ _ (H L1)) as E1. pose proof (Hf _ _ (H L2)) as E2.
  pose proof (Hf _ _ (H L3)) as E3. pose proof (Hf _ _ (H L4)) as E4. pose proof (Hf _ _ (H L5)) as E5.
  pose proof (Hf _ _ (H L6)) as E6. pose proof (Hf _ _ (H L7)) as E7. cbn [proj] in *.
  rewrite E0, E1, E2, E3, E4, E5, E6, E7. reflexivity.
Qed.

(** ** States, parameters and hashes that differ only in contents *)
Record nst (s t : State) : Prop := {
  n_buf : leq (st_buf s) (st_buf t);
  n_buflen : st_buflen s = st_buflen t;
  n_count : st_count s = st_count t;
  n_fn : st_compress_fn s = st_compress_fn t;
  n_last : st_last_node s = st_last_node t;
  n_hash : st_hash_length s = st_hash_length t
}.
Record npar (p q : Params) : Prop := {
  np_hash : p_hash_length p = p_hash_length q;
  np_kl : p_key_length p = p_key_length q;
  np_key : leq (p_key p) (p_key q);
  np_last : p_last_node p = p_last_node q
}.
Definition nhash (h k : Hash) : Prop := leq (h_bytes h) (h_bytes k) /\ h_len h = h_len k.
Definition npair (x y : State * list byte) : Prop := nst (fst x) (fst y) /\ leq (snd x) (snd y).

Ltac fields := cbn [fst snd st_h st_buf st_buflen st_count st_compress_fn st_last_node st_hash_length] in *.

Lemma compress_sim c f h h' m m' n lb ln : osim any (call_compress c f h m n lb ln) (call_compress c f h' m' n lb ln).
Proof. unfold call_compress. destruct f; [exact I|]. destruct (has_sse41 c); exact I. Qed.
Lemma compress8_sim c f h h' m m' n n' lb lb' ln ln' :
  osim any (call_compress8 c f h m n lb ln) (call_compress8 c f h' m' n' lb' ln').
Proof. unfold call_compress8. destruct f; [exact I|]. destruct (has_avx2 c); exact I. Qed.

Lemma fill_buf_sim c s t i j : nst s t -> leq i j -> osim npair (fill_buf c s i) (fill_buf c t j).
Proof.
  intros [] Hi. unfold fill_buf, buflen_nat. rewrite n_buflen0, n_count0, Hi.
  eapply osim_bind; [apply osim_refl|]. intros room ? <-. cbv zeta.
  eapply osim_bind; [apply slice_to_sim, Hi|]. intros src src' Hs.
  eapply osim_bind; [apply copy_into_sim; eassumption|]. intros b b' Hb.
  eapply osim_bind; [apply osim_refl|]. intros n ? <-.
  eapply osim_bind; [apply osim_refl|]. intros m ? <-.
  eapply osim_bind; [apply slice_from_sim, Hi|]. intros r r' Hr.
  split; [|exact Hr]. constructor; fields; try congruence; try assumption.
Qed.
Lemma compress_buffer_sim c s t i j : nst s t -> leq i j ->
  osim npair (compress_buffer_if_possible c s i) (compress_buffer_if_possible c t j).
Proof.
  intros H Hi. unfold compress_buffer_if_possible. rewrite (n_buflen _ _ H).
  destruct (0 <? val (st_buflen t)); [|split; assumption].
  eapply osim_bind; [apply fill_buf_sim; eassumption|]. intros [s1 r1] [t1 r2] (H1 & Hr). cbn [fst snd] in *.
  destruct r1, r2; try discriminate Hr; [split; assumption|].
  rewrite (n_fn _ _ H1), (n_count _ _ H1).
  eapply osim_bind; [apply compress_sim|]. intros h h' _. split; [|exact Hr].
  destruct H1. constructor; fields; try congruence; try assumption.
Qed.
Lemma update_loop_sim c fuel : forall s t i j, nst s t -> leq i j ->
  osim npair (update_loop fuel c s i) (update_loop fuel c t j).
Proof.
  induction fuel as [|fuel IH]; intros s t i j H Hi; [exact I|]. cbn [update_loop].
  rewrite Hi. destruct (Nat.ltb _ _); [|split; assumption].
  rewrite (n_count _ _ H), (n_fn _ _ H).
  eapply osim_bind; [apply osim_refl|]. intros n ? <-.
  eapply osim_bind; [apply array_ref_sim, Hi|]. intros b b' Hb.
  eapply osim_bind; [apply compress_sim|]. intros h h' _.
  eapply osim_bind; [apply slice_from_sim, Hi|]. intros r r' Hr.
  apply IH; [|exact Hr]. destruct H. constructor; fields; try congruence; try assumption.
Qed.
Lemma update_sim c s t i j : nst s t -> leq i j -> osim nst (update c s i) (update c t j).
Proof.
  intros H Hi. unfold update.
  eapply osim_bind; [apply compress_buffer_sim; eassumption|]. intros [s1 i1] [t1 j1] (H1 & Hi1). cbn [fst snd] in *.
  rewrite Hi1.
  eapply osim_bind; [apply update_loop_sim; eassumption|]. intros [s2 i2] [t2 j2] (H2 & Hi2). cbn [fst snd] in *.
  eapply osim_bind; [apply fill_buf_sim; eassumption|]. intros [s3 i3] [t3 j3] (H3 & _). exact H3.
Qed.
Lemma with_params_sim c p q : npar p q -> osim nst (to_state c p) (to_state c q).
Proof.
  intros H. unfold to_state, with_params. cbv zeta. rewrite (np_kl _ _ H).
  assert (H0 : nst
    {| st_h := make_words p; st_buf := repeat x00 BLOCKBYTES; st_buflen := of_N 8 0; st_count := of_N 64 0;
       st_compress_fn := fn_compress (default_compress_impl c); st_last_node := p_last_node p;
       st_hash_length := p_hash_length p |}
    {| st_h := make_words q; st_buf := repeat x00 BLOCKBYTES; st_buflen := of_N 8 0; st_count := of_N 64 0;
       st_compress_fn := fn_compress (default_compress_impl c); st_last_node := p_last_node q;
       st_hash_length := p_hash_length q |}).
  { destruct H. constructor; fields; try congruence; try reflexivity. }
  destruct (0 <? val (p_key_length q)); [|exact H0].
  eapply osim_bind; [apply copy_into_sim; [reflexivity|apply (np_key _ _ H)]|]. intros b b' Hb.
  apply update_sim; [exact H0|exact Hb].
Qed.
Lemma zero_tail_sim s t : nst s t ->
  nst (set_buf s (zero_tail (st_buf s) (buflen_nat s))) (set_buf t (zero_tail (st_buf t) (buflen_nat t))).
Proof.
  intros []. constructor; cbn [set_buf st_h st_buf st_buflen st_count st_compress_fn st_last_node st_hash_length];
    try assumption. unfold leq. rewrite !Relate.zero_tail_length. exact n_buf0.
Qed.
Lemma words_leq w w' : leq (state_words_to_bytes w) (state_words_to_bytes w').
Proof. reflexivity. Qed.
Lemma finalize_sim c s t : nst s t ->
  osim (fun x y => nst (fst x) (fst y) /\ nhash (snd x) (snd y)) (finalize c s) (finalize c t).
Proof.
  intros H. unfold finalize. cbv zeta.
  fold (set_buf s (zero_tail (st_buf s) (buflen_nat s))).
  fold (set_buf t (zero_tail (st_buf t) (buflen_nat t))).
  pose proof (zero_tail_sim _ _ H) as Hz. set (s' := set_buf s _) in *. set (t' := set_buf t _) in *.
  rewrite (n_fn _ _ Hz), (n_count _ _ Hz), (n_last _ _ Hz).
  eapply osim_bind; [apply compress_sim|]. intros h h' _. cbn [osim fst snd].
  split; [exact Hz|]. split; [apply words_leq|apply Hz].
Qed.
Lemma as_bytes_sim h k : nhash h k -> osim leq (as_bytes h) (as_bytes k).
Proof. intros (Hb & Hl). unfold as_bytes. rewrite Hl. apply slice_to_sim, Hb. Qed.
Lemma hash_one_sim c p q i j : npar p q -> leq i j -> osim nhash (hash_one c p i) (hash_one c q j).
Proof.
  intros Hp Hi. unfold hash_one. eapply osim_bind; [apply with_params_sim, Hp|]. intros s t H.
  eapply osim_bind; [apply update_sim; eassumption|]. intros s1 t1 H1.
  eapply osim_bind; [apply finalize_sim, H1|]. intros [s2 h] [t2 k] (_ & Hh). exact Hh.
Qed.

(** ** Eight at a time *)
Definition nst8 (a b : oct State) : Prop := forall l, nst (proj l a) (proj l b).
Definition leq8 (a b : oct (list byte)) : Prop := forall l, leq (proj l a) (proj l b).
Definition nhash8 (a b : oct Hash) : Prop := forall l, nhash (proj l a) (proj l b).
Definition npar8 (a b : oct Params) : Prop := forall l, npar (proj l a) (proj l b).

Lemma bump_sim c s t : nst s t -> osim nst (bump_count c s) (bump_count c t).
Proof.
  intros H. unfold bump_count. rewrite (n_count _ _ H).
  eapply osim_bind; [apply osim_refl|]. intros n ? <-.
  destruct H. constructor; cbn [set_count st_h st_buf st_buflen st_count st_compress_fn st_last_node st_hash_length];
    assumption || reflexivity.
Qed.
Lemma set_h8_sim a b h h' : nst8 a b -> nst8 (oct_map2 set_h a h) (oct_map2 set_h b h').
Proof.
  intros H l. rewrite !proj_map2. destruct (H l).
  constructor; cbn [set_h st_h st_buf st_buflen st_count st_compress_fn st_last_node st_hash_length]; assumption.
Qed.
Lemma update8_loop_sim c f fuel : forall a b i j, nst8 a b -> leq8 i j ->
  osim (fun x y => nst8 (fst x) (fst y) /\ leq8 (snd x) (snd y)) (update8_loop fuel c f a i) (update8_loop fuel c f b j).
Proof.
  induction fuel as [|fuel IH]; intros a b i j H Hi; [exact I|]. cbn [update8_loop].
  rewrite (oct_all_sim leq _ (fun i => Nat.ltb BLOCKBYTES (length i)) i j Hi)
    by (intros x y Hxy; rewrite Hxy; reflexivity).
  destruct (oct_all _ j); [|split; assumption].
  eapply osim_bind; [apply (oct_mapM_sim nst nst); [exact H|intros; apply bump_sim; assumption]|]. intros a1 b1 H1.
  eapply osim_bind; [apply (oct_mapM_sim leq leq); [exact Hi|intros; apply array_ref_sim; assumption]|]. intros m m' _.
  eapply osim_bind; [apply compress8_sim|]. intros h h' _.
  eapply osim_bind; [apply (oct_mapM_sim leq leq); [exact Hi|intros; apply slice_from_sim; assumption]|]. intros r r' Hr.
  apply IH; [apply set_h8_sim; exact H1|exact Hr].
Qed.
Lemma update8_sim c a b i j : nst8 a b -> leq8 i j -> osim nst8 (update8 c a i) (update8 c b j).
Proof.
  intros H Hi. unfold update8.
  eapply osim_bind; [apply (oct_mapM2_sim nst leq npair); [exact H|exact Hi|intros; apply compress_buffer_sim; assumption]|].
  intros x y Hxy. cbv zeta.
  assert (E : length (snd (o0 x)) = length (snd (o0 y))) by apply (Hxy L0). rewrite E.
  eapply osim_bind.
  { apply update8_loop_sim; intros l; rewrite !proj_map; apply Hxy. }
  intros [s1 i1] [s2 i2] (Hs & Hi'). cbn [fst snd] in *.
  apply (oct_mapM2_sim nst leq nst); [exact Hs|exact Hi'|intros; apply update_sim; assumption].
Qed.
Lemma finalize8_sim c a b : nst8 a b ->
  osim (fun x y => nst8 (fst x) (fst y) /\ nhash8 (snd x) (snd y)) (finalize8 c a) (finalize8 c b).
Proof.
  intros H. unfold finalize8. cbv zeta.
  eapply osim_bind; [apply compress8_sim|]. intros h h' _. cbn [osim fst snd].
  assert (Hz : nst8 (oct_map (fun st => set_buf st (zero_tail (st_buf st) (buflen_nat st))) a)
                    (oct_map (fun st => set_buf st (zero_tail (st_buf st) (buflen_nat st))) b)).
  { intros l. rewrite !proj_map. apply zero_tail_sim, H. }
  split; [exact Hz|]. intros l. rewrite !proj_map2. split; [apply words_leq|]. apply (n_hash _ _ (Hz l)).
Qed.

Lemma vectorize_sim c f w w' : osim any (call_vectorize8 c f w) (call_vectorize8 c f w').
Proof. unfold call_vectorize8. destruct f; [exact I|]. destruct (has_avx2 c); exact I. Qed.
Lemma vectorized_sim c f w w' m m' a b d e a' b' d' e' :
  osim any (call_compress8_vectorized c f w m a b d e) (call_compress8_vectorized c f w' m' a' b' d' e').
Proof. unfold call_compress8_vectorized. destruct f; [exact I|]. destruct (has_avx2 c); exact I. Qed.
Lemma finish_sim c f n p q w w' i j : npar p q -> leq i j ->
  osim nhash (hash8_finish c f n p w i) (hash8_finish c f n q w' j).
Proof.
  intros Hp Hi. unfold hash8_finish. cbv zeta.
  eapply osim_bind; [apply slice_from_sim, Hi|]. intros r r' Hr.
  eapply osim_bind.
  { apply update_sim; [|exact Hr]. destruct Hp. constructor; fields; try congruence; try reflexivity. }
  intros s t H. eapply osim_bind; [apply finalize_sim, H|]. intros [s2 h] [t2 k] (_ & Hh). exact Hh.
Qed.
Lemma hash8_loop_sim c fns fuel : forall p q i j w w' n, npar8 p q -> leq8 i j ->
  osim nhash8 (hash8_loop fuel c fns p i w n) (hash8_loop fuel c fns q j w' n).
Proof.
  induction fuel as [|fuel IH]; intros p q i j w w' n Hp Hi; [exact I|]. cbn [hash8_loop]. cbv zeta.
  assert (E : oct_map (@length byte) i = oct_map (@length byte) j).
  { apply oct_ext. intros l. rewrite !proj_map. apply Hi. }
  rewrite E.
  eapply osim_bind; [apply osim_refl|]. intros u ? <-.
  eapply osim_bind; [apply osim_refl|]. intros v ? <-.
  destruct (negb u && negb v).
  - eapply osim_bind; [apply vectorize_sim|]. intros x x' _.
    eapply osim_bind; [apply finish_sim; [apply (Hp L0)|apply (Hi L0)]|]. intros h0 k0 H0.
    eapply osim_bind; [apply finish_sim; [apply (Hp L1)|apply (Hi L1)]|]. intros h1 k1 H1.
    eapply osim_bind; [apply finish_sim; [apply (Hp L2)|apply (Hi L2)]|]. intros h2 k2 H2.
    eapply osim_bind; [apply finish_sim; [apply (Hp L3)|apply (Hi L3)]|]. intros h3 k3 H3.
    eapply osim_bind; [apply finish_sim; [apply (Hp L4)|apply (Hi L4)]|]. intros h4 k4 H4.
    eapply osim_bind; [apply finish_sim; [apply (Hp L5)|apply (Hi L5)]|]. intros h5 k5 H5.
    eapply osim_bind; [apply finish_sim; [apply (Hp L6)|apply (Hi L6)]|]. intros h6 k6 H6.
    eapply osim_bind; [apply finish_sim; [apply (Hp L7)|apply (Hi L7)]|]. intros h7 k7 H7.
    intros []; assumption.
  - eapply osim_bind; [apply (oct_mapM_sim leq leq); [exact Hi|intros; apply array_ref_sim; assumption]|].
    intros m m' _. eapply osim_bind; [apply vectorized_sim|]. intros x x' _.
    destruct v; [|apply IH; assumption].
    eapply osim_bind; [apply vectorize_sim|]. intros y y' _. cbn [osim].
    intros l. rewrite !proj_map2. split; [apply words_leq|]. apply (np_hash _ _ (Hp l)).
Qed.
Lemma hash8_sim c p q i j : npar8 p q -> leq8 i j -> osim nhash8 (hash8 c p i) (hash8 c q j).
Proof.
  intros Hp Hi. unfold hash8.
  rewrite (oct_all_sim npar _ (fun p => val (p_key_length p) =? 0) p q Hp)
    by (intros x y Hxy; rewrite (np_kl _ _ Hxy); reflexivity).
  destruct (oct_all _ q); [|exact I]. cbv zeta.
  eapply osim_bind; [apply vectorize_sim|]. intros w w' _.
  pose proof (Hi L0) as H0. cbn [proj] in H0. rewrite H0. apply hash8_loop_sim; assumption.
Qed.

(** ** The exact functions *)
Definition leq4 (a b : quad (list byte)) : Prop :=
  leq (q0 a) (q0 b) /\ leq (q1 a) (q1 b) /\ leq (q2 a) (q2 b) /\ leq (q3 a) (q3 b).
Definition nhash4 (a b : quad Hash) : Prop :=
  nhash (q0 a) (q0 b) /\ nhash (q1 a) (q1 b) /\ nhash (q2 a) (q2 b) /\ nhash (q3 a) (q3 b).

Lemma m128_length x : length (Intrinsics.m128_bytes x) = 16%nat.
Proof. destruct x. reflexivity. Qed.
Lemma m256_length x : length (Intrinsics.m256_bytes x) = 32%nat.
Proof. destruct x. reflexivity. Qed.
Lemma exact4_loop_sim p q len fuel : forall i0 i1 i2 i3 j0 j1 j2 j3 h h' n, npar p q ->
  leq i0 j0 -> leq i1 j1 -> leq i2 j2 -> leq i3 j3 ->
  osim nhash4 (Sse41.hash4_exact_loop fuel p i0 i1 i2 i3 len h n) (Sse41.hash4_exact_loop fuel q j0 j1 j2 j3 len h' n).
Proof.
  induction fuel as [|fuel IH]; intros i0 i1 i2 i3 j0 j1 j2 j3 h h' n Hp H0 H1 H2 H3; [exact I|].
  cbn [Sse41.hash4_exact_loop].
  eapply osim_bind; [apply raw_read_sim, H0|]. intros ? ? _.
  eapply osim_bind; [apply raw_read_sim, H1|]. intros ? ? _.
  eapply osim_bind; [apply raw_read_sim, H2|]. intros ? ? _.
  eapply osim_bind; [apply raw_read_sim, H3|]. intros ? ? _.
  cbv zeta. destruct (Nat.eqb _ len); [|apply IH; assumption].
  cbn [osim]. rewrite (np_hash _ _ Hp).
  match goal with |- nhash4 (Sse41.export_hashes ?x _) (Sse41.export_hashes ?y _) => generalize x y end.
  intros x y. unfold nhash4, nhash, leq, Sse41.export_hashes. cbv zeta. cbn [q0 q1 q2 q3 h_bytes h_len].
  rewrite !app_length, !m128_length. repeat split.
Qed.
Lemma exact8_loop_sim p q len fuel : forall i j h h' n, npar p q -> leq8 i j ->
  osim nhash8 (Avx2.hash8_exact_loop fuel p i len h n) (Avx2.hash8_exact_loop fuel q j len h' n).
Proof.
  induction fuel as [|fuel IH]; intros i j h h' n Hp Hi; [exact I|]. cbn [Avx2.hash8_exact_loop].
  eapply osim_bind; [apply raw_read_sim, (Hi L0)|]. intros ? ? _.
  eapply osim_bind; [apply raw_read_sim, (Hi L1)|]. intros ? ? _.
  eapply osim_bind; [apply raw_read_sim, (Hi L2)|]. intros ? ? _.
  eapply osim_bind; [apply raw_read_sim, (Hi L3)|]. intros ? ? _.
  eapply osim_bind; [apply raw_read_sim, (Hi L4)|]. intros ? ? _.
  eapply osim_bind; [apply raw_read_sim, (Hi L5)|]. intros ? ? _.
  eapply osim_bind; [apply raw_read_sim, (Hi L6)|]. intros ? ? _.
  eapply osim_bind; [apply raw_read_sim, (Hi L7)|]. intros ? ? _.
  cbv zeta. destruct (Nat.eqb _ len); [|apply IH; assumption].
  cbn [osim]. rewrite (np_hash _ _ Hp).
  match goal with |- nhash8 (Avx2.export_hashes ?x _) (Avx2.export_hashes ?y _) => generalize x y end.
  intros x y l. unfold nhash, leq, Avx2.export_hashes. cbv zeta.
  destruct l; cbn [proj o0 o1 o2 o3 o4 o5 o6 o7 h_bytes h_len]; rewrite !m256_length; split; reflexivity.
Qed.
Lemma hash8_exact_sim c p q i j : npar p q -> leq8 i j -> osim nhash8 (hash8_exact c p i) (hash8_exact c q j).
Proof.
  intros Hp Hi. unfold hash8_exact. cbv zeta.
  pose proof (Hi L0) as E0. pose proof (Hi L1) as E1. pose proof (Hi L2) as E2. pose proof (Hi L3) as E3.
  pose proof (Hi L4) as E4. pose proof (Hi L5) as E5. pose proof (Hi L6) as E6. pose proof (Hi L7) as E7.
  cbn [proj] in *. unfold leq in *. rewrite E0, E1, E2, E3, E4, E5, E6, E7.
  destruct (_ && _ && _); [|exact I].
  unfold call_hash8_exact. destruct (fn_hash8_exact _).
  - apply (oct_mapM_sim leq nhash); [exact Hi|]. intros x y Hx. apply hash_one_sim; assumption.
  - destruct (has_avx2 c); [|exact I]. unfold Avx2.hash8_exact. cbv zeta. rewrite E0.
    apply exact8_loop_sim; assumption.
Qed.
Lemma hash4_exact_sim c p q i j : npar p q -> leq4 i j -> osim nhash4 (hash4_exact c p i) (hash4_exact c q j).
Proof.
  intros Hp (E0 & E1 & E2 & E3). unfold hash4_exact. cbv zeta. unfold leq in *. rewrite E0, E1, E2, E3.
  destruct (_ && _ && _); [|exact I].
  unfold call_hash4_exact. destruct (fn_hash4_exact _).
  - unfold hash4_exact_port.
    eapply osim_bind; [apply hash_one_sim; eassumption|]. intros h0 k0 H0.
    eapply osim_bind; [apply hash_one_sim; eassumption|]. intros h1 k1 H1.
    eapply osim_bind; [apply hash_one_sim; eassumption|]. intros h2 k2 H2.
    eapply osim_bind; [apply hash_one_sim; eassumption|]. intros h3 k3 H3.
    cbn [osim]. unfold nhash4. cbn [q0 q1 q2 q3]. auto.
  - destruct (has_sse41 c); [|exact I]. unfold Sse41.hash4_exact. cbv zeta. rewrite E0.
    apply exact4_loop_sim; assumption.
Qed.

(** ** Parameters *)
Lemma blank_sim k : leq k (blank k).
Proof. symmetry. apply blank_length. Qed.
Lemma setter_sim p q s : npar p q -> osim npar (apply_setter p s) (apply_setter q (blank_setter s)).
Proof.
  intros []. destruct s; cbn [apply_setter blank_setter];
    unfold set_hash_length, set_key, set_salt, set_personal, set_fanout, set_max_depth,
      set_max_leaf_length, set_node_offset, set_node_depth, set_inner_hash_length, set_last_node_param;
    rewrite ?blank_length;
    try match goal with |- context [if ?b then _ else _] => destruct b; [|exact I] end;
    try (constructor; cbn [p_hash_length p_key_length p_key p_last_node]; assumption || reflexivity);
    (eapply osim_bind; [apply copy_into_sim; [reflexivity|apply blank_sim]|]; intros b b' Hb;
     constructor; cbn [p_hash_length p_key_length p_key p_last_node]; assumption || reflexivity).
Qed.
Lemma npar_refl p : npar p p.
Proof. constructor; reflexivity. Qed.
Lemma same_setter_sim p q s : npar p q -> blank_setter s = s -> osim npar (apply_setter p s) (apply_setter q s).
Proof. intros H E. rewrite <- E at 2. apply setter_sim, H. Qed.

Record nsp_par (p q : SpParams) : Prop := {
  nq_hash : sp_hash_length p = sp_hash_length q;
  nq_kl : sp_key_length p = sp_key_length q;
  nq_key : leq (sp_key p) (sp_key q)
}.
Lemma sp_setter_sim p q s : nsp_par p q -> osim nsp_par (sp_apply_setter p s) (sp_apply_setter q (blank_sp_setter s)).
Proof.
  intros []. destruct s; cbn [sp_apply_setter blank_sp_setter]; unfold sp_set_hash_length, sp_set_key;
    rewrite ?blank_length;
    try match goal with |- context [if ?b then _ else _] => destruct b; [|exact I] end;
    try (constructor; cbn [sp_hash_length sp_key_length sp_key]; assumption || reflexivity);
    (eapply osim_bind; [apply copy_into_sim; [reflexivity|apply blank_sim]|]; intros b b' Hb;
     constructor; cbn [sp_hash_length sp_key_length sp_key]; assumption || reflexivity).
Qed.

(** ** BLAKE2sp *)
Record nsp (s t : SpState) : Prop := {
  ns_leaves : nst8 (sp_leaves s) (sp_leaves t);
  ns_root : nst (sp_root s) (sp_root t);
  ns_buf : leq (sp_buf s) (sp_buf t);
  ns_buflen : sp_buflen s = sp_buflen t;
  ns_fn : sp_compress8_fn s = sp_compress8_fn t
}.
Definition nsp_pair (x y : SpState * list byte) : Prop := nsp (fst x) (fst y) /\ leq (snd x) (snd y).
Ltac sp_fields := cbn [fst snd sp_leaves sp_root sp_buf sp_buflen sp_compress8_fn sp_set_leaves sp_set_buflen sp_set_buf] in *.

Lemma set_hash_sim s t n : nst s t -> nst (set_st_hash_length s n) (set_st_hash_length t n).
Proof. intros []. constructor; try assumption; reflexivity. Qed.
Lemma leaf_sim c p q i : npar p q -> osim nst (leaf_state c p i) (leaf_state c q i).
Proof.
  intros H. unfold leaf_state.
  eapply osim_bind; [apply (same_setter_sim p q (SNodeOffset _) H); reflexivity|]. intros p1 q1 H1.
  eapply osim_bind; [apply (same_setter_sim p1 q1 (SNodeDepth _) H1); reflexivity|]. intros p2 q2 H2.
  eapply osim_bind; [apply (same_setter_sim p2 q2 (SLastNode _) H2); reflexivity|]. intros p3 q3 H3.
  eapply osim_bind; [apply with_params_sim, H3|]. intros s t H4. apply set_hash_sim, H4.
Qed.
Lemma key_setter_sim p q k k' : npar p q -> leq k k' -> osim npar (set_key p k) (set_key q k').
Proof.
  intros [] H. unfold set_key. rewrite H. destruct (Nat.leb _ _); [|exact I].
  eapply osim_bind; [apply copy_into_sim; [reflexivity|exact H]|]. intros b b' Hb.
  constructor; cbn [p_hash_length p_key_length p_key p_last_node]; assumption || reflexivity.
Qed.
Lemma sp_with_params_sim c p q : nsp_par p q -> osim nsp (sp_to_state c p) (sp_to_state c q).
Proof.
  intros []. unfold sp_to_state, sp_with_params. rewrite nq_hash0, nq_kl0.
  eapply osim_bind; [apply (same_setter_sim Params_new Params_new (SHashLength _) (npar_refl _)); reflexivity|].
  intros p1 q1 H1.
  eapply osim_bind; [apply slice_to_sim, nq_key0|]. intros k k' Hk.
  eapply osim_bind; [apply key_setter_sim; eassumption|]. intros p2 q2 H2.
  eapply osim_bind; [apply (same_setter_sim p2 q2 (SFanout _) H2); reflexivity|]. intros p3 q3 H3.
  eapply osim_bind; [apply (same_setter_sim p3 q3 (SMaxDepth _) H3); reflexivity|]. intros p4 q4 H4.
  eapply osim_bind; [apply (same_setter_sim p4 q4 (SMaxLeafLength _) H4); reflexivity|]. intros p5 q5 H5.
  eapply osim_bind; [apply (same_setter_sim p5 q5 (SInnerHashLength _) H5); reflexivity|]. intros bp bq Hb.
  eapply osim_bind; [apply (same_setter_sim bp bq (SNodeOffset _) Hb); reflexivity|]. intros p6 q6 H6.
  eapply osim_bind; [apply (same_setter_sim p6 q6 (SNodeDepth _) H6); reflexivity|]. intros p7 q7 H7.
  eapply osim_bind; [apply (same_setter_sim p7 q7 (SLastNode _) H7); reflexivity|]. intros p8 q8 H8.
  eapply osim_bind; [apply with_params_sim, H8|]. intros r r' Hr. cbv zeta.
  eapply osim_bind.
  { apply (oct_mapM_sim eq nst); [reflexivity|]. intros i ? <-. apply leaf_sim, Hb. }
  intros l l' Hl. constructor; sp_fields; try reflexivity; [exact Hl|].
  destruct Hr. constructor; fields; try assumption; reflexivity.
Qed.

Lemma sp_fill_sim c s t i j : nsp s t -> leq i j -> osim nsp_pair (sp_fill_buf c s i) (sp_fill_buf c t j).
Proof.
  intros [] Hi. unfold sp_fill_buf, sp_buflen_nat. rewrite ns_buflen0, ns_buf0, Hi.
  eapply osim_bind; [apply osim_refl|]. intros room ? <-. cbv zeta.
  eapply osim_bind; [apply slice_to_sim, Hi|]. intros src src' Hs.
  eapply osim_bind; [apply copy_into_sim; eassumption|]. intros b b' Hb.
  eapply osim_bind; [apply osim_refl|]. intros n ? <-.
  eapply osim_bind; [apply slice_from_sim, Hi|]. intros r r' Hr.
  split; [|exact Hr]. constructor; sp_fields; try assumption; reflexivity.
Qed.
Lemma sp_compress8_sim c m m' a b f : nst8 a b -> osim nst8 (sp_compress8 c m a f) (sp_compress8 c m' b f).
Proof.
  intros H. unfold sp_compress8.
  rewrite (oct_all_sim nst _ (fun l => 0 =? val (st_buflen l)) a b H)
    by (intros x y Hx; rewrite (n_buflen _ _ Hx); reflexivity).
  rewrite (oct_all_sim nst _ (fun l => val (st_count (o0 b)) =? val (st_count l)) a b H).
  2: { intros x y Hx. rewrite (n_count _ _ Hx). pose proof (n_count _ _ (H L0)) as E. cbn [proj] in E.
       rewrite E. reflexivity. }
  eapply osim_bind; [apply osim_refl|]. intros ? ? _.
  eapply osim_bind; [apply osim_refl|]. intros ? ? _.
  eapply osim_bind; [apply (oct_mapM_sim nst nst); [exact H|intros; apply bump_sim; assumption]|]. intros x1 y1 H1.
  eapply osim_bind; [apply compress8_sim|]. intros h h' _. apply set_h8_sim. exact H1.
Qed.
Lemma nsp_leaves s t l l' : nsp s t -> nst8 l l' -> nsp (sp_set_leaves s l) (sp_set_leaves t l').
Proof. intros [] H. constructor; sp_fields; assumption. Qed.
Lemma nsp_buflen s t n : nsp s t -> nsp (sp_set_buflen s n) (sp_set_buflen t n).
Proof. intros []. constructor; sp_fields; try assumption; reflexivity. Qed.
Lemma nsp_buf s t b b' : nsp s t -> leq b b' -> nsp (sp_set_buf s b) (sp_set_buf t b').
Proof. intros [] H. constructor; sp_fields; assumption. Qed.

Lemma sp_empty_sim c s t i j : nsp s t -> leq i j -> osim nsp_pair (sp_empty_buffer c s i) (sp_empty_buffer c t j).
Proof.
  intros H Hi. unfold sp_empty_buffer. rewrite (ns_buflen _ _ H).
  destruct (0 <? val (sp_buflen t)); [|split; assumption].
  eapply osim_bind; [apply sp_fill_sim; eassumption|]. intros [s1 r1] [t1 r2] (H1 & Hr). cbn [fst snd] in *.
  destruct r1 as [|x r1], r2 as [|y r2]; try discriminate Hr; [split; assumption|].
  eapply osim_bind; [apply array_ref_sim, (ns_buf _ _ H1)|]. intros b b' _.
  rewrite (ns_fn _ _ H1).
  eapply osim_bind; [apply sp_compress8_sim, (ns_leaves _ _ H1)|]. intros l l' Hl. cbv zeta.
  pose proof (nsp_leaves _ _ _ _ H1 Hl) as H2. set (s2 := sp_set_leaves s1 l) in *. set (t2 := sp_set_leaves t1 l') in *.
  rewrite (ns_buflen _ _ H2).
  eapply osim_bind; [apply osim_refl|]. intros n ? <-.
  pose proof (nsp_buflen _ _ n H2) as H3. set (s3 := sp_set_buflen s2 n) in *. set (t3 := sp_set_buflen t2 n) in *.
  rewrite Hr. destruct (Nat.ltb _ _).
  - eapply osim_bind; [apply array_ref_sim, (ns_buf _ _ H3)|]. intros d d' _.
    rewrite (ns_fn _ _ H3).
    eapply osim_bind; [apply sp_compress8_sim, (ns_leaves _ _ H3)|]. intros m m' Hm.
    split; [|exact Hr]. apply nsp_buflen, nsp_leaves; assumption.
  - eapply osim_bind; [apply slice_to_sim, (ns_buf _ _ H3)|]. intros lf lf' Hlf.
    eapply osim_bind; [apply slice_from_sim, (ns_buf _ _ H3)|]. intros rt rt' Hrt.
    unfold sp_buflen_nat. rewrite (ns_buflen _ _ H3).
    eapply osim_bind; [apply slice_to_sim, Hrt|]. intros sr sr' Hsr.
    eapply osim_bind; [apply copy_into_sim; eassumption|]. intros q q' Hq.
    split; [|exact Hr]. apply nsp_buf; [exact H3|]. unfold leq in *. rewrite !app_length. congruence.
Qed.
Lemma sp_loop_sim c fuel : forall s t i j, nsp s t -> leq i j ->
  osim nsp_pair (sp_update_loop fuel c s i) (sp_update_loop fuel c t j).
Proof.
  induction fuel as [|fuel IH]; intros s t i j H Hi; [exact I|]. cbn [sp_update_loop].
  rewrite Hi. destruct (Nat.ltb _ _); [|split; assumption].
  eapply osim_bind; [apply array_ref_sim, Hi|]. intros b b' _. rewrite (ns_fn _ _ H).
  eapply osim_bind; [apply sp_compress8_sim, (ns_leaves _ _ H)|]. intros l l' Hl.
  eapply osim_bind; [apply slice_from_sim, Hi|]. intros r r' Hr.
  apply IH; [apply nsp_leaves; assumption|exact Hr].
Qed.
Lemma sp_update_sim c s t i j : nsp s t -> leq i j -> osim nsp (sp_update c s i) (sp_update c t j).
Proof.
  intros H Hi. unfold sp_update.
  eapply osim_bind; [apply sp_empty_sim; eassumption|]. intros [s1 i1] [t1 j1] (H1 & Hi1). cbn [fst snd] in *.
  rewrite Hi1.
  eapply osim_bind; [apply sp_loop_sim; eassumption|]. intros [s2 i2] [t2 j2] (H2 & Hi2). cbn [fst snd] in *.
  eapply osim_bind; [apply sp_fill_sim; eassumption|]. intros [s3 i3] [t3 j3] (H3 & Hi3). cbn [fst snd] in *.
  rewrite Hi3. eapply osim_bind; [apply osim_refl|]. intros ? ? _. exact H3.
Qed.
Lemma feed_chunk_sim c b b' k n s t : leq b b' -> nst s t -> osim nst (feed_chunk c b k n s) (feed_chunk c b' k n t).
Proof.
  intros Hb H. unfold feed_chunk.
  eapply osim_bind; [apply slice_to_sim, sub_sim, Hb|]. intros x y Hx. apply update_sim; assumption.
Qed.
Lemma feed_root_sim c r r' s t : nst r r' -> nst s t -> osim nst (feed_root c r s) (feed_root c r' t).
Proof.
  intros Hr H. unfold feed_root.
  eapply osim_bind; [apply finalize_sim, H|]. intros [s1 h] [t1 k] (_ & Hh). cbn [fst snd] in *.
  eapply osim_bind; [apply as_bytes_sim, Hh|]. intros x y Hx. apply update_sim; assumption.
Qed.
Lemma sp_finalize_sim c s t : nsp s t -> osim nhash (sp_finalize c s) (sp_finalize c t).
Proof.
  intros H. unfold sp_finalize. cbv zeta. unfold sp_buflen_nat. rewrite (ns_buflen _ _ H).
  pose proof (ns_leaves _ _ H) as Hl. pose proof (ns_buf _ _ H) as Hb.
  destruct (sp_leaves s) as [a0 a1 a2 a3 a4 a5 a6 a7], (sp_leaves t) as [b0 b1 b2 b3 b4 b5 b6 b7].
  pose proof (Hl L0) as H0. pose proof (Hl L1) as H1. pose proof (Hl L2) as H2. pose proof (Hl L3) as H3.
  pose proof (Hl L4) as H4. pose proof (Hl L5) as H5. pose proof (Hl L6) as H6. pose proof (Hl L7) as H7.
  cbn [proj o0 o1 o2 o3 o4 o5 o6 o7] in *. clear Hl.
  do 16 (eapply osim_bind; [apply feed_chunk_sim; eassumption|]; intros ? ? ?).
  pose proof (ns_root _ _ H) as Hr.
  do 8 (eapply osim_bind; [apply feed_root_sim; eassumption|]; clear Hr; intros ? ? Hr).
  eapply osim_bind; [apply finalize_sim, Hr|]. intros [? ?] [? ?] (_ & Hh). exact Hh.
Qed.
Lemma sp_count_sim c s t : nsp s t -> sp_count c s = sp_count c t.
Proof.
  intros H. unfold sp_count. cbv zeta. rewrite (ns_buflen _ _ H).
  replace (oct_map count (sp_leaves s)) with (oct_map count (sp_leaves t)); [reflexivity|].
  apply oct_ext. intros l. rewrite !proj_map. symmetry. apply (n_count _ _ (ns_leaves _ _ H l)).
Qed.
Lemma state_debug_sim s t : nst s t -> state_debug s = state_debug t.
Proof. intros []. unfold state_debug. rewrite n_count0, n_hash0, n_last0. reflexivity. Qed.
Lemma sp_debug_sim c s t : nsp s t -> sp_state_debug c s = sp_state_debug c t.
Proof.
  intros H. unfold sp_state_debug. rewrite (sp_count_sim c _ _ H), (state_debug_sim _ _ (ns_root _ _ H)).
  pose proof (ns_leaves _ _ H) as Hl.
  pose proof (state_debug_sim _ _ (Hl L0)) as E0. pose proof (state_debug_sim _ _ (Hl L1)) as E1.
  pose proof (state_debug_sim _ _ (Hl L2)) as E2. pose proof (state_debug_sim _ _ (Hl L3)) as E3.
  cbn [proj] in *. rewrite E0, E1, E2, E3. reflexivity.
Qed.

(** ** Programs *)
Record nsess (s t : session) : Prop := {
  nx_params : Forall2 npar (s_params s) (s_params t);
  nx_states : Forall2 nst (s_states s) (s_states t);
  nx_hashes : Forall2 nhash (s_hashes s) (s_hashes t);
  nx_sparams : Forall2 nsp_par (s_sparams s) (s_sparams t);
  nx_sstates : Forall2 nsp (s_sstates s) (s_sstates t)
}.
Lemma nsess_params s t l l' : nsess s t -> Forall2 npar l l' -> nsess (with_params_list s l) (with_params_list t l').
Proof. intros [] H. constructor; assumption. Qed.
Lemma nsess_states s t l l' : nsess s t -> Forall2 nst l l' -> nsess (with_states s l) (with_states t l').
Proof. intros [] H. constructor; assumption. Qed.
Lemma nsess_hashes s t l l' : nsess s t -> Forall2 nhash l l' -> nsess (with_hashes s l) (with_hashes t l').
Proof. intros [] H. constructor; assumption. Qed.
Lemma nsess_sparams s t l l' : nsess s t -> Forall2 nsp_par l l' -> nsess (with_sparams s l) (with_sparams t l').
Proof. intros [] H. constructor; assumption. Qed.
Lemma nsess_sstates s t l l' : nsess s t -> Forall2 nsp l l' -> nsess (with_sstates s l) (with_sstates t l').
Proof. intros [] H. constructor; assumption. Qed.

(** What a call gives back, in the two runs. *)
Definition nres (o : op) (x y : session * obs) : Prop :=
  nsess (fst x) (fst y) /\ wipe o (snd x) = wipe (blank_op o) (snd y).

Lemma leq_blank a b : leq a b -> OBytes (blank a) = OBytes (blank b).
Proof. intros H. rewrite (blank_eq _ _ H). reflexivity. Qed.
Lemma give_hash_sim o s t h k : nsess s t -> nhash h k ->
  (forall a b, leq a b -> wipe o (OBytes a) = wipe (blank_op o) (OBytes b)) ->
  osim (nres o) (give_hash s h) (give_hash t k).
Proof.
  intros S H Hw. unfold give_hash. eapply osim_bind; [apply as_bytes_sim, H|]. intros a b Hab.
  split; cbn [fst snd]; [|apply Hw, Hab].
  apply nsess_hashes; [exact S|]. apply Forall2_snoc; [apply S|exact H].
Qed.
Lemma all_bytes_sim l l' : Forall2 nhash l l' -> osim (fun x y => map blank x = map blank y) (all_bytes l) (all_bytes l').
Proof.
  intros H. induction H as [|h k l l' Hh H IH]; [reflexivity|]. cbn [all_bytes].
  eapply osim_bind; [apply as_bytes_sim, Hh|]. intros a b Hab.
  eapply osim_bind; [exact IH|]. intros x y Hxy. cbn [osim map]. rewrite Hxy, (blank_eq _ _ Hab). reflexivity.
Qed.
Lemma give_hashes_sim o s t l l' : nsess s t -> Forall2 nhash l l' ->
  (forall a b, map blank a = map blank b -> wipe o (OMany a) = wipe (blank_op o) (OMany b)) ->
  osim (nres o) (give_hashes s l) (give_hashes t l').
Proof.
  intros S H Hw. unfold give_hashes. eapply osim_bind; [apply all_bytes_sim, H|]. intros a b Hab.
  split; cbn [fst snd]; [|apply Hw, Hab].
  apply nsess_hashes; [exact S|]. apply Forall2_app; [apply S|exact H].
Qed.
Lemma hex_loop_sim a b : leq a b -> forall s t, leq s t -> osim leq (hex_loop s a) (hex_loop t b).
Proof.
  revert b. induction a as [|x a IH]; intros [|y b] H; try discriminate H; intros s t Hs; [exact Hs|].
  cbn [hex_loop].
  assert (P : forall u v, leq u v -> forall p q, osim leq (push_char u p) (push_char v q)).
  { intros u v Huv p q. unfold push_char. rewrite Huv. destruct (Nat.ltb _ _); [|exact I].
    cbn [osim]. unfold leq in *. rewrite !app_length, Huv. reflexivity. }
  eapply osim_bind; [apply P, Hs|]. intros u v Huv.
  eapply osim_bind; [apply P, Huv|]. intros u' v' Huv'.
  apply IH; [|exact Huv']. injection H as H. exact H.
Qed.
Lemma to_hex_sim h k : nhash h k -> osim leq (to_hex h) (to_hex k).
Proof.
  intros H. unfold to_hex, bytes_to_hex. eapply osim_bind; [apply as_bytes_sim, H|]. intros a b Hab.
  apply hex_loop_sim; [exact Hab|reflexivity].
Qed.
Lemma string_length_app a b : String.length (a ++ b)%string = (String.length a + String.length b)%nat.
Proof. induction a as [|x a IH]; [reflexivity|]. cbn [String.append String.length]. rewrite IH. reflexivity. Qed.
Lemma string_length_bytes l : String.length (string_of_list_byte l) = length l.
Proof. induction l as [|x l IH]; [reflexivity|]. cbn [length]. rewrite <- IH. reflexivity. Qed.
Lemma hash_debug_sim h k : nhash h k ->
  osim (fun x y => String.length x = String.length y) (hash_debug h) (hash_debug k).
Proof.
  intros H. unfold hash_debug. eapply osim_bind; [apply to_hex_sim, H|]. intros a b Hab. cbn [osim].
  rewrite !string_length_app, !string_length_bytes, Hab. reflexivity.
Qed.
Lemma hash_eq_sim h k h' k' : nhash h k -> nhash h' k' -> osim any (hash_eq h h') (hash_eq k k').
Proof.
  intros H H'. unfold hash_eq. eapply osim_bind; [apply as_bytes_sim, H|]. intros ? ? _.
  eapply osim_bind; [apply as_bytes_sim, H'|]. intros ? ? _. exact I.
Qed.
Lemma hash_eq_slice_sim h k x y : nhash h k -> osim any (hash_eq_slice h x) (hash_eq_slice k y).
Proof.
  intros H. unfold hash_eq_slice. eapply osim_bind; [apply as_bytes_sim, H|]. intros ? ? _. exact I.
Qed.
Lemma nst_set_last s t b : nst s t -> nst (set_last_node s b) (set_last_node t b).
Proof. intros []. constructor; try assumption; reflexivity. Qed.
Lemma nst_portable s t : nst s t -> nst (force_portable s) (force_portable t).
Proof. intros []. constructor; try assumption; reflexivity. Qed.
Lemma nsp_portable s t : nsp s t -> nsp (sp_force_portable s) (sp_force_portable t).
Proof.
  intros []. constructor; cbn [sp_force_portable sp_leaves sp_root sp_buf sp_buflen sp_compress8_fn];
    try assumption; try reflexivity; [|apply nst_portable; assumption].
  intros l. rewrite !proj_map. apply nst_portable, ns_leaves0.
Qed.
Lemma blank8_sim i : leq8 i (oct_map blank i).
Proof. intros l. rewrite proj_map. apply blank_sim. Qed.
Lemma blank4_sim i : leq4 i (quad_map blank i).
Proof. destruct i. repeat split; apply blank_sim. Qed.
Lemma nhash4_list x y : nhash4 x y -> Forall2 nhash (quad_list x) (quad_list y).
Proof. destruct x, y. intros (H0 & H1 & H2 & H3). repeat (constructor; [assumption|]). constructor. Qed.

Lemma at_obj_osim {A A' B B'} (R : A -> A' -> Prop) (Q : B -> B' -> Prop) l l' i no no' f f' :
  Forall2 R l l' -> osim Q no no' -> (forall x y, R x y -> osim Q (f x) (f' y)) ->
  osim Q (at_obj l i no f) (at_obj l' i no' f').
Proof. intros H Hno Hf. apply (at_obj_sim R l l' i no no' f f' (osim Q) H Hno (fun x y _ _ => Hf x y)). Qed.

Lemma step_sim c s t o : nsess s t -> osim (nres o) (step c s o) (step c t (blank_op o)).
Proof.
  intros S.
  assert (Hinv : osim (nres o) (Ok (s, OInvalid)) (Ok (t, OInvalid))).
  { split; [exact S|]. destruct o; reflexivity. }
  destruct o; cbn [step blank_op]; cbv zeta.
  - split; [|reflexivity]. apply nsess_params; [exact S|]. apply Forall2_snoc; [apply S|apply npar_refl].
  - apply (at_obj_osim npar); [apply S|exact Hinv|]. intros p q H. split; [|reflexivity].
    apply nsess_params; [exact S|]. apply Forall2_snoc; [apply S|exact H].
  - apply (at_obj_osim npar); [apply S|exact Hinv|]. intros p q H.
    eapply osim_bind; [apply setter_sim, H|]. intros p1 q1 H1. split; [|reflexivity].
    apply nsess_params; [exact S|]. apply Forall2_upd; [apply S|exact H1].
  - eapply osim_bind; [apply with_params_sim, npar_refl|]. intros x y H. split; [|reflexivity].
    apply nsess_states; [exact S|]. apply Forall2_snoc; [apply S|exact H].
  - apply (at_obj_osim npar); [apply S|exact Hinv|]. intros p q H.
    eapply osim_bind; [apply with_params_sim, H|]. intros x y Hx. split; [|reflexivity].
    apply nsess_states; [exact S|]. apply Forall2_snoc; [apply S|exact Hx].
  - apply (at_obj_osim nst); [apply S|exact Hinv|]. intros x y H. split; [|reflexivity].
    apply nsess_states; [exact S|]. apply Forall2_snoc; [apply S|exact H].
  - apply (at_obj_osim nst); [apply S|exact Hinv|]. intros x y H.
    eapply osim_bind; [apply update_sim; [exact H|apply blank_sim]|]. intros x1 y1 H1. split; [|reflexivity].
    apply nsess_states; [exact S|]. apply Forall2_upd; [apply S|exact H1].
  - apply (at_obj_osim nst); [apply S|exact Hinv|]. intros x y H. unfold write.
    eapply osim_bind.
    { eapply osim_bind; [apply update_sim; [exact H|apply blank_sim]|]. intros x1 y1 H1.
      instantiate (1 := fun a b => nst (fst a) (fst b) /\ snd a = snd b). cbn [osim fst snd].
      split; [exact H1|]. symmetry. apply blank_length. }
    intros [x1 n] [y1 m] (H1 & E). cbn [fst snd] in *. subst m. split; [|reflexivity].
    apply nsess_states; [exact S|]. apply Forall2_upd; [apply S|exact H1].
  - apply (at_obj_osim nst); [apply S|exact Hinv|]. intros x y H. split; [|reflexivity].
    apply nsess_states; [exact S|]. apply Forall2_upd; [apply S|exact H].
  - apply (at_obj_osim nst); [apply S|exact Hinv|]. intros x y H. split; [|reflexivity].
    apply nsess_states; [exact S|]. apply Forall2_upd; [apply S|]. apply nst_set_last, H.
  - apply (at_obj_osim nst); [apply S|exact Hinv|]. intros x y H. split; [exact S|]. cbn [snd wipe].
    unfold count. rewrite (n_count _ _ H). reflexivity.
  - apply (at_obj_osim nst); [apply S|exact Hinv|]. intros x y H. split; [exact S|]. cbn [snd wipe].
    rewrite (state_debug_sim _ _ H). reflexivity.
  - apply (at_obj_osim nst); [apply S|exact Hinv|]. intros x y H. split; [|reflexivity].
    apply nsess_states; [exact S|]. apply Forall2_upd; [apply S|]. apply nst_portable, H.
  - apply (at_obj_osim nst); [apply S|exact Hinv|]. intros x y H.
    eapply osim_bind; [apply finalize_sim, H|]. intros [x1 h] [y1 k] (H1 & Hh). cbn [fst snd] in *.
    apply give_hash_sim; [|exact Hh|exact leq_blank].
    apply nsess_states; [exact S|]. apply Forall2_upd; [apply S|exact H1].
  - pose proof (pick8_sim nst _ _ i (nx_states _ _ S)) as P.
    destruct (pick8 (s_states s) i) as [a|], (pick8 (s_states t) i) as [b|]; try contradiction; [|exact Hinv].
    destruct (distinct _); [|exact Hinv].
    eapply osim_bind; [apply update8_sim; [exact P|apply blank8_sim]|]. intros x y H. split; [|reflexivity].
    apply nsess_states; [exact S|]. apply put8_sim; [apply S|exact H].
  - pose proof (pick8_sim nst _ _ i (nx_states _ _ S)) as P.
    destruct (pick8 (s_states s) i) as [a|], (pick8 (s_states t) i) as [b|]; try contradiction; [|exact Hinv].
    destruct (distinct _); [|exact Hinv].
    eapply osim_bind; [apply finalize8_sim; exact P|]. intros [x h] [y k] (H & Hh). cbn [fst snd] in *.
    apply give_hashes_sim; [|apply Forall2_oct; exact Hh|cbn [wipe blank_op]; intros ? ? E; rewrite E; reflexivity].
    apply nsess_states; [exact S|]. apply put8_sim; [apply S|exact H].
  - eapply osim_bind; [|intros h k H; apply give_hash_sim; [exact S|exact H|exact leq_blank]].
    unfold blake2s. eapply osim_bind; [apply with_params_sim, npar_refl|]. intros x y H.
    eapply osim_bind; [apply update_sim; [exact H|apply blank_sim]|]. intros x1 y1 H1.
    eapply osim_bind; [apply finalize_sim, H1|]. intros [? ?] [? ?] (_ & Hh). exact Hh.
  - pose proof (pick8_sim npar _ _ i (nx_params _ _ S)) as P.
    destruct (pick8 (s_params s) i) as [a|], (pick8 (s_params t) i) as [b|]; try contradiction; [|exact Hinv].
    eapply osim_bind; [apply hash8_sim; [exact P|apply blank8_sim]|]. intros x y H.
    apply give_hashes_sim; [exact S|apply Forall2_oct; exact H|cbn [wipe blank_op]; intros ? ? E; rewrite E; reflexivity].
  - apply (at_obj_osim npar); [apply S|exact Hinv|]. intros p q H.
    eapply osim_bind; [apply hash8_exact_sim; [exact H|apply blank8_sim]|]. intros x y Hx.
    apply give_hashes_sim; [exact S|apply Forall2_oct; exact Hx|cbn [wipe blank_op]; intros ? ? E; rewrite E; reflexivity].
  - apply (at_obj_osim npar); [apply S|exact Hinv|]. intros p q H.
    eapply osim_bind; [apply hash4_exact_sim; [exact H|apply blank4_sim]|]. intros x y Hx.
    apply give_hashes_sim; [exact S|apply nhash4_list, Hx|cbn [wipe blank_op]; intros ? ? E; rewrite E; reflexivity].
  - apply (at_obj_osim nhash); [apply S|exact Hinv|]. intros h k H.
    eapply osim_bind; [apply as_bytes_sim, H|]. intros a b Hab. split; [exact S|]. apply leq_blank, Hab.
  - apply (at_obj_osim nhash); [apply S|exact Hinv|]. intros h k H.
    eapply osim_bind; [apply to_hex_sim, H|]. intros a b Hab. split; [exact S|]. apply leq_blank, Hab.
  - apply (at_obj_osim nhash); [apply S|exact Hinv|]. intros h k H.
    eapply osim_bind; [apply hash_debug_sim, H|]. intros a b Hab. split; [exact S|]. cbn [snd wipe blank_op].
    rewrite Hab. reflexivity.
  - apply (at_obj_osim nhash); [apply S|exact Hinv|]. intros h k H.
    apply (at_obj_osim nhash); [apply S|exact Hinv|]. intros h' k' H'.
    eapply osim_bind; [apply hash_eq_sim; eassumption|]. intros a b _. split; [exact S|reflexivity].
  - apply (at_obj_osim nhash); [apply S|exact Hinv|]. intros h k H.
    eapply osim_bind; [apply hash_eq_slice_sim, H|]. intros a b _. split; [exact S|reflexivity].
  - split; [|reflexivity]. apply nsess_sparams; [exact S|]. apply Forall2_snoc; [apply S|]. constructor; reflexivity.
  - apply (at_obj_osim nsp_par); [apply S|exact Hinv|]. intros p q H. split; [|reflexivity].
    apply nsess_sparams; [exact S|]. apply Forall2_snoc; [apply S|exact H].
  - apply (at_obj_osim nsp_par); [apply S|exact Hinv|]. intros p q H.
    eapply osim_bind; [apply sp_setter_sim, H|]. intros p1 q1 H1. split; [|reflexivity].
    apply nsess_sparams; [exact S|]. apply Forall2_upd; [apply S|exact H1].
  - apply (at_obj_osim nsp_par); [apply S|exact Hinv|]. intros p q H. split; [exact S|]. cbn [snd wipe].
    unfold sp_params_debug. rewrite (nq_hash _ _ H), (nq_kl _ _ H). reflexivity.
  - eapply osim_bind; [apply (sp_with_params_sim c SpParams_default SpParams_default); constructor; reflexivity|].
    intros x y H. split; [|reflexivity].
    apply nsess_sstates; [exact S|]. apply Forall2_snoc; [apply S|exact H].
  - apply (at_obj_osim nsp_par); [apply S|exact Hinv|]. intros p q H.
    eapply osim_bind; [apply sp_with_params_sim, H|]. intros x y Hx. split; [|reflexivity].
    apply nsess_sstates; [exact S|]. apply Forall2_snoc; [apply S|exact Hx].
  - apply (at_obj_osim nsp); [apply S|exact Hinv|]. intros x y H. split; [|reflexivity].
    apply nsess_sstates; [exact S|]. apply Forall2_snoc; [apply S|exact H].
  - apply (at_obj_osim nsp); [apply S|exact Hinv|]. intros x y H.
    eapply osim_bind; [apply sp_update_sim; [exact H|apply blank_sim]|]. intros x1 y1 H1. split; [|reflexivity].
    apply nsess_sstates; [exact S|]. apply Forall2_upd; [apply S|exact H1].
  - apply (at_obj_osim nsp); [apply S|exact Hinv|]. intros x y H. unfold sp_write.
    eapply osim_bind.
    { eapply osim_bind; [apply sp_update_sim; [exact H|apply blank_sim]|]. intros x1 y1 H1.
      instantiate (1 := fun a b => nsp (fst a) (fst b) /\ snd a = snd b). cbn [osim fst snd].
      split; [exact H1|]. symmetry. apply blank_length. }
    intros [x1 n] [y1 m] (H1 & E). cbn [fst snd] in *. subst m. split; [|reflexivity].
    apply nsess_sstates; [exact S|]. apply Forall2_upd; [apply S|exact H1].
  - apply (at_obj_osim nsp); [apply S|exact Hinv|]. intros x y H. split; [|reflexivity].
    apply nsess_sstates; [exact S|]. apply Forall2_upd; [apply S|exact H].
  - apply (at_obj_osim nsp); [apply S|exact Hinv|]. intros x y H. rewrite (sp_count_sim c _ _ H).
    eapply osim_bind; [apply osim_refl|]. intros n ? <-. split; [exact S|reflexivity].
  - apply (at_obj_osim nsp); [apply S|exact Hinv|]. intros x y H. rewrite (sp_debug_sim c _ _ H).
    eapply osim_bind; [apply osim_refl|]. intros n ? <-. split; [exact S|reflexivity].
  - apply (at_obj_osim nsp); [apply S|exact Hinv|]. intros x y H. split; [|reflexivity].
    apply nsess_sstates; [exact S|]. apply Forall2_upd; [apply S|]. apply nsp_portable, H.
  - apply (at_obj_osim nsp); [apply S|exact Hinv|]. intros x y H.
    eapply osim_bind; [apply sp_finalize_sim, H|]. intros h k Hh.
    apply give_hash_sim; [exact S|exact Hh|exact leq_blank].
  - eapply osim_bind; [|intros h k H; apply give_hash_sim; [exact S|exact H|exact leq_blank]].
    unfold Blake2sp.blake2sp.
    eapply osim_bind; [apply (sp_with_params_sim c SpParams_default SpParams_default); constructor; reflexivity|].
    intros x y H. eapply osim_bind; [apply sp_update_sim; [exact H|apply blank_sim]|]. intros x1 y1 H1.
    apply sp_finalize_sim, H1.
Qed.

Lemma run_sim c ops : forall s t, nsess s t ->
  wiped ops (fst (run c s ops)) = wiped (map blank_op ops) (fst (run c t (map blank_op ops))) /\
  snd (run c s ops) = snd (run c t (map blank_op ops)).
Proof.
  induction ops as [|o ops IH]; intros s t S; [split; reflexivity|]. cbn [map run].
  pose proof (step_sim c s t o S) as H.
  destruct (step c s o) as [[s1 x]| | |], (step c t (blank_op o)) as [[t1 y]| | |]; try contradiction;
    try (split; reflexivity).
  destruct H as (S1 & W). cbn [fst snd] in *. destruct (IH s1 t1 S1) as (IH1 & IH2).
  destruct (run c s1 ops) as [xs e], (run c t1 (map blank_op ops)) as [ys e']. cbn [fst snd] in *.
  split; [|exact IH2]. unfold wiped in *. cbn [combine map fst snd]. rewrite W, IH1. reflexivity.
Qed.
Lemma nsess_empty : nsess empty_session empty_session.
Proof. constructor; constructor. Qed.

(** The main result: what a program sees, with the bytes of hashes wiped, and how it
    ends, are determined by its calls with the contents of their byte strings wiped. *)
Theorem no_leak c ops1 ops2 : map blank_op ops1 = map blank_op ops2 ->
  wiped ops1 (fst (run c empty_session ops1)) = wiped ops2 (fst (run c empty_session ops2)) /\
  snd (run c empty_session ops1) = snd (run c empty_session ops2).
Proof.
  intros E. destruct (run_sim c ops1 _ _ nsess_empty) as (A1 & A2).
  destruct (run_sim c ops2 _ _ nsess_empty) as (B1 & B2).
  split; [rewrite A1, B1, E; reflexivity|rewrite A2, B2, E; reflexivity].
Qed.

(** ** The Debug texts on their own *)
Lemma setters_sim l : forall p q, npar p q -> osim npar (apply_setters p l) (apply_setters q (map blank_setter l)).
Proof.
  induction l as [|x l IH]; intros p q H; [exact H|]. cbn [map apply_setters].
  eapply osim_bind; [apply setter_sim, H|]. intros p1 q1 H1. apply IH, H1.
Qed.
Lemma sp_setters_sim l : forall p q, nsp_par p q ->
  osim nsp_par (sp_apply_setters p l) (sp_apply_setters q (map blank_sp_setter l)).
Proof.
  induction l as [|x l IH]; intros p q H; [exact H|]. cbn [map sp_apply_setters].
  eapply osim_bind; [apply sp_setter_sim, H|]. intros p1 q1 H1. apply IH, H1.
Qed.
Lemma feed_sim c l : forall s t, nst s t -> osim nst (feed c s l) (feed c t (map blank l)).
Proof.
  induction l as [|x l IH]; intros p q H; [exact H|]. cbn [map feed].
  eapply osim_bind; [apply update_sim; [exact H|apply blank_sim]|]. intros p1 q1 H1. apply IH, H1.
Qed.
Lemma sp_feed_sim c l : forall s t, nsp s t -> osim nsp (sp_feed c s l) (sp_feed c t (map blank l)).
Proof.
  induction l as [|x l IH]; intros p q H; [exact H|]. cbn [map sp_feed].
  eapply osim_bind; [apply sp_update_sim; [exact H|apply blank_sim]|]. intros p1 q1 H1. apply IH, H1.
Qed.
Lemma osim_eq {A} (x y : outcome A) : osim eq x y -> x = y.
Proof. destruct x, y; cbn [osim]; intros H; try contradiction; congruence. Qed.
Lemma map_blank l l' : map (@length byte) l = map (@length byte) l' -> map blank l = map blank l'.
Proof.
  revert l'. induction l as [|x l IH]; intros [|y l'] H; try discriminate H; [reflexivity|].
  injection H as H0 H. cbn [map]. rewrite (blank_eq _ _ H0), (IH _ H). reflexivity.
Qed.

Lemma text_blank c l pieces : text_of c l pieces = text_of c (map blank_setter l) (map blank pieces).
Proof.
  apply osim_eq. unfold text_of. eapply osim_bind; [apply setters_sim, npar_refl|]. intros p q H.
  eapply osim_bind; [apply with_params_sim, H|]. intros s t Hs.
  eapply osim_bind; [apply feed_sim, Hs|]. intros s1 t1 H1. cbn [osim]. apply state_debug_sim, H1.
Qed.
Lemma sp_text_blank c l pieces : sp_text_of c l pieces = sp_text_of c (map blank_sp_setter l) (map blank pieces).
Proof.
  apply osim_eq. unfold sp_text_of. eapply osim_bind; [apply sp_setters_sim; constructor; reflexivity|]. intros p q H.
  eapply osim_bind; [apply sp_with_params_sim, H|]. intros s t Hs.
  eapply osim_bind; [apply sp_feed_sim, Hs|]. intros s1 t1 H1. rewrite (sp_debug_sim c _ _ H1). apply osim_refl.
Qed.
Lemma no_leak_text c l1 l2 pieces1 pieces2 : map blank_setter l1 = map blank_setter l2 ->
  map (@length byte) pieces1 = map (@length byte) pieces2 ->
  (p <- build l1 ;; st <- to_state c p ;; st <- feed c st pieces1 ;; Ok (state_debug st)) =
  (p <- build l2 ;; st <- to_state c p ;; st <- feed c st pieces2 ;; Ok (state_debug st)).
Proof.
  intros El Ep. apply map_blank in Ep.
  pose proof (text_blank c l1 pieces1) as E1. pose proof (text_blank c l2 pieces2) as E2.
  rewrite El, Ep in E1. exact (eq_trans E1 (eq_sym E2)).
Qed.
Lemma no_leak_sp_text c l1 l2 pieces1 pieces2 : map blank_sp_setter l1 = map blank_sp_setter l2 ->
  map (@length byte) pieces1 = map (@length byte) pieces2 ->
  (p <- sp_build l1 ;; st <- sp_to_state c p ;; st <- sp_feed c st pieces1 ;; sp_state_debug c st) =
  (p <- sp_build l2 ;; st <- sp_to_state c p ;; st <- sp_feed c st pieces2 ;; sp_state_debug c st).
Proof.
  intros El Ep. apply map_blank in Ep.
  pose proof (sp_text_blank c l1 pieces1) as E1. pose proof (sp_text_blank c l2 pieces2) as E2.
  rewrite El, Ep in E1. exact (eq_trans E1 (eq_sym E2)).
Qed.
Lemma no_leak_sp_params l1 l2 : map blank_sp_setter l1 = map blank_sp_setter l2 ->
  (p <- sp_build l1 ;; Ok (sp_params_debug p)) = (p <- sp_build l2 ;; Ok (sp_params_debug p)).
Proof.
  assert (B : forall l, (p <- sp_build l ;; Ok (sp_params_debug p)) =
                        (p <- sp_build (map blank_sp_setter l) ;; Ok (sp_params_debug p))).
  { intros l. apply osim_eq. eapply osim_bind; [apply sp_setters_sim; constructor; reflexivity|]. intros p q [].
    cbn [osim]. unfold sp_params_debug. rewrite nq_hash0, nq_kl0. reflexivity. }
  intros E. rewrite (B l1), (B l2), E. reflexivity.
Qed.
