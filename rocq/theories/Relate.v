(** * Relate: two platforms, side by side.

    The same program on two platforms with the same build profile does the same
    thing, call by call, whatever the program: both calls return related values or
    both panic.  Taking the same platform twice: no call has undefined behaviour. *)
From Verif Require Import Base BaseFacts Consts Portable Params State Many Blake2sp Debug StateFacts
  ParamsSpec ParamsFacts Refine HashFacts Avx2Facts Sse41Facts ManyFacts Hash8Facts ExactFacts SpFacts
  Machine MachineSpec MachineFacts.
From Verif Require Spec.
From Coq Require Import ZArith Lia ZifyBool ZifyNat ZifyN.
Local Open Scope N_scope.

(** ** Outcomes.  [P]: when panics are possible. *)
Definition orelP (P : Prop) {A B} (R : A -> B -> Prop) (x : outcome A) (y : outcome B) : Prop :=
  match x, y with
  | Ok a, Ok b => R a b
  | Panic, Panic => P
  | _, _ => False
  end.
Lemma orel_bind {P : Prop} {A B C D} (R : A -> B -> Prop) (Q : C -> D -> Prop) x y f g :
  orelP P R x y -> (forall a b, R a b -> orelP P Q (f a) (g b)) -> orelP P Q (bind x f) (bind y g).
Proof. destruct x, y; cbn [orelP bind]; intros H Hf; auto; contradiction. Qed.
Lemma orel_mono {P : Prop} {A B} (R Q : A -> B -> Prop) x y :
  orelP P R x y -> (forall a b, R a b -> Q a b) -> orelP P Q x y.
Proof. destruct x, y; cbn [orelP]; auto. Qed.
Lemma orel_weaken {P P' : Prop} {A B} (R : A -> B -> Prop) x y :
  (P -> P') -> orelP P R x y -> orelP P' R x y.
Proof. destruct x, y; cbn [orelP]; auto. Qed.

Lemma oct_mapM_rel {P : Prop} {A A' B B'} (R : A -> A' -> Prop) (Q : B -> B' -> Prop) f f' a a' :
  (forall l, R (proj l a) (proj l a')) -> (forall x y, R x y -> orelP P Q (f x) (f' y)) ->
  orelP P (fun b b' => forall l, Q (proj l b) (proj l b')) (oct_mapM f a) (oct_mapM f' a').
Proof.
  intros H Hf. unfold oct_mapM.
  eapply orel_bind; [apply Hf, (H L0)|]. intros b0 c0 Q0.
  eapply orel_bind; [apply Hf, (H L1)|]. intros b1 c1 Q1.
  eapply orel_bind; [apply Hf, (H L2)|]. intros b2 c2 Q2.
  eapply orel_bind; [apply Hf, (H L3)|]. intros b3 c3 Q3.
  eapply orel_bind; [apply Hf, (H L4)|]. intros b4 c4 Q4.
  eapply orel_bind; [apply Hf, (H L5)|]. intros b5 c5 Q5.
  eapply orel_bind; [apply Hf, (H L6)|]. intros b6 c6 Q6.
  eapply orel_bind; [apply Hf, (H L7)|]. intros b7 c7 Q7.
  cbn [orelP]. intros []; cbn [proj o0 o1 o2 o3 o4 o5 o6 o7]; assumption.
Qed.
Lemma oct_mapM2_rel {P : Prop} {A A' B B' C C'} (R : A -> A' -> Prop) (T : B -> B' -> Prop) (Q : C -> C' -> Prop)
    f f' a a' b b' :
  (forall l, R (proj l a) (proj l a')) -> (forall l, T (proj l b) (proj l b')) ->
  (forall x x' y y', R x x' -> T y y' -> orelP P Q (f x y) (f' x' y')) ->
  orelP P (fun b b' => forall l, Q (proj l b) (proj l b')) (oct_mapM2 f a b) (oct_mapM2 f' a' b').
Proof.
  intros H1 H2 Hf. rewrite !oct_mapM2_mapM.
  apply oct_mapM_rel with (R := fun p q => R (fst p) (fst q) /\ T (snd p) (snd q)).
  - intros l. rewrite !proj_map2. split; [apply H1|apply H2].
  - intros x y (Hx & Hy). apply Hf; assumption.
Qed.

Section TwoPlatforms.
Variables c1 c2 : cfg.
Hypothesis Hc1 : cfg_ok c1.
Hypothesis Hc2 : cfg_ok c2.
Hypothesis Hovf : overflow_checks c1 = overflow_checks c2.
Hypothesis Hdbg : debug_assertions c1 = debug_assertions c2.
Definition checked : Prop := overflow_checks c1 = true \/ debug_assertions c1 = true.
Local Notation orel := (orelP checked).

Lemma uadd_rel {w} (a b : uint w) : orel eq (uadd c1 a b) (uadd c2 a b).
Proof.
  unfold uadd. rewrite Hovf. destruct (val a + val b <? 2 ^ w); [reflexivity|].
  destruct (overflow_checks c2) eqn:E; [left; congruence|reflexivity].
Qed.
Lemma uadd_small {w} c (a b : uint w) : val a + val b < 2 ^ w ->
  exists n, uadd c a b = Ok n /\ val n = val a + val b.
Proof.
  intros H. exists (of_N w (val a + val b)). unfold uadd.
  destruct (N.ltb_spec (val a + val b) (2 ^ w)); [|lia]. split; [reflexivity|].
  rewrite val_of_N. apply N.mod_small, H.
Qed.
Lemma debug_rel b : orel eq (debug_assert c1 b) (debug_assert c2 b).
Proof.
  unfold debug_assert. rewrite Hdbg. destruct (debug_assertions c2) eqn:E, b; try reflexivity.
  right. congruence.
Qed.

(** ** States: the same but for the unused part of the buffer. *)
Record srel (s1 s2 : State) : Prop := {
  sl_h : st_h s2 = st_h s1;
  sl_buf : firstn (buflen_nat s1) (st_buf s2) = firstn (buflen_nat s1) (st_buf s1);
  sl_buflen : st_buflen s2 = st_buflen s1;
  sl_count : st_count s2 = st_count s1;
  sl_last : st_last_node s2 = st_last_node s1;
  sl_hash : st_hash_length s2 = st_hash_length s1;
  sl_len : length (st_buf s1) = 64%nat;
  sl_len2 : length (st_buf s2) = 64%nat;
  sl_room : val (st_buflen s1) <= 64;
  sl_dlen : 1 <= val (st_hash_length s1) <= 32;
  sl_f1 : fn_ok c1 (st_compress_fn s1);
  sl_f2 : fn_ok c2 (st_compress_fn s2)
}.
Definition irel (x y : State * list byte) : Prop := srel (fst x) (fst y) /\ snd x = snd y.

Lemma compress_rel s1 s2 msg n lb ln : srel s1 s2 -> length msg = 64%nat ->
  call_compress c1 (st_compress_fn s1) (st_h s1) msg n lb ln =
    Ok (Portable.compress (st_h s1) msg n lb ln) /\
  call_compress c2 (st_compress_fn s2) (st_h s2) msg n lb ln =
    Ok (Portable.compress (st_h s1) msg n lb ln).
Proof.
  intros H Hm. rewrite (sl_h _ _ H).
  split; apply call_compress_ok; try exact Hm; [apply (sl_f1 _ _ H)|apply (sl_f2 _ _ H)].
Qed.

Lemma fill_buf_rel s1 s2 i : srel s1 s2 ->
  orel (fun x y => irel x y /\ (length (snd x) <= length i)%nat /\
          (snd x <> [] -> st_buf (fst y) = st_buf (fst x)))
    (fill_buf c1 s1 i) (fill_buf c2 s2 i).
Proof.
  intros H. pose proof (sl_room _ _ H) as Hr. pose proof (sl_len _ _ H) as Hl.
  pose proof (sl_len2 _ _ H) as Hl2. pose proof (sl_buf _ _ H) as Hbuf. unfold buflen_nat in Hbuf.
  unfold fill_buf, buflen_nat, BLOCKBYTES. rewrite (sl_buflen _ _ H), (sl_count _ _ H).
  rewrite !nsub_ok by lia. cbn [bind]. cbv zeta.
  set (take := Nat.min (64 - N.to_nat (val (st_buflen s1))) (length i)).
  rewrite slice_to_ok by lia. cbn [bind].
  rewrite !copy_into_ok by (rewrite ?firstn_length; lia). cbn [bind]. rewrite Hbuf.
  destruct (uadd_small c1 (st_buflen s1) (of_N 8 (N.of_nat take))) as (n & E1 & Hn).
  { rewrite val_of_N, N.mod_small by (change (2 ^ 8) with 256; lia). change (2 ^ 8) with 256. lia. }
  destruct (uadd_small c2 (st_buflen s1) (of_N 8 (N.of_nat take))) as (n' & E2 & Hn').
  { rewrite val_of_N, N.mod_small by (change (2 ^ 8) with 256; lia). change (2 ^ 8) with 256. lia. }
  assert (n' = n) as -> by (apply val_inj; congruence).
  rewrite E1, E2. cbn [bind].
  rewrite val_of_N, N.mod_small in Hn by (change (2 ^ 8) with 256; lia).
  eapply orel_bind; [apply uadd_rel|]. intros m m' <-.
  rewrite slice_from_ok by lia. cbn [bind orelP]. unfold irel. cbn [fst snd].
  set (pre := firstn (N.to_nat (val (st_buflen s1))) (st_buf s1)).
  assert (Hpre : length (pre ++ firstn take i) = (N.to_nat (val (st_buflen s1)) + take)%nat).
  { subst pre. rewrite app_length, !firstn_length. lia. }
  split; [|split; [rewrite skipn_length; lia|]].
  - split; [|reflexivity].
    destruct H. constructor; cbn [st_h st_buf st_buflen st_count st_last_node st_hash_length st_compress_fn];
      try assumption; try reflexivity.
    + unfold buflen_nat. cbn [st_buflen]. rewrite !app_assoc.
      replace (N.to_nat (val n)) with (length (pre ++ firstn take i)) by lia.
      generalize (pre ++ firstn take i). intros u.
      rewrite !firstn_app, !firstn_all, Nat.sub_diag, !firstn_O. reflexivity.
    + rewrite app_assoc, app_length, Hpre, skipn_length. lia.
    + rewrite app_assoc, app_length, Hpre, skipn_length. lia.
    + lia.
  - intros Hne. cbn [st_buf].
    assert (length (skipn take i) <> 0)%nat by (destruct (skipn take i); [contradiction Hne; reflexivity|discriminate]).
    rewrite skipn_length in *. rewrite !skipn_all2 by lia. reflexivity.
Qed.

Lemma compress_buffer_rel s1 s2 i : srel s1 s2 ->
  orel irel (compress_buffer_if_possible c1 s1 i) (compress_buffer_if_possible c2 s2 i).
Proof.
  intros H. unfold compress_buffer_if_possible. rewrite (sl_buflen _ _ H).
  destruct (0 <? val (st_buflen s1)); [|split; [exact H|reflexivity]].
  eapply orel_bind; [apply fill_buf_rel, H|]. intros [t1 r1] [t2 r2] ((Ht & Hr) & _ & Hfull).
  cbn [fst snd] in *. subst r2. destruct r1 as [|b r]; [split; [exact Ht|reflexivity]|].
  rewrite Hfull by discriminate. rewrite (sl_count _ _ Ht).
  destruct (compress_rel t1 t2 (st_buf t1) (st_count t1) (uzero 32) (uzero 32) Ht (sl_len _ _ Ht)) as [-> ->].
  cbn [bind orelP]. split; [|reflexivity]. destruct Ht. constructor; cbn [fst snd st_h st_buf st_buflen st_count st_last_node st_hash_length st_compress_fn];
    try assumption; try reflexivity. rewrite val_uzero. lia.
Qed.

Lemma update_loop_rel fuel : forall s1 s2 i, srel s1 s2 -> (length i < fuel)%nat ->
  orel irel (update_loop fuel c1 s1 i) (update_loop fuel c2 s2 i).
Proof.
  induction fuel as [|fuel IH]; intros s1 s2 i H Hf; [lia|]. cbn [update_loop]. unfold BLOCKBYTES in *.
  destruct (Nat.ltb_spec 64 (length i)) as [Hi|Hi]; [|split; [exact H|reflexivity]].
  rewrite (sl_count _ _ H). eapply orel_bind; [apply uadd_rel|]. intros n n' <-.
  rewrite array_ref_ok by lia. cbn [bind].
  destruct (compress_rel s1 s2 (firstn 64 (skipn 0 i)) n (uzero 32) (uzero 32) H) as [-> ->].
  { rewrite firstn_length, skipn_length. lia. }
  cbn [bind]. rewrite slice_from_ok by lia. cbn [bind]. apply IH; [|rewrite skipn_length; lia].
  destruct H. constructor; cbn [st_h st_buf st_buflen st_count st_last_node st_hash_length st_compress_fn];
    try assumption; reflexivity.
Qed.

Lemma update_rel s1 s2 i : srel s1 s2 -> orel srel (update c1 s1 i) (update c2 s2 i).
Proof.
  intros H. unfold update.
  eapply orel_bind; [apply compress_buffer_rel, H|]. intros [t1 r1] [t2 r2] (Ht & Hr).
  cbn [fst snd] in *. subst r2.
  eapply orel_bind; [apply update_loop_rel; [exact Ht|lia]|]. intros [u1 q1] [u2 q2] (Hu & Hq).
  cbn [fst snd] in *. subst q2.
  eapply orel_bind; [apply fill_buf_rel, Hu|]. intros [v1 p1] [v2 p2] ((Hv & _) & _). exact Hv.
Qed.

(** Two hashes: the same, and of the right shape. *)
Definition hrel (h1 h2 : Hash) : Prop := h1 = h2 /\ hash_wf h1.
Lemma words_hash_wf w n : 1 <= val n <= 32 -> hash_wf {| h_bytes := state_words_to_bytes w; h_len := n |}.
Proof.
  intros H. split; [|exact H]. cbn [h_bytes]. rewrite state_bytes_ok.
  apply words_bytes_32. destruct w. reflexivity.
Qed.

Lemma zero_tail_length b n : length (zero_tail b n) = length b.
Proof.
  unfold zero_tail. generalize (seq n (BLOCKBYTES - n)). intros l. revert b.
  induction l as [|i l IH]; intros b; cbn [fold_left]; [reflexivity|]. rewrite IH. apply upd_length.
Qed.
Lemma zero_tail_rel s1 s2 : srel s1 s2 ->
  zero_tail (st_buf s2) (buflen_nat s2) = zero_tail (st_buf s1) (buflen_nat s1).
Proof.
  intros H. pose proof (sl_room _ _ H) as Hr. pose proof (sl_buf _ _ H) as Hb. unfold buflen_nat in *.
  rewrite (sl_buflen _ _ H).
  rewrite !zero_tail_ok by (try apply H; lia). rewrite Hb. reflexivity.
Qed.
Lemma srel_zeroed s1 s2 : srel s1 s2 ->
  srel (set_buf s1 (zero_tail (st_buf s1) (buflen_nat s1)))
       (set_buf s2 (zero_tail (st_buf s2) (buflen_nat s2))).
Proof.
  intros H. rewrite (zero_tail_rel _ _ H).
  destruct H. constructor; cbn [set_buf st_h st_buf st_buflen st_count st_last_node st_hash_length st_compress_fn];
    try assumption; try reflexivity; rewrite zero_tail_length; assumption.
Qed.

Lemma finalize_rel s1 s2 : srel s1 s2 ->
  orel (fun x y => srel (fst x) (fst y) /\ hrel (snd x) (snd y)) (finalize c1 s1) (finalize c2 s2).
Proof.
  intros H. unfold finalize. cbv zeta.
  pose proof (srel_zeroed _ _ H) as Hz.
  fold (set_buf s1 (zero_tail (st_buf s1) (buflen_nat s1))).
  fold (set_buf s2 (zero_tail (st_buf s2) (buflen_nat s2))).
  assert (Eb : st_buf (set_buf s2 (zero_tail (st_buf s2) (buflen_nat s2))) =
               st_buf (set_buf s1 (zero_tail (st_buf s1) (buflen_nat s1)))) by apply (zero_tail_rel _ _ H).
  set (t1 := set_buf s1 _) in *. set (t2 := set_buf s2 _) in *.
  rewrite Eb, (sl_count _ _ Hz), (sl_last _ _ Hz), (sl_hash _ _ Hz).
  destruct (compress_rel t1 t2 (st_buf t1) (st_count t1) (umax 32) (flag32 (st_last_node t1)) Hz (sl_len _ _ Hz)) as [-> ->].
  cbn [bind orelP fst snd]. split; [exact Hz|]. split; [reflexivity|]. apply words_hash_wf, Hz.
Qed.

Definition pwf (p : Params) : Prop := length (p_key p) = 32%nat /\ 1 <= val (p_hash_length p) <= 32.
Lemma encodes_pwf p sp ln : encodes p sp ln -> pwf p.
Proof.
  intros E. split.
  - rewrite (e_key _ _ _ E), SpecFacts.pad_length. pose proof (e_key_ok _ _ _ E). lia.
  - rewrite (e_hash _ _ _ E). apply E.
Qed.
Lemma to_state_rel p : pwf p -> orel srel (to_state c1 p) (to_state c2 p).
Proof.
  intros (Hk & Hh). unfold to_state, with_params. cbv zeta.
  assert (H0 : forall b, length b = 64%nat -> srel
    {| st_h := make_words p; st_buf := b; st_buflen := of_N 8 0; st_count := of_N 64 0;
       st_compress_fn := fn_compress (default_compress_impl c1); st_last_node := p_last_node p;
       st_hash_length := p_hash_length p |}
    {| st_h := make_words p; st_buf := b; st_buflen := of_N 8 0; st_count := of_N 64 0;
       st_compress_fn := fn_compress (default_compress_impl c2); st_last_node := p_last_node p;
       st_hash_length := p_hash_length p |}).
  { intros b Hb. constructor; cbn [st_h st_buf st_buflen st_count st_last_node st_hash_length st_compress_fn];
      try assumption; try reflexivity.
    - cbn. lia.
    - apply default_fn_ok, Hc1.
    - apply default_fn_ok, Hc2. }
  destruct (0 <? val (p_key_length p)).
  - rewrite copy_into_ok by (rewrite ?repeat_length; unfold BLOCKBYTES, KEYBYTES; lia). cbn [bind].
    apply update_rel, H0. reflexivity.
  - apply H0. reflexivity.
Qed.

Lemma srel_set_last s1 s2 b : srel s1 s2 -> srel (set_last_node s1 b) (set_last_node s2 b).
Proof. intros []; constructor; try assumption; reflexivity. Qed.
Lemma srel_portable s1 s2 : srel s1 s2 -> srel (force_portable s1) (force_portable s2).
Proof. intros []; constructor; try assumption; discriminate. Qed.

Lemma hash_one_rel p i : pwf p -> orel hrel (hash_one c1 p i) (hash_one c2 p i).
Proof.
  intros Hp. unfold hash_one. eapply orel_bind; [apply to_state_rel, Hp|]. intros s1 s2 H.
  eapply orel_bind; [apply update_rel, H|]. intros t1 t2 Ht.
  eapply orel_bind; [apply finalize_rel, Ht|]. intros [u1 h1] [u2 h2] (_ & Hh). exact Hh.
Qed.

(** ** Eight at a time *)
Definition srel8 (a b : oct State) : Prop := forall l, srel (proj l a) (proj l b).

Lemma bump_rel s1 s2 : srel s1 s2 -> orel srel (bump_count c1 s1) (bump_count c2 s2).
Proof.
  intros H. unfold bump_count. rewrite (sl_count _ _ H).
  eapply orel_bind; [apply uadd_rel|]. intros n n' <-. cbn [orelP].
  destruct H; constructor; cbn [set_count st_h st_buf st_buflen st_count st_last_node st_hash_length st_compress_fn];
    try assumption; reflexivity.
Qed.
Lemma compress8_rel f1 f2 (a b : oct State) msg lb ln : fn8_ok c1 f1 -> fn8_ok c2 f2 -> srel8 a b ->
  blocks_ok msg ->
  call_compress8 c1 f1 (oct_map st_h a) msg (oct_map st_count a) lb ln =
    Ok (Portable.compress8 (oct_map st_h a) msg (oct_map st_count a) lb ln) /\
  call_compress8 c2 f2 (oct_map st_h b) msg (oct_map st_count b) lb ln =
    Ok (Portable.compress8 (oct_map st_h a) msg (oct_map st_count a) lb ln).
Proof.
  intros Hf1 Hf2 H Hm.
  assert (Eh : oct_map st_h b = oct_map st_h a).
  { apply oct_ext. intros l. rewrite !proj_map. apply (sl_h _ _ (H l)). }
  assert (Ec : oct_map st_count b = oct_map st_count a).
  { apply oct_ext. intros l. rewrite !proj_map. apply (sl_count _ _ (H l)). }
  rewrite Eh, Ec. split; apply call_compress8_ok; assumption.
Qed.
Lemma srel8_set_h a b hs : srel8 a b -> srel8 (oct_map2 set_h a hs) (oct_map2 set_h b hs).
Proof.
  intros H l. rewrite !proj_map2. destruct (H l).
  constructor; cbn [set_h st_h st_buf st_buflen st_count st_last_node st_hash_length st_compress_fn];
    try assumption; reflexivity.
Qed.

Lemma update8_loop_rel f1 f2 fuel : fn8_ok c1 f1 -> fn8_ok c2 f2 -> forall a b i, srel8 a b ->
  (length (proj L0 i) < fuel)%nat ->
  orel (fun x y => srel8 (fst x) (fst y) /\ snd x = snd y)
    (update8_loop fuel c1 f1 a i) (update8_loop fuel c2 f2 b i).
Proof.
  intros Hf1 Hf2. induction fuel as [|fuel IH]; intros a b i H Hf; [lia|]. cbn [update8_loop].
  destruct (oct_all (fun x => Nat.ltb BLOCKBYTES (length x)) i) eqn:Ha; [|split; [exact H|reflexivity]].
  rewrite oct_all_spec in Ha. unfold BLOCKBYTES in *.
  assert (Hlen : forall l, (64 < length (proj l i))%nat).
  { intros l. specialize (Ha l). cbv beta in Ha. lia. }
  eapply orel_bind; [apply (oct_mapM_rel srel srel); [exact H|exact bump_rel]|]. intros a1 b1 H1.
  change (srel8 a1 b1) in H1.
  rewrite (oct_mapM_ok _ _ (oct_map (firstn 64) i)).
  2: { intros l. rewrite proj_map. specialize (Hlen l). rewrite array_ref_ok by lia. reflexivity. }
  cbn [bind].
  destruct (compress8_rel f1 f2 a1 b1 (oct_map (firstn 64) i) (oct_const (uzero 32)) (oct_const (uzero 32)) Hf1 Hf2 H1)
    as [-> ->].
  { intros l. rewrite proj_map, firstn_length. specialize (Hlen l). lia. }
  cbn [bind].
  rewrite (oct_mapM_ok _ _ (oct_map (skipn 64) i)).
  2: { intros l. rewrite proj_map. specialize (Hlen l). rewrite slice_from_ok by lia. reflexivity. }
  cbn [bind]. apply IH; [apply srel8_set_h, H1|].
  rewrite proj_map, skipn_length. specialize (Hlen L0). lia.
Qed.

Lemma update8_rel a b i : srel8 a b -> orel srel8 (update8 c1 a i) (update8 c2 b i).
Proof.
  intros H. unfold update8.
  eapply orel_bind.
  { apply (oct_mapM2_rel srel eq irel); [exact H|reflexivity|].
    intros x x' y y' Hx <-. apply compress_buffer_rel, Hx. }
  intros x y Hxy. cbv zeta.
  assert (E : oct_map snd y = oct_map snd x).
  { apply oct_ext. intros l. rewrite !proj_map. symmetry. apply Hxy. }
  rewrite E. eapply orel_bind.
  { pose proof (Hxy L0) as H0. cbn [proj] in H0. rewrite <- (proj2 H0).
    apply update8_loop_rel; [apply default_fn8_ok|apply default_fn8_ok| |].
    - intros l. rewrite !proj_map. apply Hxy.
    - rewrite proj_map. cbn [proj]. lia. }
  intros [s1 i1] [s2 i2] (Hs & Hi). cbn [fst snd] in *. subst i2.
  apply (oct_mapM2_rel srel eq srel); [exact Hs|reflexivity|].
  intros x0 x' y0 y' Hx <-. apply update_rel, Hx.
Qed.

Lemma finalize8_rel a b : srel8 a b ->
  orel (fun x y => srel8 (fst x) (fst y) /\ forall l, hrel (proj l (snd x)) (proj l (snd y)))
    (finalize8 c1 a) (finalize8 c2 b).
Proof.
  intros H. unfold finalize8. cbv zeta.
  set (a1 := oct_map (fun st => set_buf st _) a). set (b1 := oct_map (fun st => set_buf st _) b).
  assert (H1 : srel8 a1 b1).
  { intros l. subst a1 b1. rewrite !proj_map. apply srel_zeroed, H. }
  assert (Eb : oct_map st_buf b1 = oct_map st_buf a1).
  { apply oct_ext. intros l. subst a1 b1. rewrite !proj_map. apply (zero_tail_rel _ _ (H l)). }
  assert (El : oct_map (fun st => flag32 (st_last_node st)) b1 = oct_map (fun st => flag32 (st_last_node st)) a1).
  { apply oct_ext. intros l. rewrite !proj_map, (sl_last _ _ (H1 l)). reflexivity. }
  rewrite Eb, El.
  destruct (compress8_rel _ _ a1 b1 (oct_map st_buf a1) (oct_const (umax 32))
     (oct_map (fun st => flag32 (st_last_node st)) a1) (default_fn8_ok c1) (default_fn8_ok c2) H1) as [-> ->].
  { intros l. rewrite proj_map. apply (sl_len _ _ (H1 l)). }
  cbn [bind orelP fst snd]. split; [exact H1|]. intros l. rewrite !proj_map2, (sl_hash _ _ (H1 l)).
  split; [reflexivity|]. apply words_hash_wf, (sl_dlen _ _ (H1 l)).
Qed.

(** ** BLAKE2sp *)
Record sprel (s1 s2 : SpState) : Prop := {
  pl_leaves : srel8 (sp_leaves s1) (sp_leaves s2);
  pl_root : srel (sp_root s1) (sp_root s2);
  pl_buf : sp_buf s2 = sp_buf s1;
  pl_buflen : sp_buflen s2 = sp_buflen s1;
  pl_len : length (sp_buf s1) = 1024%nat;
  pl_room : val (sp_buflen s1) <= 1024;
  pl_f1 : fn8_ok c1 (sp_compress8_fn s1);
  pl_f2 : fn8_ok c2 (sp_compress8_fn s2)
}.
Definition sprel_in (x y : SpState * list byte) : Prop := sprel (fst x) (fst y) /\ snd x = snd y.

Lemma setter_rel p (s : setter) : pwf p -> valid_setter s = true ->
  orel (fun p1 p2 => p1 = p2 /\ pwf p1) (apply_setter p s) (apply_setter p s).
Proof.
  intros (H1 & H2) V. unfold pwf.
  destruct s; cbn [apply_setter valid_setter] in *;
    unfold set_hash_length, set_key, set_salt, set_personal, set_fanout, set_max_depth,
      set_max_leaf_length, set_node_offset, set_node_depth, set_inner_hash_length, set_last_node_param,
      KEYBYTES, SALTBYTES, PERSONALBYTES, OUTBYTES;
    try match goal with |- context [if ?b then _ else _] => replace b with true by (symmetry; lia) end;
    try (rewrite copy_into_ok by (rewrite ?repeat_length; lia); cbn [bind]);
    cbn [orelP p_key p_hash_length]; (split; [reflexivity|]); (split; [|try assumption]); try assumption.
  - rewrite val_of_N, N.mod_small; [lia|]. change (2 ^ 8) with 256. lia.
  - rewrite !app_length, firstn_O, skipn_length, repeat_length. cbn [length]. lia.
Qed.

Lemma leaf_rel p i : pwf p -> i < 8 -> orel srel (leaf_state c1 p i) (leaf_state c2 p i).
Proof.
  intros Hp Hi. unfold leaf_state.
  eapply orel_bind; [apply (setter_rel p (SNodeOffset _) Hp)|].
  { cbn [valid_setter]. rewrite val_of_N. change (2 ^ 64) with (2 ^ 48 * 65536).
    assert (8 < 2 ^ 48) by reflexivity. rewrite N.mod_small by lia. lia. }
  intros p1 p1' (<- & Hp1).
  eapply orel_bind; [apply (setter_rel p1 (SNodeDepth _) Hp1); reflexivity|]. intros p2 p2' (<- & Hp2).
  eapply orel_bind; [apply (setter_rel p2 (SLastNode _) Hp2); reflexivity|]. intros p3 p3' (<- & Hp3).
  eapply orel_bind; [apply to_state_rel, Hp3|]. intros s1 s2 H. cbn [orelP].
  destruct H; constructor; cbn [set_st_hash_length st_h st_buf st_buflen st_count st_last_node st_hash_length st_compress_fn];
    try assumption; try reflexivity. cbn. lia.
Qed.

Definition sp_pwf (p : SpParams) : Prop :=
  length (sp_key p) = 32%nat /\ 1 <= val (sp_hash_length p) <= 32 /\ val (sp_key_length p) <= 32.
Lemma sp_encodes_pwf p d k : sp_encodes p d k -> sp_pwf p.
Proof.
  intros H. pose proof (se_hash _ _ _ H). pose proof (se_hash_ok _ _ _ H). pose proof (se_kl _ _ _ H).
  pose proof (se_key_ok _ _ _ H). split; [|split].
  - rewrite (se_key _ _ _ H), SpecFacts.pad_length. lia.
  - lia.
  - lia.
Qed.

Lemma sp_to_state_rel p : sp_pwf p -> orel sprel (sp_to_state c1 p) (sp_to_state c2 p).
Proof.
  intros (H1 & H2 & H3). unfold sp_to_state, sp_with_params.
  eapply orel_bind.
  { apply (setter_rel Params_new (SHashLength _)); [apply (encodes_pwf _ _ _ encodes_default)|].
    cbn [valid_setter]. lia. }
  intros p1 p1' (<- & Hp1).
  rewrite slice_to_ok by lia. cbn [bind].
  eapply orel_bind; [apply (setter_rel p1 (SKey _) Hp1); cbn [valid_setter]; rewrite firstn_length; lia|]. intros p2 p2' (<- & Hp2).
  eapply orel_bind; [apply (setter_rel p2 (SFanout _) Hp2); reflexivity|]. intros p3 p3' (<- & Hp3).
  eapply orel_bind; [apply (setter_rel p3 (SMaxDepth _) Hp3); reflexivity|]. intros p4 p4' (<- & Hp4).
  eapply orel_bind; [apply (setter_rel p4 (SMaxLeafLength _) Hp4); reflexivity|]. intros p5 p5' (<- & Hp5).
  eapply orel_bind; [apply (setter_rel p5 (SInnerHashLength _) Hp5); reflexivity|]. intros b b' (<- & Hb).
  eapply orel_bind; [apply (setter_rel b (SNodeOffset _) Hb); reflexivity|]. intros p6 p6' (<- & Hp6).
  eapply orel_bind; [apply (setter_rel p6 (SNodeDepth _) Hp6); reflexivity|]. intros p7 p7' (<- & Hp7).
  eapply orel_bind; [apply (setter_rel p7 (SLastNode _) Hp7); reflexivity|]. intros p8 p8' (<- & Hp8).
  eapply orel_bind; [apply to_state_rel, Hp8|]. intros r1 r2 Hr. cbv zeta.
  eapply orel_bind.
  { apply (oct_mapM_rel (fun x y => x = y /\ x < 8) srel); [intros []; split; reflexivity|].
    intros x y (<- & Hx). apply leaf_rel; assumption. }
  intros l1 l2 Hl. cbn [orelP]. constructor; cbn [sp_leaves sp_root sp_buf sp_buflen sp_compress8_fn].
  - exact Hl.
  - destruct Hr. constructor; cbn [st_h st_buf st_buflen st_count st_last_node st_hash_length st_compress_fn];
      try assumption; try reflexivity. cbn. lia.
  - reflexivity.
  - reflexivity.
  - apply repeat_length.
  - cbn. lia.
  - apply default_fn8_ok.
  - apply default_fn8_ok.
Qed.

Lemma sp_fill_buf_rel s1 s2 i : sprel s1 s2 ->
  orel (fun x y => sprel_in x y /\ (length (snd x) <= length i)%nat /\
          (snd x <> [] -> val (sp_buflen (fst x)) = 1024))
    (sp_fill_buf c1 s1 i) (sp_fill_buf c2 s2 i).
Proof.
  intros H. pose proof (pl_room _ _ H) as Hr. pose proof (pl_len _ _ H) as Hl.
  unfold sp_fill_buf, sp_buflen_nat. rewrite (pl_buflen _ _ H), (pl_buf _ _ H), Hl.
  rewrite !nsub_ok by lia. cbn [bind]. cbv zeta.
  set (take := Nat.min (1024 - N.to_nat (val (sp_buflen s1))) (length i)).
  rewrite slice_to_ok by lia. cbn [bind].
  rewrite copy_into_ok by (rewrite ?firstn_length; lia). cbn [bind].
  assert (Hv : val (of_N 16 (N.of_nat take)) = N.of_nat take).
  { rewrite val_of_N, N.mod_small; [reflexivity|]. change (2 ^ 16) with 65536. lia. }
  destruct (uadd_small c1 (sp_buflen s1) (of_N 16 (N.of_nat take))) as (n & E1 & Hn).
  { rewrite Hv. change (2 ^ 16) with 65536. lia. }
  destruct (uadd_small c2 (sp_buflen s1) (of_N 16 (N.of_nat take))) as (n' & E2 & Hn').
  { rewrite Hv. change (2 ^ 16) with 65536. lia. }
  assert (n' = n) as -> by (apply val_inj; congruence).
  rewrite E1, E2. cbn [bind]. rewrite Hv in Hn.
  rewrite slice_from_ok by lia. cbn [bind orelP]. unfold sprel_in. cbn [fst snd].
  split; [|split; [rewrite skipn_length; lia|]].
  - split; [|reflexivity]. destruct H. constructor; cbn [sp_leaves sp_root sp_buf sp_buflen sp_compress8_fn];
      try assumption; try reflexivity.
    + rewrite !app_length, !firstn_length, skipn_length. lia.
    + lia.
  - intros Hne. cbn [sp_buflen]. rewrite Hn.
    assert (length (skipn take i) <> 0)%nat by (destruct (skipn take i); [contradiction Hne; reflexivity|discriminate]).
    rewrite skipn_length in *. lia.
Qed.

Lemma sp_compress8_rel f1 f2 blk a b : fn8_ok c1 f1 -> fn8_ok c2 f2 -> length blk = 512%nat -> srel8 a b ->
  orel srel8 (sp_compress8 c1 blk a f1) (sp_compress8 c2 blk b f2).
Proof.
  intros Hf1 Hf2 Hb H. unfold sp_compress8.
  assert (E1 : oct_all (fun l => 0 =? val (st_buflen l)) b = oct_all (fun l => 0 =? val (st_buflen l)) a).
  { apply eq_true_iff_eq. rewrite !oct_all_spec. split; intros Hx l; specialize (Hx l); cbv beta in *;
      [rewrite <- (sl_buflen _ _ (H l))|rewrite (sl_buflen _ _ (H l))]; exact Hx. }
  assert (E2 : oct_all (fun l => val (st_count (o0 b)) =? val (st_count l)) b =
               oct_all (fun l => val (st_count (o0 a)) =? val (st_count l)) a).
  { pose proof (sl_count _ _ (H L0)) as H0. cbn [proj] in H0. rewrite H0.
    apply eq_true_iff_eq. rewrite !oct_all_spec. split; intros Hx l; specialize (Hx l); cbv beta in *;
      [rewrite <- (sl_count _ _ (H l))|rewrite (sl_count _ _ (H l))]; exact Hx. }
  rewrite E1, E2.
  eapply orel_bind; [apply debug_rel|]. intros _ _ _.
  eapply orel_bind; [apply debug_rel|]. intros _ _ _.
  eapply orel_bind; [apply (oct_mapM_rel srel srel); [exact H|exact bump_rel]|]. intros a1 b1 H1.
  change (srel8 a1 b1) in H1.
  destruct (compress8_rel f1 f2 a1 b1 (eight_blocks blk) (oct_const (uzero 32)) (oct_const (uzero 32)) Hf1 Hf2 H1)
    as [-> ->].
  { intros l. rewrite eight_blocks_lane. unfold sub. rewrite firstn_length, skipn_length.
    pose proof (idx_lt l). lia. }
  cbn [bind orelP]. apply srel8_set_h, H1.
Qed.

Lemma sprel_leaves s1 s2 a b : sprel s1 s2 -> srel8 a b -> sprel (sp_set_leaves s1 a) (sp_set_leaves s2 b).
Proof. intros [] H; constructor; cbn [sp_set_leaves sp_leaves sp_root sp_buf sp_buflen sp_compress8_fn]; assumption. Qed.

Lemma sp_empty_rel s1 s2 i : sprel s1 s2 ->
  orel sprel_in (sp_empty_buffer c1 s1 i) (sp_empty_buffer c2 s2 i).
Proof.
  intros H. unfold sp_empty_buffer, BLOCKBYTES. rewrite (pl_buflen _ _ H).
  destruct (0 <? val (sp_buflen s1)); [|split; [exact H|reflexivity]].
  eapply orel_bind; [apply sp_fill_buf_rel, H|]. intros [t1 r1] [t2 r2] ((Ht & Hr) & _ & Hfull).
  cbn [fst snd] in *. subst r2. destruct r1 as [|b0 r]; [split; [exact Ht|reflexivity]|].
  specialize (Hfull ltac:(discriminate)). rewrite (pl_buf _ _ Ht).
  rewrite array_ref_ok by (rewrite (pl_len _ _ Ht); lia). cbn [bind].
  eapply orel_bind.
  { apply sp_compress8_rel; [apply Ht|apply Ht| |apply Ht].
    rewrite firstn_length, skipn_length, (pl_len _ _ Ht). lia. }
  intros a b Hab. cbv zeta. cbn [sp_set_leaves sp_buflen sp_buf sp_leaves sp_compress8_fn].
  rewrite (pl_buflen _ _ Ht).
  assert (Hus : forall c, usub c (sp_buflen t1) (of_N 16 (N.of_nat (8 * 64))) = Ok (of_N 16 512)).
  { intros c. unfold usub. rewrite Hfull. reflexivity. }
  rewrite !Hus. cbn [bind]. cbn [sp_set_buflen sp_buflen sp_buf sp_leaves sp_compress8_fn].
  unfold sp_buflen_nat.
  cbn [sp_set_buflen sp_set_leaves sp_buflen sp_buf sp_leaves sp_compress8_fn].
  rewrite (pl_buf _ _ Ht).
  destruct (Nat.ltb (7 * 64) (length (b0 :: r))).
  - rewrite array_ref_ok by (rewrite (pl_len _ _ Ht); lia). cbn [bind].
    eapply orel_bind.
    { apply sp_compress8_rel; [apply Ht|apply Ht| |exact Hab].
      rewrite firstn_length, skipn_length, (pl_len _ _ Ht). lia. }
    intros a' b' Hab'. split; [|reflexivity]. cbn [fst].
    destruct Ht. constructor; cbn [sp_set_leaves sp_set_buflen sp_leaves sp_root sp_buf sp_buflen sp_compress8_fn];
      try assumption; try reflexivity. cbn. lia.
  - rewrite slice_to_ok by (rewrite (pl_len _ _ Ht); lia). cbn [bind].
    rewrite slice_from_ok by (rewrite (pl_len _ _ Ht); lia). cbn [bind].
    change (N.to_nat (val (of_N 16 512))) with 512%nat.
    pose proof (pl_len _ _ Ht) as Hl.
    rewrite slice_to_ok by (rewrite skipn_length; lia). cbn [bind].
    rewrite copy_into_ok.
    2: lia.
    2: rewrite firstn_length; lia.
    2: rewrite firstn_length, skipn_length; lia.
    cbn [bind]. split; [|reflexivity]. cbn [fst].
    destruct Ht. constructor; cbn [sp_set_buf sp_set_leaves sp_set_buflen sp_leaves sp_root sp_buf sp_buflen sp_compress8_fn];
      try assumption; try reflexivity.
    + rewrite !app_length, !firstn_length, !skipn_length, !firstn_length. lia.
    + cbn. lia.
Qed.

Lemma sp_loop_rel fuel : forall s1 s2 i, sprel s1 s2 -> (length i < fuel)%nat ->
  orel sprel_in (sp_update_loop fuel c1 s1 i) (sp_update_loop fuel c2 s2 i).
Proof.
  induction fuel as [|fuel IH]; intros s1 s2 i H Hf; [lia|]. cbn [sp_update_loop]. unfold BLOCKBYTES in *.
  destruct (Nat.ltb_spec (15 * 64) (length i)) as [Hi|Hi]; [|split; [exact H|reflexivity]].
  rewrite array_ref_ok by lia. cbn [bind].
  eapply orel_bind.
  { apply sp_compress8_rel; [apply H|apply H| |apply H]. rewrite firstn_length, skipn_length. lia. }
  intros a b Hab. rewrite slice_from_ok by lia. cbn [bind].
  apply IH; [apply sprel_leaves; assumption|rewrite skipn_length; lia].
Qed.

Lemma sp_update_rel s1 s2 i : sprel s1 s2 -> orel sprel (sp_update c1 s1 i) (sp_update c2 s2 i).
Proof.
  intros H. unfold sp_update.
  eapply orel_bind; [apply sp_empty_rel, H|]. intros [t1 r1] [t2 r2] (Ht & Hr).
  cbn [fst snd] in *. subst r2.
  eapply orel_bind; [apply sp_loop_rel; [exact Ht|lia]|]. intros [u1 q1] [u2 q2] (Hu & Hq).
  cbn [fst snd] in *. subst q2.
  eapply orel_bind; [apply sp_fill_buf_rel, Hu|]. intros [v1 p1] [v2 p2] ((Hv & Hp) & _).
  cbn [fst snd] in *. subst p2.
  eapply orel_bind; [apply debug_rel|]. intros _ _ _. exact Hv.
Qed.

Lemma feed_chunk_rel buf k n s1 s2 : srel s1 s2 -> length buf = 1024%nat -> (k < 16)%nat ->
  orel srel (feed_chunk c1 buf k n s1) (feed_chunk c2 buf k n s2).
Proof.
  intros H Hb Hk. unfold feed_chunk, BLOCKBYTES. rewrite slice_to_ok.
  2: { unfold sub. rewrite firstn_length, skipn_length. lia. }
  cbn [bind]. apply update_rel, H.
Qed.
Lemma feed_root_rel r1 r2 s1 s2 : srel r1 r2 -> srel s1 s2 ->
  orel srel (feed_root c1 r1 s1) (feed_root c2 r2 s2).
Proof.
  intros Hr H. unfold feed_root.
  eapply orel_bind; [apply finalize_rel, H|]. intros [t1 h1] [t2 h2] (_ & E & Hw). cbn [snd] in E. subst h2.
  cbn [snd] in Hw. rewrite as_bytes_ok by exact Hw. cbn [bind]. apply update_rel, Hr.
Qed.

Lemma sp_finalize_rel s1 s2 : sprel s1 s2 -> orel hrel (sp_finalize c1 s1) (sp_finalize c2 s2).
Proof.
  intros H. unfold sp_finalize, sp_buflen_nat. rewrite (pl_buf _ _ H), (pl_buflen _ _ H).
  pose proof (pl_leaves _ _ H) as Hl. pose proof (pl_len _ _ H) as Hb.
  destruct (sp_leaves s1) as [a0 a1 a2 a3 a4 a5 a6 a7], (sp_leaves s2) as [b0 b1 b2 b3 b4 b5 b6 b7].
  pose proof (Hl L0) as H0; pose proof (Hl L1) as H1; pose proof (Hl L2) as H2; pose proof (Hl L3) as H3;
  pose proof (Hl L4) as H4; pose proof (Hl L5) as H5; pose proof (Hl L6) as H6; pose proof (Hl L7) as H7.
  cbn [proj o0 o1 o2 o3 o4 o5 o6 o7] in *. clear Hl. cbv zeta.
  generalize (N.to_nat (val (sp_buflen s1))). intros n.
  eapply orel_bind; [apply (feed_chunk_rel _ _ _ _ _ H0 Hb); lia|]. clear H0. intros x0 y0 H0.
  eapply orel_bind; [apply (feed_chunk_rel _ _ _ _ _ H1 Hb); lia|]. clear H1. intros x1 y1 H1.
  eapply orel_bind; [apply (feed_chunk_rel _ _ _ _ _ H2 Hb); lia|]. clear H2. intros x2 y2 H2.
  eapply orel_bind; [apply (feed_chunk_rel _ _ _ _ _ H3 Hb); lia|]. clear H3. intros x3 y3 H3.
  eapply orel_bind; [apply (feed_chunk_rel _ _ _ _ _ H4 Hb); lia|]. clear H4. intros x4 y4 H4.
  eapply orel_bind; [apply (feed_chunk_rel _ _ _ _ _ H5 Hb); lia|]. clear H5. intros x5 y5 H5.
  eapply orel_bind; [apply (feed_chunk_rel _ _ _ _ _ H6 Hb); lia|]. clear H6. intros x6 y6 H6.
  eapply orel_bind; [apply (feed_chunk_rel _ _ _ _ _ H7 Hb); lia|]. clear H7. intros x7 y7 H7.
  eapply orel_bind; [apply (feed_chunk_rel _ _ _ _ _ H0 Hb); lia|]. clear H0. intros z0 w0 H0.
  eapply orel_bind; [apply (feed_chunk_rel _ _ _ _ _ H1 Hb); lia|]. clear H1. intros z1 w1 H1.
  eapply orel_bind; [apply (feed_chunk_rel _ _ _ _ _ H2 Hb); lia|]. clear H2. intros z2 w2 H2.
  eapply orel_bind; [apply (feed_chunk_rel _ _ _ _ _ H3 Hb); lia|]. clear H3. intros z3 w3 H3.
  eapply orel_bind; [apply (feed_chunk_rel _ _ _ _ _ H4 Hb); lia|]. clear H4. intros z4 w4 H4.
  eapply orel_bind; [apply (feed_chunk_rel _ _ _ _ _ H5 Hb); lia|]. clear H5. intros z5 w5 H5.
  eapply orel_bind; [apply (feed_chunk_rel _ _ _ _ _ H6 Hb); lia|]. clear H6. intros z6 w6 H6.
  eapply orel_bind; [apply (feed_chunk_rel _ _ _ _ _ H7 Hb); lia|]. clear H7. intros z7 w7 H7.
  pose proof (pl_root _ _ H) as Hr.
  eapply orel_bind; [apply (feed_root_rel _ _ _ _ Hr H0)|]. clear Hr. intros r0 q0 Hr.
  eapply orel_bind; [apply (feed_root_rel _ _ _ _ Hr H1)|]. clear Hr. intros r1 q1 Hr.
  eapply orel_bind; [apply (feed_root_rel _ _ _ _ Hr H2)|]. clear Hr. intros r2 q2 Hr.
  eapply orel_bind; [apply (feed_root_rel _ _ _ _ Hr H3)|]. clear Hr. intros r3 q3 Hr.
  eapply orel_bind; [apply (feed_root_rel _ _ _ _ Hr H4)|]. clear Hr. intros r4 q4 Hr.
  eapply orel_bind; [apply (feed_root_rel _ _ _ _ Hr H5)|]. clear Hr. intros r5 q5 Hr.
  eapply orel_bind; [apply (feed_root_rel _ _ _ _ Hr H6)|]. clear Hr. intros r6 q6 Hr.
  eapply orel_bind; [apply (feed_root_rel _ _ _ _ Hr H7)|]. clear Hr. intros r7 q7 Hr.
  eapply orel_bind; [apply (finalize_rel _ _ Hr)|]. intros [u1 h1] [u2 h2] (_ & Hh). exact Hh.
Qed.

Lemma sp_count_rel s1 s2 : sprel s1 s2 -> orel eq (sp_count c1 s1) (sp_count c2 s2).
Proof.
  intros H. unfold sp_count. cbv zeta. rewrite (pl_buflen _ _ H).
  assert (E : oct_map count (sp_leaves s2) = oct_map count (sp_leaves s1)).
  { apply oct_ext. intros l. rewrite !proj_map. apply (sl_count _ _ (pl_leaves _ _ H l)). }
  rewrite E. set (ls := oct_map count (sp_leaves s1)).
  eapply orel_bind; [apply uadd_rel|]. intros n0 m0 <-.
  eapply orel_bind; [apply uadd_rel|]. intros n1 m1 <-.
  eapply orel_bind; [apply uadd_rel|]. intros n2 m2 <-.
  eapply orel_bind; [apply uadd_rel|]. intros n3 m3 <-.
  eapply orel_bind; [apply uadd_rel|]. intros n4 m4 <-.
  eapply orel_bind; [apply uadd_rel|]. intros n5 m5 <-.
  eapply orel_bind; [apply uadd_rel|]. intros n6 m6 <-.
  apply uadd_rel.
Qed.
Lemma state_debug_rel s1 s2 : srel s1 s2 -> state_debug s2 = state_debug s1.
Proof.
  intros H. unfold state_debug. rewrite (sl_count _ _ H), (sl_hash _ _ H), (sl_last _ _ H). reflexivity.
Qed.
Lemma sp_debug_rel s1 s2 : sprel s1 s2 -> orel eq (sp_state_debug c1 s1) (sp_state_debug c2 s2).
Proof.
  intros H. unfold sp_state_debug. eapply orel_bind; [apply sp_count_rel, H|]. intros n m <-.
  cbn [orelP]. rewrite (state_debug_rel _ _ (pl_root _ _ H)).
  pose proof (pl_leaves _ _ H) as Hl.
  pose proof (state_debug_rel _ _ (Hl L0)) as E0. pose proof (state_debug_rel _ _ (Hl L1)) as E1.
  pose proof (state_debug_rel _ _ (Hl L2)) as E2. pose proof (state_debug_rel _ _ (Hl L3)) as E3.
  cbn [proj] in *. rewrite E0, E1, E2, E3. reflexivity.
Qed.
Lemma sprel_portable s1 s2 : sprel s1 s2 -> sprel (sp_force_portable s1) (sp_force_portable s2).
Proof.
  intros []; constructor; cbn [sp_force_portable sp_leaves sp_root sp_buf sp_buflen sp_compress8_fn];
    try assumption; try discriminate.
  - intros l. rewrite !proj_map. apply srel_portable, pl_leaves0.
  - apply srel_portable. assumption.
Qed.

(** ** Programs.  [K]: keys may be set on BLAKE2s parameters. *)
Variable K : bool.
Definition prel (p q : Params) : Prop :=
  p = q /\ exists sp ln, encodes p sp ln /\ (K = false -> Spec.key sp = []).
Definition sprel_p (p q : SpParams) : Prop := p = q /\ exists d k, sp_encodes p d k.

Record session_rel (s t : session) : Prop := {
  xr_p : Forall2 prel (s_params s) (s_params t);
  xr_s : Forall2 srel (s_states s) (s_states t);
  xr_h : Forall2 hrel (s_hashes s) (s_hashes t);
  xr_sp : Forall2 sprel_p (s_sparams s) (s_sparams t);
  xr_ss : Forall2 sprel (s_sstates s) (s_sstates t)
}.
Definition xrel (x y : session * obs) : Prop := session_rel (fst x) (fst y) /\ snd x = snd y.

(** What is asked of a call: no input slice is longer than 2^63 bytes (Rust slices
    never are), and, if keys are in use, the exact functions dispatch alike. *)
Definition exact_ok : Prop := K = false \/ simd c1 = simd c2.
Definition op_ok (o : op) : Prop :=
  match o with
  | ParamsSet _ (SKey (_ :: _)) => K = true
  | Hash8 _ x => forall l, N.of_nat (length (proj l x)) < 2 ^ 63
  | Hash8Exact _ x => exact_ok /\ forall l, N.of_nat (length (proj l x)) < 2 ^ 63
  | Hash4Exact _ x => exact_ok /\ forall l, N.of_nat (length (qproj l x)) < 2 ^ 63
  | _ => True
  end.

Lemma x_params s t l m : session_rel s t -> Forall2 prel l m ->
  session_rel (with_params_list s l) (with_params_list t m).
Proof. intros [] H; constructor; assumption. Qed.
Lemma x_states s t l m : session_rel s t -> Forall2 srel l m ->
  session_rel (with_states s l) (with_states t m).
Proof. intros [] H; constructor; assumption. Qed.
Lemma x_hashes s t l m : session_rel s t -> Forall2 hrel l m ->
  session_rel (with_hashes s l) (with_hashes t m).
Proof. intros [] H; constructor; assumption. Qed.
Lemma x_sparams s t l m : session_rel s t -> Forall2 sprel_p l m ->
  session_rel (with_sparams s l) (with_sparams t m).
Proof. intros [] H; constructor; assumption. Qed.
Lemma x_sstates s t l m : session_rel s t -> Forall2 sprel l m ->
  session_rel (with_sstates s l) (with_sstates t m).
Proof. intros [] H; constructor; assumption. Qed.
Lemma x_refl {P : Prop} s t x : session_rel s t -> orelP P xrel (Ok (s, x)) (Ok (t, x)).
Proof. intros H. split; [exact H|reflexivity]. Qed.

Lemma give_rel {P : Prop} s t h k : session_rel s t -> hrel h k -> orelP P xrel (give_hash s h) (give_hash t k).
Proof.
  intros H (<- & W). unfold give_hash. rewrite as_bytes_ok by exact W. cbn [bind orelP].
  split; [|reflexivity]. apply x_hashes; [exact H|]. apply Forall2_snoc; [apply H|]. split; [reflexivity|exact W].
Qed.
Lemma all_bytes_rel l m : Forall2 hrel l m -> exists b, all_bytes l = Ok b /\ all_bytes m = Ok b.
Proof.
  induction 1 as [|h k l m (<- & W) _ (b & E1 & E2)]; [exists []; split; reflexivity|].
  cbn [all_bytes]. rewrite as_bytes_ok, E1, E2 by exact W. cbn [bind]. eexists; split; reflexivity.
Qed.
Lemma gives_rel {P : Prop} s t l m : session_rel s t -> Forall2 hrel l m -> orelP P xrel (give_hashes s l) (give_hashes t m).
Proof.
  intros H Hl. unfold give_hashes. destruct (all_bytes_rel l m Hl) as (b & -> & ->). cbn [bind orelP].
  split; [|reflexivity]. apply x_hashes; [exact H|]. apply Forall2_app; [apply H|exact Hl].
Qed.
Lemma Forall2_lanes {A B} (R : A -> B -> Prop) x y : (forall l, R (proj l x) (proj l y)) ->
  Forall2 R (oct_list x) (oct_list y).
Proof.
  intros H. destruct x, y. unfold oct_list. repeat constructor.
  - apply (H L0). - apply (H L1). - apply (H L2). - apply (H L3).
  - apply (H L4). - apply (H L5). - apply (H L6). - apply (H L7).
Qed.
Lemma Forall2_qlanes {A B} (R : A -> B -> Prop) x y : (forall l, R (qproj l x) (qproj l y)) ->
  Forall2 R (quad_list x) (quad_list y).
Proof.
  intros H. destruct x, y. unfold quad_list. repeat constructor.
  - apply (H M0). - apply (H M1). - apply (H M2). - apply (H M3).
Qed.

Lemma prel_pwf p q : prel p q -> p = q /\ pwf p.
Proof. intros (<- & sp & ln & E & _). split; [reflexivity|apply (encodes_pwf _ _ _ E)]. Qed.
Lemma pset_rel p q x (i : nat) : prel p q -> op_ok (ParamsSet i x) ->
  orelP (valid_setter x = false) prel (apply_setter p x) (apply_setter q x).
Proof.
  intros (<- & sp & ln & E & Hk) Ho. destruct (valid_setter x) eqn:V.
  - destruct (apply_setter_ok p sp ln x E V) as (p' & -> & E'). cbn [orelP].
    split; [reflexivity|]. do 2 eexists; split; [exact E'|]. intros HK. specialize (Hk HK).
    destruct sp. destruct x as [| [|b k] | | | | | | | | |]; cbn [spec_set Spec.key op_ok] in *; try exact Hk; [reflexivity|].
    rewrite HK in Ho. discriminate.
  - rewrite apply_setter_panic by exact V. reflexivity.
Qed.
Lemma spset_rel p q x : sprel_p p q -> orelP (sp_setter_ok x = false) sprel_p (sp_apply_setter p x) (sp_apply_setter q x).
Proof.
  intros (<- & d & k & E). destruct (sp_valid_setter x) eqn:V.
  - destruct (sp_apply_setter_ok p d k x E V) as (p' & -> & E'). cbn [orelP].
    split; [reflexivity|]. eauto.
  - rewrite sp_apply_setter_panic by exact V. exact V.
Qed.

Lemma value_hrel p sp ln x : encodes p sp ln -> hrel (hash_value p sp ln x) (hash_value p sp ln x).
Proof.
  intros E. split; [reflexivity|]. split.
  - apply words_bytes_32, SpecFacts.hash_words_length.
  - unfold hash_value. cbn [h_len]. apply (encodes_pwf _ _ _ E).
Qed.
Lemma bare_hrel p sp ln x : encodes p sp ln -> hrel (bare_value p sp ln x) (bare_value p sp ln x).
Proof.
  intros E. split; [reflexivity|]. split.
  - apply words_bytes_32, SpecFacts.hash_words_length.
  - unfold bare_value. cbn [h_len]. apply (encodes_pwf _ _ _ E).
Qed.

Lemma hash8_rel ps qs x : (forall l, prel (proj l ps) (proj l qs)) ->
  (forall l, N.of_nat (length (proj l x)) < 2 ^ 63) ->
  orelP (oct_all (fun p => val (p_key_length p) =? 0) ps = false)
    (fun h k => forall l, hrel (proj l h) (proj l k)) (hash8 c1 ps x) (hash8 c2 qs x).
Proof.
  intros H Hx. assert (qs = ps) as -> by (apply oct_ext; intros l; symmetry; apply (H l)).
  destruct (oct_all (fun p => val (p_key_length p) =? 0) ps) eqn:E.
  - rewrite oct_all_spec in E.
    assert (exists e : oct (Spec.params * bool), forall l,
      encodes (proj l ps) (fst (proj l e)) (snd (proj l e)) /\ Spec.key (fst (proj l e)) = []) as (e & He).
    { apply lane_choice with (P := fun l y => encodes (proj l ps) (fst y) (snd y) /\ Spec.key (fst y) = []).
      intros l. destruct (H l) as (_ & sp & ln & En & _). exists (sp, ln). split; [exact En|].
      cbn [fst]. specialize (E l). cbv beta in E. rewrite (e_kl _ _ _ En) in E.
      destruct (Spec.key sp); [reflexivity|]. cbn [length] in E. lia. }
    assert (Hf : forall c l, fits c (N.of_nat (length (proj l x)))).
    { intros c l _. specialize (Hx l). change (2 ^ 64) with (2 * 2 ^ 63). lia. }
    rewrite (hash8_ok c1 ps (fun l => fst (proj l e)) (fun l => snd (proj l e)) x Hc1)
      by (intros; apply He || apply Hf).
    rewrite (hash8_ok c2 ps (fun l => fst (proj l e)) (fun l => snd (proj l e)) x Hc2)
      by (intros; apply He || apply Hf).
    cbn [orelP]. intros l. rewrite proj_of. apply value_hrel, He.
  - unfold hash8. rewrite E. reflexivity.
Qed.
Lemma stream_fits c p sp ln (x : list byte) : encodes p sp ln -> N.of_nat (length x) < 2 ^ 63 ->
  fits c (N.of_nat (length (stream sp x))).
Proof.
  intros E H _. rewrite stream_length. pose proof (e_key_ok _ _ _ E) as Hk.
  rewrite key_block_length by lia. assert ((match Spec.key sp with [] => 0 | _ => 64 end <= 64)%nat) by (destruct (Spec.key sp); lia).
  change (2 ^ 64) with (2 * 2 ^ 63). assert (64 < 2 ^ 63) by reflexivity. lia.
Qed.
Lemma exact8_rel p q x i : prel p q -> op_ok (Hash8Exact i x) ->
  orelP (exact (map (@length byte) (oct_list x)) = false)
    (fun h k => forall l, hrel (proj l h) (proj l k)) (hash8_exact c1 p x) (hash8_exact c2 q x).
Proof.
  intros (<- & sp & ln & E & Hk) (Hs & Hx).
  destruct (exact (map (@length byte) (oct_list x))) eqn:Ex.
  - apply exact_spec in Ex; [|destruct x; discriminate].
    rewrite (hash8_exact_value c1 p sp ln x Hc1 E) by (auto; intros; apply (stream_fits _ p sp ln); auto).
    rewrite (hash8_exact_value c2 p sp ln x Hc2 E) by (auto; intros; apply (stream_fits _ p sp ln); auto).
    cbn [orelP]. intros l. rewrite !proj_of. destruct Hs as [HK|HS].
    + rewrite (bare_unkeyed p sp ln _ (Hk HK)).
      destruct (simd c1), (simd c2); apply value_hrel, E.
    + rewrite <- HS. destruct (simd c1); [apply bare_hrel, E|apply value_hrel, E].
  - assert (~ exact_lengths (map (@length byte) (oct_list x))).
    { intros H. apply exact_spec in H; [congruence|destruct x; discriminate]. }
    rewrite !hash8_exact_reject by assumption. reflexivity.
Qed.
Lemma exact4_rel p q x i : prel p q -> op_ok (Hash4Exact i x) ->
  orelP (exact (map (@length byte) (quad_list x)) = false)
    (fun h k => forall l, hrel (qproj l h) (qproj l k)) (hash4_exact c1 p x) (hash4_exact c2 q x).
Proof.
  intros (<- & sp & ln & E & Hk) (Hs & Hx).
  destruct (exact (map (@length byte) (quad_list x))) eqn:Ex.
  - apply exact_spec in Ex; [|destruct x; discriminate].
    rewrite (hash4_exact_value c1 p sp ln x Hc1 E) by (auto; intros; apply (stream_fits _ p sp ln); auto).
    rewrite (hash4_exact_value c2 p sp ln x Hc2 E) by (auto; intros; apply (stream_fits _ p sp ln); auto).
    cbn [orelP]. intros l. rewrite !qproj_of. destruct Hs as [HK|HS].
    + rewrite (bare_unkeyed p sp ln _ (Hk HK)).
      destruct (simd c1), (simd c2); apply value_hrel, E.
    + rewrite <- HS. destruct (simd c1); [apply bare_hrel, E|apply value_hrel, E].
  - assert (~ exact_lengths (map (@length byte) (quad_list x))).
    { intros H. apply exact_spec in H; [congruence|destruct x; discriminate]. }
    rewrite !hash4_exact_reject by assumption. reflexivity.
Qed.

Definition step_rel_at (s t : session) (o : op) : Prop :=
  op_ok o -> orelP (checked \/ rejects s o = true) xrel (step c1 s o) (step c2 t o).

Lemma existsb_lanes {A} (f : A -> bool) x : existsb f (oct_list x) = false -> forall l, f (proj l x) = false.
Proof.
  destruct x. cbn [oct_list existsb]. rewrite !orb_false_iff. intros H l. destruct l; cbn [proj o0 o1 o2 o3 o4 o5 o6 o7]; tauto.
Qed.
Lemma rel_params s t : session_rel s t -> forall o,
  match o with
  | ParamsNew | ParamsClone _ | ParamsSet _ _ | ToState _ | StateNew | Hash8 _ _ | Hash8Exact _ _
  | Hash4Exact _ _ => step_rel_at s t o
  | _ => True
  end.
Proof.
  intros H o. destruct o; try exact I; intros Ho; cbn [step]; cbv zeta.
  - split; [|reflexivity]. apply x_params; [exact H|]. apply Forall2_snoc; [apply H|].
    split; [reflexivity|]. do 2 eexists; split; [apply encodes_default|reflexivity].
  - eapply (at_obj_sim prel); [apply H|apply x_refl, H|]. intros p q _ _ Hp.
    split; [|reflexivity]. apply x_params; [exact H|]. apply Forall2_snoc; [apply H|exact Hp].
  - eapply (at_obj_sim prel); [apply H|apply x_refl, H|]. intros p q En _ Hp.
    eapply orel_bind.
    { eapply orel_weaken; [|apply (pset_rel p q s0 i Hp Ho)]. intros V. right.
      cbn [rejects]. unfold at_obj. rewrite En, V. reflexivity. }
    intros p' q' Hp'.
    split; [|reflexivity]. apply x_params; [exact H|]. apply Forall2_upd; [apply H|exact Hp'].
  - apply (orel_weaken (P := checked)); [left; assumption|]. 
    eapply orel_bind; [apply (to_state_rel Params_default), (encodes_pwf _ _ _ encodes_default)|].
    intros a b Hab. split; [|reflexivity]. apply x_states; [exact H|]. apply Forall2_snoc; [apply H|exact Hab].
  - eapply (at_obj_sim prel); [apply H|apply x_refl, H|]. intros p q _ _ Hp.
    apply prel_pwf in Hp as (<- & Hp).
    apply (orel_weaken (P := checked)); [left; assumption|]. 
    eapply orel_bind; [apply to_state_rel, Hp|].
    intros a b Hab. split; [|reflexivity]. apply x_states; [exact H|]. apply Forall2_snoc; [apply H|exact Hab].
  - pose proof (pick8_sim prel _ _ i (xr_p _ _ H)) as Hp.
    destruct (pick8 (s_params s) i) eqn:Es, (pick8 (s_params t) i); try contradiction; [|apply x_refl, H].
    eapply orel_bind.
    { eapply orel_weaken; [|apply hash8_rel; [exact Hp|exact Ho]]. intros V. right.
      cbn [rejects]. rewrite Es. apply not_false_iff_true. intros Hx. apply not_true_iff_false in V. apply V.
      apply oct_all_spec. intros l. apply negb_false_iff.
      refine (existsb_lanes _ _ Hx l). }
    intros h k Hh.
    apply gives_rel; [exact H|]. apply Forall2_lanes; exact Hh.
  - eapply (at_obj_sim prel); [apply H|apply x_refl, H|]. intros p q En _ Hp.
    eapply orel_bind.
    { eapply orel_weaken; [|apply (exact8_rel _ _ _ i Hp Ho)]. intros V. right.
      cbn [rejects]. unfold at_obj. rewrite En, V. reflexivity. }
    intros h k Hh.
    apply gives_rel; [exact H|]. apply Forall2_lanes; exact Hh.
  - eapply (at_obj_sim prel); [apply H|apply x_refl, H|]. intros p q En _ Hp.
    eapply orel_bind.
    { eapply orel_weaken; [|apply (exact4_rel _ _ _ i Hp Ho)]. intros V. right.
      cbn [rejects]. unfold at_obj. rewrite En, V. reflexivity. }
    intros h k Hh.
    apply gives_rel; [exact H|]. apply Forall2_qlanes; exact Hh.
Qed.

Lemma rel_states s t : session_rel s t -> forall o,
  match o with
  | StateClone _ | Update _ _ | Write _ _ | Flush _ | SetLastNode _ _ | Count _ | StateDebug _
  | ForcePortable _ | Finalize _ | Update8 _ _ | Finalize8 _ | Blake2s _ => step_rel_at s t o
  | _ => True
  end.
Proof.
  intros H o. destruct o; try exact I; intros _; cbn [step]; cbv zeta;
    try (apply (orel_weaken (P := checked)); [left; assumption|]);
    try (eapply (at_obj_sim srel); [apply H|apply x_refl, H|]; intros ?a ?b _ _ Hab).
  - split; [|reflexivity]. apply x_states; [exact H|]. apply Forall2_snoc; [apply H|exact Hab].
  - eapply orel_bind; [apply update_rel, Hab|]. intros a' b' Hab'.
    split; [|reflexivity]. apply x_states; [exact H|]. apply Forall2_upd; [apply H|exact Hab'].
  - unfold write. eapply (orel_bind (fun x y => srel (fst x) (fst y) /\ snd x = snd y)).
    { eapply orel_bind; [apply update_rel, Hab|]. intros a' b' Hab'. split; [exact Hab'|reflexivity]. }
    intros [a' n] [b' m] (Hab' & E). cbn [fst snd] in *. subst m.
    split; [|reflexivity]. apply x_states; [exact H|]. apply Forall2_upd; [apply H|exact Hab'].
  - unfold flush. cbn [bind]. split; [|reflexivity]. apply x_states; [exact H|]. apply Forall2_upd; [apply H|exact Hab].
  - split; [|reflexivity]. apply x_states; [exact H|]. apply Forall2_upd; [apply H|].
    apply srel_set_last, Hab.
  - unfold count. rewrite (sl_count _ _ Hab). apply x_refl, H.
  - rewrite (state_debug_rel _ _ Hab). apply x_refl, H.
  - split; [|reflexivity]. apply x_states; [exact H|]. apply Forall2_upd; [apply H|].
    apply srel_portable, Hab.
  - eapply orel_bind; [apply finalize_rel, Hab|]. intros [a' h] [b' k] (Hab' & Hh). cbn [fst snd] in *.
    apply give_rel; [|exact Hh]. apply x_states; [exact H|]. apply Forall2_upd; [apply H|exact Hab'].
  - pose proof (pick8_sim srel _ _ i (xr_s _ _ H)) as Hp.
    destruct (pick8 (s_states s) i), (pick8 (s_states t) i); try contradiction; [|apply x_refl, H].
    destruct (distinct (oct_list i)); [|apply x_refl, H].
    eapply orel_bind; [apply update8_rel; exact Hp|]. intros a b Hab.
    split; [|reflexivity]. apply x_states; [exact H|]. apply put8_sim; [apply H|exact Hab].
  - pose proof (pick8_sim srel _ _ i (xr_s _ _ H)) as Hp.
    destruct (pick8 (s_states s) i), (pick8 (s_states t) i); try contradiction; [|apply x_refl, H].
    destruct (distinct (oct_list i)); [|apply x_refl, H].
    eapply orel_bind; [apply finalize8_rel; exact Hp|]. intros [a h] [b k] (Hab & Hh). cbn [fst snd] in *.
    apply gives_rel; [|apply Forall2_lanes; exact Hh].
    apply x_states; [exact H|]. apply put8_sim; [apply H|exact Hab].
  - eapply orel_bind.
    { apply (hash_one_rel Params_default input), (encodes_pwf _ _ _ encodes_default). }
    intros h k Hh. apply give_rel; assumption.
Qed.

Lemma rel_hashes s t : session_rel s t -> forall o,
  match o with
  | HashBytes _ | HashHex _ | HashDebug _ | HashEq _ _ | HashEqSlice _ _ => step_rel_at s t o
  | _ => True
  end.
Proof.
  intros H o. destruct o; try exact I; intros _; cbn [step]; cbv zeta;
    try (apply (orel_weaken (P := checked)); [left; assumption|]);
    (eapply (at_obj_sim hrel); [apply H|apply x_refl, H|]; intros h k _ _ (<- & W)).
  - rewrite as_bytes_ok by exact W. apply x_refl, H.
  - rewrite to_hex_ok by exact W. apply x_refl, H.
  - unfold hash_debug. rewrite to_hex_ok by exact W. apply x_refl, H.
  - eapply (at_obj_sim hrel); [apply H|apply x_refl, H|]. intros h' k' _ _ (<- & W').
    destruct (hash_eq_ok h h' W W') as (b & -> & _). apply x_refl, H.
  - destruct (hash_eq_slice_ok h other W) as (b & -> & _). apply x_refl, H.
Qed.

Lemma rel_sp s t : session_rel s t -> forall o,
  match o with
  | SpParamsNew | SpParamsClone _ | SpParamsSet _ _ | SpParamsDebug _ | SpStateNew | SpToState _ | SpClone _
  | SpUpdate _ _ | SpWrite _ _ | SpFlush _ | SpCount _ | SpDebug _ | SpForcePortable _ | SpFinalize _
  | OneShotSp _ => step_rel_at s t o
  | _ => True
  end.
Proof.
  intros H o. destruct o; try exact I; intros _; cbn [step]; cbv zeta;
    lazymatch goal with
    | |- context [sp_apply_setter] => idtac
    | |- _ => apply (orel_weaken (P := checked)); [left; assumption|]
    end;
    try (eapply (at_obj_sim sprel); [apply H|apply x_refl, H|]; intros ?a ?b _ _ Hab);
    try (eapply (at_obj_sim sprel_p); [apply H|apply x_refl, H|]; intros p q En _ Hp).
  - split; [|reflexivity]. apply x_sparams; [exact H|]. apply Forall2_snoc; [apply H|].
    split; [reflexivity|]. do 2 eexists. apply sp_encodes_default.
  - split; [|reflexivity]. apply x_sparams; [exact H|]. apply Forall2_snoc; [apply H|exact Hp].
  - eapply orel_bind.
    { eapply orel_weaken; [|apply spset_rel, Hp]. intros V. right.
      cbn [rejects]. unfold at_obj. rewrite En, V. reflexivity. }
    intros p' q' Hp'.
    split; [|reflexivity]. apply x_sparams; [exact H|]. apply Forall2_upd; [apply H|exact Hp'].
  - destruct Hp as (<- & _). apply x_refl, H.
  - eapply orel_bind; [apply (sp_to_state_rel SpParams_default), (sp_encodes_pwf _ _ _ sp_encodes_default)|].
    intros a b Hab. split; [|reflexivity]. apply x_sstates; [exact H|]. apply Forall2_snoc; [apply H|exact Hab].
  - destruct Hp as (<- & d & k & E).
    eapply orel_bind; [apply sp_to_state_rel, (sp_encodes_pwf _ _ _ E)|].
    intros a b Hab. split; [|reflexivity]. apply x_sstates; [exact H|]. apply Forall2_snoc; [apply H|exact Hab].
  - split; [|reflexivity]. apply x_sstates; [exact H|]. apply Forall2_snoc; [apply H|exact Hab].
  - eapply orel_bind; [apply sp_update_rel, Hab|]. intros a' b' Hab'.
    split; [|reflexivity]. apply x_sstates; [exact H|]. apply Forall2_upd; [apply H|exact Hab'].
  - unfold sp_write. eapply (orel_bind (fun x y => sprel (fst x) (fst y) /\ snd x = snd y)).
    { eapply orel_bind; [apply sp_update_rel, Hab|]. intros a' b' Hab'. split; [exact Hab'|reflexivity]. }
    intros [a' n] [b' m] (Hab' & E). cbn [fst snd] in *. subst m.
    split; [|reflexivity]. apply x_sstates; [exact H|]. apply Forall2_upd; [apply H|exact Hab'].
  - unfold sp_flush. cbn [bind]. split; [|reflexivity]. apply x_sstates; [exact H|]. apply Forall2_upd; [apply H|exact Hab].
  - eapply orel_bind; [apply sp_count_rel, Hab|]. intros n m <-. apply x_refl, H.
  - eapply orel_bind; [apply sp_debug_rel, Hab|]. intros n m <-. apply x_refl, H.
  - split; [|reflexivity]. apply x_sstates; [exact H|]. apply Forall2_upd; [apply H|].
    apply sprel_portable, Hab.
  - eapply orel_bind; [apply sp_finalize_rel, Hab|]. intros h k Hh. apply give_rel; assumption.
  - unfold Blake2sp.blake2sp. eapply (orel_bind hrel).
    { eapply orel_bind; [apply (sp_to_state_rel SpParams_default), (sp_encodes_pwf _ _ _ sp_encodes_default)|].
      intros a b Hab. eapply orel_bind; [apply sp_update_rel, Hab|]. intros a' b' Hab'.
      apply sp_finalize_rel, Hab'. }
    intros h k Hh. apply give_rel; assumption.
Qed.

Theorem step_rel s t o : session_rel s t -> op_ok o ->
  orelP (checked \/ rejects s o = true) xrel (step c1 s o) (step c2 t o).
Proof.
  intros H. pose proof (rel_params s t H o) as H1. pose proof (rel_states s t H o) as H2.
  pose proof (rel_hashes s t H o) as H3. pose proof (rel_sp s t H o) as H4.
  destruct o; first [exact H1|exact H2|exact H3|exact H4].
Qed.

Definition ends_well (e : ending) : Prop := e = Done \/ e = Panicked.
Theorem run_rel ops : forall s t, session_rel s t -> Forall op_ok ops ->
  run c1 s ops = run c2 t ops /\ ends_well (snd (run c1 s ops)).
Proof.
  induction ops as [|o ops IH]; intros s t H Ho; [split; [reflexivity|left; reflexivity]|].
  inversion Ho as [|? ? Ho1 Ho2]; subst. pose proof (step_rel s t o H Ho1) as Hs. cbn [run].
  destruct (step c1 s o) as [[s' x]| | |], (step c2 t o) as [[t' y]| | |]; try contradiction.
  - destruct Hs as (H' & E). cbn [fst snd] in *. subst y.
    destruct (IH s' t' H' Ho2) as (-> & He). rewrite <- (proj1 (IH s' t' H' Ho2)) in *.
    destruct (run c1 s' ops) as [xs e]. split; [reflexivity|exact He].
  - split; [reflexivity|right; reflexivity].
Qed.
Lemma session_rel_empty : session_rel empty_session empty_session.
Proof. constructor; constructor. Qed.

End TwoPlatforms.
