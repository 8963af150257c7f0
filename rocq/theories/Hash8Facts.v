(** * Hash8Facts: hash8 and the exact-length functions. *)
From Verif Require Import Base BaseFacts Consts Portable PortableFacts SpecFacts Params State
  StateFacts ParamsFacts Refine Many ManyFacts Intrinsics.
From Verif Require Spec Avx2 Avx2Facts Sse41 Sse41Facts.
Import Avx2Facts (oct_ext, proj_map, proj_map2,
                  proj_const, blocks_ok).
From Coq Require Import ZArith Lia ZifyBool ZifyNat ZifyN.
Local Open Scope N_scope.

(** ** The hash of a whole message, as a [Hash] value *)
Definition hash_value (p : Params) (sp : Spec.params) (ln : bool) (input : list byte) : Hash :=
  mk_Hash (Spec.words_bytes (Spec.hash_words (Spec.initial sp) (stream sp input) ln)) (p_hash_length p).

Lemma hash_one_value c p sp ln input : cfg_ok c -> encodes p sp ln ->
  fits c (N.of_nat (length (stream sp input))) ->
  hash_one c p input = Ok (hash_value p sp ln input).
Proof.
  intros Hc E Hf. destruct (hash_one_ok c p sp ln input Hc E Hf) as (h & Eh & _ & Hl & Hb & _).
  rewrite Eh. f_equal. unfold hash_value. destruct h as [hb hl]. cbn [Params.h_bytes Params.h_len] in *. congruence.
Qed.

(** ** The counter words *)
Lemma cast_of_N n : cast 32 (of_N 64 n) = of_N 32 n.
Proof.
  apply val_inj. unfold cast. rewrite !val_of_N.
  change (2 ^ 64) with (2 ^ 32 * 2 ^ 32). rewrite N.mod_mul_r by discriminate.
  rewrite N.mul_comm, N.mod_add by discriminate. apply N.mod_mod. discriminate.
Qed.
Lemma join_count_of_N n :
  join_count (of_N 32 n) (cast 32 (ushr (of_N 64 n) 32)) = of_N 64 n.
Proof. rewrite <- cast_of_N. apply join_count_split. Qed.

Lemma compress_words_of_N h msg n lb ln :
  compress_words h msg (of_N 32 n) (cast 32 (ushr (of_N 64 n) 32)) lb ln =
  Portable.compress h msg (of_N 64 n) lb ln.
Proof. rewrite compress_eq, cast_of_N. reflexivity. Qed.

(** ** Chaining step *)
Lemma chain_step w h0 input n : (64 * n + 64 <= length input)%nat ->
  nums w = Spec.chain h0 input n ->
  nums (Portable.compress w (firstn 64 (skipn (64 * n) input)) (of_N 64 (N.of_nat (64 * n + 64)))
          (uzero 32) (uzero 32)) = Spec.chain h0 input (S n).
Proof.
  intros Hl Hw. rewrite compress_ok by (rewrite firstn_length, skipn_length; lia).
  rewrite chain_S, Hw, val_of_N, F_mod, val_uzero, block_whole by exact Hl.
  f_equal. lia.
Qed.
Lemma chain_final w h0 input n ln : length input = (64 * n + 64)%nat ->
  nums w = Spec.chain h0 input n ->
  nums (Portable.compress w (firstn 64 (skipn (64 * n) input)) (of_N 64 (N.of_nat (64 * n + 64)))
          (umax 32) (flag32 ln)) = Spec.hash_words h0 input ln.
Proof.
  intros Hl Hw. rewrite compress_ok by (rewrite firstn_length, skipn_length; lia).
  unfold Spec.hash_words. rewrite (nblocks_unique input n) by (try unfold lazy_k; lia).
  cbn [Nat.sub]. rewrite Nat.sub_0_r.
  rewrite Hw, val_of_N, F_mod, val_umax32, val_flag32, block_whole, Hl by lia. reflexivity.
Qed.

(** ** hash8 *)

(** The two consistent families of pointers. *)
Definition fns_portable : impl :=
  mk_impl compress_portable compress8_portable hash8_exact_portable hash4_exact_portable
          vectorize_words8_portable compress8_vectorized_portable.
Definition fns_avx2 : impl :=
  mk_impl compress_sse41 compress8_avx2 hash8_exact_avx2 hash4_exact_sse41
          vectorize_words8_avx2 compress8_vectorized_avx2.

Definition fns_ok (c : cfg) (fns : impl) : Prop :=
  fns = fns_portable \/ (fns = fns_avx2 /\ has_avx2 c = true /\ has_sse41 c = true).

Lemma default_impl_ok c : cfg_ok c -> fns_ok c (default_compress_impl c).
Proof.
  unfold cfg_ok, fns_ok, default_compress_impl, has_avx2, has_sse41. intros H.
  destruct (arch_x86 c), (feature_std c), (cpu_avx2 c); cbn; auto.
Qed.

(** The chaining values held in the eight vectors. *)
Definition lanes (fns : impl) (w : oct AlignedWords8) (l : lane8) : StateWords :=
  match fn_vectorize8 fns with
  | vectorize_words8_portable => proj l w
  | vectorize_words8_avx2 => lane_state w l
  end.

Lemma vectorize_in c fns words : fns_ok c fns ->
  exists w, call_vectorize8 c (fn_vectorize8 fns) words = Ok w /\ forall l, lanes fns w l = proj l words.
Proof.
  intros [->|(-> & Ha & _)]; cbn [fns_portable fns_avx2 fn_vectorize8 call_vectorize8].
  - eexists; split; reflexivity.
  - rewrite Ha. eexists; split; [reflexivity|]. intros l. apply Avx2Facts.lane_state_transpose.
Qed.
Lemma vectorize_out c fns w : fns_ok c fns ->
  exists words, call_vectorize8 c (fn_vectorize8 fns) w = Ok words /\
    forall l, proj l words = lanes fns w l.
Proof.
  intros [->|(-> & Ha & _)]; cbn [fns_portable fns_avx2 fn_vectorize8 call_vectorize8].
  - eexists; split; reflexivity.
  - rewrite Ha. eexists; split; [reflexivity|]. intros l. unfold lanes. cbn [fn_vectorize8].
    unfold Avx2.vectorize_words8. apply oct_ext; intro k.
    etransitivity; [apply Avx2Facts.transpose_spec|]. symmetry. apply proj_map.
Qed.
Lemma compress_lanes c fns w blk lo hi lb ln : fns_ok c fns -> blocks_ok blk ->
  exists w', call_compress8_vectorized c (fn_compress8_vectorized fns) w blk lo hi lb ln = Ok w' /\
    forall l, lanes fns w' l =
      Portable.compress (lanes fns w l) (proj l blk) (join_count (proj l lo) (proj l hi))
        (proj l lb) (proj l ln).
Proof.
  intros [->|(-> & Ha & _)] Hb; cbn [fns_portable fns_avx2 fn_compress8_vectorized call_compress8_vectorized].
  - eexists; split; [reflexivity|]. intros l. destruct l; reflexivity.
  - rewrite Ha. eexists; split; [reflexivity|]. intros l. unfold lanes. cbn [fn_vectorize8].
    apply Avx2Facts.compress8_vectorized_lane. exact Hb.
Qed.

Lemma all_remaining_ok c test count lens : (forall l, In l lens -> (count <= l)%nat) ->
  all_remaining c test count lens = Ok (forallb (fun l => test (l - count)%nat) lens).
Proof.
  induction lens as [|x lens IH]; intros H; [reflexivity|].
  cbn [all_remaining forallb]. rewrite nsub_ok by (apply H; left; reflexivity). cbn [bind].
  destruct (test (x - count)%nat); [|reflexivity]. apply IH. intros l Hl. apply H. right. exact Hl.
Qed.

Lemma in_oct {A} (x : A) o : In x (oct_list o) <-> exists l, proj l o = x.
Proof.
  destruct o. cbn [oct_list In proj]. split.
  - intros H. repeat destruct H as [H|H]; [exists L0|exists L1|exists L2|exists L3|exists L4|exists L5|exists L6|exists L7|contradiction]; exact H.
  - intros (l & <-). destruct l; cbn; tauto.
Qed.

Lemma hash8_finish_ok c fns n p sp ln w input : fns_ok c fns ->
  encodes p sp ln -> Spec.key sp = [] -> (64 * n <= length input)%nat ->
  (n = 0 \/ 64 * n < length input)%nat ->
  nums w = Spec.chain (Spec.initial sp) input n -> fits c (N.of_nat (length input)) ->
  hash8_finish c (fn_compress fns) (64 * n) p w input = Ok (hash_value p sp ln input).
Proof.
  intros Hfns E Hk Hlen Hlz Hw Hf. unfold hash8_finish. cbv zeta.
  rewrite slice_from_ok by exact Hlen. cbn [bind].
  assert (Hfl : length (firstn (64 * n) input) = (64 * n)%nat) by (rewrite firstn_length; lia).
  assert (Hfn : fn_ok c (fn_compress fns)).
  { destruct Hfns as [->|(-> & _ & Hs)]; [discriminate|intros _; exact Hs]. }
  assert (R : Rep c (Spec.initial sp) (firstn (64 * n) input) n
    {| st_h := w; st_buf := repeat x00 BLOCKBYTES; st_buflen := of_N 8 0;
       st_count := of_N 64 (N.of_nat (64 * n)); st_compress_fn := fn_compress fns;
       st_last_node := p_last_node p; st_hash_length := p_hash_length p |}).
  { pose proof (Rep_fresh c w (firstn (64 * n) input) n (fn_compress fns) (p_last_node p)
      (p_hash_length p) (repeat x00 BLOCKBYTES) (nums w)) as H. rewrite Hfl in H.
    apply H; clear H.
    - reflexivity.
    - reflexivity.
    - exact Hfn.
    - rewrite Hw. rewrite <- (firstn_skipn (64 * n) input) at 1. apply chain_app. lia.
    - reflexivity.
    - eapply fits_le; [exact Hf|]. lia. }
  destruct (update_ok c _ _ _ _ (skipn (64 * n) input) R) as (st' & k' & Eu & R' & (N1 & N2 & N3) & Hz).
  { rewrite Hfl, skipn_length. eapply fits_le; [exact Hf|]. lia. }
  rewrite Eu. cbn [bind]. rewrite firstn_skipn in *.
  assert (Hz' : lazy_k input k').
  { apply Hz. destruct Hlz as [->|Hlz]; [left; left; reflexivity|right].
    intros Hx. apply (f_equal (@length _)) in Hx. rewrite skipn_length in Hx. cbn [length] in Hx. lia. }
  rewrite (finalize_ok c _ _ _ _ R' Hz'). cbn [bind]. rewrite N2, N3.
  cbn [st_last_node st_hash_length]. unfold hash_value, stream. rewrite Hk, (e_last _ _ _ E). reflexivity.
Qed.

Lemma hash8_loop_ok c fns params sp ln inputs : fns_ok c fns ->
  (forall l, encodes (proj l params) (sp l) (ln l)) -> (forall l, Spec.key (sp l) = []) ->
  (forall l, fits c (N.of_nat (length (proj l inputs)))) ->
  forall fuel n w,
  (forall l, (64 * n <= length (proj l inputs))%nat) ->
  (n = 0%nat \/ forall l, (64 * n < length (proj l inputs))%nat) ->
  (forall l, nums (lanes fns w l) = Spec.chain (Spec.initial (sp l)) (proj l inputs) n) ->
  (length (proj L0 inputs) < 64 * n + fuel)%nat ->
  hash8_loop fuel c fns params inputs w (64 * n) =
  Ok (oct_of (fun l => hash_value (proj l params) (sp l) (ln l) (proj l inputs))).
Proof.
  intros Hfns He Hk Hf. induction fuel as [|fuel IH]; intros n w Hlen Hlz Hw Hfuel.
  { specialize (Hlen L0). lia. }
  cbn [hash8_loop].
  assert (Hin : forall x, In x (oct_list (oct_map (@length byte) inputs)) -> (64 * n <= x)%nat).
  { intros x Hx. apply in_oct in Hx as (l & <-). rewrite proj_map. apply Hlen. }
  rewrite !all_remaining_ok by exact Hin. cbn [bind].
  set (upd_all := forallb (fun l => Nat.ltb _ _) _). set (fin_all := forallb (fun l => Nat.eqb _ _) _).
  assert (Hupd : upd_all = true <-> forall l, (64 * n + 64 < length (proj l inputs))%nat).
  { subst upd_all. rewrite forallb_forall. unfold BLOCKBYTES. split.
    - intros H l. specialize (H (length (proj l inputs))).
      rewrite Nat.ltb_lt in H. specialize (Hlen l).
      assert (64 < length (proj l inputs) - 64 * n)%nat; [|lia].
      apply H. apply in_oct. exists l. apply proj_map.
    - intros H x Hx. apply in_oct in Hx as (l & <-). rewrite proj_map. apply Nat.ltb_lt.
      specialize (H l). lia. }
  assert (Hfin : fin_all = true <-> forall l, (length (proj l inputs) = 64 * n + 64)%nat).
  { subst fin_all. rewrite forallb_forall. unfold BLOCKBYTES. split.
    - intros H l. specialize (H (length (proj l inputs))).
      rewrite Nat.eqb_eq in H. specialize (Hlen l).
      assert (length (proj l inputs) - 64 * n = 64)%nat; [|lia].
      apply H. apply in_oct. exists l. apply proj_map.
    - intros H x Hx. apply in_oct in Hx as (l & <-). rewrite proj_map. apply Nat.eqb_eq.
      specialize (H l). lia. }
  clearbody upd_all fin_all.
  destruct (negb upd_all && negb fin_all) eqn:Eb.
  - destruct (vectorize_out c fns w Hfns) as (words & Ev & Hwords). rewrite Ev. cbn [bind].
    assert (Hfinish : forall l,
      hash8_finish c (fn_compress fns) (64 * n) (proj l params) (proj l words) (proj l inputs) =
      Ok (hash_value (proj l params) (sp l) (ln l) (proj l inputs))).
    { intros l. apply hash8_finish_ok; auto.
      - destruct Hlz as [?|Hlz]; [left; assumption|right; apply Hlz].
      - rewrite Hwords. apply Hw. }
    pose proof (Hfinish L0) as F0; pose proof (Hfinish L1) as F1; pose proof (Hfinish L2) as F2;
    pose proof (Hfinish L3) as F3; pose proof (Hfinish L4) as F4; pose proof (Hfinish L5) as F5;
    pose proof (Hfinish L6) as F6; pose proof (Hfinish L7) as F7. cbn [proj] in *.
    rewrite F0; cbn [bind]. rewrite F1; cbn [bind]. rewrite F2; cbn [bind]. rewrite F3; cbn [bind].
    rewrite F4; cbn [bind]. rewrite F5; cbn [bind]. rewrite F6; cbn [bind]. rewrite F7; cbn [bind].
    reflexivity.
  - assert (Hge : forall l, (64 * n + 64 <= length (proj l inputs))%nat).
    { apply andb_false_iff in Eb. rewrite !negb_false_iff in Eb.
      intros l. destruct Eb as [E|E]; [pose proof (proj1 Hupd E l)|pose proof (proj1 Hfin E l)]; lia. }
    set (blocks := oct_of (fun l => firstn 64 (skipn (64 * n) (proj l inputs)))).
    rewrite (oct_mapM_ok _ _ blocks).
    2: { intros l. subst blocks. rewrite proj_of. specialize (Hge l).
         rewrite array_ref_ok by (unfold BLOCKBYTES; lia). reflexivity. }
    cbn [bind]. unfold BLOCKBYTES.
    assert (Hb : blocks_ok blocks).
    { intros l. subst blocks. rewrite proj_of, firstn_length, skipn_length. specialize (Hge l). lia. }
    match goal with |- context [call_compress8_vectorized c _ w blocks ?lo ?hi ?lb ?lnd] =>
      destruct (compress_lanes c fns w blocks lo hi lb lnd Hfns Hb) as (w' & Ew & Hw') end.
    cbv zeta. rewrite Ew. cbn [bind]. clear Ew.
    destruct fin_all.
    + destruct (vectorize_out c fns w' Hfns) as (words & Ev & Hwords). rewrite Ev. cbn [bind].
      f_equal. apply oct_ext; intro l. rewrite proj_of, proj_map2, Hwords, Hw', !proj_const, proj_map.
      rewrite join_count_of_N, (e_last _ _ _ (He l)).
      unfold hash_value. f_equal. rewrite state_bytes_ok. f_equal.
      unfold stream. rewrite Hk. cbn [Spec.key_block app].
      subst blocks. rewrite proj_of. apply chain_final; [apply Hfin; reflexivity|apply Hw].
    + replace (64 * n + 64)%nat with (64 * S n)%nat in * by lia.
      assert (Hu : upd_all = true).
      { destruct upd_all; [reflexivity|discriminate Eb]. }
      pose proof (proj1 Hupd Hu) as Hgt.
      apply IH.
      * intros l. specialize (Hgt l). lia.
      * right. intros l. specialize (Hgt l). lia.
      * intros l. rewrite Hw', !proj_const, join_count_of_N. subst blocks. rewrite proj_of.
        replace (64 * S n)%nat with (64 * n + 64)%nat by lia.
        apply chain_step; [specialize (Hgt l); lia|apply Hw].
      * lia.
Qed.

Theorem hash8_ok c params sp ln inputs : cfg_ok c ->
  (forall l, encodes (proj l params) (sp l) (ln l)) -> (forall l, Spec.key (sp l) = []) ->
  (forall l, fits c (N.of_nat (length (proj l inputs)))) ->
  hash8 c params inputs =
  Ok (oct_of (fun l => hash_value (proj l params) (sp l) (ln l) (proj l inputs))).
Proof.
  intros Hc He Hk Hf. unfold hash8.
  replace (oct_all _ params) with true.
  2: { symmetry. apply oct_all_spec. intros l. rewrite (e_kl _ _ _ (He l)), Hk. reflexivity. }
  cbv zeta. pose proof (default_impl_ok c Hc) as Hfns.
  destruct (vectorize_in c _ (oct_map make_words params) Hfns) as (w & Ew & Hw).
  rewrite Ew. cbn [bind]. change 0%nat with (64 * 0)%nat.
  apply hash8_loop_ok; auto.
  - intros l. cbn. lia.
  - intros l. rewrite Hw, proj_map. apply (make_words_ok _ _ _ (He l)).
Qed.
