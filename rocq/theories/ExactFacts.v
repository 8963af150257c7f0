(** * ExactFacts: hash4_exact and hash8_exact. *)
From Verif Require Import Base BaseFacts Consts Portable PortableFacts SpecFacts Params State
  StateFacts ParamsFacts Refine Many ManyFacts Intrinsics Hash8Facts.
From Verif Require Spec Avx2 Avx2Facts Sse41 Sse41Facts.
Import Avx2Facts (oct_ext, proj_map, proj_map2,
                  proj_const, blocks_ok).
Import Sse41Facts (quad_ext, qproj_map).
From Coq Require Import ZArith Lia ZifyBool ZifyNat ZifyN.
Local Open Scope N_scope.

(** What the SIMD versions compute: the parameter words (with the key length) and
    the input, without the key block. *)
Definition bare_value (p : Params) (sp : Spec.params) (ln : bool) (input : list byte) : Hash :=
  mk_Hash (Spec.words_bytes (Spec.hash_words (Spec.initial sp) input ln)) (p_hash_length p).

Lemma bare_unkeyed p sp ln input : Spec.key sp = [] ->
  bare_value p sp ln input = hash_value p sp ln input.
Proof. intros H. unfold bare_value, hash_value, stream. rewrite H. reflexivity. Qed.

Lemma m256_bytes_ok w : m256_bytes w = Spec.words_bytes (nums w).
Proof. rewrite <- state_bytes_ok. unfold m256_bytes, state_words_to_bytes. destruct w; cbn [oct_list flat_map o0 o1 o2 o3 o4 o5 o6 o7]. rewrite app_nil_r. reflexivity. Qed.

Lemma export8_lane w hl l :
  proj l (Avx2.export_hashes w hl) = mk_Hash (Spec.words_bytes (nums (lane_state w l))) hl.
Proof.
  transitivity (mk_Hash (m256_bytes (proj l (Avx2.transpose_vecs w))) hl).
  { destruct l; reflexivity. }
  rewrite m256_bytes_ok. do 3 f_equal. apply oct_ext; intro k.
  etransitivity; [apply Avx2Facts.transpose_spec|]. symmetry. apply proj_map.
Qed.

Lemma export4_lane w hl l :
  qproj l (Sse41.export_hashes w hl) = mk_Hash (Spec.words_bytes (nums (qlane_state w l))) hl.
Proof.
  rewrite <- m256_bytes_ok.
  destruct w as [a b c d e f g h]. destruct a, b, c, d, e, f, g, h.
  destruct l; reflexivity.
Qed.

Lemma raw_read_ok {A} (xs : list A) off len : (off + len <= length xs)%nat ->
  raw_read xs off len = Ok (firstn len (skipn off xs)).
Proof. intros H. unfold raw_read. apply Nat.leb_le in H. rewrite H. reflexivity. Qed.

Lemma flag_and ln b : (if ln && b then umax 32 else uzero 32) = if b then flag32 ln else uzero 32.
Proof. destruct ln, b; reflexivity. Qed.

(** ** The AVX2 loop *)
Lemma hash8_exact_loop_ok p sp ln inputs blocks : encodes p sp ln ->
  (forall l, length (proj l inputs) = 64 * blocks)%nat ->
  forall fuel n w, (n < blocks)%nat ->
  (forall l, nums (lane_state w l) = Spec.chain (Spec.initial sp) (proj l inputs) n) ->
  (blocks <= n + fuel)%nat ->
  Avx2.hash8_exact_loop fuel p inputs (64 * blocks) w (64 * n) =
  Ok (oct_of (fun l => bare_value p sp ln (proj l inputs))).
Proof.
  intros E Hlen. induction fuel as [|fuel IH]; intros n w Hn Hw Hfuel; [lia|].
  cbn [Avx2.hash8_exact_loop]. unfold BLOCKBYTES.
  set (rd l := firstn 64 (skipn (64 * n) (proj l inputs))).
  assert (Hrd : forall l, raw_read (proj l inputs) (64 * n) 64 = Ok (rd l)).
  { intros l. apply raw_read_ok. rewrite Hlen. lia. }
  pose proof (Hrd L0) as R0; pose proof (Hrd L1) as R1; pose proof (Hrd L2) as R2;
  pose proof (Hrd L3) as R3; pose proof (Hrd L4) as R4; pose proof (Hrd L5) as R5;
  pose proof (Hrd L6) as R6; pose proof (Hrd L7) as R7. cbn [proj] in R0, R1, R2, R3, R4, R5, R6, R7.
  rewrite R0; cbn [bind]. rewrite R1; cbn [bind]. rewrite R2; cbn [bind]. rewrite R3; cbn [bind].
  rewrite R4; cbn [bind]. rewrite R5; cbn [bind]. rewrite R6; cbn [bind]. rewrite R7; cbn [bind].
  clear R0 R1 R2 R3 R4 R5 R6 R7.
  change (Oct (rd L0) (rd L1) (rd L2) (rd L3) (rd L4) (rd L5) (rd L6) (rd L7)) with (oct_of rd).
  assert (Hb : blocks_ok (oct_of rd)).
  { intros l. rewrite proj_of. subst rd. cbv beta. rewrite firstn_length, skipn_length, Hlen. lia. }
  cbv zeta.
  match goal with |- context [Avx2.compress8_transposed w ?m ?lo ?hi ?lb ?lnd] =>
    pose proof (fun l => Avx2Facts.compress8_transposed_ok w (oct_of rd) lo hi lb lnd l Hb) as Hl;
    set (w' := Avx2.compress8_transposed w m lo hi lb lnd) in * end.
  clearbody w'. rewrite flag_and in Hl.
  assert (Hl' : forall l, lane_state w' l = Portable.compress (lane_state w l) (rd l)
      (of_N 64 (N.of_nat (64 * n + 64)))
      (if Nat.eqb (64 * n + 64) (64 * blocks) then umax 32 else uzero 32)
      (if Nat.eqb (64 * n + 64) (64 * blocks) then flag32 (p_last_node p) else uzero 32)).
  { intros l. rewrite Hl, !Avx2Facts.proj_set1, proj_of. apply compress_words_of_N. }
  clear Hl. destruct (Nat.eqb_spec (64 * n + 64) (64 * blocks)) as [He|He].
  - f_equal. apply oct_ext; intro l. rewrite export8_lane, proj_of, Hl'.
    unfold bare_value. do 2 f_equal. rewrite <- (e_last _ _ _ E).
    apply chain_final; [rewrite Hlen; lia|apply Hw].
  - replace (64 * n + 64)%nat with (64 * S n)%nat in * by lia. apply IH; [lia| |lia].
    intros l. rewrite Hl'. replace (64 * S n)%nat with (64 * n + 64)%nat by lia.
    apply chain_step; [rewrite Hlen; lia|apply Hw].
Qed.

Lemma avx2_hash8_exact_ok p sp ln inputs blocks : encodes p sp ln -> (0 < blocks)%nat ->
  (forall l, length (proj l inputs) = 64 * blocks)%nat ->
  Avx2.hash8_exact p inputs = Ok (oct_of (fun l => bare_value p sp ln (proj l inputs))).
Proof.
  intros E Hb Hlen. unfold Avx2.hash8_exact. cbv zeta.
  pose proof (Hlen L0) as H0. cbn [proj] in H0. rewrite H0.
  match goal with |- Avx2.hash8_exact_loop ?f _ _ _ ?w _ = _ =>
    pose proof (hash8_exact_loop_ok p sp ln inputs blocks E Hlen f 0 w Hb) as H end.
  rewrite Nat.mul_0_r in H. apply H; [clear H|lia].
  intros l. rewrite <- (make_words_ok _ _ _ E). destruct l; reflexivity.
Qed.

(** ** The SSE4.1 loop *)
Lemma hash4_exact_loop_ok p sp ln inputs blocks : encodes p sp ln ->
  (forall l, length (qproj l inputs) = 64 * blocks)%nat ->
  forall fuel n w, (n < blocks)%nat ->
  (forall l, nums (qlane_state w l) = Spec.chain (Spec.initial sp) (qproj l inputs) n) ->
  (blocks <= n + fuel)%nat ->
  exists hs, Sse41.hash4_exact_loop fuel p (q0 inputs) (q1 inputs) (q2 inputs) (q3 inputs)
    (64 * blocks) w (64 * n) = Ok hs /\ forall l, qproj l hs = bare_value p sp ln (qproj l inputs).
Proof.
  intros E Hlen. induction fuel as [|fuel IH]; intros n w Hn Hw Hfuel; [lia|].
  cbn [Sse41.hash4_exact_loop]. unfold BLOCKBYTES.
  set (rd l := firstn 64 (skipn (64 * n) (qproj l inputs))).
  assert (Hrd : forall l, raw_read (qproj l inputs) (64 * n) 64 = Ok (rd l)).
  { intros l. apply raw_read_ok. rewrite Hlen. lia. }
  pose proof (Hrd M0) as R0; pose proof (Hrd M1) as R1; pose proof (Hrd M2) as R2;
  pose proof (Hrd M3) as R3. cbn [qproj] in R0, R1, R2, R3.
  rewrite R0; cbn [bind]. rewrite R1; cbn [bind]. rewrite R2; cbn [bind]. rewrite R3; cbn [bind].
  clear R0 R1 R2 R3.
  assert (Hb : forall l, length (rd l) = 64%nat).
  { intros l. subst rd. cbv beta. rewrite firstn_length, skipn_length, Hlen. lia. }
  cbv zeta.
  match goal with |- context [Sse41.compress4_transposed w ?a ?b ?c ?d ?lo ?hi ?lb ?lnd] =>
    pose proof (fun l => Sse41Facts.compress4_transposed_lane w a b c d lo hi lb lnd l) as Hl;
    set (w' := Sse41.compress4_transposed w a b c d lo hi lb lnd) in * end.
  clearbody w'. rewrite flag_and in Hl.
  assert (Hl' : forall l, qlane_state w' l = Portable.compress (qlane_state w l) (rd l)
      (of_N 64 (N.of_nat (64 * n + 64)))
      (if Nat.eqb (64 * n + 64) (64 * blocks) then umax 32 else uzero 32)
      (if Nat.eqb (64 * n + 64) (64 * blocks) then flag32 (p_last_node p) else uzero 32)).
  { intros l. rewrite Hl by (intros k; destruct k; apply Hb). rewrite !Sse41Facts.qproj_set1. rewrite compress_words_of_N. destruct l; reflexivity. }
  clear Hl. destruct (Nat.eqb_spec (64 * n + 64) (64 * blocks)) as [He|He].
  - eexists; split; [reflexivity|]. intros l. rewrite export4_lane, Hl'.
    unfold bare_value. do 2 f_equal. rewrite <- (e_last _ _ _ E).
    apply chain_final; [rewrite Hlen; lia|apply Hw].
  - replace (64 * n + 64)%nat with (64 * S n)%nat in * by lia. apply IH; [lia| |lia].
    intros l. rewrite Hl'. replace (64 * S n)%nat with (64 * n + 64)%nat by lia.
    apply chain_step; [rewrite Hlen; lia|apply Hw].
Qed.

Definition quad_of {A} (f : lane4 -> A) : quad A := Quad (f M0) (f M1) (f M2) (f M3).
Lemma qproj_of {A} (f : lane4 -> A) l : qproj l (quad_of f) = f l.
Proof. destruct l; reflexivity. Qed.

Lemma sse41_hash4_exact_ok p sp ln inputs blocks : encodes p sp ln -> (0 < blocks)%nat ->
  (forall l, length (qproj l inputs) = 64 * blocks)%nat ->
  Sse41.hash4_exact p (q0 inputs) (q1 inputs) (q2 inputs) (q3 inputs) =
  Ok (quad_of (fun l => bare_value p sp ln (qproj l inputs))).
Proof.
  intros E Hb Hlen. unfold Sse41.hash4_exact. cbv zeta.
  pose proof (Hlen M0) as H0. cbn [qproj] in H0. rewrite H0.
  destruct (hash4_exact_loop_ok p sp ln inputs blocks E Hlen (S (64 * blocks)) 0
    (Oct (Sse41.set1 (o0 (make_words p))) (Sse41.set1 (o1 (make_words p)))
         (Sse41.set1 (o2 (make_words p))) (Sse41.set1 (o3 (make_words p)))
         (Sse41.set1 (o4 (make_words p))) (Sse41.set1 (o5 (make_words p)))
         (Sse41.set1 (o6 (make_words p))) (Sse41.set1 (o7 (make_words p)))))
    as (hs & Ehs & Hhs); [exact Hb| |lia|].
  { intros l. rewrite <- (make_words_ok _ _ _ E). destruct l; reflexivity. }
  rewrite Nat.mul_0_r in Ehs. rewrite Ehs. f_equal. apply quad_ext; intro l. rewrite Hhs, qproj_of. reflexivity.
Qed.

(** ** The public functions *)
Definition exact_lengths (lens : list nat) : Prop :=
  exists n, (0 < n)%nat /\ forall x, In x lens -> x = (64 * n)%nat.

Lemma exact8_check (len : nat) lens :
  let ok := fold_right (fun x b => Nat.eqb x len && b) true lens in
  exact_lengths (len :: lens) <->
  ok = true /\ Nat.modulo len 64 = 0%nat /\ len <> 0%nat.
Proof.
  intros ok. assert (Hok : ok = true <-> forall x, In x lens -> x = len).
  { subst ok. induction lens as [|y ys IH]; cbn [fold_right In]; [split; [intros _ x []|reflexivity]|].
    rewrite andb_true_iff, IH, Nat.eqb_eq. split.
    - intros [H1 H2] x [<-|Hx]; auto.
    - intros H. split; [apply H; auto|intros x Hx; apply H; auto]. }
  rewrite Hok. unfold exact_lengths. split.
  - intros (n & Hn & H). assert (Hlen : len = (64 * n)%nat) by (apply H; left; reflexivity).
    split; [|split].
    + intros x Hx. rewrite Hlen. apply H. right. exact Hx.
    + rewrite Hlen, Nat.mul_comm. apply Nat.mod_mul. discriminate.
    + lia.
  - intros (H1 & H2 & H3). exists (len / 64)%nat.
    pose proof (Nat.div_mod len 64). split; [lia|].
    intros x [<-|Hx]; [|rewrite (H1 x Hx)]; lia.
Qed.

Lemma exact8_lanes inputs : exact_lengths (map (@length byte) (oct_list inputs)) ->
  exists n, (0 < n)%nat /\ forall l, length (proj l inputs) = (64 * n)%nat.
Proof.
  intros (n & Hn & H). exists n. split; [exact Hn|]. intros l. apply H. apply in_map.
  apply in_oct. exists l. reflexivity.
Qed.
Lemma exact4_lanes inputs : exact_lengths (map (@length byte) (quad_list inputs)) ->
  exists n, (0 < n)%nat /\ forall l, length (qproj l inputs) = (64 * n)%nat.
Proof.
  intros (n & Hn & H). exists n. split; [exact Hn|]. intros l. apply H. apply in_map.
  destruct inputs, l; cbn [quad_list qproj q0 q1 q2 q3 In]; tauto.
Qed.

Lemma oct_mapM_value {A B} (f : A -> outcome B) (g : A -> B) (a : oct A) :
  (forall l, f (proj l a) = Ok (g (proj l a))) -> oct_mapM f a = Ok (oct_of (fun l => g (proj l a))).
Proof. intros H. apply oct_mapM_ok. intros l. rewrite proj_of. apply H. Qed.

(** [simd8 c]: the dispatcher picks the SIMD versions. *)
Definition simd (c : cfg) : bool := arch_x86 c && feature_std c && cpu_avx2 c.

Theorem hash8_exact_value c p sp ln inputs : cfg_ok c -> encodes p sp ln ->
  (forall l, fits c (N.of_nat (length (stream sp (proj l inputs))))) ->
  exact_lengths (map (@length byte) (oct_list inputs)) ->
  hash8_exact c p inputs =
  Ok (oct_of (fun l => if simd c then bare_value p sp ln (proj l inputs)
                       else hash_value p sp ln (proj l inputs))).
Proof.
  intros Hc E Hf Hx. unfold hash8_exact. cbv zeta.
  pose proof Hx as Hx'. destruct inputs as [a0 a1 a2 a3 a4 a5 a6 a7]. cbn [oct_list map] in Hx'.
  apply exact8_check in Hx' as (H1 & H2 & H3). cbn [fold_right o0 o1 o2 o3 o4 o5 o6 o7] in *.
  rewrite andb_true_r in H1. rewrite !andb_assoc in H1. unfold BLOCKBYTES. rewrite H1, H2.
  apply Nat.eqb_neq in H3. rewrite H3. cbn [andb negb Nat.eqb].
  destruct (exact8_lanes _ Hx) as (n & Hn & Hlen). clear H1 H2 H3.
  unfold default_compress_impl. fold (simd c). destruct (simd c) eqn:Es; cbn [fn_hash8_exact call_hash8_exact].
  - unfold simd in Es. unfold has_avx2.
    destruct (arch_x86 c), (feature_std c), (cpu_avx2 c); try discriminate Es. cbn [andb].
    apply (avx2_hash8_exact_ok p sp ln _ n E Hn Hlen).
  - unfold hash8_exact_port. apply oct_mapM_value. intros l. apply hash_one_value; auto.
Qed.

Theorem hash4_exact_value c p sp ln inputs : cfg_ok c -> encodes p sp ln ->
  (forall l, fits c (N.of_nat (length (stream sp (qproj l inputs))))) ->
  exact_lengths (map (@length byte) (quad_list inputs)) ->
  hash4_exact c p inputs =
  Ok (quad_of (fun l => if simd c then bare_value p sp ln (qproj l inputs)
                        else hash_value p sp ln (qproj l inputs))).
Proof.
  intros Hc E Hf Hx. unfold hash4_exact. cbv zeta.
  pose proof Hx as Hx'. destruct inputs as [a0 a1 a2 a3]. cbn [quad_list map] in Hx'.
  apply exact8_check in Hx' as (H1 & H2 & H3). cbn [fold_right q0 q1 q2 q3] in *.
  rewrite andb_true_r in H1. rewrite !andb_assoc in H1. unfold BLOCKBYTES. rewrite H1, H2.
  apply Nat.eqb_neq in H3. rewrite H3. cbn [andb negb Nat.eqb].
  destruct (exact4_lanes _ Hx) as (n & Hn & Hlen). clear H1 H2 H3.
  unfold default_compress_impl. fold (simd c). destruct (simd c) eqn:Es; cbn [fn_hash4_exact call_hash4_exact].
  - unfold simd in Es. unfold has_sse41. unfold cfg_ok in Hc.
    destruct (arch_x86 c), (feature_std c), (cpu_avx2 c); try discriminate Es.
    rewrite Hc by reflexivity. cbn [andb].
    apply (sse41_hash4_exact_ok p sp ln (Quad a0 a1 a2 a3) n E Hn Hlen).
  - unfold hash4_exact_port.
    assert (Hv : forall l, hash_one c p (qproj l (Quad a0 a1 a2 a3)) =
        Ok (hash_value p sp ln (qproj l (Quad a0 a1 a2 a3)))).
    { intros l. apply hash_one_value; auto. }
    pose proof (Hv M0) as V0; pose proof (Hv M1) as V1; pose proof (Hv M2) as V2; pose proof (Hv M3) as V3.
    cbn [qproj] in V0, V1, V2, V3. rewrite V0; cbn [bind]. rewrite V1; cbn [bind].
    rewrite V2; cbn [bind]. rewrite V3; cbn [bind]. reflexivity.
Qed.

Lemma hash8_exact_reject c p inputs :
  ~ exact_lengths (map (@length byte) (oct_list inputs)) -> hash8_exact c p inputs = Panic.
Proof.
  intros Hx. unfold hash8_exact. cbv zeta. destruct inputs as [a0 a1 a2 a3 a4 a5 a6 a7].
  cbn [oct_list map] in Hx. rewrite exact8_check in Hx. cbn [fold_right] in Hx.
  rewrite andb_true_r, !andb_assoc in Hx. cbn [o0 o1 o2 o3 o4 o5 o6 o7]. unfold BLOCKBYTES.
  match goal with |- (if ?b then _ else _) = _ => destruct b eqn:Eb end; [|reflexivity].
  exfalso. apply Hx. rewrite !andb_true_iff, negb_true_iff, !Nat.eqb_eq, Nat.eqb_neq in *. tauto.
Qed.
Lemma hash4_exact_reject c p inputs :
  ~ exact_lengths (map (@length byte) (quad_list inputs)) -> hash4_exact c p inputs = Panic.
Proof.
  intros Hx. unfold hash4_exact. cbv zeta. destruct inputs as [a0 a1 a2 a3].
  cbn [quad_list map] in Hx. rewrite exact8_check in Hx. cbn [fold_right] in Hx.
  rewrite andb_true_r, !andb_assoc in Hx. cbn [q0 q1 q2 q3]. unfold BLOCKBYTES.
  match goal with |- (if ?b then _ else _) = _ => destruct b eqn:Eb end; [|reflexivity].
  exfalso. apply Hx. rewrite !andb_true_iff, negb_true_iff, !Nat.eqb_eq, Nat.eqb_neq in *. tauto.
Qed.
