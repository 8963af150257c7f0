(** * SpLate: what keyed BLAKE2sp computes in builds without debug assertions.

    [blake2sp::State::update] compresses groups of eight blocks with [compress8] while
    each leaf still holds the key block in its own buffer.  The key block is then
    compressed after them, with the wrong position in the chain. *)
From Verif Require Import Base BaseFacts Consts Portable PortableFacts SpecFacts Params ParamsSpec ParamsFacts State StateFacts
  Refine Many ManyFacts LeafFacts Blake2sp SpFacts Machine MachineSpec MachineFacts Clients Terms Behave Corollaries SpShape.
From Verif Require Spec Avx2 Avx2Facts.
Import Avx2Facts (oct_ext, proj_map, proj_map2,
                  proj_const, blocks_ok).
From Coq Require Import ZArith Lia ZifyBool ZifyNat ZifyN.
Local Open Scope N_scope.

(** ** The function computed *)

(** With no early block this is BLAKE2sp. *)
Lemma late_chain_0 h D n : late_chain h 0 D n = Spec.chain h D n.
Proof. reflexivity. Qed.
Lemma late_blake2sp_0 dlen key D : late_blake2sp dlen key D 0 = Spec.blake2sp dlen key D.
Proof. reflexivity. Qed.

(** ** Chains *)
Lemma late_chain_S h k D n : late_chain h k D (S n) =
  Spec.F (late_chain h k D n) (Spec.block D n) (late_count k n) 0 0.
Proof. unfold late_chain. rewrite seq_S, fold_left_app. reflexivity. Qed.
Lemma late_chain_ext h k k' D D' n : (forall i, (i < n)%nat -> Spec.block D i = Spec.block D' i /\ late_count k i = late_count k' i) ->
  late_chain h k D n = late_chain h k' D' n.
Proof.
  induction n as [|n IH]; intros H; [reflexivity|]. rewrite !late_chain_S.
  destruct (H n ltac:(lia)) as (-> & ->). rewrite IH; [reflexivity|]. intros i Hi. apply H. lia.
Qed.
Lemma late_count_lt k i : (i < k)%nat -> late_count k i = 64 * N.of_nat (i + 2).
Proof. intros H. unfold late_count. apply Nat.ltb_lt in H. rewrite H. reflexivity. Qed.
Lemma late_count_ge k i : (k <= i)%nat -> late_count k i = 64 * N.of_nat (i + 1).
Proof. intros H. unfold late_count. apply Nat.ltb_ge in H. rewrite H. reflexivity. Qed.

(** ** A leaf that still holds the key block *)
Record LateLeaf (c : cfg) (h0 : list N) (K M : list byte) (k : nat) (st : State) : Prop := {
  ll_h : nums (st_h st) = late_chain h0 k M k;
  ll_M : length M = (64 * k)%nat;
  ll_K : st_buf st = K;
  ll_K64 : length K = 64%nat;
  ll_buflen : val (st_buflen st) = 64;
  ll_count : val (st_count st) = N.of_nat (64 * k + 64);
  ll_bound : N.of_nat (64 * k + 64) < 2 ^ 64;
  ll_fn : fn_ok c (st_compress_fn st)
}.

Definition late_leaves (c : cfg) (dlen : N) (key P : list byte) (leaves : oct State) : Prop :=
  (forall l, exists k, LateLeaf c (Spec.initial (Spec.leaf_params dlen key (idx l))) (Spec.key_block key)
                      (Spec.leaf_input (idx l) P) k (proj l leaves)) /\
  (forall l, st_last_node (proj l leaves) = Nat.eqb (idx l) 7) /\
  (forall l, st_hash_length (proj l leaves) = of_N 8 32).

Lemma late_step c dlen key bound : debug_assertions c = false -> N.of_nat bound + 64 < 2 ^ 64 ->
  forall P leaves block fn np, late_leaves c dlen key P leaves -> length P = (512 * np)%nat ->
  length block = 512%nat -> fn8_ok c fn -> (length (P ++ block) <= bound)%nat ->
  exists leaves', sp_compress8 c block leaves fn = Ok leaves' /\ late_leaves c dlen key (P ++ block) leaves'.
Proof.
  intros Hd Hb0 P leaves block fn np (HL & HM1 & HM2) HP Hb Hfn Hf. unfold sp_compress8, debug_assert. rewrite Hd.
  cbn [bind].
  assert (Hlen : forall l, length (Spec.leaf_input (idx l) P) = (64 * np)%nat).
  { intros l. apply leaf_input_length; [apply idx_lt|exact HP]. }
  assert (HR : forall l, LateLeaf c (Spec.initial (Spec.leaf_params dlen key (idx l))) (Spec.key_block key)
                             (Spec.leaf_input (idx l) P) np (proj l leaves)).
  { intros l. destruct (HL l) as (k & R). pose proof (ll_M _ _ _ _ _ _ R) as Hk. rewrite Hlen in Hk.
    replace np with k by lia. exact R. }
  clear HL. rewrite app_length, Hb, HP in Hf.
  assert (Hbd : N.of_nat (64 * S np + 64) < 2 ^ 64) by lia.
  set (n := of_N 64 (N.of_nat (64 * S np + 64))).
  assert (Hn : val n = N.of_nat (64 * S np + 64)) by (apply val_of_N_small, Hbd).
  set (leaves1 := oct_of (fun l => set_count (proj l leaves) n)).
  rewrite (oct_mapM_ok _ _ leaves1).
  2: { intros l. subst leaves1. rewrite proj_of. unfold bump_count.
       pose proof (ll_count _ _ _ _ _ _ (HR l)) as Hc.
       rewrite uadd_ok.
       - cbn [bind]. rewrite Hc. subst n. do 3 f_equal. change (val (of_N 64 (N.of_nat BLOCKBYTES))) with 64. lia.
       - intros _. rewrite Hc. change (val (of_N 64 (N.of_nat BLOCKBYTES))) with 64. lia. }
  cbn [bind].
  assert (Hbo : blocks_ok (eight_blocks block)).
  { intros l. rewrite eight_blocks_lane, sub_length, Hb. pose proof (idx_lt l). lia. }
  rewrite call_compress8_ok by assumption. cbn [bind].
  eexists; split; [reflexivity|]. split; [|split].
  - intros l. exists (S np).
    rewrite (leaf_input_app _ P block np HP), (leaf_input_one _ block) by (assumption || apply idx_lt).
    assert (Hsl : length (sub block (idx l * 64) 64) = 64%nat).
    { rewrite sub_length, Hb. pose proof (idx_lt l). lia. }
    rewrite proj_map2, compress8_lane, !proj_map, !proj_const, eight_blocks_lane.
    subst leaves1. rewrite proj_of. specialize (HR l). specialize (Hlen l). destruct HR.
    constructor; unfold set_h, set_count;
      cbn [st_h st_buf st_buflen st_count st_compress_fn st_last_node st_hash_length]; try assumption.
    + rewrite compress_ok by exact Hsl. rewrite ll_h0, val_uzero, Hn, late_chain_S.
      rewrite late_count_lt by lia. rewrite block_whole by (rewrite app_length; lia).
      rewrite skipn_app_ge by lia. rewrite Hlen, Nat.sub_diag. cbn [skipn]. rewrite firstn_all2 by lia.
      rewrite (late_chain_ext _ (S np) np _ (Spec.leaf_input (idx l) P)).
      2: { intros i Hi. rewrite block_app by lia. rewrite !late_count_lt by lia. auto. }
      f_equal. lia.
    + rewrite app_length, Hlen, Hsl. lia.
  - intros l. rewrite proj_map2. subst leaves1. rewrite proj_of. exact (HM1 l).
  - intros l. rewrite proj_map2. subst leaves1. rewrite proj_of. exact (HM2 l).
Qed.

(** ** The rest of the input *)
Lemma update_nil c st : length (st_buf st) = 64%nat -> 0 < val (st_buflen st) <= 64 ->
  update c st [] = Ok st.
Proof.
  intros Hb Hl.
  assert (Hfill : fill_buf c st [] = Ok (st, [])).
  { unfold fill_buf. rewrite nsub_ok by (unfold buflen_nat, BLOCKBYTES; lia). cbn [bind length].
    rewrite Nat.min_0_r, slice_to_ok by lia. cbn [bind].
    rewrite copy_into_ok by (unfold buflen_nat; cbn [firstn length]; lia). cbn [bind firstn app].
    change (N.of_nat 0) with 0.
    rewrite !uadd_ok by (intros _; change (val (of_N 8 0)) with 0; change (val (of_N 64 0)) with 0;
      rewrite N.add_0_r; apply val_lt). cbn [bind].
    change (val (of_N 8 0)) with 0; change (val (of_N 64 0)) with 0. rewrite !N.add_0_r, !of_N_val.
    rewrite Nat.add_0_r, firstn_skipn. rewrite slice_from_ok by (cbn; lia). cbn [bind skipn].
    destruct st; reflexivity. }
  unfold update, compress_buffer_if_possible. replace (0 <? val (st_buflen st)) with true by lia.
  rewrite Hfill. cbn [bind length update_loop]. cbn [Nat.ltb Nat.leb BLOCKBYTES bind].
  rewrite Hfill. reflexivity.
Qed.

Lemma update_full c st x : length (st_buf st) = 64%nat -> val (st_buflen st) = 64 -> fn_ok c (st_compress_fn st) ->
  (0 < length x <= 64)%nat -> val (st_count st) + 64 < 2 ^ 64 ->
  update c st x =
  Ok {| st_h := Portable.compress (st_h st) (st_buf st) (st_count st) (uzero 32) (uzero 32);
        st_buf := x ++ skipn (length x) (st_buf st); st_buflen := of_N 8 (N.of_nat (length x));
        st_count := of_N 64 (val (st_count st) + N.of_nat (length x));
        st_compress_fn := st_compress_fn st; st_last_node := st_last_node st;
        st_hash_length := st_hash_length st |}.
Proof.
  intros Hb Hl Hfn Hx Hc. unfold update, compress_buffer_if_possible. rewrite Hl. cbn [N.ltb N.compare].
  assert (Hfill : fill_buf c st x = Ok (st, x)).
  { unfold fill_buf, buflen_nat. rewrite Hl, nsub_ok by (unfold BLOCKBYTES; lia). cbn [bind].
    change (BLOCKBYTES - N.to_nat 64)%nat with 0%nat. cbn [Nat.min]. rewrite slice_to_ok by lia. cbn [bind firstn].
    rewrite copy_into_ok by (cbn [length]; lia). cbn [bind app].
    change (N.of_nat 0) with 0.
    rewrite !uadd_ok by (intros _; change (val (of_N 8 0)) with 0; change (val (of_N 64 0)) with 0;
      rewrite N.add_0_r; apply val_lt). cbn [bind].
    change (val (of_N 8 0)) with 0; change (val (of_N 64 0)) with 0. rewrite !N.add_0_r, !of_N_val.
    rewrite Nat.add_0_r, firstn_skipn. rewrite slice_from_ok by lia. cbn [bind].
    destruct st; reflexivity. }
  rewrite Hfill. cbn [bind]. destruct x as [|x0 x1] eqn:Ex; [cbn [length] in Hx; lia|]. rewrite <- Ex in *. clear Ex x0 x1.
  rewrite call_compress_ok by assumption. cbn [bind].
  replace (update_loop (S (length x)) c) with (fun st input => update_loop (S (length x)) c st input) by reflexivity.
  cbn [update_loop]. unfold BLOCKBYTES. replace (Nat.ltb 64 (length x)) with false by lia. cbn [bind].
  unfold fill_buf, buflen_nat, BLOCKBYTES. cbn [st_h st_buf st_buflen st_count st_compress_fn st_last_node st_hash_length].
  rewrite val_uzero. change (N.to_nat 0) with 0%nat. rewrite nsub_ok by lia. cbn [bind].
  replace (Nat.min (64 - 0) (length x)) with (length x) by lia. rewrite slice_to_ok by lia. cbn [bind].
  rewrite firstn_all. rewrite copy_into_ok by lia. cbn [bind firstn app Nat.add].
  assert (V8 : val (of_N 8 (N.of_nat (length x))) = N.of_nat (length x)).
  { apply val_of_N_small. change (2 ^ 8) with 256. lia. }
  assert (V64 : val (of_N 64 (N.of_nat (length x))) = N.of_nat (length x)).
  { apply val_of_N_small. lia. }
  rewrite uadd_ok by (intros _; rewrite val_uzero, V8; change (2 ^ 8) with 256; lia). cbn [bind].
  rewrite uadd_ok by (intros _; rewrite V64; lia). cbn [bind].
  rewrite slice_from_ok by lia. cbn [bind]. rewrite val_uzero, V8, V64. reflexivity.
Qed.

Lemma finalize_any c st : length (st_buf st) = 64%nat -> (buflen_nat st <= 64)%nat -> fn_ok c (st_compress_fn st) ->
  exists z, finalize c st = Ok (z, mk_Hash (Spec.words_bytes
    (Spec.F (nums (st_h st)) (Spec.pad 64 (firstn (buflen_nat st) (st_buf st))) (val (st_count st)) Spec.ones
            (if st_last_node st then Spec.ones else 0))) (st_hash_length st)).
Proof.
  intros Hb Hl Hfn. unfold finalize.
  cbn [st_h st_buf st_buflen st_count st_compress_fn st_last_node st_hash_length].
  rewrite zero_tail_ok by assumption.
  assert (Hp : length (Spec.pad 64 (firstn (buflen_nat st) (st_buf st))) = 64%nat).
  { rewrite pad_length, firstn_length. lia. }
  rewrite call_compress_ok by assumption. cbn [bind].
  rewrite state_bytes_ok, compress_ok by exact Hp. rewrite val_flag32, val_umax32.
  eexists. reflexivity.
Qed.

Lemma block_at (A X Y : list byte) i : length A = (64 * i)%nat -> length X = 64%nat ->
  Spec.block (A ++ X ++ Y) i = X.
Proof.
  intros HA HX. rewrite block_whole by (rewrite !app_length; lia).
  rewrite skipn_app_ge, HA, Nat.sub_diag by lia. cbn [skipn]. rewrite firstn_app_le by lia.
  apply firstn_all2. lia.
Qed.
Lemma block_end (A X : list byte) i : length A = (64 * i)%nat -> (length X <= 64)%nat ->
  Spec.block (A ++ X) i = Spec.pad 64 X.
Proof.
  intros HA HX. unfold Spec.block. rewrite skipn_app_ge, HA, Nat.sub_diag by lia. cbn [skipn].
  rewrite firstn_all2 by lia. reflexivity.
Qed.

Lemma late_feed c h0 K M k st T1 T2 : LateLeaf c h0 K M k st -> (length T1 <= 64)%nat -> (length T2 <= 64)%nat ->
  (T2 <> [] -> length T1 = 64%nat) -> N.of_nat (64 * k + 64) + 128 < 2 ^ 64 ->
  exists a b, update c st T1 = Ok a /\ update c a T2 = Ok b /\
    exists z, finalize c b = Ok (z, mk_Hash (Spec.words_bytes (late_words h0 k (M ++ K ++ T1 ++ T2) (st_last_node st)))
                                           (st_hash_length st)).
Proof.
  intros R H1 H2 H12 Hb. destruct R.
  assert (HK64 : length (st_buf st) = 64%nat) by (rewrite ll_K0; exact ll_K65).
  assert (Hpre : forall X, late_chain h0 k (M ++ X) k = nums (st_h st)).
  { intros X. rewrite ll_h0. apply late_chain_ext. intros i Hi. rewrite block_app by lia. auto. }
  destruct T1 as [|t0 t1] eqn:ET.
  { assert (T2 = []) as -> by (destruct T2; [reflexivity|discriminate H12; discriminate]).
    exists st, st. rewrite update_nil by (try assumption; lia). split; [reflexivity|]. split; [reflexivity|].
    destruct (finalize_any c st HK64 ltac:(unfold buflen_nat; lia) ll_fn0) as (z & E). exists z. rewrite E.
    unfold buflen_nat. rewrite ll_buflen0. change (N.to_nat 64) with 64%nat.
    unfold late_words. cbn [app]. rewrite app_nil_r.
    rewrite (nblocks_unique (M ++ K) k) by (rewrite app_length; lia). cbn [Nat.sub]. rewrite Nat.sub_0_r, Hpre.
    rewrite block_end by lia. rewrite ll_K0, firstn_all2 by lia. rewrite ll_count0, app_length, ll_M0, ll_K65.
    reflexivity. }
  rewrite <- ET in *. assert (Hpos : (0 < length T1)%nat) by (subst T1; cbn [length]; lia). clear ET t0 t1.
  rewrite (update_full c st T1) by (try assumption; lia).
  eexists. 
  destruct T2 as [|t0 t1] eqn:ET.
  { eexists. split; [reflexivity|]. rewrite update_nil.
    2: { cbn [st_buf]. rewrite app_length, skipn_length. lia. }
    2: { cbn [st_buflen]. rewrite val_of_N_small by (change (2 ^ 8) with 256; lia). lia. }
    split; [reflexivity|].
    match goal with |- exists z, finalize c ?s = _ => destruct (finalize_any c s) as (z & E) end.
    { cbn [st_buf]. rewrite app_length, skipn_length. lia. }
    { unfold buflen_nat. cbn [st_buflen]. rewrite val_of_N_small by (change (2 ^ 8) with 256; lia). lia. }
    { exact ll_fn0. }
    exists z. rewrite E. unfold buflen_nat. cbn [st_h st_buf st_buflen st_count st_last_node st_hash_length].
    rewrite !val_of_N_small by (change (2 ^ 8) with 256; lia). rewrite Nat2N.id.
    rewrite firstn_app_le, firstn_all by lia. rewrite compress_ok by exact HK64. rewrite val_uzero, ll_K0.
    unfold late_words. rewrite app_nil_r.
    rewrite (nblocks_unique _ (S k)) by (rewrite !app_length; lia). cbn [Nat.sub].
    rewrite late_chain_S, Hpre, late_count_ge by lia. rewrite block_at by assumption.
    rewrite app_assoc, block_end by (rewrite ?app_length; lia). rewrite !app_length, ll_count0, ll_M0, ll_K65.
    replace (64 * N.of_nat (k + 1)) with (N.of_nat (64 * k + 64)) by lia.
    replace (N.of_nat (64 * k + 64) + N.of_nat (length T1)) with (N.of_nat (64 * k + 64 + length T1)) by lia.
    reflexivity. }
  rewrite <- ET in *. assert (Hpos2 : (0 < length T2)%nat) by (subst T2; cbn [length]; lia).
  assert (Hfull : length T1 = 64%nat) by (apply H12; subst T2; discriminate). clear ET t0 t1 H12.
  eexists. split; [reflexivity|].
  rewrite update_full.
  2: { cbn [st_buf]. rewrite app_length, skipn_length. lia. }
  2: { cbn [st_buflen]. rewrite Hfull. reflexivity. }
  2: { exact ll_fn0. }
  2: { lia. }
  2: { cbn [st_count]. rewrite val_of_N_small by lia. lia. }
  split; [reflexivity|].
  match goal with |- exists z, finalize c ?s = _ => destruct (finalize_any c s) as (z & E) end.
  { cbn [st_buf]. rewrite !app_length, !skipn_length, app_length, skipn_length. lia. }
  { unfold buflen_nat. cbn [st_buflen]. rewrite val_of_N_small by (change (2 ^ 8) with 256; lia). lia. }
  { exact ll_fn0. }
  exists z. rewrite E. unfold buflen_nat. cbn [st_h st_buf st_buflen st_count st_last_node st_hash_length].
  rewrite (val_of_N_small 8) by (change (2 ^ 8) with 256; lia). rewrite Nat2N.id.
  rewrite (skipn_all2 (n := length T1) (st_buf st)) by lia. rewrite app_nil_r.
  rewrite firstn_app_le, firstn_all by lia.
  rewrite compress_ok by exact Hfull. rewrite compress_ok by exact HK64. rewrite val_uzero, ll_K0.
  rewrite (val_of_N_small 64 (val (st_count st) + N.of_nat (length T1))) by lia.
  rewrite val_of_N_small by lia.
  unfold late_words.
  rewrite (nblocks_unique _ (S (S k))) by (rewrite !app_length; lia). cbn [Nat.sub].
  rewrite !late_chain_S, Hpre, !late_count_ge by lia. rewrite (block_at M K) by assumption.
  rewrite (app_assoc M K), block_at by (rewrite ?app_length; lia).
  rewrite (app_assoc (M ++ K)), block_end by (rewrite ?app_length; lia). rewrite !app_length, ll_count0, ll_M0, ll_K65.
  replace (64 * N.of_nat (k + 1)) with (N.of_nat (64 * k + 64)) by lia.
  replace (64 * N.of_nat (S k + 1)) with (N.of_nat (64 * k + 64) + N.of_nat (length T1)) by lia.
  replace (N.of_nat (64 * k + 64) + N.of_nat (length T1) + N.of_nat (length T2))
    with (N.of_nat (64 * k + 64 + length T1 + length T2)) by lia.
  reflexivity.
Qed.

(** ** finalize, for any leaf digests *)
Lemma sp_finalize_gen c h0 B st (dg : nat -> list byte) :
  length (sp_buf st) = 1024%nat -> firstn (length B) (sp_buf st) = B -> sp_buflen_nat st = length B ->
  (length B <= 1024)%nat -> Rep c h0 [] 0 (sp_root st) ->
  (forall l, exists a b, update c (proj l (sp_leaves st)) (sub B (idx l * 64) 64) = Ok a /\
     update c a (sub B ((idx l + 8) * 64) 64) = Ok b /\
     exists z, finalize c b = Ok (z, mk_Hash (dg (idx l)) (of_N 8 32))) ->
  (forall i, length (dg i) = 32%nat) ->
  sp_finalize c st = Ok (mk_Hash (Spec.words_bytes (Spec.hash_words h0 (flat_map dg (seq 0 8))
                                    (st_last_node (sp_root st)))) (st_hash_length (sp_root st))).
Proof.
  intros Hbl Hb Hl HB Rr HL Hdl. unfold sp_finalize. cbv zeta.
  destruct (sp_leaves st) as [s0 s1 s2 s3 s4 s5 s6 s7]. rewrite Hl. unfold feed_chunk.
  rewrite !(chunk_ok (sp_buf st) B) by (try assumption; unfold BLOCKBYTES; lia).
  cbn [bind].
  destruct (HL L0) as (a0 & b0 & A0 & B0 & F0), (HL L1) as (a1 & b1 & A1 & B1 & F1),
    (HL L2) as (a2 & b2 & A2 & B2 & F2), (HL L3) as (a3 & b3 & A3 & B3 & F3),
    (HL L4) as (a4 & b4 & A4 & B4 & F4), (HL L5) as (a5 & b5 & A5 & B5 & F5),
    (HL L6) as (a6 & b6 & A6 & B6 & F6), (HL L7) as (a7 & b7 & A7 & B7 & F7).
  clear HL. cbn [proj idx o0 o1 o2 o3 o4 o5 o6 o7 Nat.add] in *.
  rewrite (bind_Ok _ _ _ A0), (bind_Ok _ _ _ A1), (bind_Ok _ _ _ A2), (bind_Ok _ _ _ A3),
    (bind_Ok _ _ _ A4), (bind_Ok _ _ _ A5), (bind_Ok _ _ _ A6), (bind_Ok _ _ _ A7),
    (bind_Ok _ _ _ B0), (bind_Ok _ _ _ B1), (bind_Ok _ _ _ B2), (bind_Ok _ _ _ B3),
    (bind_Ok _ _ _ B4), (bind_Ok _ _ _ B5), (bind_Ok _ _ _ B6), (bind_Ok _ _ _ B7).
  clear A0 A1 A2 A3 A4 A5 A6 A7 B0 B1 B2 B3 B4 B5 B6 B7.
  assert (Hsmall : forall n, (n <= 512)%nat -> fits c (N.of_nat n)).
  { intros n Hn _. change (2 ^ 64) with 18446744073709551616. lia. }
  destruct (root_feed c _ _ _ _ _ _ Rr (or_introl eq_refl) F0 (Hdl _)) as (r0 & k0 & E0 & R0 & Z0 & M0);
    [apply Hsmall; cbn [length]; lia|].
  rewrite (bind_Ok _ _ _ E0).
  destruct (root_feed c _ _ _ _ _ _ R0 Z0 F1 (Hdl _)) as (r1 & k1 & E1 & R1 & Z1 & M1);
    [apply Hsmall; rewrite ?app_length, ?Hdl; cbn [length]; lia|].
  rewrite (bind_Ok _ _ _ E1).
  destruct (root_feed c _ _ _ _ _ _ R1 Z1 F2 (Hdl _)) as (r2 & k2 & E2 & R2 & Z2 & M2);
    [apply Hsmall; rewrite ?app_length, ?Hdl; cbn [length]; lia|].
  rewrite (bind_Ok _ _ _ E2).
  destruct (root_feed c _ _ _ _ _ _ R2 Z2 F3 (Hdl _)) as (r3 & k3 & E3 & R3 & Z3 & M3);
    [apply Hsmall; rewrite ?app_length, ?Hdl; cbn [length]; lia|].
  rewrite (bind_Ok _ _ _ E3).
  destruct (root_feed c _ _ _ _ _ _ R3 Z3 F4 (Hdl _)) as (r4 & k4 & E4 & R4 & Z4 & M4);
    [apply Hsmall; rewrite ?app_length, ?Hdl; cbn [length]; lia|].
  rewrite (bind_Ok _ _ _ E4).
  destruct (root_feed c _ _ _ _ _ _ R4 Z4 F5 (Hdl _)) as (r5 & k5 & E5 & R5 & Z5 & M5);
    [apply Hsmall; rewrite ?app_length, ?Hdl; cbn [length]; lia|].
  rewrite (bind_Ok _ _ _ E5).
  destruct (root_feed c _ _ _ _ _ _ R5 Z5 F6 (Hdl _)) as (r6 & k6 & E6 & R6 & Z6 & M6);
    [apply Hsmall; rewrite ?app_length, ?Hdl; cbn [length]; lia|].
  rewrite (bind_Ok _ _ _ E6).
  destruct (root_feed c _ _ _ _ _ _ R6 Z6 F7 (Hdl _)) as (r7 & k7 & E7 & R7 & Z7 & M7);
    [apply Hsmall; rewrite ?app_length, ?Hdl; cbn [length]; lia|].
  rewrite (bind_Ok _ _ _ E7).
  rewrite (bind_Ok _ _ _ (finalize_ok c _ _ _ _ R7 Z7)).
  assert (Mall : same_meta (sp_root st) r7).
  { repeat (eapply same_meta_trans; [|eassumption]). apply same_meta_refl. }
  destruct Mall as (_ & Q2 & Q3). rewrite Q2, Q3.
  cbn [seq flat_map]. rewrite app_nil_r, <- !app_assoc. reflexivity.
Qed.

(** ** Whole histories *)
Lemma late_words_length h k D b : length (late_words h k D b) = 8%nat.
Proof. apply F_length. Qed.

Lemma late_new c dlen key st : key <> [] -> SpRep c dlen key [] [] 0 st ->
  Shape c (late_leaves c dlen key) [] [] st.
Proof.
  intros Hk R. pose proof (sr_keylen _ _ _ _ _ _ _ R) as Hkl.
  assert (Hkb : length (Spec.key_block key) = 64%nat).
  { rewrite key_block_length by lia. destruct key; [contradiction Hk; reflexivity|reflexivity]. }
  constructor.
  - split; [|split].
    + intros l. destruct (sr_leaf _ _ _ _ _ _ _ R l) as (k & R1 & _ & Hk0).
      assert (k = 0%nat) as -> by (destruct key; [contradiction Hk; reflexivity|exact Hk0]). clear Hk0.
      unfold leaf_data in R1. change (Spec.leaf_input (idx l) []) with (@nil byte) in *. rewrite app_nil_r in R1.
      exists 0%nat. destruct R1. rewrite Hkb in *. rewrite Nat.mul_0_r in *. cbn [Nat.sub skipn] in *.
      constructor; try assumption.
      * reflexivity.
      * rewrite <- rep_buf. rewrite firstn_all2; [reflexivity|]. lia.
      * unfold buflen_nat in rep_buflen. lia.
      * reflexivity.
    + apply (sr_leaf_last _ _ _ _ _ _ _ R).
    + apply (sr_leaf_hash _ _ _ _ _ _ _ R).
  - exists 0%nat. reflexivity.
  - apply (sr_buf_length _ _ _ _ _ _ _ R).
  - cbn [length]. lia.
  - apply (sr_buflen _ _ _ _ _ _ _ R).
  - reflexivity.
  - apply (sr_fn _ _ _ _ _ _ _ R).
Qed.

Lemma leaf_input_prefix i P B k : (i < 8)%nat -> length P = (512 * k)%nat ->
  firstn (64 * k) (Spec.leaf_input i (P ++ B)) = Spec.leaf_input i P /\
  skipn (64 * k) (Spec.leaf_input i (P ++ B)) = Spec.leaf_input i B.
Proof.
  intros Hi HP. rewrite (leaf_input_app i P B k HP). pose proof (leaf_input_length i k Hi P HP) as HL.
  rewrite firstn_app_le, skipn_app_ge, HL, Nat.sub_diag by lia. split; [|reflexivity].
  apply firstn_all2. lia.
Qed.

Lemma late_finalize c dlen key P B st k : Shape c (late_leaves c dlen key) P B st -> length P = (512 * k)%nat ->
  Rep c (Spec.initial (Spec.root_params dlen key)) [] 0 (sp_root st) -> st_last_node (sp_root st) = true ->
  N.of_nat (length (P ++ B)) + 64 < 2 ^ 64 ->
  sp_finalize c st = Ok (mk_Hash (Spec.words_bytes (Spec.hash_words (Spec.initial (Spec.root_params dlen key))
      (flat_map (late_leaf dlen key (P ++ B) k) (seq 0 8)) true)) (st_hash_length (sp_root st))).
Proof.
  intros R HP Rr Hln Hb. rewrite app_length in Hb.
  rewrite (sp_finalize_gen c _ B st (late_leaf dlen key (P ++ B) k) (sh_buf_length _ _ _ _ _ R) (sh_buf _ _ _ _ _ R)
    (sh_buflen _ _ _ _ _ R) (sh_B _ _ _ _ _ R) Rr); [rewrite Hln; reflexivity| |].
  - intros l. destruct (sh_good _ _ _ _ _ R) as (HL & M1 & M2).
    destruct (HL l) as (k' & RL). pose proof (ll_M _ _ _ _ _ _ RL) as Hk'.
    rewrite (leaf_input_length (idx l) k (idx_lt l) P HP) in Hk'. assert (k' = k) as -> by lia. clear Hk'.
    pose proof (sh_B _ _ _ _ _ R) as HB.
    destruct (late_feed c _ _ _ k _ (sub B (idx l * 64) 64) (sub B ((idx l + 8) * 64) 64) RL) as (a & b & Ea & Eb & z & Ez).
    + rewrite sub_length. lia.
    + rewrite sub_length. lia.
    + intros Hn. rewrite sub_length. destruct (Nat.le_gt_cases (length B) ((idx l + 8) * 64)) as [H|H]; [|lia].
      contradiction Hn. unfold sub. rewrite skipn_all2 by lia. apply firstn_nil.
    + change (2 ^ 64) with 18446744073709551616 in *. lia.
    + exists a, b. split; [exact Ea|]. split; [exact Eb|]. exists z. rewrite Ez, M1, M2.
      unfold late_leaf. cbv zeta. destruct (leaf_input_prefix (idx l) P B k (idx_lt l) HP) as (-> & ->).
      rewrite (leaf_input_two (idx l) B (idx_lt l) HB). reflexivity.
  - intros i. unfold late_leaf. apply words_bytes_32, late_words_length.
Qed.

Theorem sp_hash_late c l p pieces : cfg_ok c -> sp_build l = Ok p -> sp_keyval l <> [] ->
  debug_assertions c = false -> N.of_nat (length (concat pieces)) + 64 < 2 ^ 64 ->
  sp_hash_pieces c p pieces =
  Ok (late_blake2sp (sp_dlen l) (sp_keyval l) (concat pieces) (settled 0 (map (@length _) pieces))).
Proof.
  intros Hc Hb. unfold sp_dlen, sp_keyval. rewrite <- sp_last_keyval, <- sp_last_dlen.
  intros Hk Hd Hl. apply sp_build_encodes in Hb as (_ & E).
  destruct (sp_with_params_ok c p _ _ Hc E) as (st & Es & R).
  unfold sp_hash_pieces, sp_to_state. rewrite Es. cbn [bind].
  set (dlen := sp_last_hash_length 32 l) in *. set (key := sp_last_key [] l) in *.
  destruct (shape_feed c (late_leaves c dlen key) (length (concat pieces)) (late_step c dlen key _ Hd Hl)
    pieces [] [] st (late_new c dlen key st Hk R)) as (st1 & E1 & R1 & K1 & Hn); [cbn [app length]; lia|].
  cbv zeta in *. cbn [length app] in *. rewrite E1. cbn [bind].
  set (k := settled 0 (map (length (A:=byte)) pieces)) in *.
  assert (HP : length (firstn (512 * k) (concat pieces)) = (512 * k)%nat) by (rewrite firstn_length; lia).
  rewrite (late_finalize c dlen key _ _ st1 k R1 HP).
  - cbn [bind]. unfold as_bytes. cbn [h_bytes h_len]. rewrite firstn_skipn, K1.
    rewrite (sr_root_hash _ _ _ _ _ _ _ R).
    pose proof (sr_dlen _ _ _ _ _ _ _ R) as Hdl.
    rewrite slice_to_ok by (rewrite words_bytes_32 by apply hash_words_length; lia). reflexivity.
  - rewrite K1. apply (sr_root _ _ _ _ _ _ _ R).
  - rewrite K1. apply (sr_root_last _ _ _ _ _ _ _ R).
  - rewrite firstn_skipn. exact Hl.
Qed.

(** [keyed_fit] says that nothing is settled. *)
Lemma keyed_fit_settled pieces : forall b, (b <= 1024)%nat ->
  keyed_fit b pieces = true <-> settled b (map (@length _) pieces) = 0%nat.
Proof.
  induction pieces as [|x l IH]; intros b Hb; cbn [keyed_fit map settled]; [tauto|].
  unfold groups at 1 2. destruct (Nat.eqb_spec b 0) as [->|H0]; cbn [negb andb orb Nat.add].
  - destruct (Nat.le_gt_cases (length x) 960) as [H|H].
    + rewrite loops_0 by exact H. replace (Nat.leb (length x) 1024) with true by lia.
      replace (Nat.leb (length x) 960) with true by lia. cbn [andb Nat.add]. rewrite IH by lia.
      replace (length x - 512 * 0)%nat with (length x) by lia. tauto.
    + rewrite loops_S by exact H. replace (Nat.leb (length x) 960) with false by lia.
      rewrite andb_false_r. cbn [andb Nat.add]. split; discriminate.
  - destruct (Nat.leb_spec (b + length x) 1024) as [H|H]; cbn [andb].
    + cbn [Nat.add]. rewrite IH by lia. replace (b + length x - 512 * 0)%nat with (b + length x)%nat by lia. tauto.
    + rewrite loops_S by lia. cbn [Nat.add]. split; discriminate.
Qed.
Lemma keyed_fit_settled_0 pieces : keyed_fit 0 pieces = true <-> settled 0 (map (@length _) pieces) = 0%nat.
Proof. apply keyed_fit_settled. lia. Qed.
