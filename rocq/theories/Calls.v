(** * Calls: which compressions a [State] runs, and when. *)
From Verif Require Import Base Consts Params State Many ParamsSpec Clients Terms BaseFacts ParamsFacts Traced TracedFacts.
From Verif Require Spec Avx2 Sse41 Intrinsics.
From Coq Require Import Lia.
Local Open Scope N_scope.

Lemma pad_len n k : (length k <= n)%nat -> length (Spec.pad n k) = n.
Proof. intros H. unfold Spec.pad. rewrite app_length, repeat_length. lia. Qed.

Lemma Ok_inj {A} (a b : A) : Ok a = Ok b -> a = b.
Proof. congruence. Qed.

(** ** Runs of a traced computation that succeeds *)
Lemma runs_app a b : runs (a ++ b) = runs a ++ runs b.
Proof. unfold runs. apply flat_map_app. Qed.
Lemma tbind_ok {A B} (x : traced A) (f : A -> traced B) b : result (tbind x f) = Ok b ->
  exists a, result x = Ok a /\ result (f a) = Ok b /\ runs (events (tbind x f)) = runs (events x) ++ runs (events (f a)).
Proof.
  destruct x as [l [a| | |]]; cbn [tbind result snd]; try discriminate. intros H. exists a.
  destruct (f a) as [l' y] eqn:E. cbn [result snd events fst] in *. split; [reflexivity|].
  split; [exact H|]. apply runs_app.
Qed.
Lemma tif_ok {A} b (x y : traced A) r : result (tif b x y) = Ok r ->
  result (if b then x else y) = Ok r /\ runs (events (tif b x y)) = runs (events (if b then x else y)).
Proof. intros H. unfold tif in *. apply tbind_ok in H as ([] & _ & H & ->). split; [exact H|reflexivity]. Qed.

Ltac peel H a Ha := let E := fresh "E" in let X := fresh in
  apply tbind_ok in H as (a & Ha & X & E); rewrite E; clear E; rename X into H.

Lemma uadd_val {w} c (a b r : uint w) : uadd c a b = Ok r -> val r = (val a + val b) mod 2 ^ w.
Proof.
  unfold uadd. destruct (_ <? _); [|destruct (overflow_checks c); [discriminate|]]; intros H; injection H as <-;
    apply val_of_N.
Qed.
Lemma slice_from_len {A} (l r : list A) n : slice_from l n = Ok r -> length r = (length l - n)%nat.
Proof. unfold slice_from. destruct (Nat.leb _ _); [|discriminate]. intros H. injection H as <-. apply skipn_length. Qed.

(** ** States by their lengths alone *)
Section Lengths.
Variable hl : u8.
Record holds (f : CompressFn) (ln : bool) (n b : nat) (st : State) : Prop := {
  hl_fn : st_compress_fn st = f;
  hl_last : st_last_node st = ln;
  hl_count : st_count st = of_N 64 (N.of_nat n);
  hl_buflen : val (st_buflen st) = N.of_nat b;
  hl_len : st_hash_length st = hl;
}.
Definition call (f : CompressFn) (n : nat) : routine := Compress f (of_N 64 (N.of_nat n)) (uzero 32) (uzero 32).

Lemma count_add c n m r : uadd c (of_N 64 (N.of_nat n)) (of_N 64 (N.of_nat m)) = Ok r -> r = of_N 64 (N.of_nat (n + m)).
Proof.
  intros H. apply uadd_val in H. apply val_inj. rewrite H, !val_of_N, Nat2N.inj_add.
  symmetry. apply N.add_mod. discriminate.
Qed.

Lemma fill_calls c f ln n b st input st' rest : holds f ln n b st -> (b <= 64)%nat ->
  result (fill_buf_t c st input) = Ok (st', rest) ->
  let take := Nat.min (64 - b) (length input) in
  holds f ln (n + take) (b + take) st' /\ length rest = (length input - take)%nat /\
  runs (events (fill_buf_t c st input)) = [].
Proof.
  intros [] Hb H. unfold fill_buf_t, buflen_nat in *. rewrite hl_buflen0, hl_count0, Nat2N.id in *.
  peel H room Hr. peel H take Ht. peel H src Hs. peel H bf Hbf. peel H bl Hbl. peel H ct Hct. peel H rs Hrs.
  cbn [nsub_t note result snd] in Hr. unfold nsub in Hr.
  replace (Nat.leb b BLOCKBYTES) with true in Hr by (symmetry; apply Nat.leb_le; exact Hb).
  assert (room = (64 - b)%nat) as -> by (injection Hr; intros; subst; reflexivity).
  cbn [note result snd] in Ht. injection Ht as <-.
  cbn [uadd_t slice_from_t note result snd] in *. injection H as <- <-. cbv zeta.
  set (take := Nat.min (64 - b) (length input)) in *.
  split; [|split].
  - constructor; cbn [st_compress_fn st_last_node st_count st_buflen st_hash_length]; try assumption.
    + apply count_add in Hct. exact Hct.
    + apply uadd_val in Hbl. rewrite Hbl, hl_buflen0, val_of_N.
      assert ((take <= 64 - b)%nat) by (apply Nat.le_min_l).
      rewrite (N.mod_small (N.of_nat take)) by (change (2 ^ 8) with 256; lia).
      rewrite N.mod_small by (change (2 ^ 8) with 256; lia). lia.
  - apply slice_from_len in Hrs. exact Hrs.
  - unfold nsub_t, uadd_t. destruct (overflow_checks c); reflexivity.
Qed.

Lemma buffer_calls c f ln n b st input st' rest : holds f ln n b st -> (b <= 64)%nat ->
  result (compress_buffer_if_possible_t c st input) = Ok (st', rest) ->
  let room := (64 - b)%nat in
  if Nat.eqb b 0 then holds f ln n 0 st' /\ rest = input /\ runs (events (compress_buffer_if_possible_t c st input)) = []
  else if Nat.leb (length input) room
  then holds f ln (n + length input) (b + length input) st' /\ rest = [] /\
       runs (events (compress_buffer_if_possible_t c st input)) = []
  else holds f ln (n + room) 0 st' /\ length rest = (length input - room)%nat /\
       runs (events (compress_buffer_if_possible_t c st input)) = [call f (n + room)].
Proof.
  intros Hh Hb H. cbv zeta. unfold compress_buffer_if_possible_t in *.
  apply tif_ok in H as (H & ->). rewrite (hl_buflen _ _ _ _ _ Hh) in *.
  destruct (Nat.eqb b 0) eqn:E0.
  - apply Nat.eqb_eq in E0. subst b. cbn [N.of_nat N.ltb] in *. change (0 <? 0) with false in *. cbv iota in *.
    cbn [ret lift result snd] in H. injection H as <- <-. split; [exact Hh|]. split; reflexivity.
  - apply Nat.eqb_neq in E0. replace (0 <? N.of_nat b) with true in * by (symmetry; apply N.ltb_lt; lia). cbv iota in *.
    peel H p Hp. destruct p as [s1 r1].
    destruct (fill_calls c f ln n b st input s1 r1 Hh Hb Hp) as (H1 & Hr & ->). cbv zeta in *. cbn [app].
    destruct (Nat.leb (length input) (64 - b)) eqn:El.
    + apply Nat.leb_le in El. rewrite Nat.min_r in * by lia.
      destruct r1; [|cbn [length] in Hr; lia].
      cbn [note result snd] in H. injection H as <- <-. split; [exact H1|]. split; reflexivity.
    + apply Nat.leb_gt in El. rewrite Nat.min_l in * by lia.
      destruct r1 as [|x r1]; [cbn [length] in Hr; lia|].
      peel H u Hu. peel H h Hh2. cbn [ret lift result snd] in H. injection H as <- <-.
      split; [|split].
      * destruct H1. constructor; cbn [st_compress_fn st_last_node st_count st_buflen st_hash_length]; try assumption. reflexivity.
      * exact Hr.
      * destruct H1. cbn [call_compress_t note events fst ret lift]. unfold call. rewrite hl_fn0, hl_count0. reflexivity.
Qed.

Lemma loop_calls c f ln b : forall fuel n st input st' rest, holds f ln n b st ->
  result (update_loop_t fuel c st input) = Ok (st', rest) ->
  let k := blocks_done (length input) in
  holds f ln (n + 64 * k) b st' /\ length rest = (length input - 64 * k)%nat /\
  runs (events (update_loop_t fuel c st input)) = map (fun i => call f (n + 64 * S i)) (seq 0 k).
Proof.
  induction fuel as [|fuel IH]; intros n st input st' rest Hh H; [discriminate H|]. cbv zeta.
  cbn [update_loop_t] in *. apply tif_ok in H as (H & ->).
  destruct (Nat.ltb BLOCKBYTES (length input)) eqn:E.
  - apply Nat.ltb_lt in E. change BLOCKBYTES with 64%nat in E.
    peel H ct Hct. peel H bk Hbk. peel H h Hhh. peel H rs Hrs.
    cbn [uadd_t slice_from_t note result snd] in Hct, Hrs. apply slice_from_len in Hrs. change BLOCKBYTES with 64%nat in Hrs.
    rewrite (hl_count _ _ _ _ _ Hh) in Hct. apply count_add in Hct. change BLOCKBYTES with 64%nat in Hct.
    assert (H1 : holds f ln (n + 64) b
      {| st_h := h; st_buf := st_buf st; st_buflen := st_buflen st; st_count := ct;
         st_compress_fn := st_compress_fn st; st_last_node := st_last_node st; st_hash_length := st_hash_length st |}).
    { destruct Hh. constructor; cbn [st_compress_fn st_last_node st_count st_buflen st_hash_length]; assumption. }
    destruct (IH _ _ _ _ _ H1 H) as (I1 & I2 & I3). cbv zeta in *. rewrite I3.
    assert (K : blocks_done (length input) = S (blocks_done (length rs))).
    { unfold blocks_done. rewrite Hrs. replace (length input - 1)%nat with ((length input - 64 - 1) + 1 * 64)%nat by lia.
      rewrite Nat.div_add by lia. lia. }
    rewrite K. split; [|split].
    + replace (n + 64 * S (blocks_done (length rs)))%nat with (n + 64 + 64 * blocks_done (length rs))%nat by lia. exact I1.
    + rewrite I2, Hrs. lia.
    + cbn [seq map]. rewrite <- seq_shift, map_map.
      destruct Hh. unfold call_compress_t, uadd_t. cbn [note events fst].
      replace (runs (if overflow_checks c then _ else [])) with (@nil routine) by (destruct (overflow_checks c); reflexivity).
      cbn [array_ref_t slice_from_t note events fst runs flat_map app]. unfold call at 2. rewrite hl_fn0, Hct.
      f_equal. apply map_ext. intros i. unfold call. do 2 f_equal. lia.
  - apply Nat.ltb_ge in E. change BLOCKBYTES with 64%nat in E. cbn [ret lift result snd] in H. injection H as <- <-.
    assert (K : blocks_done (length input) = 0%nat) by (unfold blocks_done; apply Nat.div_small; lia).
    rewrite K, Nat.mul_0_r, Nat.add_0_r, Nat.sub_0_r. split; [exact Hh|]. split; reflexivity.
Qed.

Lemma seq_shift_by j k : map (fun i => (i + k)%nat) (seq 0 j) = seq k j.
Proof.
  induction j as [|j IH]; [reflexivity|]. rewrite !seq_S, map_app, IH. cbn [map]. do 2 f_equal. lia.
Qed.
(** A state that has taken [n] bytes. *)
Definition took (f : CompressFn) (ln : bool) (n : nat) (st : State) : Prop :=
  holds f ln n (n - 64 * blocks_done n) st.
Lemma blocks_done_spec n : (0 < n -> 64 * blocks_done n < n <= 64 * blocks_done n + 64)%nat.
Proof. unfold blocks_done. intros H. pose proof (Nat.div_mod (n - 1) 64 ltac:(lia)). pose proof (Nat.mod_upper_bound (n - 1) 64 ltac:(lia)). lia. Qed.
Lemma blocks_done_eq n k : (64 * k < n <= 64 * k + 64 -> blocks_done n = k)%nat.
Proof. intros H. pose proof (blocks_done_spec n ltac:(lia)). lia. Qed.

Lemma update_calls c f ln n st input st' : took f ln n st -> result (update_t c st input) = Ok st' ->
  took f ln (n + length input) st' /\
  runs (events (update_t c st input)) =
    map (fun i => call f (64 * S i)) (seq (blocks_done n) (blocks_done (n + length input) - blocks_done n)).
Proof.
  intros Ht H. unfold took in Ht. unfold update_t in *.
  assert (Hb : (n - 64 * blocks_done n <= 64)%nat).
  { destruct n; [cbn; lia|]. pose proof (blocks_done_spec (S n) ltac:(lia)). lia. }
  peel H p Hp. destruct p as [s1 i1]. peel H q Hq. destruct q as [s2 i2]. peel H r Hr. destruct r as [s3 i3].
  cbn [ret lift result snd] in H. injection H as <-. cbn [ret lift events fst runs flat_map]. rewrite app_nil_r.
  pose proof (buffer_calls c f ln n _ st input s1 i1 Ht Hb Hp) as B. cbv zeta in B.
  destruct (Nat.eqb (n - 64 * blocks_done n) 0) eqn:E0.
  - (* fresh *)
    apply Nat.eqb_eq in E0. destruct B as (B1 & -> & B3). rewrite B3. clear B3.
    assert (n = 0)%nat as -> by (destruct n; [reflexivity|]; pose proof (blocks_done_spec (S n) ltac:(lia)); lia).
    destruct (loop_calls c f ln 0 _ _ _ _ _ _ B1 Hq) as (L1 & L2 & L3). cbv zeta in *. rewrite L3. clear L3.
    destruct (fill_calls c f ln _ 0 _ _ _ _ L1 ltac:(lia) Hr) as (F1 & _ & ->). cbv zeta in F1.
    change (blocks_done 0) with 0%nat. cbn [Nat.add app] in *. rewrite Nat.sub_0_r, app_nil_r.
    split; [|reflexivity]. unfold took.
    assert (D : (length input = 0 \/ 64 * blocks_done (length input) < length input <= 64 * blocks_done (length input) + 64)%nat).
    { destruct (Nat.eq_dec (length input) 0) as [->|]; [left; reflexivity|right; apply blocks_done_spec; lia]. }
    destruct D as [D|D].
    + rewrite D in *. change (blocks_done 0) with 0%nat in *. cbn in *. rewrite L2 in F1. exact F1.
    + rewrite Nat.min_r in F1 by lia. rewrite L2 in F1.
      replace (64 * blocks_done (length input) + (length input - 64 * blocks_done (length input)))%nat
        with (length input) in F1 by lia. exact F1.
  - apply Nat.eqb_neq in E0.
    assert (N0 : (0 < n)%nat) by (destruct n; [cbn in E0; lia|lia]).
    pose proof (blocks_done_spec n N0) as Hn. set (k := blocks_done n) in *.
    destruct (Nat.leb (length input) (64 - (n - 64 * k))) eqn:El.
    + apply Nat.leb_le in El. destruct B as (B1 & -> & ->).
      destruct (loop_calls c f ln _ _ _ _ _ _ _ B1 Hq) as (L1 & L2 & ->). cbv zeta in *.
      cbn [length] in *. change (blocks_done 0) with 0%nat in *. rewrite Nat.mul_0_r, Nat.add_0_r in L1. cbn [seq map app].
      destruct (fill_calls c f ln _ _ _ _ _ _ L1 ltac:(lia) Hr) as (F1 & _ & ->). cbv zeta in F1.
      assert (length i2 = 0)%nat as Z by lia. rewrite Z, Nat.min_0_r, !Nat.add_0_r in F1.
      assert (K : blocks_done (n + length input) = k) by (apply blocks_done_eq; lia).
      rewrite K, Nat.sub_diag. split; [|reflexivity]. unfold took. rewrite K.
      replace (n + length input - 64 * k)%nat with (n - 64 * k + length input)%nat by lia. exact F1.
    + apply Nat.leb_gt in El. destruct B as (B1 & B2 & ->).
      destruct (loop_calls c f ln _ _ _ _ _ _ _ B1 Hq) as (L1 & L2 & ->). cbv zeta in *.
      destruct (fill_calls c f ln _ _ _ _ _ _ L1 ltac:(lia) Hr) as (F1 & _ & ->). cbv zeta in F1.
      set (j := blocks_done (length i1)) in *.
      pose proof (blocks_done_spec (length i1) ltac:(lia)) as Hj. fold j in Hj.
      assert (K : blocks_done (n + length input) = (k + 1 + j)%nat) by (apply blocks_done_eq; lia).
      rewrite K. replace (k + 1 + j - k)%nat with (S j) by lia.
      split.
      * unfold took. rewrite K. rewrite Nat.min_r in F1 by lia.
        replace (n + (64 - (n - 64 * k)) + 64 * j + length i2)%nat with (n + length input)%nat in F1 by lia.
        replace (0 + length i2)%nat with (n + length input - 64 * (k + 1 + j))%nat in F1 by lia. exact F1.
      * rewrite app_nil_r. cbn [seq map app]. f_equal.
        -- f_equal. lia.
        -- rewrite <- (seq_shift_by j (S k)), map_map. apply map_ext. intros i. f_equal. lia.
Qed.

Lemma feed_calls c f ln pieces : forall n st st', took f ln n st -> result (feed_t c st pieces) = Ok st' ->
  let m := (n + length (concat pieces))%nat in
  took f ln m st' /\
  runs (events (feed_t c st pieces)) = map (fun i => call f (64 * S i)) (seq (blocks_done n) (blocks_done m - blocks_done n)).
Proof.
  induction pieces as [|x pieces IH]; intros n st st' Ht H; cbv zeta; cbn [feed_t concat length] in *.
  - cbn [ret lift result snd] in H. injection H as <-. rewrite Nat.add_0_r, Nat.sub_diag. split; [exact Ht|reflexivity].
  - peel H s1 H1. destruct (update_calls c f ln n st x s1 Ht H1) as (T1 & ->).
    destruct (IH _ _ _ T1 H) as (T2 & ->). cbv zeta in *. rewrite app_length.
    replace (n + (length x + length (concat pieces)))%nat with (n + length x + length (concat pieces))%nat by lia.
    split; [exact T2|]. rewrite <- map_app. f_equal.
    assert (M : forall a b, (a <= b)%nat -> (blocks_done a <= blocks_done b)%nat).
    { intros a b Hab. unfold blocks_done. apply Nat.div_le_mono; lia. }
    pose proof (M n (n + length x)%nat ltac:(lia)).
    pose proof (M (n + length x)%nat (n + length x + length (concat pieces))%nat ltac:(lia)).
    replace (blocks_done (n + length x)) with (blocks_done n + (blocks_done (n + length x) - blocks_done n))%nat at 2 by lia.
    rewrite <- seq_app. f_equal. lia.
Qed.
Lemma finalize_calls c f ln n st r : took f ln n st -> result (finalize_t c st) = Ok r ->
  h_len (snd r) = hl /\
  runs (events (finalize_t c st)) = [Compress f (of_N 64 (N.of_nat n)) (umax 32) (flag32 ln)].
Proof.
  intros [] H. unfold finalize_t in *. peel H b Hb. peel H l Hl. peel H h Hh. rewrite hl_last0 in *.
  cbn [flag32_t note result snd] in Hl. injection Hl as <-.
  cbn [ret lift result snd] in H. apply Ok_inj in H. subst r. split; [exact hl_len0|].
  cbn [zero_tail_t flag32_t call_compress_t note events fst ret lift st_compress_fn st_count st_last_node].
  rewrite hl_fn0, hl_count0. rewrite runs_app.
  replace (runs (flat_map _ _)) with (@nil routine); [reflexivity|].
  symmetry. generalize (seq (buflen_nat st) (BLOCKBYTES - buflen_nat st)) as q. intros q.
  induction q as [|i q IH]; [reflexivity|]. cbn [flat_map]. rewrite runs_app, IH. reflexivity.
Qed.
End Lengths.
Lemma params_calls c p sp ln st : encodes p sp ln -> result (with_params_t c p) = Ok st ->
  took (p_hash_length p) (fn_compress (default_compress_impl c)) ln (length (Spec.key_block (Spec.key sp))) st /\
  runs (events (with_params_t c p)) = [].
Proof.
  intros E H. unfold with_params_t in *. cbv zeta in *. apply tif_ok in H as (H & ->).
  set (s0 := {| st_h := make_words p |}) in *.
  assert (T0 : took (p_hash_length p) (fn_compress (default_compress_impl c)) ln 0 s0).
  { constructor; try reflexivity. apply E. }
  rewrite (e_kl _ _ _ E) in *. unfold Spec.key_block. destruct (Spec.key sp) as [|b k] eqn:Ek.
  - change (0 <? N.of_nat (length [])) with false in *. cbv iota in *.
    cbn [ret lift result snd] in H. injection H as <-. split; [exact T0|reflexivity].
  - replace (0 <? N.of_nat (length (b :: k))) with true in * by (symmetry; apply N.ltb_lt; cbn [length]; lia).
    cbv iota in *. peel H kb Hkb. cbn [copy_into_t note result snd] in Hkb.
    destruct (update_calls _ c _ _ _ _ _ _ T0 H) as (T1 & ->).
    assert (L : length kb = 64%nat).
    { unfold copy_into in Hkb. destruct (_ && _ && _); [|discriminate Hkb].
      apply (f_equal (fun o => match o with Ok x => length x | _ => 0%nat end)) in Hkb. cbv beta iota in Hkb.
      rewrite <- Hkb. rewrite !app_length, (e_key _ _ _ E), pad_len, skipn_length, repeat_length by apply E. reflexivity. }
    rewrite L in T1 |- *. rewrite pad_len by (rewrite <- Ek; pose proof (e_key_ok _ _ _ E); lia). split; [exact T1|reflexivity].
Qed.

(** ** The whole history of one hash *)
Lemma erase_feed c pieces : forall st, result (feed_t c st pieces) = feed c st pieces.
Proof.
  induction pieces as [|x l IH]; intros st; [reflexivity|]. cbn [feed_t feed].
  eapply erase_bind; [apply erase_update|]. intros s. apply IH.
Qed.
Theorem hash_calls_ok c l p pieces h : build l = Ok p -> result (hash_pieces_t c p pieces) = Ok h ->
  let n := length (Spec.key_block (Spec.key (spec_params l)) ++ concat pieces) in
  let f := fn_compress (default_compress_impl c) in
  runs (events (hash_pieces_t c p pieces)) =
    map (fun i => Compress f (of_N 64 (N.of_nat (64 * S i))) (uzero 32) (uzero 32)) (seq 0 (blocks_done n)) ++
    [Compress f (of_N 64 (N.of_nat n)) (umax 32) (flag32 (spec_last_node l))].
Proof.
  intros Hb H. apply ParamsFacts.build_encodes in Hb as (_ & E). cbv zeta. unfold hash_pieces_t in *.
  peel H s0 H0. peel H s1 H1. peel H r H2. destruct r as [s2 h2].
  destruct (params_calls c p _ _ _ E H0) as (T0 & ->).
  destruct (feed_calls _ c _ _ _ _ _ _ T0 H1) as (T1 & ->). cbv zeta in *.
  destruct (finalize_calls _ c _ _ _ _ _ T1 H2) as (_ & ->). rewrite app_length.
  assert (Z : blocks_done (length (Spec.key_block (Spec.key (spec_params l)))) = 0%nat).
  { unfold Spec.key_block. destruct (Spec.key (spec_params l)) as [|b k] eqn:Ek; [reflexivity|].
    rewrite pad_len by (rewrite <- Ek; pose proof (e_key_ok _ _ _ E); lia). reflexivity. }
  rewrite Z, Nat.sub_0_r. cbn [ret lift events fst runs flat_map app]. reflexivity.
Qed.
Lemma erase_hash_pieces c p pieces :
  (h <- result (hash_pieces_t c p pieces) ;; as_bytes h) = hash_pieces c p pieces.
Proof.
  unfold hash_pieces_t, hash_pieces, to_state.
  rewrite (erase_bind _ _ _ (fun st => st1 <- feed c st pieces ;; ' (_, h) <- finalize c st1 ;; Ok h) (erase_with_params c p)).
  2: { intros st. eapply erase_bind; [apply erase_feed|]. intros st1. eapply erase_bind; [apply erase_finalize|].
       intros [s2 h]. reflexivity. }
  destruct (with_params c p) as [st| | |]; try reflexivity. cbn [bind].
  destruct (feed c st pieces) as [st1| | |]; try reflexivity. cbn [bind].
  destruct (finalize c st1) as [[s2 h]| | |]; reflexivity.
Qed.

(** ** The exact functions *)
Lemma all_t_runs l : runs (events (all_t l)) = [].
Proof. induction l as [|b l IH]; [reflexivity|]. cbn [all_t tif]. destruct b; cbn [note tbind]; [|reflexivity]. destruct (all_t l). exact IH. Qed.
Lemma all_t_result l : result (all_t l) = Ok (forallb (fun b => b) l).
Proof. induction l as [|b l IH]; [reflexivity|]. cbn [all_t tif forallb]. destruct b; cbn [note tbind andb]; [|reflexivity]. destruct (all_t l). exact IH. Qed.
Lemma oct_mapM_runs {A B} (f : A -> traced B) a r : (forall x, runs (events (f x)) = []) ->
  result (oct_mapM_t f a) = Ok r -> runs (events (oct_mapM_t f a)) = [].
Proof.
  intros Hf H. unfold oct_mapM_t in *. do 8 (let x := fresh in let Hx := fresh in peel H x Hx; rewrite Hf). reflexivity.
Qed.
Lemma exact8_calls params input n : forall fuel h j r, (j < n)%nat ->
  result (avx2_hash8_exact_loop_t fuel params input (64 * n) h (64 * j)) = Ok r ->
  runs (events (avx2_hash8_exact_loop_t fuel params input (64 * n) h (64 * j))) =
  map (fun i => Compress8Transposed (64 * S i) (flag32 (Nat.eqb (S i) n)) (flag32 (p_last_node params && Nat.eqb (S i) n)))
    (seq j (n - j)).
Proof.
  induction fuel as [|fuel IH]; intros h j r Hj H; [discriminate H|]. cbn [avx2_hash8_exact_loop_t] in *.
  peel H m Hm. erewrite oct_mapM_runs; [|intros; reflexivity|exact Hm]. cbv zeta in *.
  change BLOCKBYTES with 64%nat in *. replace (64 * j + 64)%nat with (64 * S j)%nat in * by lia.
  peel H l Hl. peel H nd Hnd. peel H nf Hnf. peel H hv Hhv. apply tif_ok in H as (H & ->).
  cbn [flag32_t note result snd] in Hl, Hnf. apply Ok_inj in Hl, Hnf. subst l nf.
  rewrite all_t_result in Hnd. apply Ok_inj in Hnd. subst nd. rewrite all_t_runs. cbn [forallb].
  cbn [flag32_t note events fst runs flat_map app].
  replace (n - j)%nat with (S (n - S j)) by lia. cbn [seq map].
  assert (E : Nat.eqb (64 * S j) (64 * n) = Nat.eqb (S j) n).
  { destruct (Nat.eqb_spec (S j) n) as [->|Hn]; [apply Nat.eqb_refl|apply Nat.eqb_neq; lia]. }
  rewrite E in *. rewrite andb_true_r. f_equal. destruct (Nat.eqb_spec (S j) n) as [Hn|Hn].
  - replace (n - S j)%nat with 0%nat by lia. reflexivity.
  - apply (IH _ _ r); [lia|exact H].
Qed.
Lemma exact4_calls params i0 i1 i2 i3 n : forall fuel h j r, (j < n)%nat ->
  result (sse41_hash4_exact_loop_t fuel params i0 i1 i2 i3 (64 * n) h (64 * j)) = Ok r ->
  runs (events (sse41_hash4_exact_loop_t fuel params i0 i1 i2 i3 (64 * n) h (64 * j))) =
  map (fun i => Compress4Transposed (64 * S i) (flag32 (Nat.eqb (S i) n)) (flag32 (p_last_node params && Nat.eqb (S i) n)))
    (seq j (n - j)).
Proof.
  induction fuel as [|fuel IH]; intros h j r Hj H; [discriminate H|]. cbn [sse41_hash4_exact_loop_t] in *.
  peel H m0 Hm0. peel H m1 Hm1. peel H m2 Hm2. peel H m3 Hm3. cbv zeta in *.
  change BLOCKBYTES with 64%nat in *. replace (64 * j + 64)%nat with (64 * S j)%nat in * by lia.
  peel H l Hl. peel H nd Hnd. peel H nf Hnf. peel H hv Hhv. apply tif_ok in H as (H & ->).
  cbn [flag32_t note result snd] in Hl, Hnf. apply Ok_inj in Hl, Hnf. subst l nf.
  rewrite all_t_result in Hnd. apply Ok_inj in Hnd. subst nd. rewrite all_t_runs. cbn [forallb].
  cbn [flag32_t raw_read_t note events fst runs flat_map app].
  replace (n - j)%nat with (S (n - S j)) by lia. cbn [seq map].
  assert (E : Nat.eqb (64 * S j) (64 * n) = Nat.eqb (S j) n).
  { destruct (Nat.eqb_spec (S j) n) as [->|Hn]; [apply Nat.eqb_refl|apply Nat.eqb_neq; lia]. }
  rewrite E in *. rewrite andb_true_r. f_equal. destruct (Nat.eqb_spec (S j) n) as [Hn|Hn].
  - replace (n - S j)%nat with 0%nat by lia. reflexivity.
  - apply (IH _ _ r); [lia|exact H].
Qed.
Lemma assert_ok b u : result (assert_t b) = Ok u -> b = true /\ runs (events (assert_t b)) = [].
Proof. destruct b; [split; reflexivity|discriminate]. Qed.
Lemma whole n : Nat.eqb (Nat.modulo n BLOCKBYTES) 0 = true -> n = (64 * (n / 64))%nat.
Proof. intros H. apply Nat.eqb_eq in H. change BLOCKBYTES with 64%nat in H. pose proof (Nat.div_mod n 64 ltac:(lia)). lia. Qed.
Theorem hash8_exact_calls c p inputs hs : fn_hash8_exact (default_compress_impl c) = hash8_exact_avx2 ->
  result (hash8_exact_t c p inputs) = Ok hs ->
  let n := (length (o0 inputs) / 64)%nat in
  runs (events (hash8_exact_t c p inputs)) =
  map (fun i => Compress8Transposed (64 * S i) (flag32 (Nat.eqb (S i) n)) (flag32 (p_last_node p && Nat.eqb (S i) n)))
    (seq 0 n).
Proof.
  intros Hf H. cbv zeta. unfold hash8_exact_t in *. cbv zeta in *.
  peel H a Ha. peel H b Hb. peel H u Hu. rewrite !all_t_runs. rewrite all_t_result in Hb. apply Ok_inj in Hb. subst b.
  apply assert_ok in Hu as (Hu & ->). rewrite Hf in *. unfold call_hash8_exact_t in *.
  destruct (has_avx2 c); [|discriminate H]. unfold avx2_hash8_exact_t in *. cbv zeta in *.
  cbn [forallb] in Hu. apply andb_prop in Hu as (_ & Hu). apply andb_prop in Hu as (H1 & H2).
  apply andb_prop in H2 as (H2 & _). apply negb_true_iff, Nat.eqb_neq in H2. apply whole in H1.
  cbn [app]. set (n := (length (o0 inputs) / 64)%nat) in *.
  pose proof (exact8_calls p inputs n (S (length (o0 inputs))) (oct_map Avx2.load_256_from_u32 (make_words p)) 0 hs
    ltac:(lia)) as X.
  rewrite <- H1, Nat.mul_0_r, Nat.sub_0_r in X. apply X, H.
Qed.
Theorem hash4_exact_calls c p inputs hs : fn_hash4_exact (default_compress_impl c) = hash4_exact_sse41 ->
  result (hash4_exact_t c p inputs) = Ok hs ->
  let n := (length (q0 inputs) / 64)%nat in
  runs (events (hash4_exact_t c p inputs)) =
  map (fun i => Compress4Transposed (64 * S i) (flag32 (Nat.eqb (S i) n)) (flag32 (p_last_node p && Nat.eqb (S i) n)))
    (seq 0 n).
Proof.
  intros Hf H. cbv zeta. unfold hash4_exact_t in *. cbv zeta in *.
  peel H a Ha. peel H b Hb. peel H u Hu. rewrite !all_t_runs. rewrite all_t_result in Hb. apply Ok_inj in Hb. subst b.
  apply assert_ok in Hu as (Hu & ->). rewrite Hf in *. unfold call_hash4_exact_t in *.
  destruct (has_sse41 c); [|discriminate H]. unfold sse41_hash4_exact_t in *. cbv zeta in *.
  cbn [forallb] in Hu. apply andb_prop in Hu as (_ & Hu). apply andb_prop in Hu as (H1 & H2).
  apply andb_prop in H2 as (H2 & _). apply negb_true_iff, Nat.eqb_neq in H2. apply whole in H1.
  cbn [app]. set (n := (length (q0 inputs) / 64)%nat) in *.
  pose proof (exact4_calls p (q0 inputs) (q1 inputs) (q2 inputs) (q3 inputs) n (S (length (q0 inputs)))
    (oct_map Sse41.set1 (make_words p)) 0 hs ltac:(lia)) as X.
  rewrite <- H1, Nat.mul_0_r, Nat.sub_0_r in X. apply X, H.
Qed.
