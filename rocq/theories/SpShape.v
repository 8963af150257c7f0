(** * SpShape: when [blake2sp::State::update] compresses.

    How many groups of eight blocks a call compresses depends on lengths only.  The
    file proves this once for any property [good] of the leaves that survives one
    [compress8]; SpLate.v (keyed states) and SpDump.v (Debug text) supply one. *)
From Verif Require Import Base BaseFacts Consts Params State StateFacts Blake2sp LeafFacts SpecFacts SpFacts Clients Terms.
From Coq Require Import ZArith Lia ZifyBool ZifyNat ZifyN.
Local Open Scope N_scope.

Lemma firstn_plus {A} a b : forall xs : list A, firstn (a + b) xs = firstn a xs ++ firstn b (skipn a xs).
Proof.
  induction a as [|a IH]; intros xs; [reflexivity|]. destruct xs as [|x xs]; [cbn; now rewrite firstn_nil|].
  cbn [Nat.add firstn skipn app]. rewrite IH. reflexivity.
Qed.

Section Shape.
Variable c : cfg.
(** [good P leaves]: the leaves have been given the bytes [P]. *)
Variable good : list byte -> oct State -> Prop.
Variable bound : nat.
Hypothesis good_step : forall P leaves block fn k, good P leaves -> length P = (512 * k)%nat ->
  length block = 512%nat -> fn8_ok c fn -> (length (P ++ block) <= bound)%nat ->
  exists leaves', sp_compress8 c block leaves fn = Ok leaves' /\ good (P ++ block) leaves'.

Record Shape (P B : list byte) (st : SpState) : Prop := {
  sh_good : good P (sp_leaves st);
  sh_P : exists k, length P = (512 * k)%nat;
  sh_buf_length : length (sp_buf st) = 1024%nat;
  sh_B : (length B <= 1024)%nat;
  sh_buflen : sp_buflen_nat st = length B;
  sh_buf : firstn (length B) (sp_buf st) = B;
  sh_fn : fn8_ok c (sp_compress8_fn st)
}.
Definition kept (a b : SpState) : Prop := sp_root b = sp_root a.

Lemma shape_fill P B st input : Shape P B st ->
  let take := Nat.min (1024 - length B) (length input) in
  exists st', sp_fill_buf c st input = Ok (st', skipn take input) /\
    Shape P (B ++ firstn take input) st' /\ kept st st'.
Proof.
  intros R take. pose proof (sh_B _ _ _ R) as HB. pose proof (sh_buf_length _ _ _ R) as Hbl.
  pose proof (sh_buflen _ _ _ R) as Hl. pose proof (sh_buf _ _ _ R) as Hb.
  assert (Ht : (take <= length input)%nat) by lia.
  assert (Hft : length (firstn take input) = take) by (rewrite firstn_length; lia).
  unfold sp_fill_buf. rewrite Hbl, Hl, nsub_ok by exact HB. cbn [bind]. cbv zeta. fold take.
  rewrite slice_to_ok by exact Ht. cbn [bind].
  rewrite copy_into_ok by (rewrite ?Hft; lia). cbn [bind].
  assert (Hv : val (sp_buflen st) = N.of_nat (length B)) by (unfold sp_buflen_nat in Hl; lia).
  assert (Hvt : val (of_N 16 (N.of_nat take)) = N.of_nat take).
  { apply val_of_N_small. change (2 ^ 16) with 65536. lia. }
  rewrite uadd_ok by (intros _; rewrite Hv, Hvt; change (2 ^ 16) with 65536; lia).
  cbn [bind]. rewrite Hv, Hvt, slice_from_ok by exact Ht. cbn [bind].
  eexists; split; [reflexivity|]. split; [|reflexivity]. destruct R.
  constructor; cbn [sp_leaves sp_root sp_buf sp_buflen sp_compress8_fn]; try assumption.
  - rewrite !app_length, firstn_length, skipn_length, Hft, Hbl. lia.
  - rewrite app_length, Hft. lia.
  - unfold sp_buflen_nat. cbn [sp_buflen]. rewrite app_length, Hft, val_of_N_small; [lia|].
    change (2 ^ 16) with 65536. lia.
  - rewrite Hb, app_assoc, firstn_app_le by lia. apply firstn_all.
Qed.

Lemma shape_finish P B st input : Shape P B st -> (length B + length input <= 1024)%nat ->
  exists st', sp_fill_buf c st input = Ok (st', []) /\ Shape P (B ++ input) st' /\ kept st st'.
Proof.
  intros R H. destruct (shape_fill P B st input R) as (st' & E & R' & K). cbv zeta in *.
  replace (Nat.min (1024 - length B) (length input)) with (length input) in * by lia.
  rewrite skipn_all, firstn_all in *. exists st'. auto.
Qed.

Lemma loops_0 n : (n <= 960)%nat -> loops n = 0%nat.
Proof. intros H. unfold loops. apply Nat.div_small. lia. Qed.
Lemma loops_S n : (960 < n)%nat -> loops n = S (loops (n - 512)).
Proof.
  intros H. unfold loops.
  replace (n - 960 + 511)%nat with (1 * 512 + (n - 961))%nat by lia.
  rewrite Nat.div_add_l by discriminate. cbn [Nat.add]. f_equal.
  destruct (Nat.le_gt_cases (n - 512) 960).
  - rewrite !Nat.div_small by lia. reflexivity.
  - f_equal. lia.
Qed.
Lemma loops_le n : (512 * loops n <= n)%nat /\ (n - 512 * loops n <= 960)%nat.
Proof.
  induction n as [n IH] using (well_founded_induction lt_wf).
  destruct (Nat.le_gt_cases n 960) as [H|H]; [rewrite loops_0 by exact H; lia|].
  rewrite loops_S by exact H. destruct (IH (n - 512)%nat ltac:(lia)). lia.
Qed.

Lemma shape_loop fuel : forall P st input, Shape P [] st -> (length input < fuel)%nat ->
  (length (P ++ input) <= bound)%nat ->
  let n := (512 * loops (length input))%nat in
  exists st', sp_update_loop fuel c st input = Ok (st', skipn n input) /\
    Shape (P ++ firstn n input) [] st' /\ kept st st'.
Proof.
  induction fuel as [|fuel IH]; intros P st input R Hfuel Hf n; [lia|].
  cbn [sp_update_loop]. unfold BLOCKBYTES.
  destruct (Nat.ltb_spec (15 * 64) (length input)) as [Hl|Hl].
  - rewrite array_ref_ok by lia. cbn [bind skipn]. change (8 * 64)%nat with 512%nat in *.
    destruct (sh_P _ _ _ R) as (np & Hnp).
    assert (Hb : length (firstn 512 input) = 512%nat) by (rewrite firstn_length; lia).
    rewrite app_length in Hf.
    destruct (good_step P (sp_leaves st) (firstn 512 input) (sp_compress8_fn st) np) as (leaves' & E & HL); auto.
    { apply (sh_good _ _ _ R). } { apply (sh_fn _ _ _ R). } { rewrite app_length, Hb. lia. }
    rewrite E. cbn [bind]. rewrite slice_from_ok by lia. cbn [bind].
    destruct (IH (P ++ firstn 512 input) (sp_set_leaves st leaves') (skipn 512 input)) as (st' & E' & R' & K').
    + unfold sp_set_leaves. destruct R.
      constructor; cbn [sp_leaves sp_root sp_buf sp_buflen sp_compress8_fn]; try assumption.
      exists (S np). rewrite app_length, Hb. lia.
    + rewrite skipn_length. lia.
    + rewrite !app_length, skipn_length, Hb. lia.
    + cbv zeta in *. rewrite skipn_length in *.
      assert (Hn : n = (512 + 512 * loops (length input - 512))%nat) by (subst n; rewrite loops_S by lia; lia).
      exists st'. rewrite E', Hn. split; [|split; [|exact K']].
      * rewrite skipn_plus, Nat.add_comm. reflexivity.
      * rewrite <- app_assoc in R'.
        replace (firstn (512 + 512 * loops (length input - 512)) input)
          with (firstn 512 input ++ firstn (512 * loops (length input - 512)) (skipn 512 input)); [exact R'|].
        symmetry. apply firstn_plus.
  - subst n. rewrite loops_0 by lia. cbn [Nat.mul]. change (skipn 0 input) with input.
    change (firstn 0 input) with (@nil byte). rewrite app_nil_r. exists st. split; [reflexivity|].
    split; [exact R|reflexivity].
Qed.

Lemma groups_le b n : (b <= 1024)%nat -> (512 * groups b n <= b + n)%nat /\ (b + n - 512 * groups b n <= 1024)%nat.
Proof.
  intros H. unfold groups. pose proof (loops_le (b + n)).
  destruct (Nat.eqb_spec b 0), (Nat.leb_spec (b + n) 1024); cbn [negb andb]; lia.
Qed.

Theorem shape_update P B st input : Shape P B st -> (length ((P ++ B) ++ input) <= bound)%nat ->
  let n := (512 * groups (length B) (length input))%nat in
  exists st', sp_update c st input = Ok st' /\
    Shape (P ++ firstn n (B ++ input)) (skipn n (B ++ input)) st' /\ kept st st'.
Proof.
  intros R Hf n.
  assert (Hda : forall b, b = true -> debug_assert c b = Ok tt).
  { intros b ->. unfold debug_assert. destruct (debug_assertions c); reflexivity. }
  pose proof (sh_buflen _ _ _ R) as Hl. pose proof (sh_B _ _ _ R) as HBle.
  unfold sp_update, sp_empty_buffer. unfold sp_buflen_nat in Hl.
  destruct (Nat.eq_dec (length B) 0) as [HB0|HB0].
  { assert (B = []) as -> by (destruct B; [reflexivity|discriminate HB0]).
    cbn [length] in Hl. replace (0 <? val (sp_buflen st)) with false by lia. cbn [bind app].
    rewrite app_nil_r in Hf.
    destruct (shape_loop (S (length input)) P st input R ltac:(lia) Hf) as (st1 & E1 & R1 & K1). cbv zeta in *.
    rewrite E1. cbn [bind]. subst n. unfold groups. cbn [length Nat.eqb negb andb Nat.add].
    set (m := (512 * loops (length input))%nat) in *.
    destruct (shape_finish _ [] st1 (skipn m input) R1) as (st2 & E2 & R2 & K2).
    { cbn [length]. rewrite skipn_length. pose proof (loops_le (length input)). lia. }
    rewrite E2. cbn [bind]. rewrite Hda by reflexivity. cbn [bind]. exists st2.
    split; [reflexivity|]. split; [exact R2|]. unfold kept in *. congruence. }
  replace (0 <? val (sp_buflen st)) with true by lia.
  destruct (Nat.le_gt_cases (length B + length input) 1024) as [Hshort|Hlong].
  { destruct (shape_finish P B st input R Hshort) as (st1 & E1 & R1 & K1).
    rewrite E1. cbn [bind length sp_update_loop Nat.ltb Nat.leb Nat.mul BLOCKBYTES Nat.add].
    destruct (shape_finish P (B ++ input) st1 [] R1) as (st2 & E2 & R2 & K2).
    { rewrite app_length. cbn [length]. lia. }
    rewrite E2. cbn [bind]. rewrite Hda by reflexivity. cbn [bind].
    rewrite app_nil_r in R2. exists st2. split; [reflexivity|].
    assert (Hn : n = 0%nat).
    { subst n. unfold groups. destruct (Nat.eqb_spec (length B) 0), (Nat.leb_spec (length B + length input) 1024);
      cbn [negb andb]; lia. }
    rewrite Hn. change (firstn 0 (B ++ input)) with (@nil byte). rewrite app_nil_r. split; [exact R2|].
    unfold kept in *. congruence. }
  assert (Hn : n = (512 * loops (length B + length input))%nat).
  { subst n. unfold groups. destruct (Nat.eqb_spec (length B) 0), (Nat.leb_spec (length B + length input) 1024);
    cbn [negb andb]; lia. }
  clearbody n. subst n.
  set (take := (1024 - length B)%nat).
  destruct (shape_fill P B st input R) as (st1 & E1 & R1 & K1). cbv zeta in *.
  replace (Nat.min (1024 - length B) (length input)) with take in * by lia.
  rewrite E1. cbn [bind]. clear E1.
  assert (Hin : input = firstn take input ++ skipn take input) by (symmetry; apply firstn_skipn).
  set (rest := skipn take input) in *. set (B1 := B ++ firstn take input) in *.
  assert (HB1 : length B1 = 1024%nat) by (subst B1; rewrite app_length, firstn_length; lia).
  assert (Hrest : length rest = (length B + length input - 1024)%nat) by (subst rest; rewrite skipn_length; lia).
  assert (Htot : B ++ input = B1 ++ rest).
  { subst B1. rewrite Hin at 1. rewrite <- !app_assoc. reflexivity. }
  rewrite <- app_assoc in Hf.
  rewrite Htot in *.
  replace (length B + length input)%nat with (1024 + length rest)%nat by lia.
  assert (Hpos : (0 < length rest)%nat) by lia.
  clearbody rest B1. clear Hin Htot take Hrest R Hl HBle HB0 Hlong.
  destruct rest as [|x0 rest0] eqn:Erest; [cbn [length] in Hpos; lia|]. rewrite <- Erest in *.
  clear Erest x0 rest0. change (8 * BLOCKBYTES)%nat with 512%nat. change (7 * BLOCKBYTES)%nat with 448%nat.
  pose proof (sh_buf_length _ _ _ R1) as Hbl. pose proof (sh_buf _ _ _ R1) as Hb.
  rewrite HB1, <- Hbl, firstn_all in Hb.
  rewrite array_ref_ok by lia. cbn [bind skipn]. rewrite Hb.
  destruct (sh_P _ _ _ R1) as (np & Hnp).
  assert (Hb1 : length (firstn 512 B1) = 512%nat) by (rewrite firstn_length; lia).
  assert (Hb2 : length (skipn 512 B1) = 512%nat) by (rewrite skipn_length; lia).
  assert (HBB : B1 = firstn 512 B1 ++ skipn 512 B1) by (symmetry; apply firstn_skipn).
  rewrite !app_length in Hf.
  destruct (good_step P (sp_leaves st1) (firstn 512 B1) (sp_compress8_fn st1) np) as (leaves1 & E2 & HL1); auto.
  { apply (sh_good _ _ _ R1). } { apply (sh_fn _ _ _ R1). } { rewrite app_length, Hb1. lia. }
  rewrite E2. cbn [bind]. clear E2.
  pose proof (sh_buflen _ _ _ R1) as Hl1. unfold sp_buflen_nat in Hl1. rewrite HB1 in Hl1.
  unfold sp_set_leaves, sp_set_buflen, sp_set_buf, sp_buflen_nat.
  cbn [sp_leaves sp_root sp_buf sp_buflen sp_compress8_fn].
  change (val (of_N 16 (N.of_nat 512))) with 512.
  rewrite usub_ok by (change (val (of_N 16 (N.of_nat 512))) with 512; lia). cbn [bind].
  change (val (of_N 16 (N.of_nat 512))) with 512.
  assert (Hv : val (of_N 16 (val (sp_buflen st1) - 512)) = 512).
  { replace (val (sp_buflen st1) - 512) with 512 by lia. reflexivity. }
  set (bl := of_N 16 (val (sp_buflen st1) - 512)) in *. clearbody bl.
  cbn [sp_leaves sp_root sp_buf sp_buflen sp_compress8_fn].
  destruct (Nat.ltb_spec 448 (length rest)) as [Hr|Hr].
  + rewrite array_ref_ok by lia. cbn [bind]. rewrite Hb, firstn_all2 by lia.
    destruct (good_step (P ++ firstn 512 B1) leaves1 (skipn 512 B1) (sp_compress8_fn st1) (S np))
      as (leaves2 & E3 & HL2); auto.
    { rewrite app_length, Hb1. lia. } { apply (sh_fn _ _ _ R1). } { rewrite !app_length, Hb1, Hb2. lia. }
    rewrite E3. cbn [bind]. clear E3.
    cbn [sp_leaves sp_root sp_buf sp_buflen sp_compress8_fn].
    rewrite <- app_assoc, <- HBB in HL2.
    match goal with |- context [sp_update_loop _ c ?s rest] => set (st2 := s) end.
    assert (R2 : Shape (P ++ B1) [] st2).
    { pose proof R1 as R1c. destruct R1c. constructor; subst st2;
      cbn [sp_leaves sp_root sp_buf sp_buflen sp_compress8_fn length]; try assumption.
      - exists (2 + np)%nat. rewrite app_length, HB1. lia.
      - lia.
      - reflexivity.
      - reflexivity. }
    assert (K2 : kept st st2) by exact K1. clearbody st2.
    destruct (shape_loop (S (length rest)) (P ++ B1) st2 rest R2 ltac:(lia)) as (st3 & E3 & R3 & K3).
    { rewrite !app_length. lia. }
    cbv zeta in *. rewrite E3. cbn [bind]. set (m := (512 * loops (length rest))%nat) in *.
    destruct (shape_finish ((P ++ B1) ++ firstn m rest) [] st3 (skipn m rest) R3) as (st4 & E4 & R4 & K4).
    { cbn [length]. rewrite skipn_length. pose proof (loops_le (length rest)). lia. }
    rewrite E4. cbn [bind]. rewrite Hda by reflexivity. cbn [bind].
    exists st4. split; [reflexivity|]. split; [|unfold kept in *; congruence].
    rewrite !loops_S by lia. replace (1024 + length rest - 512 - 512)%nat with (length rest) by lia.
    replace (512 * S (S (loops (length rest))))%nat with (1024 + m)%nat by lia.
    rewrite <- HB1, firstn_app_2, skipn_app, (skipn_all2 (n := length B1 + m) B1) by lia.
    replace (length B1 + m - length B1)%nat with m by lia. rewrite app_assoc. exact R4.
  + rewrite slice_to_ok by lia. cbn [bind]. rewrite slice_from_ok by lia. cbn [bind].
    rewrite Hv. change (N.to_nat 512) with 512%nat. rewrite Hb.
    rewrite slice_to_ok by lia. cbn [bind]. rewrite (firstn_all2 (n := 512) (skipn 512 B1)) by lia.
    rewrite copy_into_ok by (rewrite ?Hb1, ?Hb2; lia). cbn [bind]. rewrite firstn_O. cbn [app].
    rewrite (skipn_all2 (n := 512) (firstn 512 B1)) by lia. rewrite app_nil_r.
    cbn [sp_leaves sp_root sp_buf sp_buflen sp_compress8_fn sp_update_loop].
    unfold BLOCKBYTES. destruct (Nat.ltb_spec (15 * 64) (length rest)) as [Hx|Hx]; [lia|]. cbn [bind].
    match goal with |- context [sp_fill_buf c ?s rest] => set (st2 := s) end.
    assert (R2 : Shape (P ++ firstn 512 B1) (skipn 512 B1) st2).
    { pose proof R1 as R1c. destruct R1c. constructor; subst st2; unfold sp_buflen_nat;
      cbn [sp_leaves sp_root sp_buf sp_buflen sp_compress8_fn]; try assumption.
      - exists (S np). rewrite app_length, Hb1. lia.
      - rewrite app_length, Hb2. reflexivity.
      - lia.
      - rewrite Hv, Hb2. reflexivity.
      - rewrite firstn_app_le by lia. apply firstn_all. }
    destruct (shape_finish _ _ st2 rest R2) as (st3 & E3 & R3 & K3); [lia|].
    rewrite E3. cbn [bind]. rewrite Hda by reflexivity. cbn [bind].
    exists st3. split; [reflexivity|]. split; [|unfold kept in *; subst st2; cbn [sp_root] in K3; congruence].
    rewrite loops_S, loops_0 by lia. change (512 * 1)%nat with 512%nat.
    rewrite firstn_app_le, skipn_app_le by lia. exact R3.
Qed.

Theorem shape_feed pieces : forall P B st, Shape P B st ->
  (length (P ++ B) + length (concat pieces) <= bound)%nat ->
  let n := (512 * settled (length B) (map (@length _) pieces))%nat in
  let D := (B ++ concat pieces) in
  exists st', sp_feed c st pieces = Ok st' /\ Shape (P ++ firstn n D) (skipn n D) st' /\ kept st st' /\
    (n <= length D)%nat.
Proof.
  induction pieces as [|x l IH]; intros P B st R Hb n D.
  - cbn [map settled concat sp_feed] in *. subst n D. rewrite app_nil_r. change (512 * 0)%nat with 0%nat.
    change (firstn 0 B) with (@nil byte). change (skipn 0 B) with B. rewrite app_nil_r.
    exists st. split; [reflexivity|]. split; [exact R|]. split; [reflexivity|lia].
  - cbn [map settled concat sp_feed] in *. rewrite app_length in Hb.
    destruct (shape_update P B st x R) as (st1 & E1 & R1 & K1); [rewrite !app_length in *; lia|]. cbv zeta in *.
    rewrite E1. cbn [bind].
    destruct (groups_le (length B) (length x) (sh_B _ _ _ R)) as (G1 & G2).
    set (g := groups (length B) (length x)) in *.
    assert (Hs : length (skipn (512 * g) (B ++ x)) = (length B + length x - 512 * g)%nat).
    { rewrite skipn_length, app_length. reflexivity. }
    destruct (IH _ _ st1 R1) as (st2 & E2 & R2 & K2 & Hn).
    { rewrite <- app_assoc, firstn_skipn, !app_length in *. lia. }
    cbv zeta in *. rewrite Hs in *. exists st2. split; [exact E2|].
    set (s := settled (length B + length x - 512 * g) (map (length (A:=byte)) l)) in *.
    subst n D.
    assert (HD : B ++ x ++ concat l = firstn (512 * g) (B ++ x) ++ (skipn (512 * g) (B ++ x) ++ concat l)).
    { rewrite app_assoc, (app_assoc (firstn _ _)), firstn_skipn. reflexivity. }
    assert (Hfl : length (firstn (512 * g) (B ++ x)) = (512 * g)%nat) by (rewrite firstn_length, app_length; lia).
    rewrite HD. set (F := firstn (512 * g) (B ++ x)) in *. set (X := skipn (512 * g) (B ++ x) ++ concat l) in *.
    replace (512 * (g + s))%nat with (length F + 512 * s)%nat by lia.
    rewrite firstn_app_2, skipn_app, (skipn_all2 (n := length F + 512 * s) F) by lia.
    replace (length F + 512 * s - length F)%nat with (512 * s)%nat by lia. cbn [app].
    rewrite app_assoc. split; [exact R2|]. split; [unfold kept in *; congruence|].
    rewrite app_length. lia.
Qed.
End Shape.
