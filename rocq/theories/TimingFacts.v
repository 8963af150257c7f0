(** * TimingFacts: what the benchmark programs report. *)
From Verif Require Import Base BaseFacts Timing.
From Coq Require Import Lia.
Local Open Scope N_scope.

(** ** Durations *)
Definition ns (d : Duration) : N := val (secs d) * NS_PER_SEC + val (subsec_nanos d).
Definition fine (d : Duration) : Prop := val (subsec_nanos d) < NS_PER_SEC.
Lemma val32 n : n < NS_PER_SEC -> val (of_N 32 n) = n.
Proof. intros H. apply val_of_N_small. unfold NS_PER_SEC in H. change (2 ^ 32) with 4294967296. lia. Qed.
Lemma instant_sub_ok b a : b <= a -> a - b < 2 ^ 64 * NS_PER_SEC -> exists d, instant_sub a b = Ok d /\ ns d = a - b /\ fine d.
Proof.
  intros H L. unfold instant_sub. replace (a <? b) with false by (symmetry; apply N.ltb_ge; exact H).
  eexists. split; [reflexivity|].
  assert (M : (a - b) mod NS_PER_SEC < NS_PER_SEC) by (apply N.mod_lt; discriminate).
  assert (Q : (a - b) / NS_PER_SEC < 2 ^ 64) by (apply N.div_lt_upper_bound; [discriminate|rewrite N.mul_comm; exact L]).
  unfold ns, fine. cbn [secs subsec_nanos]. rewrite val32 by exact M. rewrite val_of_N_small by exact Q.
  split; [|exact M]. rewrite N.mul_comm. symmetry. apply N.div_mod'.
Qed.
Lemma print_ok c d l : fine d -> ns d < 2 ^ 64 -> print c d l = Ok (of_N 64 (ns d), l).
Proof.
  intros F L. unfold print, umul64. unfold ns in *.
  assert (A : (NS_PER_SEC * val (secs d) <? 2 ^ 64) = true) by (apply N.ltb_lt; lia). rewrite A. cbn [bind].
  apply N.ltb_lt in A. unfold uadd.
  assert (C : val (cast 64 (subsec_nanos d)) = val (subsec_nanos d)).
  { apply val_of_N_small. unfold fine, NS_PER_SEC in F. change (2 ^ 64) with 18446744073709551616. lia. }
  rewrite C, val_of_N_small by exact A. rewrite (N.mul_comm NS_PER_SEC).
  assert (B : (val (secs d) * NS_PER_SEC + val (subsec_nanos d) <? 2 ^ 64) = true) by (apply N.ltb_lt; exact L).
  rewrite B. reflexivity.
Qed.
Lemma duration_add_ok a b : fine a -> fine b -> ns a + ns b < 2 ^ 64 * NS_PER_SEC ->
  exists d, duration_add a b = Ok d /\ ns d = ns a + ns b /\ fine d.
Proof.
  intros Fa Fb L. unfold duration_add, ns, fine in *.
  destruct (N.leb_spec NS_PER_SEC (val (subsec_nanos a) + val (subsec_nanos b))) as [H|H]; cbv beta iota zeta.
  - assert (A : (val (secs a) + val (secs b) + 1 <? 2 ^ 64) = true) by (apply N.ltb_lt; unfold NS_PER_SEC in *; lia).
    rewrite A. apply N.ltb_lt in A. eexists. split; [reflexivity|]. cbn [secs subsec_nanos].
    rewrite val_of_N_small by exact A. rewrite val32 by lia. lia.
  - assert (A : (val (secs a) + val (secs b) + 0 <? 2 ^ 64) = true) by (apply N.ltb_lt; unfold NS_PER_SEC in *; lia).
    rewrite A. apply N.ltb_lt in A. eexists. split; [reflexivity|]. cbn [secs subsec_nanos].
    rewrite val_of_N_small by exact A. rewrite val32 by lia. lia.
Qed.
Lemma duration_lt_ok a b : fine a -> fine b -> duration_lt a b = (ns a <? ns b).
Proof.
  intros Fa Fb. unfold duration_lt, ns, fine, NS_PER_SEC in *.
  destruct (N.ltb_spec (val (secs a)) (val (secs b))); cbn [orb].
  - symmetry. apply N.ltb_lt. lia.
  - destruct (N.eqb_spec (val (secs a)) (val (secs b))) as [E|E]; cbn [andb].
    + rewrite E. destruct (N.ltb_spec (val (subsec_nanos a)) (val (subsec_nanos b))); symmetry; [apply N.ltb_lt|apply N.ltb_ge]; lia.
    + symmetry. apply N.ltb_ge. lia.
Qed.
Lemma duration_div_ok a : fine a -> exists d, duration_div a 9 = Ok d /\ ns d <= ns a / 9 <= ns d + 1 /\ fine d.
Proof.
  intros F. unfold duration_div. change (9 =? 0) with false. cbv beta iota zeta. eexists. split; [reflexivity|].
  unfold ns, fine in *. cbn [secs subsec_nanos].
  set (s := val (secs a)) in *. set (n := val (subsec_nanos a)) in *.
  assert (S : s < 2 ^ 64) by apply val_lt.
  pose proof (N.div_mod' s 9) as D. pose proof (N.mod_lt s 9 ltac:(discriminate)) as M.
  set (q := s / 9) in *. set (r := s mod 9) in *.
  assert (Cr : s - q * 9 = r) by lia. rewrite Cr.
  pose proof (N.div_mod' n 9) as Dn. pose proof (N.mod_lt n 9 ltac:(discriminate)) as Mn.
  pose proof (N.div_mod' (r * NS_PER_SEC) 9) as Dr. pose proof (N.mod_lt (r * NS_PER_SEC) 9 ltac:(discriminate)) as Mr.
  pose proof (N.div_mod' (s * NS_PER_SEC + n) 9) as Da. pose proof (N.mod_lt (s * NS_PER_SEC + n) 9 ltac:(discriminate)) as Ma.
  assert (B : n / 9 + r * NS_PER_SEC / 9 < NS_PER_SEC) by (unfold NS_PER_SEC in *; lia).
  rewrite val32 by exact B. rewrite val_of_N_small by lia. unfold NS_PER_SEC in *. lia.
Qed.

(** ** The loop of [run] *)
Definition timely (r : N * N) : Prop := fst r <= snd r /\ snd r - fst r < 2 ^ 64.
Lemma run_loop_ok c rs : forall f t, Forall timely rs -> fine f -> fine t ->
  ns t + N.of_nat (length rs) * 2 ^ 64 < 2 ^ 64 * NS_PER_SEC ->
  exists ls f' t', run_loop c false rs f t = Ok (ls, f', t') /\ fine f' /\ fine t' /\
    map shown ls = map (fun r => (elapsed r, Timed)) rs /\ ns t' = ns t + sum (map elapsed rs) /\
    ns f' = fold_left N.min (map elapsed rs) (ns f).
Proof.
  induction rs as [|[b a] rs IH]; intros f t H Ff Ft L.
  - exists [], f, t. cbn. repeat split; auto; lia.
  - inversion H as [|? ? [T1 T2] H']; subst. cbn [fst snd] in *.
    assert (Lt : a - b < 2 ^ 64 * NS_PER_SEC) by (unfold NS_PER_SEC; lia).
    destruct (instant_sub_ok b a T1 Lt) as (d & E & Nd & Fd).
    cbn [run_loop]. rewrite E. cbn [bind]. rewrite print_ok by (rewrite ?Nd; assumption). cbn [bind].
    cbn [length] in L. rewrite Nat2N.inj_succ in L.
    assert (Ls : ns t + ns d < 2 ^ 64 * NS_PER_SEC) by (rewrite Nd; lia).
    destruct (duration_add_ok t d Ft Fd Ls) as (t1 & E1 & N1 & F1).
    rewrite E1. cbn [bind]. rewrite (duration_lt_ok d f Fd Ff). cbv zeta.
    set (f1 := if ns d <? ns f then d else f).
    assert (Ff1 : fine f1) by (unfold f1; destruct (ns d <? ns f); assumption).
    assert (Nf1 : ns f1 = N.min (ns f) (a - b)).
    { unfold f1. rewrite <- Nd. destruct (N.ltb_spec (ns d) (ns f)); lia. }
    destruct (IH f1 t1 H' Ff1 F1) as (ls & f' & t' & R & F' & T' & S' & Nt & Nf); [rewrite N1, Nd; lia|].
    rewrite R. cbn [bind]. exists ((of_N 64 (ns d), Timed) :: ls), f', t'.
    split; [reflexivity|]. split; [exact F'|]. split; [exact T'|].
    split; [cbn [map]; rewrite S'; unfold shown at 1; cbn [fst snd]; rewrite Nd, val_of_N_small by exact T2; reflexivity|].
    split; [rewrite Nt, N1, Nd; cbn [map sum fold_right]; unfold elapsed at 2; cbn [fst snd]; fold (sum (map elapsed rs)); lia|].
    rewrite Nf, Nf1. reflexivity.
Qed.
Lemma fold_min_le l : forall x, fold_left N.min l x <= x /\ Forall (fun d => fold_left N.min l x <= d) l.
Proof.
  induction l as [|y l IH]; intros x; cbn [fold_left]; [split; [lia|constructor]|].
  destruct (IH (N.min x y)) as [A B]. split; [lia|]. constructor; [lia|exact B].
Qed.
Lemma fold_min_in l : forall x, fold_left N.min l x = x \/ In (fold_left N.min l x) l.
Proof.
  induction l as [|y l IH]; intros x; cbn [fold_left]; [left; reflexivity|].
  destruct (IH (N.min x y)) as [E|E]; [|right; right; exact E].
  rewrite E. destruct (N.min_spec x y) as [[_ ->]|[_ ->]]; [left; reflexivity|right; left; reflexivity].
Qed.
Theorem run_reports c r rs : length rs = 9%nat -> Forall timely (r :: rs) ->
  exists lines average fastest, run c (r :: rs) = Ok lines /\
    map shown lines = (elapsed r, Ignored) :: map (fun r => (elapsed r, Timed)) rs ++ [(average, Average); (fastest, Fastest)] /\
    average <= sum (map elapsed rs) / 9 <= average + 1 /\
    In fastest (map elapsed rs) /\ Forall (fun d => fastest <= d) (map elapsed rs).
Proof.
  intros Ln H. inversion H as [|? ? [T1 T2] H']; subst. destruct r as [b a]. cbn [fst snd] in *.
  assert (Lt : a - b < 2 ^ 64 * NS_PER_SEC) by (unfold NS_PER_SEC; lia).
  destruct (instant_sub_ok b a T1 Lt) as (d & E & Nd & Fd).
  set (f0 := from_secs (umax 64)). set (t0 := from_secs (uzero 64)).
  assert (Ff0 : fine f0) by (unfold fine, f0, from_secs, NS_PER_SEC; cbn [subsec_nanos]; rewrite val_uzero; lia).
  assert (Ft0 : fine t0) by (unfold fine, t0, from_secs, NS_PER_SEC; cbn [subsec_nanos]; rewrite val_uzero; lia).
  assert (Nt0 : ns t0 = 0) by (unfold ns, t0, from_secs; cbn [subsec_nanos secs]; rewrite !val_uzero; reflexivity).
  assert (Nf0 : 2 ^ 64 <= ns f0).
  { unfold ns, f0, from_secs. cbn [subsec_nanos secs]. unfold umax. rewrite val_uzero, val_of_N_small by (cbv; reflexivity). unfold NS_PER_SEC. lia. }
  destruct (run_loop_ok c rs f0 t0 H' Ff0 Ft0) as (ls & f & t & R & Ff & Ft & S & Nt & Nf).
  { rewrite Nt0, Ln. unfold NS_PER_SEC. lia. }
  unfold run. fold f0 t0. cbv zeta. cbn [run_loop]. rewrite E. cbn [bind]. rewrite print_ok by (rewrite ?Nd; assumption). cbn [bind].
  rewrite R. cbn [bind]. change (RUNS - 1) with 9.
  destruct (duration_div_ok t Ft) as (av & Ea & Ba & Fa). rewrite Ea. cbn [bind].
  assert (Ls : sum (map elapsed rs) <= N.of_nat (length rs) * (2 ^ 64 - 1)).
  { clear -H'. induction H' as [|x l [A B] _ IH]; [cbn; lia|]. cbn [map length sum fold_right]. fold (sum (map elapsed l)).
    unfold elapsed at 1. rewrite Nat2N.inj_succ. lia. }
  rewrite Ln in Ls. rewrite Nt, Nt0, N.add_0_l in Ba.
  assert (La : ns av < 2 ^ 64).
  { apply N.le_lt_trans with (1 := proj1 Ba). apply N.div_lt_upper_bound; [discriminate|]. lia. }
  rewrite print_ok by assumption. cbn [bind].
  assert (Lf : In (ns f) (map elapsed rs)).
  { rewrite Nf. destruct (fold_min_in (map elapsed rs) (ns f0)) as [X|X]; [exfalso|exact X].
    destruct rs as [|r1 rs]; [discriminate Ln|]. destruct (fold_min_le (map elapsed (r1 :: rs)) (ns f0)) as [_ K].
    rewrite X in K. cbn [map] in K. apply Forall_inv in K. inversion H' as [|? ? [Y1 Y2] _]; subst. unfold elapsed in K. lia. }
  assert (Lf' : ns f < 2 ^ 64).
  { apply in_map_iff in Lf. destruct Lf as (x & <- & I). rewrite Forall_forall in H'. exact (proj2 (H' x I)). }
  rewrite print_ok by assumption. cbn [bind]. eexists _, (ns av), (ns f). split; [reflexivity|].
  split.
  { cbn [app map]. rewrite map_app, S. cbn [map]. unfold shown. cbn [fst snd].
    rewrite Nd, !val_of_N_small by assumption. reflexivity. }
  split; [exact Ba|]. split; [exact Lf|]. rewrite Nf. apply fold_min_le.
Qed.

(** ** bench_libsodium.c *)
Definition timely_c (r : N * N) : Prop := fst r <= snd r /\ snd r < 2 ^ 63.
Lemma nanosecond_diff_ok r : timely_c r -> exists x, nanosecond_diff (fst r) (snd r) = Ok x /\ val x = elapsed r.
Proof.
  intros [A B]. unfold nanosecond_diff, to_nanos.
  replace (fst r <? 2 ^ 63) with true by (symmetry; apply N.ltb_lt; lia).
  replace (snd r <? 2 ^ 63) with true by (symmetry; apply N.ltb_lt; lia). cbn [bind].
  eexists. split; [reflexivity|]. rewrite val_of_N. unfold elapsed.
  replace (2 ^ 64 + snd r - fst r) with (snd r - fst r + 1 * 2 ^ 64) by lia.
  rewrite N.mod_add by discriminate. apply N.mod_small. lia.
Qed.
Lemma run_bench_loop_ok rs : forall f t, Forall timely_c rs -> val t + sum (map elapsed rs) < 2 ^ 64 ->
  exists ls f' t', run_bench_loop false rs f t = Ok (ls, f', t') /\
    map shown ls = map (fun r => (elapsed r, Timed)) rs /\ val t' = val t + sum (map elapsed rs) /\
    val f' = fold_left N.min (map elapsed rs) (val f).
Proof.
  induction rs as [|r rs IH]; intros f t H L.
  - exists [], f, t. cbn. repeat split; lia.
  - inversion H as [|? ? T H']; subst. destruct (nanosecond_diff_ok r T) as (x & E & V). destruct r as [b a]. cbn [fst snd] in E.
    cbn [map sum fold_right] in L. fold (sum (map elapsed rs)) in L.
    cbn [run_bench_loop]. rewrite E. cbn [bind]. cbv zeta.
    assert (Vt : val (wrapping_add t x) = val t + elapsed (b, a)).
    { rewrite val_wrapping_add, V. apply N.mod_small. lia. }
    set (f1 := if val x <? val f then x else f).
    assert (Vf : val f1 = N.min (val f) (elapsed (b, a))).
    { unfold f1. rewrite <- V. destruct (N.ltb_spec (val x) (val f)); lia. }
    destruct (IH f1 (wrapping_add t x) H') as (ls & f' & t' & R & S & Nt & Nf); [rewrite Vt; lia|].
    rewrite R. cbn [bind]. exists ((x, Timed) :: ls), f', t'. split; [reflexivity|].
    split; [cbn [map]; rewrite S; unfold shown at 1; cbn [fst snd]; rewrite V; reflexivity|].
    split; [rewrite Nt, Vt; cbn [map sum fold_right]; fold (sum (map elapsed rs)); lia|].
    rewrite Nf, Vf. reflexivity.
Qed.
Theorem run_bench_reports r rs : length rs = 9%nat -> Forall timely_c (r :: rs) -> sum (map elapsed rs) < 2 ^ 64 ->
  exists lines fastest, run_bench (r :: rs) = Ok lines /\
    map shown lines = (elapsed r, Ignored) :: map (fun r => (elapsed r, Timed)) rs ++ [(sum (map elapsed rs) / 9, Average); (fastest, Fastest)] /\
    fastest <= 2 ^ 31 - 1 /\ Forall (fun d => fastest <= d) (map elapsed rs) /\
    (fastest = 2 ^ 31 - 1 \/ In fastest (map elapsed rs)).
Proof.
  intros Ln H L. inversion H as [|? ? T H']; subst. destruct (nanosecond_diff_ok r T) as (x & E & V). destruct r as [b a]. cbn [fst snd] in E.
  destruct (run_bench_loop_ok rs (of_N 64 INT_MAX) (uzero 64) H') as (ls & f & t & R & S & Nt & Nf); [rewrite val_uzero; exact L|].
  unfold run_bench. cbn [run_bench_loop]. rewrite E. cbn [bind]. rewrite R. cbn [bind].
  rewrite val_uzero, N.add_0_l in Nt. change (val (of_N 64 INT_MAX)) with (2 ^ 31 - 1) in Nf.
  eexists _, (val f). split; [reflexivity|]. split.
  { cbn [app map]. rewrite map_app, S. cbn [map]. unfold shown. cbn [fst snd]. rewrite V, Nt, val_of_N_small; [reflexivity|].
    apply N.le_lt_trans with (2 := L). apply N.div_le_upper_bound; [discriminate|]. change (RUNS - 1) with 9. lia. }
  rewrite Nf. destruct (fold_min_le (map elapsed rs) (2 ^ 31 - 1)) as [A B]. split; [exact A|]. split; [exact B|].
  apply fold_min_in.
Qed.

(** ** count_cycles *)
Lemma ticks_loop_ok c rs : forall t, Forall (fun r : u64 * u64 => val (fst r) <= val (snd r)) rs ->
  val t + sum (map (fun r => val (snd r) - val (fst r)) rs) < 2 ^ 64 ->
  exists t', ticks_loop c rs t = Ok t' /\ val t' = val t + sum (map (fun r => val (snd r) - val (fst r)) rs).
Proof.
  induction rs as [|[b a] rs IH]; intros t H L.
  - exists t. cbn. split; [reflexivity|lia].
  - inversion H as [|? ? T H']; subst. cbn [fst snd map sum fold_right] in *.
    fold (sum (map (fun r : u64 * u64 => val (snd r) - val (fst r)) rs)) in *.
    cbn [ticks_loop]. unfold usub, uadd. apply N.leb_le in T. rewrite T. apply N.leb_le in T. cbn [bind].
    assert (V : val (of_N 64 (val a - val b)) = val a - val b) by (apply val_of_N_small; pose proof (val_lt a); lia).
    rewrite V. replace (val t + (val a - val b) <? 2 ^ 64) with true by (symmetry; apply N.ltb_lt; lia). cbn [bind].
    assert (W : val (of_N 64 (val t + (val a - val b))) = val t + (val a - val b)) by (apply val_of_N_small; lia).
    destruct (IH (of_N 64 (val t + (val a - val b))) H') as (t' & R & Q); [rewrite W; lia|].
    exists t'. split; [exact R|]. rewrite Q, W. lia.
Qed.
Theorem cycles_reports c size rs : size <> 0 -> N.of_nat (length rs) = 2 ^ 30 / size ->
  Forall (fun r : u64 * u64 => val (fst r) <= val (snd r)) rs -> sum (map (fun r => val (snd r) - val (fst r)) rs) < 2 ^ 64 ->
  exists t n, cycles c size rs = Ok (t, n) /\ val t = sum (map (fun r => val (snd r) - val (fst r)) rs) /\
    n = N.of_nat (length rs) * size /\ n <= 2 ^ 30 < n + size.
Proof.
  intros Z Ln H L. unfold cycles. change (iterations size) with (2 ^ 30 / size). rewrite <- Ln. rewrite Nat2N.id, firstn_all.
  destruct (ticks_loop_ok c rs (uzero 64) H) as (t & R & Q); [rewrite val_uzero; exact L|].
  rewrite R. cbn [bind]. exists t, (N.of_nat (length rs) * size). rewrite val_uzero, N.add_0_l in Q.
  split; [reflexivity|]. split; [exact Q|]. split; [reflexivity|]. rewrite Ln.
  pose proof (N.div_mod' (2 ^ 30) size). pose proof (N.mod_lt (2 ^ 30) size Z). lia.
Qed.

(** ** A witness: ten runs of three seconds each. *)
Definition slow : N * N := (0, 3000000000).
Lemma slow_reports : exists lines, run_bench (slow :: repeat slow 9) = Ok lines /\ In (2147483647, Fastest) (map shown lines).
Proof. eexists. split; [lazy; reflexivity|]. lazy. tauto. Qed.
Theorem run_bench_fastest_wrong : ~ (forall r rs lines fastest, length rs = 9%nat ->
  Forall (fun r => fst r <= snd r < 2 ^ 63) (r :: rs) -> sum (map elapsed rs) < 2 ^ 64 ->
  run_bench (r :: rs) = Ok lines -> In (fastest, Fastest) (map shown lines) -> In fastest (map elapsed rs)).
Proof.
  intros H. destruct slow_reports as (lines & E & I).
  assert (K : In 2147483647 (map elapsed (repeat slow 9))).
  { apply (H slow (repeat slow 9) lines 2147483647 eq_refl); [| |exact E|exact I].
    - apply (Forall_impl (P := fun r => r = slow)); [intros r ->; unfold slow; cbn [fst snd]; lia|]. repeat constructor.
    - lazy. reflexivity. }
  lazy in K. repeat destruct K as [K|K]; try discriminate K. exact K.
Qed.

(** ** A clock that goes back *)
Lemma run_loop_back c bad post pre : snd bad < fst bad -> forall f t, Forall timely pre -> fine f -> fine t ->
  ns t + N.of_nat (length pre) * 2 ^ 64 < 2 ^ 64 * NS_PER_SEC ->
  run_loop c false (pre ++ bad :: post) f t = Panic.
Proof.
  intros Hb. induction pre as [|[b a] pre IH]; intros f t H Ff Ft L.
  - destruct bad as [b a]. cbn [fst snd app run_loop] in *. unfold instant_sub. replace (a <? b) with true by (symmetry; apply N.ltb_lt; exact Hb). reflexivity.
  - inversion H as [|? ? [T1 T2] H']; subst. cbn [fst snd] in *.
    assert (Lt : a - b < 2 ^ 64 * NS_PER_SEC) by (unfold NS_PER_SEC; lia).
    destruct (instant_sub_ok b a T1 Lt) as (d & E & Nd & Fd).
    cbn [app run_loop]. rewrite E. cbn [bind]. rewrite print_ok by (rewrite ?Nd; assumption). cbn [bind].
    cbn [length] in L. rewrite Nat2N.inj_succ in L.
    assert (Ls : ns t + ns d < 2 ^ 64 * NS_PER_SEC) by (rewrite Nd; lia).
    destruct (duration_add_ok t d Ft Fd Ls) as (t1 & E1 & N1 & F1).
    rewrite E1. cbn [bind]. cbv zeta. rewrite IH; [reflexivity|exact H'| |exact F1|rewrite N1, Nd; lia].
    destruct (duration_lt d f); assumption.
Qed.
Theorem run_back c pre bad post : (length pre <= 9)%nat -> Forall timely pre -> snd bad < fst bad -> run c (pre ++ bad :: post) = Panic.
Proof.
  intros Hl H Hb. unfold run. cbv zeta.
  assert (F0 : fine (from_secs (uzero 64))) by reflexivity. assert (F1 : fine (from_secs (umax 64))) by reflexivity.
  destruct pre as [|[b a] pre].
  - destruct bad as [b a]. cbn [fst snd app run_loop] in *. unfold instant_sub. replace (a <? b) with true by (symmetry; apply N.ltb_lt; exact Hb). reflexivity.
  - inversion H as [|? ? [T1 T2] H']; subst. cbn [fst snd length] in *.
    assert (Lt : a - b < 2 ^ 64 * NS_PER_SEC) by (unfold NS_PER_SEC; lia).
    destruct (instant_sub_ok b a T1 Lt) as (d & E & Nd & Fd).
    cbn [app run_loop]. rewrite E. cbn [bind]. rewrite print_ok by (rewrite ?Nd; assumption). cbn [bind].
    rewrite (run_loop_back c bad post pre Hb _ _ H' F1 F0); [reflexivity|].
    change (ns (from_secs (uzero 64))) with 0. unfold NS_PER_SEC. lia.
Qed.
(** A difference of readings, in seconds and nanoseconds *)
Theorem instant_sub_splits before after : before <= after -> after - before < 2 ^ 64 * 1000000000 ->
  exists d, instant_sub after before = Ok d /\ val (secs d) * 1000000000 + val (subsec_nanos d) = after - before /\ val (subsec_nanos d) < 1000000000.
Proof. intros H L. destruct (instant_sub_ok before after H L) as (d & E & N & F). exists d. split; [exact E|]. split; [exact N|exact F]. Qed.
(** A first run of 2^64 nanoseconds or more *)
Theorem run_too_long c before after rs : overflow_checks c = true -> before + 2 ^ 64 <= after -> after - before < 2 ^ 64 * NS_PER_SEC ->
  run c ((before, after) :: rs) = Panic.
Proof.
  intros O H L. destruct (instant_sub_ok before after ltac:(lia) L) as (d & E & Nd & Fd).
  unfold run. cbv zeta. cbn [run_loop]. rewrite E. cbn [bind].
  assert (print c d Ignored = Panic) as ->; [|reflexivity].
  unfold print, umul64. unfold ns in Nd. destruct (N.ltb_spec (NS_PER_SEC * val (secs d)) (2 ^ 64)) as [S|S]; [|rewrite O; reflexivity].
  cbn [bind]. unfold uadd. rewrite val_of_N_small by exact S.
  assert (val (cast 64 (subsec_nanos d)) = val (subsec_nanos d)) as ->.
  { unfold cast. apply val_of_N_small. unfold fine, NS_PER_SEC in Fd. lia. }
  replace (NS_PER_SEC * val (secs d) + val (subsec_nanos d) <? 2 ^ 64) with false by (symmetry; apply N.ltb_ge; lia).
  rewrite O. reflexivity.
Qed.
