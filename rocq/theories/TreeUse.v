(** * TreeUse: the vector routines as a caller sees them, under Tree Borrows. *)
From Verif Require Import Base BaseFacts Consts Intrinsics Portable Params Memory MemoryFacts Views Trees TreeFacts.
From Verif Require Sse41 Avx2 BorrowExact.
From Coq Require Import Lia.
Local Open Scope nat_scope.

(** What a caller wants kept: all there is in the allocations [L] *)
Definition inside (a k : nat) (q : bpointer) (m : nat) : Prop := a = alloc (to q) /\ offset (to q) <= k < offset (to q) + m.
Definition claims_of (w : world) (L : nat -> Prop) (ws rs : list (bpointer * nat)) : claims :=
  mk_claims (next w) (family w) (held w) (fun K u a k => u < next w /\
    let here := means K (In u (held w)) (perms w a k u) in
    let free l := L a /\ forall q m, In (q, m) l -> ~ inside a k q m in
    match K with
    | Visible => free ws /\ here
    | Mutable => (exists q m, In (q, m) ws /\ inside a k q m /\ In u (family w (tag q))) \/ free (ws ++ rs) /\ here
    | Calm => In u (held w) /\ free ws /\ here
    | Quiet => In u (held w) /\ ((exists q m, In (q, m) ws /\ inside a k q m /\ ~ In u (family w (tag q))) \/ free (ws ++ rs) /\ here)
    | _ => False
    end).
Lemma holds_claims_of w L ws rs : old w -> (forall q m, In (q, m) ws -> writable w q m) -> holds (claims_of w L ws rs) w.
Proof.
  intros O W. split; [exact O|]. split; [apply le_n|]. split; [reflexivity|]. split; [reflexivity|]. cbn [claims_of known fact guests].
  intros K u a k [T F]. split; [exact T|]. cbv zeta in F. destruct K; try contradiction.
  - apply F.
  - destruct F as [(q & m & Hq & [-> Hk] & Hu)|[_ F]]; [|exact F]. destruct (W q m Hq) as [_ P]. exact (proj1 (P k Hk) u Hu).
  - apply F.
  - destruct F as [Hh [(q & m & Hq & [-> Hk] & Hu)|[_ F]]]; [|exact F]. destruct (W q m Hq) as [_ P]. exact (proj2 (P k Hk) u Hh Hu).
Qed.
Lemma apart_inside p n q m a k : apart p n q m -> inside a k p n -> inside a k q m -> False.
Proof. unfold apart, inside. lia. Qed.
Lemma in_or_not (u : nat) l : In u l \/ ~ In u l.
Proof. destruct (in_dec Nat.eq_dec u l); auto. Qed.
Lemma claims_reads w (L : nat -> Prop) ws rs p n : old w -> In (p, n) rs -> L (alloc (to p)) -> readable w p n -> (forall q m, In (q, m) ws -> apart p n q m) ->
  reads (claims_of w L ws rs) p n.
Proof.
  intros [O Oh] Hp Hl [T R] A. split; [exact T|]. intros k Hk. destruct (R k Hk) as [R1 R2].
  assert (Ip : inside (alloc (to p)) k p n) by (split; [reflexivity|exact Hk]).
  assert (Nw : forall q m, In (q, m) ws -> ~ inside (alloc (to p)) k q m) by (intros q m Hq Iq; exact (apart_inside _ _ _ _ _ _ (A q m Hq) Ip Iq)).
  assert (Cm : forall u, In u (held w) -> ~ In u (family w (tag p)) -> fact (claims_of w L ws rs) Calm u (alloc (to p)) k).
  { intros u Hu N. rewrite Forall_forall in Oh. split; [exact (Oh u Hu)|]. split; [exact Hu|]. split; [split; [exact Hl|exact Nw]|]. exact (R2 u Hu N). }
  split; [exact T|]. split; [|split].
  - intros u Hu. exists Visible. split; [|reflexivity]. pose proof (O _ T) as F. rewrite Forall_forall in F. split; [exact (F u Hu)|].
    split; [split; [exact Hl|exact Nw]|]. exact (R1 u Hu).
  - intros u Hu N. exists Calm. split; [exact (Cm u Hu N)|reflexivity].
  - intros K u [Tu F]. cbv zeta in F. unfold stays. cbn [claims_of up guests]. destruct K; try contradiction.
    + destruct (in_or_not u (family w (tag p))) as [I|N]; [left; exact I|right; split; [reflexivity|]]. intros Hu. exact (Cm u Hu N).
    + destruct F as [(q & m & Hq & Iq & _)|[[_ F] _]]; [destruct (Nw q m Hq Iq)|]. destruct (F p n (in_or_app _ _ _ (or_intror Hp)) Ip).
    + left. reflexivity.
    + destruct F as [_ [(q & m & Hq & Iq & _)|[[_ F] _]]]; [destruct (Nw q m Hq Iq)|]. destruct (F p n (in_or_app _ _ _ (or_intror Hp)) Ip).
Qed.
Lemma claims_writes w L ws rs p n : old w -> In (p, n) ws -> writable w p n -> (forall q m, In (q, m) ws -> (q, m) = (p, n) \/ apart p n q m) ->
  writes (claims_of w L ws rs) p n.
Proof.
  intros [O Oh] Hp [T R] A. split; [exact T|]. intros k Hk. split; [exact T|].
  assert (Ip : inside (alloc (to p)) k p n) by (split; [reflexivity|exact Hk]). cbn [claims_of up guests]. split; [|split].
  - intros u Hu. exists Mutable. split; [|exact I]. pose proof (O _ T) as F. rewrite Forall_forall in F. split; [exact (F u Hu)|]. left. exists p, n. auto.
  - intros u Hu N. exists Quiet. split; [|exact I]. rewrite Forall_forall in Oh. split; [exact (Oh u Hu)|]. split; [exact Hu|]. left. exists p, n. auto.
  - intros K u [Tu F]. cbv zeta in F. unfold stays. cbn [claims_of up guests]. destruct K; try contradiction.
    + destruct F as [[_ F] _]. destruct (F p n Hp Ip).
    + destruct F as [(q & m & Hq & Iq & Hu)|[[_ F] _]]; [|destruct (F p n (in_or_app _ _ _ (or_introl Hp)) Ip)].
      destruct (A q m Hq) as [E|X]; [injection E as -> ->; exact Hu|]. destruct (apart_inside _ _ _ _ _ _ X Ip Iq).
    + destruct F as (_ & [_ F] & _). destruct (F p n Hp Ip).
    + destruct F as [_ [(q & m & Hq & Iq & Hu)|[[_ F] _]]]; [|destruct (F p n (in_or_app _ _ _ (or_introl Hp)) Ip)].
      destruct (A q m Hq) as [E|X]; [injection E as -> ->; exact Hu|]. destruct (apart_inside _ _ _ _ _ _ X Ip Iq).
Qed.
Lemma claims_spare w (L : nat -> Prop) ws rs w' : old w -> (forall a, a < length (mem w) -> L a) -> (forall q m, In (q, m) ws -> tag q < next w) ->
  holds (claims_of w L ws rs) w' -> spares w w' ws rs.
Proof.
  intros [O Oh] HL HT (_ & Ln & F & Hd & V). cbn [claims_of known up guests] in *. rewrite Forall_forall in Oh.
  assert (Of : forall t u, t < next w -> In u (family w t) -> u < next w) by (intros t u Ht Hu; pose proof (O t Ht) as G; rewrite Forall_forall in G; exact (G u Hu)).
  split; [exact Hd|]. split; [|split].
  - intros p n Hl [T R] A. split; [lia|]. rewrite (F _ T), Hd. intros k Hk. destruct (R k Hk) as [R1 R2].
    assert (Nw : forall q m, In (q, m) ws -> ~ inside (alloc (to p)) k q m) by (intros q m Hq Iq; exact (apart_inside _ _ _ _ _ _ (A q m Hq) (conj eq_refl Hk) Iq)).
    split; intros u Hu.
    + apply (V Visible u). split; [exact (Of _ _ T Hu)|]. split; [split; [apply HL; exact Hl|exact Nw]|exact (R1 u Hu)].
    + intros N. apply (V Calm u). split; [exact (Oh u Hu)|]. split; [exact Hu|]. split; [split; [apply HL; exact Hl|exact Nw]|exact (R2 u Hu N)].
  - intros p n Hl [T R] A. split; [lia|]. rewrite (F _ T), Hd. intros k Hk. destruct (R k Hk) as [R1 R2].
    assert (Nw : forall q m, In (q, m) (ws ++ rs) -> ~ inside (alloc (to p)) k q m) by (intros q m Hq Iq; exact (apart_inside _ _ _ _ _ _ (A q m Hq) (conj eq_refl Hk) Iq)).
    split; intros u Hu.
    + apply (V Mutable u). split; [exact (Of _ _ T Hu)|]. right. split; [split; [apply HL; exact Hl|exact Nw]|exact (R1 u Hu)].
    + intros N. apply (V Quiet u). split; [exact (Oh u Hu)|]. split; [exact Hu|]. right. split; [split; [apply HL; exact Hl|exact Nw]|exact (R2 u Hu N)].
  - intros q m Hq. pose proof (HT q m Hq) as T. split; [lia|]. rewrite (F _ T), Hd. intros k Hk. split; intros u Hu.
    + apply (V Mutable u). split; [exact (Of _ _ T Hu)|]. left. exists q, m. split; [exact Hq|]. split; [split; [reflexivity|exact Hk]|exact Hu].
    + intros N. apply (V Quiet u). split; [exact (Oh u Hu)|]. split; [exact Hu|]. left. exists q, m. split; [exact Hq|]. split; [split; [reflexivity|exact Hk]|exact N].
Qed.
Definition everything (_ : nat) : Prop := True.
Lemma respects_run {A} w ws rs (x : bcode A) x0 b m : old w -> (forall q n, In (q, n) ws -> writable w q n) ->
  respects (claims_of w everything ws rs) x x0 -> x0 (mem w) = Ok (b, m) ->
  exists w', x w = Ok (b, w') /\ mem w' = m /\ old w' /\ spares w w' ws rs.
Proof.
  intros O W H R. destruct (H w b m (holds_claims_of w everything ws rs O W) R) as (w' & X & M & K). exists w'. split; [exact X|]. split; [exact M|].
  split; [apply K|]. apply (claims_spare w everything); [exact O|intros; exact I| |exact K]. intros q n Hq. apply (W q n Hq).
Qed.

(** ** The routines *)
Theorem compress_trees w iv h msg count lastblock lastnode m : old w -> readable w iv 32 -> writable w h 32 -> readable w msg 64 -> apart iv 32 h 32 -> apart msg 64 h 32 ->
  compress Allocation (to iv) (to h) (to msg) count lastblock lastnode (mem w) = Ok (tt, m) ->
  exists w', compress_tb iv h msg count lastblock lastnode w = Ok (tt, w') /\ mem w' = m /\ old w' /\ spares w w' [(h, 32)] [(iv, 32); (msg, 64)].
Proof.
  intros O Ri Wh Rm Ai Am R. refine (respects_run w [(h, 32)] [(iv, 32); (msg, 64)] _ _ tt m O _ _ R).
  - intros q n [E|[]]. injection E as <- <-. exact Wh.
  - assert (K : forall p n, In (p, n) [(iv, 32); (msg, 64)] -> readable w p n -> apart p n h 32 -> reads (claims_of w everything [(h, 32)] [(iv, 32); (msg, 64)]) p n).
    { intros p n Hp Rp Ap. apply claims_reads; [exact O|exact Hp|exact I|exact Rp|]. intros q k [E|[]]. injection E as <- <-. exact Ap. }
    apply respects_compress.
    + apply K; [left; reflexivity|exact Ri|exact Ai].
    + apply claims_writes; [exact O|left; reflexivity|exact Wh|]. intros q k [E|[]]. left. symmetry. exact E.
    + apply K; [right; left; reflexivity|exact Rm|exact Am].
Qed.
Theorem vectorize_words8_trees w p m : old w -> writable w p 256 -> vectorize_words8 Allocation (to p) (mem w) = Ok (tt, m) ->
  exists w', vectorize_words8_tb p w = Ok (tt, w') /\ mem w' = m /\ old w' /\ spares w w' [(p, 256)] [].
Proof.
  intros O W R. refine (respects_run w [(p, 256)] [] _ _ tt m O _ _ R).
  - intros q n [E|[]]. injection E as <- <-. exact W.
  - apply respects_vectorize_words8. apply claims_writes; [exact O|left; reflexivity|exact W|]. intros q k [E|[]]. left. symmetry. exact E.
Qed.
Lemma lane8_dec (l l' : lane8) : {l = l'} + {l <> l'}.
Proof. decide equality. Qed.
Lemma in_each n ps q m : In (q, m) (each n ps) <-> m = n /\ exists l, q = proj l ps.
Proof.
  destruct ps as [p0 p1 p2 p3 p4 p5 p6 p7]. unfold each, oct_list. cbn [o0 o1 o2 o3 o4 o5 o6 o7 map In]. split.
  - intros [E|[E|[E|[E|[E|[E|[E|[E|[]]]]]]]]]; injection E as <- <-; (split; [reflexivity|]);
      [exists L0|exists L1|exists L2|exists L3|exists L4|exists L5|exists L6|exists L7]; reflexivity.
  - intros [-> (l & ->)]. destruct l; cbn [proj]; tauto.
Qed.
Theorem compress8_vectorized_trees w p msg cl ch lb ln m : old w -> writable w p 256 -> (forall l, readable w (proj l msg) 64 /\ apart (proj l msg) 64 p 256) ->
  (forall q, In q [cl; ch; lb; ln] -> readable w q 32 /\ apart q 32 p 256) ->
  compress8_vectorized Allocation (to p) (oct_map to msg) (to cl) (to ch) (to lb) (to ln) (mem w) = Ok (tt, m) ->
  exists w', compress8_vectorized_tb p msg cl ch lb ln w = Ok (tt, w') /\ mem w' = m /\ old w' /\
    spares w w' [(p, 256)] (each 64 msg ++ map (fun q => (q, 32)) [cl; ch; lb; ln]).
Proof.
  intros O W Fm Fw R. set (rs := each 64 msg ++ map (fun q => (q, 32)) [cl; ch; lb; ln]). refine (respects_run w [(p, 256)] rs _ _ tt m O _ _ R).
  - intros q n [E|[]]. injection E as <- <-. exact W.
  - assert (K : forall q n, In (q, n) rs -> readable w q n -> apart q n p 256 -> reads (claims_of w everything [(p, 256)] rs) q n).
    { intros q n Hq Rq Aq. apply claims_reads; [exact O|exact Hq|exact I|exact Rq|]. intros q' k [E|[]]. injection E as <- <-. exact Aq. }
    apply respects_compress8_vectorized.
    + apply claims_writes; [exact O|left; reflexivity|exact W|]. intros q k [E|[]]. left. symmetry. exact E.
    + apply octall_proj. intros l. destruct (Fm l) as [Rl Al]. split; [|exact Al]. apply K; [|exact Rl|exact Al]. apply in_or_app. left. apply in_each.
      split; [reflexivity|]. exists l. reflexivity.
    + intros q Hq. destruct (Fw q Hq) as [Rq Aq]. split; [|exact Aq]. apply K; [|exact Rq|exact Aq]. apply in_or_app. right. exact (in_map (fun q => (q, 32)) _ _ Hq).
Qed.
Theorem compress8_trees w h msg count lastblock lastnode m : old w -> (forall l, writable w (proj l h) 32) -> (forall l l', l <> l' -> apart (proj l h) 32 (proj l' h) 32) ->
  (forall l, readable w (proj l msg) 64) -> (forall l l', apart (proj l msg) 64 (proj l' h) 32) ->
  compress8 Allocation (oct_map to h) (oct_map to msg) count lastblock lastnode (mem w) = Ok (tt, m) ->
  exists w', compress8_tb h msg count lastblock lastnode w = Ok (tt, w') /\ mem w' = m /\ old w' /\ spares w w' (each 32 h) (each 64 msg).
Proof.
  intros O W X F A R. refine (respects_run w (each 32 h) (each 64 msg) _ _ tt m O _ _ R).
  - intros q n Hq. apply in_each in Hq as [-> (l & ->)]. apply W.
  - apply respects_compress8; apply octall_proj; intros l.
    + apply claims_writes; [exact O|apply in_each; split; [reflexivity|exists l; reflexivity]|apply W|].
      intros q n Hq. apply in_each in Hq as [-> (l' & ->)]. destruct (lane8_dec l l') as [->|N]; [left; reflexivity|right; apply X; exact N].
    + apply claims_reads; [exact O|apply in_each; split; [reflexivity|exists l; reflexivity]|exact I|apply F|].
      intros q n Hq. apply in_each in Hq as [-> (l' & ->)]. apply A.
Qed.
Theorem hash8_exact_trees w params input n hs m q : old w -> (forall l, readable w (proj l input) (64 * S q)) -> n = oct_const (64 * S q) ->
  hash8_exact Allocation params (oct_map to input) (64 * S q) (mem w) = Ok (hs, m) ->
  exists w', hash8_exact_tb params input n w = Ok (hs, w') /\ mem w' = m /\ old w' /\ spares w w' [] (each (64 * S q) input).
Proof.
  intros O F -> R. refine (respects_run w [] (each (64 * S q) input) _ _ hs m O _ _ R); [intros p k []|].
  unfold hash8_exact_tb, hash8_exact. cbv zeta. unfold oct_const at 1 3. cbn [o0].
  apply (respects_hash8_loop params input (oct_const (64 * S q)) (64 * S q) _ _ _ 0 q); [|lia].
  assert (K : forall l, reads (claims_of w everything [] (each (64 * S q) input)) (proj l input) (64 * S q)).
  { intros l. apply claims_reads; [exact O|apply in_each; split; [reflexivity|exists l; reflexivity]|exact I|apply F|]. intros p k []. }
  destruct input as [i0 i1 i2 i3 i4 i5 i6 i7]. unfold oct_const, octall. cbn [oct_map2 fst snd o0 o1 o2 o3 o4 o5 o6 o7].
  pose proof (fun l => conj (K l) (le_n (64 * S q))) as Z.
  exact (conj (Z L0) (conj (Z L1) (conj (Z L2) (conj (Z L3) (conj (Z L4) (conj (Z L5) (conj (Z L6) (Z L7)))))))).
Qed.

(** ** sse41.rs, [hash4_exact] *)
Lemma respects_loadu_4 C p : reads C p 64 -> respects C (loadu_4_tb p) (loadu_4 Allocation (to p)).
Proof.
  intros F. unfold loadu_4_tb, loadu_4.
  assert (K : forall i, i <= 3 -> respects C (loadu_tb (mk_bpointer (shift (to p) (i * size_of M128)) (tag p))) (_mm_loadu Allocation (shift (to p) (i * size_of M128)))).
  { intros i Hi. apply (respects_loadu C (mk_bpointer (shift (to p) (i * size_of M128)) (tag p))).
    apply (reads_part _ _ _ _ _ F); cbn [to tag alloc offset shift size_of]; try reflexivity; lia. }
  apply follows_ptr_add, respects_bind; [apply K; lia|]. intros a0.
  apply follows_ptr_add, respects_bind; [apply K; lia|]. intros a1.
  apply follows_ptr_add, respects_bind; [apply K; lia|]. intros a2.
  apply follows_ptr_add, respects_bind; [apply K; lia|]. intros a3. apply respects_give.
Qed.
Lemma respects_load_block C p : reads C p 64 -> respects C (load_block_tb p) (loadu_4 Allocation (to p)).
Proof.
  intros F. unfold load_block_tb. apply respects_as_ptr; [exact F|]. intros C' t _ F'. exact (respects_loadu_4 C' (mk_bpointer (to p) t) F').
Qed.
(** Four [&]s passed *)
Lemma respects_pass4 {A} C p0 p1 p2 p3 (f : bpointer -> bpointer -> bpointer -> bpointer -> bcode A) x0 :
  reads C p0 64 -> reads C p1 64 -> reads C p2 64 -> reads C p3 64 ->
  (forall D r0 r1 r2 r3, to r0 = to p0 -> to r1 = to p1 -> to r2 = to p2 -> to r3 = to p3 ->
     reads D r0 64 -> reads D r1 64 -> reads D r2 64 -> reads D r3 64 -> respects D (f r0 r1 r2 r3) x0) ->
  respects C (r0 <== pass_tb p0 64 ;; r1 <== pass_tb p1 64 ;; r2 <== pass_tb p2 64 ;; r3 <== pass_tb p3 64 ;;
              protecting [r0; r1; r2; r3] (f r0 r1 r2 r3)) x0.
Proof.
  intros F0 F1 F2 F3 K.
  apply follows_pass; [exact F0|]; intros C1 u0 X1 P0.
  apply follows_pass; [exact (shares_reads _ _ _ _ X1 F1)|]; intros C2 u1 X2 P1; pose proof (shares_trans _ _ _ X1 X2) as Y2.
  apply follows_pass; [exact (shares_reads _ _ _ _ Y2 F2)|]; intros C3 u2 X3 P2; pose proof (shares_trans _ _ _ Y2 X3) as Y3.
  apply follows_pass; [exact (shares_reads _ _ _ _ Y3 F3)|]; intros C4 u3 X4 P3; pose proof (shares_trans _ _ _ Y3 X4) as Y4.
  apply (follows_weaken _ (holds C4) _ (holds C4)); [auto|apply Y4|].
  pose proof (shares_guest _ _ _ _ X4 P2) as Q2. pose proof (shares_trans _ _ _ X3 X4) as Z2.
  pose proof (shares_guest _ _ _ _ Z2 P1) as Q1. pose proof (shares_trans _ _ _ X2 Z2) as Z1.
  pose proof (shares_guest _ _ _ _ Z1 P0) as Q0.
  match goal with |- follows _ _ (protecting ?ps _) _ => assert (Gs : forall q, In q ps -> guest_at C4 q 64) by (cbn [In]; intros q Hq; intuition (subst; assumption)); apply (respects_guests C4 ps 64); [exact Gs|] end.
  apply K; try reflexivity; apply (hosting_reads C4 _ 64 _ 64 Gs), guest_reads; assumption.
Qed.
Lemma respects_compress4 C h p0 p1 p2 p3 cl ch lb ln : reads C p0 64 -> reads C p1 64 -> reads C p2 64 -> reads C p3 64 ->
  respects C (compress4_transposed_tb h p0 p1 p2 p3 cl ch lb ln) (compress4_transposed Allocation h (to p0) (to p1) (to p2) (to p3) cl ch lb ln).
Proof.
  intros F0 F1 F2 F3. unfold compress4_transposed_tb, compress4_transposed. change BLOCKBYTES with 64.
  apply respects_pass4; try assumption. intros D r0 r1 r2 r3 E0 E1 E2 E3 R0 R1 R2 R3. rewrite <- E0, <- E1, <- E2, <- E3. clear - R0 R1 R2 R3.
  apply respects_bind; [|intros v; apply respects_give].
  unfold transpose_message_blocks_tb, transpose_message_blocks. change BLOCKBYTES with 64.
  apply respects_pass4; try assumption. intros D' s0 s1 s2 s3 E0 E1 E2 E3 S0 S1 S2 S3. rewrite <- E0, <- E1, <- E2, <- E3.
  apply respects_bind; [apply respects_load_block; assumption|]. intros [a0 a1 a2 a3].
  apply respects_bind; [apply respects_load_block; assumption|]. intros [b0 b1 b2 b3].
  apply respects_bind; [apply respects_load_block; assumption|]. intros [c0 c1 c2 c3].
  apply respects_bind; [apply respects_load_block; assumption|]. intros [d0 d1 d2 d3].
  cbv zeta. apply respects_give.
Qed.
(** One round of the loop; [BorrowExact.step_m] is the same on memory. *)
Definition step_tb (params : Params) (input : quad bpointer) (n : quad nat) (len : nat) (h : oct m128) (count : nat) : bcode (oct m128) :=
  msg0 <== block_at_tb (q0 input) (q0 n) count ;;
  msg1 <== block_at_tb (q1 input) (q1 n) count ;;
  msg2 <== block_at_tb (q2 input) (q2 n) count ;;
  msg3 <== block_at_tb (q3 input) (q3 n) count ;;
  compress4_transposed_tb h msg0 msg1 msg2 msg3 (Sse41.set1 (of_N 32 (N.of_nat (count + BLOCKBYTES))))
    (Sse41.set1 (cast 32 (ushr (of_N 64 (N.of_nat (count + BLOCKBYTES))) 32)))
    (Sse41.set1 (if Nat.eqb (count + BLOCKBYTES) len then umax 32 else uzero 32))
    (Sse41.set1 (if p_last_node params && Nat.eqb (count + BLOCKBYTES) len then umax 32 else uzero 32)).
Lemma step_loop_tb fuel places params input n len h count w :
  hash4_exact_loop_tb (S fuel) places params input n len h count w =
  andthen_tb (step_tb params input n len h count) (fun h => if Nat.eqb (count + BLOCKBYTES) len
     then body_tb (export_hashes_tb places h (p_hash_length params))
     else hash4_exact_loop_tb fuel places params input n len h (count + BLOCKBYTES)) w.
Proof.
  cbn [hash4_exact_loop_tb]. cbv zeta. unfold step_tb, andthen_tb.
  destruct (block_at_tb (q0 input) (q0 n) count w) as [[p0 w0]| | |]; try reflexivity. cbn [bind].
  destruct (block_at_tb (q1 input) (q1 n) count w0) as [[p1 w1]| | |]; try reflexivity. cbn [bind].
  destruct (block_at_tb (q2 input) (q2 n) count w1) as [[p2 w2]| | |]; try reflexivity. cbn [bind].
  destruct (block_at_tb (q3 input) (q3 n) count w2) as [[p3 w3]| | |]; reflexivity.
Qed.
Lemma respects_step C params input n len h count : (forall l, reads C (qproj l input) (qproj l n) /\ count + 64 <= qproj l n) ->
  respects C (step_tb params input n len h count) (BorrowExact.step_m params (to (q0 input)) (to (q1 input)) (to (q2 input)) (to (q3 input)) len h count).
Proof.
  intros F. destruct (F M0) as [F0 L0], (F M1) as [F1 L1], (F M2) as [F2 L2], (F M3) as [F3 L3]. cbn [qproj] in *. clear F. unfold step_tb, BorrowExact.step_m.
  apply follows_block_at; [exact F0|lia|]; intros C1 u1 X1 P0.
  apply follows_block_at; [exact (shares_reads _ _ _ _ X1 F1)|lia|]; intros C2 u2 X2 P1; pose proof (shares_trans _ _ _ X1 X2) as Y2.
  apply follows_block_at; [exact (shares_reads _ _ _ _ Y2 F2)|lia|]; intros C3 u3 X3 P2; pose proof (shares_trans _ _ _ Y2 X3) as Y3.
  apply follows_block_at; [exact (shares_reads _ _ _ _ Y3 F3)|lia|]; intros C4 u4 X4 P3; pose proof (shares_trans _ _ _ Y3 X4) as Y4.
  apply (follows_weaken _ (holds C4) _ (holds C4)); [auto|apply Y4|].
  match goal with |- follows _ _ (compress4_transposed_tb ?h ?a ?b ?c ?d ?e ?f ?g ?i) _ => apply (respects_compress4 C4 h a b c d e f g i) end.
  - exact (shares_reads _ _ _ _ (shares_trans _ _ _ X2 (shares_trans _ _ _ X3 X4)) P0).
  - exact (shares_reads _ _ _ _ (shares_trans _ _ _ X3 X4) P1).
  - exact (shares_reads _ _ _ _ X4 P2).
  - exact P3.
Qed.
(** A [&mut] to one byte, used for sixteen *)
Lemma respects_store_bytes C bs i x : writes C bs 32 -> i <= 16 ->
  respects C (store_bytes_tb bs i x) (p <-- element Allocation true U8 (to bs) i ;; storeu Allocation p x).
Proof.
  intros W Hi. unfold store_bytes_tb. apply follows_lift. intros m q m' E. apply element_result in E as [-> ->].
  split; [reflexivity|]. set (q := narrow (shift (to bs) (i * size_of U8)) (size_of U8) true).
  apply (follows_lend C (holds C) (mk_bpointer q (tag bs)) 1 16).
  { apply writes_reads in W. apply (reads_part _ _ _ _ _ W); cbn [to tag alloc offset narrow shift size_of q]; try reflexivity; lia. }
  intros C1 C2 t Sh H12 Ln. cbn [to]. apply (follows_weaken _ (holds C2) _ (holds C2)); [exact H12|apply Ln|].
  apply (respects_write C2 (mk_bpointer q t)). rewrite m128_bytes_length. destruct Ln as (_ & _ & T & _ & G). split; [exact T|].
  intros k Hk. apply (G k Hk). apply W. cbn [to tag alloc offset narrow shift size_of q] in *. lia.
Qed.

(** Nothing is claimed about allocations that are not there. *)
Definition bounded (C : claims) (l : nat) : Prop := forall K u a k, fact C K u a k -> a < l.
(** Nothing protected is used in the allocation [a]. *)
Definition vacant (C : claims) (a : nat) : Prop := forall u k, In u (guests C) -> fact C Idle u a k.
Lemma local_run C w a bs : holds C w -> bounded C (length (mem w)) ->
  exists p w' C', local_tb a bs w = Ok (p, w') /\ local a bs (mem w) = Ok (to p, mem w') /\ holds C' w' /\ bounded C' (length (mem w')) /\
  length (mem w') = S (length (mem w)) /\ alloc (to p) = length (mem w) /\ (forall v, holds C' v -> holds C v) /\ writes C' p (length bs) /\
  (forall q n, alloc (to q) < length (mem w) -> writes C q n -> writes C' q n) /\ vacant C' (length (mem w)) /\ (forall b, vacant C b -> vacant C' b).
Proof.
  intros h B. pose proof h as ((O & Oh) & L & F & Hd & V). set (t := next w) in *. set (fam := fun u => if Nat.eqb u t then [t] else family w u).
  assert (Fu : forall u, u < t -> fam u = family w u) by (intros u Hu; unfold fam; destruct (Nat.eqb_spec u t); [lia|reflexivity]).
  assert (Fk : forall u, u < known C -> fam u = up C u) by (intros u Hu; rewrite Fu by (unfold t; lia); apply F; exact Hu).
  assert (Gt : forall u, In u (guests C) -> u < t) by (intros u Hu; rewrite <- Hd in Hu; rewrite Forall_forall in Oh; exact (Oh u Hu)).
  set (G := fun K u b (_ : nat) => b = length (mem w) /\ match K with Strict => u = t | Idle => In u (guests C) | _ => False end).
  set (C' := adding C fam t G). eexists _, _, C'. split; [reflexivity|]. split; [reflexivity|]. cbn [mem to alloc].
  assert (Len : length (mem w ++ [mk_object a bs]) = S (length (mem w))) by (rewrite app_length; cbn; lia). rewrite Len.
  split; [|split; [|split; [reflexivity|split; [reflexivity|split; [|split; [|split; [|split]]]]]]].
  - change (next w) with t. fold fam. apply (holds_adding C w (mem w) fam (perms w)).
    + destruct w; exact h.
    + reflexivity.
    + exact Fu.
    + unfold fam. rewrite Nat.eqb_refl. repeat constructor.
    + intros K b k u Fc Hu. destruct (Nat.eqb_spec u t); [lia|]. apply B in Fc. destruct (Nat.eqb_spec b (length (mem w))); [lia|reflexivity].
    + intros K u b k [-> g]. rewrite Nat.eqb_refl. destruct K; try contradiction.
      * subst u. split; [apply le_n|]. rewrite Nat.eqb_refl. right. reflexivity.
      * pose proof (Gt u g). split; [lia|]. destruct (Nat.eqb_spec u t); [lia|]. reflexivity.
  - intros K u b k [H|[-> _]]; [|lia]. apply B in H. lia.
  - apply (adding_holds C w); [exact h|exact L|exact Fk].
  - split; [cbn [tag C' adding known]; unfold t; lia|]. cbn [to tag offset alloc]. change (next w) with t. intros k _. split; [cbn [C' adding known]; lia|].
    assert (Ft : up C' t = [t]) by (cbn [C' adding up]; unfold fam; rewrite Nat.eqb_refl; reflexivity). rewrite Ft. split; [|split].
    + intros u [<-|[]]. exists Strict. split; [right; split; reflexivity|exact I].
    + intros u Hu _. exists Idle. split; [right; split; [reflexivity|exact Hu]|exact I].
    + intros K u [H|[_ H]]; [apply B in H; lia|]. unfold stays. rewrite Ft. destruct K; try contradiction.
      * left. symmetry. exact H.
      * intros [E|[]]. apply Gt in H. lia.
  - intros q n Hq [T W]. split; [cbn [C' adding known]; unfold t; lia|]. intros k Hk. apply adding_can; [apply W; exact Hk|exact L|exact Fk|].
    intros K v [E _]. lia.
  - intros u k Hu. right. split; [reflexivity|exact Hu].
  - intros b H u k Hu. left. exact (H u k Hu).
Qed.
Lemma export_hashes_run C w places h len hs m : holds C w -> bounded C (length (mem w)) -> body (export_hashes Allocation places h len) (mem w) = Ok (hs, m) ->
  exists w', body_tb (export_hashes_tb places h len) w = Ok (hs, w') /\ mem w' = m /\ holds C w'.
Proof.
  intros H B R. unfold body in R. destruct (export_hashes Allocation places h len (mem w)) as [[hs' m']| | |] eqn:E; try discriminate. cbn [bind] in R.
  injection R as <- <-.
  destruct (local_run C w (q0 places) (repeat x00 OUTBYTES) H B) as (p0 & w0 & C0 & T0 & M0 & H0 & B0 & L0 & A0 & V0 & X0 & K0 & N0 & U0).
  destruct (local_run C0 w0 (q1 places) (repeat x00 OUTBYTES) H0 B0) as (p1 & w1 & C1 & T1 & M1 & H1 & B1 & L1 & A1 & V1 & X1 & K1 & N1 & U1).
  destruct (local_run C1 w1 (q2 places) (repeat x00 OUTBYTES) H1 B1) as (p2 & w2 & C2 & T2 & M2 & H2 & B2 & L2 & A2 & V2 & X2 & K2 & N2 & U2).
  destruct (local_run C2 w2 (q3 places) (repeat x00 OUTBYTES) H2 B2) as (p3 & w3 & C3 & T3 & M3 & H3 & B3 & L3 & A3 & V3 & X3 & K3 & N3 & U3).
  rewrite repeat_length in X0, X1, X2, X3. change OUTBYTES with 32 in X0, X1, X2, X3.
  assert (Y0 : writes C3 p0 32) by (apply K3; [lia|]; apply K2; [lia|]; apply K1; [lia|exact X0]).
  assert (Y1 : writes C3 p1 32) by (apply K3; [lia|]; apply K2; [lia|exact X1]).
  assert (Y2 : writes C3 p2 32) by (apply K3; [lia|exact X2]).
  assert (Y3 : writes C3 p3 32) by exact X3.
  unfold export_hashes in E. unfold andthen at 1 in E. rewrite M0 in E. cbn [bind] in E. unfold andthen at 1 in E. rewrite M1 in E. cbn [bind] in E.
  unfold andthen at 1 in E. rewrite M2 in E. cbn [bind] in E. unfold andthen at 1 in E. rewrite M3 in E. cbn [bind] in E. cbv zeta in E.
  unfold body_tb, export_hashes_tb. unfold andthen_tb at 1. rewrite T0. cbn [bind]. unfold andthen_tb at 1. rewrite T1. cbn [bind].
  unfold andthen_tb at 1. rewrite T2. cbn [bind]. unfold andthen_tb at 1. rewrite T3. cbn [bind]. cbv zeta.
  match type of E with ?x0 (mem w3) = _ => match goal with |- exists w', bind (?x w3) _ = _ /\ _ => assert (F : respects C3 x x0) end end.
  - pose proof (fun i x => respects_store_bytes C3 p0 i x Y0) as Z0. pose proof (fun i x => respects_store_bytes C3 p1 i x Y1) as Z1.
    pose proof (fun i x => respects_store_bytes C3 p2 i x Y2) as Z2. pose proof (fun i x => respects_store_bytes C3 p3 i x Y3) as Z3.
    do 8 (apply follows_assoc, respects_bind; [first [apply Z0; lia|apply Z1; lia|apply Z2; lia|apply Z3; lia]|]; intros _).
    apply respects_bind; [apply respects_read, writes_reads; assumption|]. intros b0.
    apply respects_bind; [apply respects_read, writes_reads; assumption|]. intros b1.
    apply respects_bind; [apply respects_read, writes_reads; assumption|]. intros b2.
    apply respects_bind; [apply respects_read, writes_reads; assumption|]. intros b3. apply respects_give.
  - assert (Lm : length m' = length (mem w3)).
    { match type of E with ?x0 (mem w3) = _ => assert (Z : BorrowExact.sized x0) end.
      - do 8 (apply BorrowExact.sized_bind; [apply BorrowExact.sized_element|]; intros ?; apply BorrowExact.sized_bind; [apply BorrowExact.sized_storeu|]; intros _).
        do 4 (apply BorrowExact.sized_bind; [apply BorrowExact.sized_read|]; intros ?). apply BorrowExact.sized_quiet, BorrowExact.quiet_give.
      - exact (Z _ _ _ E). }
    destruct (F w3 hs' m' H3 E) as (v & -> & <- & Hv). cbn [bind].
    assert (Va : forall b, length (mem w) <= b < length (mem w3) -> vacant C3 b).
    { intros b Hb. assert (D : b = length (mem w2) \/ b = length (mem w1) \/ b = length (mem w0) \/ b = length (mem w)) by lia.
      destruct D as [->|[->|[->| ->]]]; auto. }
    pose proof Hv as (_ & _ & _ & Hd & Vf).
    match goal with |- context [if ?c then _ else _] => assert (c = true) as -> end.
    { apply forallb_forall. intros b Hb. apply in_seq in Hb. apply forallb_forall. intros k _. apply forallb_forall. intros u Hu. rewrite Hd in Hu.
      destruct (Vf Idle u b k) as [_ i]; [apply Va; [lia|exact Hu]|]. cbn in i. rewrite i. reflexivity. }
    eexists. split; [reflexivity|]. cbn [mem]. split; [reflexivity|].
    apply V3, V2, V1, V0 in Hv. exact Hv.
Qed.
Lemma hash4_loop_run C places params input n len fuel : forall w h count q hs m, holds C w -> bounded C (length (mem w)) ->
  (forall l, reads C (qproj l input) (qproj l n) /\ len <= qproj l n) -> len = count + 64 * S q ->
  hash4_exact_loop fuel Allocation places params (to (q0 input)) (to (q1 input)) (to (q2 input)) (to (q3 input)) len h count (mem w) = Ok (hs, m) ->
  exists w', hash4_exact_loop_tb fuel places params input n len h count w = Ok (hs, w') /\ mem w' = m /\ holds C w'.
Proof.
  induction fuel as [|fuel IH]; intros w h count q hs m H B F L R; [discriminate R|].
  rewrite BorrowExact.step_loop_m in R. unfold andthen in R.
  destruct (BorrowExact.step_m params (to (q0 input)) (to (q1 input)) (to (q2 input)) (to (q3 input)) len h count (mem w)) as [[h' m']| | |] eqn:E; try discriminate.
  cbn [bind] in R. pose proof (BorrowExact.quiet_step _ _ _ _ _ _ _ _ _ _ _ E) as ->.
  assert (F' : forall l, reads C (qproj l input) (qproj l n) /\ count + 64 <= qproj l n) by (intros l; destruct (F l); split; [assumption|lia]).
  destruct (respects_step C params input n len h count F' w h' (mem w) H E) as (w1 & X & M1 & H1).
  rewrite step_loop_tb. unfold andthen_tb. rewrite X. cbn [bind]. rewrite <- M1 in R, B.
  destruct (Nat.eqb_spec (count + BLOCKBYTES) len) as [El|El].
  - exact (export_hashes_run C w1 places h' (p_hash_length params) hs m H1 B R).
  - destruct q as [|q]; [change BLOCKBYTES with 64 in El; lia|].
    apply (IH w1 h' (count + BLOCKBYTES) q hs m H1 B F); [change BLOCKBYTES with 64; lia|exact R].
Qed.
(** The inputs are there. *)
Lemma block_at_live p count m q m' : block_at Allocation p count m = Ok (q, m') -> alloc p < length m.
Proof.
  intros E. unfold block_at, andthen in E. destruct (ptr_add U8 p count m) as [[q1 m1]| | |] eqn:X; try discriminate. clear E.
  unfold ptr_add, andthen, check in X. destruct (within Allocation m _ 0) eqn:W; [|discriminate]. apply within_fits in W as (o & N & _).
  cbn [alloc] in N. apply nth_error_Some. rewrite N. discriminate.
Qed.
Lemma loop_live fuel places params i0 i1 i2 i3 len h count m hs m' : hash4_exact_loop fuel Allocation places params i0 i1 i2 i3 len h count m = Ok (hs, m') ->
  alloc i0 < length m /\ alloc i1 < length m /\ alloc i2 < length m /\ alloc i3 < length m.
Proof.
  intros R. destruct fuel as [|fuel]; [discriminate R|]. cbn [hash4_exact_loop] in R.
  unfold andthen in R. destruct (block_at Allocation i0 count m) as [[p0 m0]| | |] eqn:E0; try discriminate. cbn [bind] in R.
  pose proof (BorrowExact.quiet_block_at _ _ _ _ _ E0) as ->. apply block_at_live in E0.
  destruct (block_at Allocation i1 count m) as [[p1 m1]| | |] eqn:E1; try discriminate. cbn [bind] in R.
  pose proof (BorrowExact.quiet_block_at _ _ _ _ _ E1) as ->. apply block_at_live in E1.
  destruct (block_at Allocation i2 count m) as [[p2 m2]| | |] eqn:E2; try discriminate. cbn [bind] in R.
  pose proof (BorrowExact.quiet_block_at _ _ _ _ _ E2) as ->. apply block_at_live in E2.
  destruct (block_at Allocation i3 count m) as [[p3 m3]| | |] eqn:E3; try discriminate. cbn [bind] in R.
  apply block_at_live in E3. auto.
Qed.
Theorem hash4_exact_trees w places params input n hs m q : old w -> (forall l, readable w (qproj l input) (64 * S q)) -> (forall l, qproj l n = 64 * S q) ->
  hash4_exact Allocation places params (to (q0 input)) (to (q1 input)) (to (q2 input)) (to (q3 input)) (64 * S q) (mem w) = Ok (hs, m) ->
  exists w', hash4_exact_tb places params input n w = Ok (hs, w') /\ mem w' = m /\ old w' /\ spares w w' [] (each4 (64 * S q) input).
Proof.
  intros O F N R. set (L := fun a => a < length (mem w)). set (rs := each4 (64 * S q) input). set (C := claims_of w L [] rs).
  assert (H : holds C w) by (apply holds_claims_of; [exact O|intros p k []]).
  assert (B : bounded C (length (mem w))).
  { intros K u a k [_ X]. cbv zeta in X. destruct K; try contradiction.
    - apply X.
    - destruct X as [(p & j & [] & _)|X]; apply X.
    - apply X.
    - destruct X as [_ [(p & j & [] & _)|X]]; apply X. }
  pose proof (N M0) as N0. cbn [qproj] in N0. unfold hash4_exact_tb. rewrite N0. unfold hash4_exact in R. cbv zeta in *.
  pose proof (loop_live _ _ _ _ _ _ _ _ _ _ _ _ _ R) as (V0 & V1 & V2 & V3).
  assert (K : forall l, reads C (qproj l input) (qproj l n) /\ 64 * S q <= qproj l n).
  { intros l. rewrite (N l). split; [|apply le_n]. apply claims_reads; [exact O| | |apply F|intros p k []].
    - destruct l; cbn [qproj]; unfold rs, each4; cbn [map In]; tauto.
    - destruct l; cbn [qproj]; assumption. }
  destruct (hash4_loop_run C places params input n (64 * S q) _ w _ 0 q hs m H B K ltac:(lia) R) as (w' & X & M & H').
  exists w'. split; [exact X|]. split; [exact M|]. split; [apply H'|]. apply (claims_spare w L); [exact O|auto|intros p k []|exact H'].
Qed.

(** ** What the rules forbid *)
Lemma access_some held wr up f g : access held wr up f = Some g ->
  (forall t, In t up -> allowed (member t held) wr (f t) = true) /\ (forall t, In t held -> ~ In t up -> forbids wr (f t) = false) /\ g = stepped held wr up f.
Proof.
  unfold access. destruct (forallb _ up) eqn:G; [|discriminate]. destruct (forallb _ held) eqn:H; [|discriminate]. cbn [andb]. intros E. injection E as <-.
  rewrite forallb_forall in G, H. split; [exact G|]. split; [|reflexivity]. intros t Ht N. specialize (H t Ht). rewrite (not_member _ _ N) in H.
  cbn [orb] in H. destruct (forbids wr (f t)); [discriminate H|reflexivity].
Qed.
Lemma over_some held wr up a i n s s' : over held wr up a i n s = Some s' -> forall k, i <= k < i + n ->
  (forall t, In t up -> allowed (member t held) wr (s a k t) = true) /\ (forall t, In t held -> ~ In t up -> forbids wr (s a k t) = false) /\
  forall t, s' a k t = stepped held wr up (s a k) t.
Proof.
  intros E k Hk. unfold over in E. destruct (forallb _ (seq i n)) eqn:F; [|discriminate]. injection E as <-. rewrite forallb_forall in F.
  specialize (F k ltac:(apply in_seq; lia)). destruct (access held wr up (s a k)) as [g|] eqn:G; [|discriminate].
  apply access_some in G as G'. destruct G' as (G1 & G2 & ->). split; [exact G1|]. split; [exact G2|]. intros t.
  rewrite (proj2 (covers_spec a i n a k) (conj eq_refl Hk)). try rewrite G. reflexivity.
Qed.
Lemma over_one held wr up a k s :
  (forall t, In t up -> allowed (member t held) wr (s a k t) = true) /\ (forall t, In t held -> ~ In t up -> forbids wr (s a k t) = false) <->
  exists s', over held wr up a k 1 s = Some s'.
Proof.
  split.
  - intros [H G]. unfold over. cbn [seq forallb]. rewrite (access_ok held wr up (s a k) H G). eexists. reflexivity.
  - intros (s' & E). destruct (over_some _ _ _ _ _ _ _ _ E k ltac:(lia)) as (G1 & G2 & _). auto.
Qed.
Lemma over_no held wr up a i n s k : i <= k < i + n ->
  (exists t, In t up /\ allowed (member t held) wr (s a k t) = false) \/ (exists t, In t held /\ ~ In t up /\ forbids wr (s a k t) = true) -> over held wr up a i n s = None.
Proof.
  intros Hk H. destruct (over held wr up a i n s) as [s'|] eqn:E; [|reflexivity]. destruct (over_some _ _ _ _ _ _ _ _ E k Hk) as (G1 & G2 & _).
  destruct H as [(t & Ht & A)|(t & Ht & N & A)]; [rewrite (G1 t Ht) in A|rewrite (G2 t Ht N) in A]; discriminate A.
Qed.
Lemma write_invalidates held up a i n s s' : over held true up a i n s = Some s' ->
  forall k held' wr other u, i <= k < i + n -> In u other -> ~ In u up -> over held' wr other a k 1 s' = None.
Proof.
  intros E k held' wr other u Hk Hu N. destruct (over_some _ _ _ _ _ _ _ _ E k Hk) as (_ & _ & G). apply (over_no _ _ _ _ _ _ _ k); [lia|]. left. exists u. split; [exact Hu|].
  rewrite G. unfold stepped. rewrite (not_member _ _ N). reflexivity.
Qed.
Lemma read_invalidates held up a i n s s' : over held false up a i n s = Some s' -> forall k other, i <= k < i + n ->
  (forall u, perm (s a k u) = Active -> used (s a k u) = true) ->
  ((exists s1, over held false other a k 1 s = Some s1) -> exists s1, over held false other a k 1 s' = Some s1) /\
  (forall u, In u other -> ~ In u up -> perm (s a k u) = Active -> over held true other a k 1 s' = None) /\
  ((exists s1, over held true other a k 1 s = Some s1) -> (forall u, In u other -> ~ In u up -> perm (s a k u) = Reserved /\ ~ In u held) ->
     (forall u, In u held -> In u up -> In u other) -> exists s1, over held true other a k 1 s' = Some s1).
Proof.
  intros E k other Hk Au. destruct (over_some _ _ _ _ _ _ _ _ E k Hk) as (P1 & P2 & G). split; [|split].
  - intros H. apply over_one in H as [H1 H2]. apply over_one. split.
    + intros t Ht. rewrite G. specialize (H1 t Ht). unfold stepped. destruct (member t up) eqn:M.
      * unfold allowed in *. cbn [by_child perm]. exact H1.
      * assert (N : ~ In t up) by (rewrite <- member_spec, M; discriminate). unfold allowed, by_stranger in *. cbn [perm].
        destruct (perm (s a k t)) eqn:Ep; try exact H1; destruct (member t held) eqn:Mh; try reflexivity.
        apply member_spec in Mh. specialize (P2 t Mh N). unfold forbids in P2. rewrite Ep, (Au t Ep) in P2. discriminate P2.
    + intros t Ht N. rewrite G. specialize (H2 t Ht N). unfold stepped, forbids in *. destruct (member t up) eqn:M; cbn [by_child by_stranger perm used].
      * destruct (perm (s a k t)) eqn:Ep; try reflexivity. rewrite (Au t Ep) in H2. discriminate H2.
      * rewrite (proj2 (member_spec t held) Ht). destruct (perm (s a k t)); rewrite ?Bool.andb_false_r in *; reflexivity || exact H2.
  - intros u Hu N A. apply (over_no _ _ _ _ _ _ _ k); [lia|]. left. exists u. split; [exact Hu|]. rewrite G. unfold stepped. rewrite (not_member _ _ N).
    unfold allowed, by_stranger. cbn [perm]. rewrite A. destruct (member u held); reflexivity.
  - intros H R Hh. apply over_one in H as [H1 H2]. apply over_one. split.
    + intros t Ht. rewrite G. specialize (H1 t Ht). unfold stepped. destruct (member t up) eqn:M.
      * unfold allowed in *. cbn [by_child perm]. exact H1.
      * assert (N : ~ In t up) by (rewrite <- member_spec, M; discriminate). destruct (R t Ht N) as [Ep Nh]. unfold allowed, by_stranger. cbn [perm]. rewrite Ep, (not_member _ _ Nh). reflexivity.
    + intros t Ht N. rewrite G. specialize (H2 t Ht N). unfold stepped. destruct (member t up) eqn:M; [apply member_spec in M; destruct (N (Hh t Ht M))|].
      unfold forbids, by_stranger in *. cbn [perm used]. rewrite (proj2 (member_spec t held) Ht). destruct (used (s a k t)); [|reflexivity]. destruct (perm (s a k t)); try discriminate H2; reflexivity.
Qed.
Lemma protected_forbids held wr up a i n s k t : i <= k < i + n -> In t held -> ~ In t up -> used (s a k t) = true ->
  perm (s a k t) = Active \/ wr = true /\ perm (s a k t) <> Disabled -> over held wr up a i n s = None.
Proof.
  intros Hk Ht N U H. apply (over_no _ _ _ _ _ _ _ k); [exact Hk|]. right. exists t. split; [exact Ht|]. split; [exact N|]. unfold forbids. rewrite U.
  destruct H as [->|[-> D]]; [reflexivity|]. destruct (perm (s a k t)); try reflexivity. contradiction.
Qed.
Lemma protected_conflict held up a i n s s' k t other : over held false up a i n s = Some s' -> i <= k < i + n -> In t held -> ~ In t up -> In t other ->
  perm (s a k t) = Reserved -> over held true other a k 1 s' = None.
Proof.
  intros E Hk Ht N Ho R. destruct (over_some _ _ _ _ _ _ _ _ E k Hk) as (_ & _ & G). apply (over_no _ _ _ _ _ _ _ k); [lia|]. left. exists t. split; [exact Ho|].
  rewrite G. unfold stepped. rewrite (not_member _ _ N). unfold allowed, by_stranger. cbn [perm]. rewrite R, (proj2 (member_spec t held) Ht). reflexivity.
Qed.
Lemma release_writes held fam t a n s s' k u : release held fam t a n s = Some s' -> k < n -> perm (s a k t) = Active -> used (s a k t) = true ->
  ~ In u (fam t) -> ~ In t (fam u) -> perm (s' a k u) = Disabled.
Proof.
  intros E Hk Ep U N Nf. unfold release in E. cbv zeta in E. destruct (forallb _ (seq 0 n)) eqn:F; [|discriminate]. injection E as <-. rewrite forallb_forall in F.
  specialize (F k ltac:(apply in_seq; lia)). rewrite U in F. cbn [negb orb] in F. destruct (access held _ (fam t) (s a k)) as [g|] eqn:G; [|discriminate].
  assert (Cv : covers a 0 n a k = true) by (apply covers_spec; lia). rewrite Cv, U, (not_member _ _ Nf), Bool.orb_true_r. cbn [andb]. try rewrite G. apply access_some in G as (_ & _ & ->).
  unfold stepped. rewrite (not_member _ _ N), Ep. reflexivity.
Qed.
Lemma retag_some first p n w q w' : retag first p n w = Ok (q, w') -> exists s, over (held w) false (family w (tag p)) (alloc (to p)) (offset (to p)) n (perms w) = Some s /\
  to q = to p /\ tag q = next w /\ mem w' = mem w /\ next w' = S (next w) /\ held w' = held w /\ family w' (tag q) = tag q :: family w (tag p) /\
  (forall t, t <> next w -> family w' t = family w t /\ forall b k, perms w' b k t = s b k t) /\ forall k, perm (perms w' (alloc (to p)) k (tag q)) = first.
Proof.
  unfold retag. destruct (over _ _ _ _ _ _ _) as [s|]; [|discriminate]. intros E. injection E as <- <-. exists s. cbn [to tag mem next family perms held].
  rewrite Nat.eqb_refl. do 7 (split; [reflexivity|]). split.
  - intros t N. destruct (Nat.eqb_spec t (next w)); [contradiction|]. split; reflexivity.
  - intros k. rewrite !Nat.eqb_refl. reflexivity.
Qed.
Lemma shared_no_write p n w q w' held' i m : retag Frozen p n w = Ok (q, w') -> 0 < m -> over held' true (family w' (tag q)) (alloc (to q)) i m (perms w') = None.
Proof.
  intros E Hm. apply retag_some in E as (s & _ & T & _ & _ & _ & _ & F & _ & P). apply (over_no _ _ _ _ _ _ _ i); [lia|]. left. exists (tag q). rewrite F. split; [left; reflexivity|].
  unfold allowed. rewrite T, P. reflexivity.
Qed.
Lemma retag_lends p n w : old w -> writable w p n -> exists q w', retag Reserved p n w = Ok (q, w') /\ writable w' q n /\ writable w' p n /\ old w'.
Proof.
  intros O W. pose proof W as [T R].
  assert (h : holds (claims_of w everything [(p, n)] []) w) by (apply holds_claims_of; [exact O|intros q m [E|[]]; injection E as <- <-; exact W]).
  assert (Wr : writes (claims_of w everything [(p, n)] []) p n) by (apply claims_writes; [exact O|left; reflexivity|exact W|intros q m [E|[]]; left; symmetry; exact E]).
  destruct (over_can _ _ false (tag p) (alloc (to p)) (offset (to p)) n h (proj2 (writes_reads _ _ _ Wr))) as (s & E & K & _).
  destruct (retag Reserved p n w) as [[q w']| | |] eqn:Er; [|unfold retag in Er; rewrite E in Er; discriminate..].
  pose proof (retag_some _ _ _ _ _ _ Er) as (s' & E' & Tq & Gq & M & N & Hd & F & U & P). rewrite E in E'. injection E' as <-.
  destruct (K (mem w)) as (_ & _ & _ & _ & Kw). cbn [perms] in Kw. destruct O as [O Oh].
  assert (Old : forall u, In u (family w (tag p)) -> u < next w) by (intros u Hu; pose proof (O _ T) as G; rewrite Forall_forall in G; exact (G u Hu)).
  assert (Olh : forall u, In u (held w) -> u < next w) by (rewrite Forall_forall in Oh; exact Oh).
  assert (Z : forall k u, offset (to p) <= k < offset (to p) + n -> In u (family w (tag p)) -> means Mutable (In u (held w)) (perms w' (alloc (to p)) k u)).
  { intros k u Hk Hu. rewrite (proj2 (U u ltac:(pose proof (Old u Hu); lia))). apply (Kw Mutable). split; [exact (Old u Hu)|]. left. exists p, n. split; [left; reflexivity|].
    split; [split; [reflexivity|exact Hk]|exact Hu]. }
  assert (Y : forall k u, offset (to p) <= k < offset (to p) + n -> In u (held w) -> ~ In u (family w (tag p)) -> means Quiet (In u (held w)) (perms w' (alloc (to p)) k u)).
  { intros k u Hk Hu Nu. rewrite (proj2 (U u ltac:(pose proof (Olh u Hu); lia))). apply (Kw Quiet). split; [exact (Olh u Hu)|]. split; [exact Hu|]. left. exists p, n. split; [left; reflexivity|].
    split; [split; [reflexivity|exact Hk]|exact Nu]. }
  exists q, w'. split; [reflexivity|]. split; [|split].
  - split; [lia|]. rewrite F, Tq, Hd. intros k Hk. split; [intros u [<-|Hu]; [left; apply P|apply Z; assumption]|].
    intros u Hu Nu. apply Y; [exact Hk|exact Hu|]. intros I. apply Nu. right. exact I.
  - split; [lia|]. rewrite (proj1 (U (tag p) ltac:(lia))), Hd. intros k Hk. split; intros u Hu; [apply Z; assumption|]. intros Nu. apply Y; assumption.
  - split.
    + intros t Ht. rewrite N. destruct (Nat.eq_dec t (tag q)) as [->|Nt].
      * rewrite F. constructor; [lia|]. eapply Forall_impl; [|exact (O _ T)]. cbn. intros. lia.
      * rewrite (proj1 (U t ltac:(lia))). eapply Forall_impl; [|apply O; lia]. cbn. intros. lia.
    + rewrite Hd, N. eapply Forall_impl; [|exact Oh]. cbn. intros. lia.
Qed.

(** A forbidden access is undefined behaviour. *)
Lemma forbidden_is_ub w p n :
  (forall x m, read_unaligned Allocation (to p) n (mem w) = Ok (x, m) ->
     over (held w) false (family w (tag p)) (alloc (to p)) (offset (to p)) n (perms w) = None -> read_unaligned_tb p n w = UB) /\
  (forall b x m, write_unaligned Allocation (to p) b (mem w) = Ok (x, m) ->
     over (held w) true (family w (tag p)) (alloc (to p)) (offset (to p)) (length b) (perms w) = None -> write_unaligned_tb p b w = UB) /\
  (forall f, over (held w) false (family w (tag p)) (alloc (to p)) (offset (to p)) n (perms w) = None -> retag f p n w = UB) /\
  (forall (x : bcode unit) ps w', x (mk_world (mem w) (family w) (perms w) (next w) (map tag ps ++ held w)) = Ok (tt, w') ->
     releases (held w') (family w') (mem w') ps (perms w') = None -> protecting ps x w = UB).
Proof.
  split; [|split; [|split]].
  - intros x m E N. unfold read_unaligned_tb, acting. rewrite E. cbn [bind]. rewrite N. reflexivity.
  - intros b x m E N. unfold write_unaligned_tb, acting. rewrite E. cbn [bind]. rewrite N. reflexivity.
  - intros f N. unfold retag. rewrite N. reflexivity.
  - intros x ps w' E N. unfold protecting. rewrite E. cbn [bind]. rewrite N. reflexivity.
Qed.
(** A function that ends while something protected uses one of its locals *)
Lemma return_protected {A} (x : bcode A) w a w' b o k t : x w = Ok (a, w') -> length (mem w) <= b -> nth_error (mem w') b = Some o ->
  k < length (bytes o) -> In t (held w') -> used (perms w' b k t) = true -> body_tb x w = UB.
Proof.
  intros E Hb Ho Hk Ht Hu. unfold body_tb. rewrite E. cbn [bind].
  destruct (forallb _ _) eqn:F; [exfalso|reflexivity]. rewrite forallb_forall in F.
  assert (Hlt : b < length (mem w')) by (apply nth_error_Some; congruence).
  specialize (F b ltac:(apply in_seq; lia)). rewrite forallb_forall in F.
  unfold size_at in F. rewrite Ho in F. specialize (F k ltac:(apply in_seq; lia)). rewrite forallb_forall in F.
  specialize (F t Ht). rewrite Hu in F. discriminate F.
Qed.
(** A new reference is for its allocation only. *)
Lemma elsewhere first p n w q w' : retag first p n w = Ok (q, w') ->
  forall H write b i m, b <> alloc (to p) -> 0 < m -> over H write (family w' (tag q)) b i m (perms w') = None.
Proof.
  unfold retag. destruct (over _ _ _ _ _ _ _) as [s|]; [|discriminate]. intros E H write b i m Hb Hm. injection E as <- <-.
  cbn [tag family perms]. rewrite Nat.eqb_refl. unfold over. destruct m as [|m]; [lia|]. cbn [seq forallb].
  unfold access at 1. cbn [forallb]. rewrite Nat.eqb_refl. apply Nat.eqb_neq in Hb. rewrite Hb. reflexivity.
Qed.
Lemma local_elsewhere a bs w q w' : local_tb a bs w = Ok (q, w') ->
  forall H write b i m, b <> length (mem w) -> 0 < m -> over H write (family w' (tag q)) b i m (perms w') = None.
Proof.
  unfold local_tb. intros E H write b i m Hb Hm. injection E as <- <-.
  cbn [tag family perms]. rewrite Nat.eqb_refl. unfold over. destruct m as [|m]; [lia|]. cbn [seq forallb].
  unfold access at 1. cbn [forallb]. rewrite Nat.eqb_refl. apply Nat.eqb_neq in Hb. rewrite Hb. reflexivity.
Qed.
