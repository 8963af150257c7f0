(** * BorrowExact: [sse41::hash4_exact] under Stacked Borrows. *)
From Verif Require Import Base BaseFacts Consts Intrinsics Portable Params Memory MemoryFacts Views Borrows BorrowFacts.
From Verif Require Sse41 Avx2.
From Coq Require Import Lia.
Local Open Scope nat_scope.

(** ** Loads *)
Lemma follows_loadu_4 S0 n0 p : froz S0 p 64 -> follows S0 n0 eq (loadu_4_b p) (loadu_4 Allocation (to p)).
Proof.
  intros F. unfold loadu_4_b, loadu_4.
  assert (K : forall i, i <= 3 -> follows S0 n0 eq (loadu_b (mk_bpointer (shift (to p) (i * size_of M128)) (tag p))) (_mm_loadu Allocation (shift (to p) (i * size_of M128)))).
  { intros i Hi. apply (follows_loadu S0 n0 (mk_bpointer (shift (to p) (i * size_of M128)) (tag p))). right. cbn [to tag alloc offset shift size_of].
    apply (frozen_part _ _ _ _ _ _ _ F); lia. }
  apply follows_ptr_add, follows_bind_eq; [apply K; lia|]. intros a0.
  apply follows_ptr_add, follows_bind_eq; [apply K; lia|]. intros a1.
  apply follows_ptr_add, follows_bind_eq; [apply K; lia|]. intros a2.
  apply follows_ptr_add, follows_bind_eq; [apply K; lia|]. intros a3. apply follows_give.
Qed.
Lemma follows_load_block S0 n0 p : froz S0 p 64 -> follows S0 n0 eq (load_block_b p) (loadu_4 Allocation (to p)).
Proof.
  intros F. unfold load_block_b. apply follows_as_ptr; [right; exact F|]. intros S n t _ F'. apply (follows_loadu_4 S n (mk_bpointer (to p) t)). exact F'.
Qed.
(** Four [&] passed to a function *)
Lemma follows_pass4 {A B} S0 n0 (rel : A -> B -> Prop) p0 p1 p2 p3 (f : bpointer -> bpointer -> bpointer -> bpointer -> bcode A) (x0 : code B) :
  froz S0 p0 64 -> froz S0 p1 64 -> froz S0 p2 64 -> froz S0 p3 64 ->
  (forall S n r0 r1 r2 r3, to r0 = to p0 -> to r1 = to p1 -> to r2 = to p2 -> to r3 = to p3 ->
     froz S r0 64 -> froz S r1 64 -> froz S r2 64 -> froz S r3 64 -> follows S n rel (f r0 r1 r2 r3) x0) ->
  follows S0 n0 rel
    (r0 <== pass_b p0 BLOCKBYTES ;;
     r1 <== pass_b p1 BLOCKBYTES ;;
     r2 <== pass_b p2 BLOCKBYTES ;;
     r3 <== pass_b p3 BLOCKBYTES ;;
     protecting [r0; r1; r2; r3] (f r0 r1 r2 r3)) x0.
Proof.
  intros F0 F1 F2 F3 K.
  apply follows_pass; [right; exact F0|]. intros S1 k1 t1 X1 L1 P1.
  apply follows_pass; [right; exact (froz_extends _ _ _ _ _ _ X1 F1)|]. intros S2 k2 t2 X2 L2 P2. pose proof (extends_trans _ _ _ _ _ _ X1 X2) as Y2.
  apply follows_pass; [right; exact (froz_extends _ _ _ _ _ _ Y2 F2)|]. intros S3 k3 t3 X3 L3 P3. pose proof (extends_trans _ _ _ _ _ _ Y2 X3) as Y3.
  apply follows_pass; [right; exact (froz_extends _ _ _ _ _ _ Y3 F3)|]. intros S4 k4 t4 X4 L4 P4.
  pose proof (extends_trans _ _ _ _ _ _ X3 X4) as Z3. pose proof (extends_trans _ _ _ _ _ _ X2 Z3) as Z2.
  apply follows_protecting.
  { destruct X4 as (_ & H4 & _), Z3 as (_ & H3 & _), Z2 as (_ & H2 & _). repeat constructor; cbn [tag]; lia. }
  apply K; try reflexivity.
  - exact (frozen_extends _ _ _ _ _ _ _ _ Z2 P1).
  - exact (frozen_extends _ _ _ _ _ _ _ _ Z3 P2).
  - exact (frozen_extends _ _ _ _ _ _ _ _ X4 P3).
  - exact P4.
Qed.
Lemma follows_transpose S0 n0 p0 p1 p2 p3 : froz S0 p0 64 -> froz S0 p1 64 -> froz S0 p2 64 -> froz S0 p3 64 ->
  follows S0 n0 eq (transpose_message_blocks_b p0 p1 p2 p3) (transpose_message_blocks Allocation (to p0) (to p1) (to p2) (to p3)).
Proof.
  intros F0 F1 F2 F3. unfold transpose_message_blocks_b. apply follows_pass4; try assumption. clear F0 F1 F2 F3.
  intros S n r0 r1 r2 r3 <- <- <- <- F0 F1 F2 F3. unfold transpose_message_blocks.
  apply follows_bind_eq; [apply follows_load_block; assumption|]. intros [a0 a1 a2 a3].
  apply follows_bind_eq; [apply follows_load_block; assumption|]. intros [b0 b1 b2 b3].
  apply follows_bind_eq; [apply follows_load_block; assumption|]. intros [c0 c1 c2 c3].
  apply follows_bind_eq; [apply follows_load_block; assumption|]. intros [d0 d1 d2 d3].
  cbv zeta. apply follows_give.
Qed.
Lemma follows_compress4 S0 n0 h p0 p1 p2 p3 cl ch lb ln : froz S0 p0 64 -> froz S0 p1 64 -> froz S0 p2 64 -> froz S0 p3 64 ->
  follows S0 n0 eq (compress4_transposed_b h p0 p1 p2 p3 cl ch lb ln) (compress4_transposed Allocation h (to p0) (to p1) (to p2) (to p3) cl ch lb ln).
Proof.
  intros F0 F1 F2 F3. unfold compress4_transposed_b. apply follows_pass4; try assumption. clear F0 F1 F2 F3.
  intros S n r0 r1 r2 r3 <- <- <- <- F0 F1 F2 F3. unfold compress4_transposed.
  apply follows_bind_eq; [apply follows_transpose; assumption|intros v; apply follows_give].
Qed.
(** One round of the loop *)
Definition step_b (params : Params) (input : quad bpointer) (n : quad nat) (len : nat) (h : oct m128) (count : nat) : bcode (oct m128) :=
  msg0 <== block_at_b (q0 input) (q0 n) count ;;
  msg1 <== block_at_b (q1 input) (q1 n) count ;;
  msg2 <== block_at_b (q2 input) (q2 n) count ;;
  msg3 <== block_at_b (q3 input) (q3 n) count ;;
  compress4_transposed_b h msg0 msg1 msg2 msg3 (Sse41.set1 (of_N 32 (N.of_nat (count + BLOCKBYTES))))
    (Sse41.set1 (cast 32 (ushr (of_N 64 (N.of_nat (count + BLOCKBYTES))) 32)))
    (Sse41.set1 (if Nat.eqb (count + BLOCKBYTES) len then umax 32 else uzero 32))
    (Sse41.set1 (if p_last_node params && Nat.eqb (count + BLOCKBYTES) len then umax 32 else uzero 32)).
Definition step_m (params : Params) (i0 i1 i2 i3 : pointer) (len : nat) (h : oct m128) (count : nat) : code (oct m128) :=
  msg0 <-- block_at Allocation i0 count ;;
  msg1 <-- block_at Allocation i1 count ;;
  msg2 <-- block_at Allocation i2 count ;;
  msg3 <-- block_at Allocation i3 count ;;
  compress4_transposed Allocation h msg0 msg1 msg2 msg3 (Sse41.set1 (of_N 32 (N.of_nat (count + BLOCKBYTES))))
    (Sse41.set1 (cast 32 (ushr (of_N 64 (N.of_nat (count + BLOCKBYTES))) 32)))
    (Sse41.set1 (if Nat.eqb (count + BLOCKBYTES) len then umax 32 else uzero 32))
    (Sse41.set1 (if p_last_node params && Nat.eqb (count + BLOCKBYTES) len then umax 32 else uzero 32)).
Lemma step_loop_b fuel how places params input n len h count w :
  hash4_exact_loop_b (S fuel) how places params input n len h count w =
  andthen_b (step_b params input n len h count) (fun h => if Nat.eqb (count + BLOCKBYTES) len
     then body_b (export_hashes_b how places h (p_hash_length params))
     else hash4_exact_loop_b fuel how places params input n len h (count + BLOCKBYTES)) w.
Proof.
  cbn [hash4_exact_loop_b]. cbv zeta. unfold step_b, andthen_b.
  destruct (block_at_b (q0 input) (q0 n) count w) as [[p0 w0]| | |]; try reflexivity. cbn [bind].
  destruct (block_at_b (q1 input) (q1 n) count w0) as [[p1 w1]| | |]; try reflexivity. cbn [bind].
  destruct (block_at_b (q2 input) (q2 n) count w1) as [[p2 w2]| | |]; try reflexivity. cbn [bind].
  destruct (block_at_b (q3 input) (q3 n) count w2) as [[p3 w3]| | |]; reflexivity.
Qed.
Lemma step_loop_m fuel places params i0 i1 i2 i3 len h count m :
  hash4_exact_loop (S fuel) Allocation places params i0 i1 i2 i3 len h count m =
  andthen (step_m params i0 i1 i2 i3 len h count) (fun h => if Nat.eqb (count + BLOCKBYTES) len
     then body (export_hashes Allocation places h (p_hash_length params))
     else hash4_exact_loop fuel Allocation places params i0 i1 i2 i3 len h (count + BLOCKBYTES)) m.
Proof.
  cbn [hash4_exact_loop]. cbv zeta. unfold step_m, andthen.
  destruct (block_at Allocation i0 count m) as [[p0 w0]| | |]; try reflexivity. cbn [bind].
  destruct (block_at Allocation i1 count w0) as [[p1 w1]| | |]; try reflexivity. cbn [bind].
  destruct (block_at Allocation i2 count w1) as [[p2 w2]| | |]; try reflexivity. cbn [bind].
  destruct (block_at Allocation i3 count w2) as [[p3 w3]| | |]; reflexivity.
Qed.
Lemma follows_step S0 n0 params input n len h count : froz S0 (q0 input) (q0 n) -> froz S0 (q1 input) (q1 n) -> froz S0 (q2 input) (q2 n) -> froz S0 (q3 input) (q3 n) ->
  count + 64 <= q0 n -> count + 64 <= q1 n -> count + 64 <= q2 n -> count + 64 <= q3 n ->
  follows S0 n0 eq (step_b params input n len h count) (step_m params (to (q0 input)) (to (q1 input)) (to (q2 input)) (to (q3 input)) len h count).
Proof.
  intros F0 F1 F2 F3 L0 L1 L2 L3. unfold step_b, step_m.
  apply follows_block_at; [exact F0|lia|]; intros S1 k1 u1 X1 P0.
  apply follows_block_at; [exact (froz_extends _ _ _ _ _ _ X1 F1)|lia|]; intros S2 k2 u2 X2 P1; pose proof (extends_trans _ _ _ _ _ _ X1 X2) as Y2.
  apply follows_block_at; [exact (froz_extends _ _ _ _ _ _ Y2 F2)|lia|]; intros S3 k3 u3 X3 P2; pose proof (extends_trans _ _ _ _ _ _ Y2 X3) as Y3.
  apply follows_block_at; [exact (froz_extends _ _ _ _ _ _ Y3 F3)|lia|]; intros S4 k4 u4 X4 P3.
  match goal with |- follows _ _ _ (compress4_transposed_b ?h ?a ?b ?c ?d ?e ?f ?g ?i) _ => apply (follows_compress4 S4 k4 h a b c d e f g i) end.
  - exact (froz_extends _ _ _ _ _ _ (extends_trans _ _ _ _ _ _ X2 (extends_trans _ _ _ _ _ _ X3 X4)) P0).
  - exact (froz_extends _ _ _ _ _ _ (extends_trans _ _ _ _ _ _ X3 X4) P1).
  - exact (froz_extends _ _ _ _ _ _ X4 P2).
  - exact P3.
Qed.
(** Loads leave memory alone. *)
Definition quiet {A} (x : code A) : Prop := forall m a m', x m = Ok (a, m') -> m' = m.
Lemma quiet_bind {A B} (x : code A) (f : A -> code B) : quiet x -> (forall a, quiet (f a)) -> quiet (andthen x f).
Proof.
  intros H K m b m' E. unfold andthen in E. destruct (x m) as [[a m1]| | |] eqn:X; try discriminate. cbn [bind] in E. apply H in X. subst m1. exact (K a m b m' E).
Qed.
Lemma quiet_give {A} (a : A) : quiet (give a).
Proof. intros m b m' E. injection E as _ <-. reflexivity. Qed.
Lemma quiet_check b : quiet (check b).
Proof. intros m a m' E. unfold check in E. destruct (b m); [|discriminate]. injection E as _ <-. reflexivity. Qed.
Lemma quiet_ptr_add t p n : quiet (ptr_add t p n).
Proof. unfold ptr_add. cbv zeta. apply quiet_bind; [apply quiet_check|]. intros _. apply quiet_give. Qed.
Lemma quiet_block_at p n : quiet (block_at Allocation p n).
Proof. apply quiet_bind; [apply quiet_ptr_add|]. intros q. apply quiet_bind; [apply quiet_check|]. intros _. apply quiet_give. Qed.
Lemma quiet_mm_loadu p : quiet (_mm_loadu Allocation p).
Proof.
  apply quiet_bind; [|intros bs; apply quiet_give]. apply quiet_bind; [apply quiet_check|]. intros _ m a m' E. injection E as _ <-. reflexivity.
Qed.
Lemma quiet_loadu_4 p : quiet (loadu_4 Allocation p).
Proof. unfold loadu_4. do 4 (apply quiet_bind; [apply quiet_ptr_add|]; intros ?; apply quiet_bind; [apply quiet_mm_loadu|]; intros ?). apply quiet_give. Qed.
Lemma quiet_step params i0 i1 i2 i3 len h count : quiet (step_m params i0 i1 i2 i3 len h count).
Proof.
  unfold step_m. do 4 (apply quiet_bind; [apply quiet_block_at|]; intros ?). unfold compress4_transposed. apply quiet_bind; [|intros ?; apply quiet_give].
  unfold transpose_message_blocks. do 4 (apply quiet_bind; [apply quiet_loadu_4|]; intros [? ? ? ?]). cbv zeta. apply quiet_give.
Qed.

(** ** Stores *)
Lemma follows_store_bytes S0 n0 bs i x : excl S0 bs 32 -> i <= 16 ->
  follows S0 n0 eq (store_bytes_b Words bs i x) (p <-- element Allocation true U8 (to bs) i ;; storeu Allocation p x).
Proof.
  intros X Hi w b m E P R. destruct bs as [h t]. destruct w as [m0 S n H]. unfold excl in X. cbn [to tag borrows next mem held] in *.
  assert (Hn : n0 <= n) by apply E.
  unfold andthen at 1 in R. destruct (element Allocation true U8 h i m0) as [[q m1]| | |] eqn:Eq; try discriminate. cbn [bind] in R.
  pose proof (element_result _ _ _ _ _ _ _ Eq) as [-> ->].
  set (q := narrow (shift h (i * size_of U8)) (size_of U8) true) in *.
  destruct (exclusive_unique_new S0 n0 S n (alloc h) (offset h) 32 t E X) as (S1 & V1 & E1 & A1).
  destruct (above_over S0 n0 S1 (1 + n) (2 + n) (new_raw n (1 + n)) (alloc h) (offset h) 32 _ [mk_item SharedRW (1 + n); mk_item Unique n] t E1 ltac:(lia) X A1)
    as (S2 & V2 & E2 & A2).
  { intros r. unfold new_raw. cbn [app split_at]. rewrite grants_unique. reflexivity. }
  { repeat constructor; cbn; lia. }
  assert (X' : exclusive_at S0 (alloc h) (offset h + i * 1) (offset h + i * 1 + 16) t) by (apply (exclusive_part _ _ _ _ _ _ _ X); lia).
  assert (A2' : above S0 S2 (alloc h) (offset h + i * 1) (offset h + i * 1 + 16) [mk_item SharedRW (1 + n); mk_item Unique n])
    by (apply (above_part _ _ _ _ _ _ _ _ A2); lia).
  destruct (above_over S0 n0 S2 (2 + n) (2 + n) (on_write (1 + n)) (alloc h) (offset h + i * 1) 16 _
    [mk_item SharedRW (1 + n); mk_item Unique n] t E2 ltac:(lia) X' A2') as (S3 & V3 & E3 & A3).
  { intros r. unfold on_write. cbn [app split_at]. unfold grants at 1. cbn [owner allows]. rewrite Nat.eqb_refl. reflexivity. }
  { repeat constructor; cbn; lia. }
  generalize (over_held _ _ _ _ _ _ H _ _ _ _ E P V1 E1); clear V1; intros V1. generalize (over_held _ _ _ _ _ _ H _ _ _ _ E1 P V2 E2); clear V2; intros V2.
  generalize (over_held _ _ _ _ _ _ H _ _ _ _ E2 P V3 E3); clear V3; intros V3.
  unfold storeu, _mm_storeu in R.
  unfold store_bytes_b, andthen_b, lift, acting, give_b. cbn [mem to tag]. rewrite Eq. cbn [bind mem borrows next held].
  change OUTBYTES with 32. unfold retag at 1. cbn [to tag next borrows mem held]. rewrite V1. cbn [bind mem borrows next held].
  unfold retag at 1. cbn [to tag next borrows mem held]. change (Datatypes.S n) with (1 + n). rewrite V2. cbn [bind mem borrows next held].
  unfold storeu_b, write_unaligned_b, acting. cbn [to tag next borrows mem held]. fold q. rewrite R. cbn [bind].
  rewrite m128_bytes_length. change (alloc q) with (alloc h). change (offset q) with (offset h + i * 1). rewrite V3.
  exists b, S3, (2 + n). auto.
Qed.

(** ** Locals *)

(** Code that makes no allocation *)
Definition sized {A} (x : code A) : Prop := forall m a m', x m = Ok (a, m') -> length m' = length m.
Lemma sized_bind {A B} (x : code A) (f : A -> code B) : sized x -> (forall a, sized (f a)) -> sized (andthen x f).
Proof.
  intros H K m b m' E. unfold andthen in E. destruct (x m) as [[a m1]| | |] eqn:X; try discriminate. cbn [bind] in E.
  rewrite (K a m1 b m' E). exact (H m a m1 X).
Qed.
Lemma sized_quiet {A} (x : code A) : quiet x -> sized x.
Proof. intros H m a m' E. rewrite (H m a m' E). reflexivity. Qed.
Lemma stored_length m p bs : length (stored m p bs) = length m.
Proof. unfold stored. destruct (nth_error m (alloc p)); [apply upd_length|reflexivity]. Qed.
Lemma sized_storeu p x : sized (storeu Allocation p x).
Proof.
  unfold storeu, _mm_storeu, write_unaligned. apply sized_bind; [apply sized_quiet, quiet_check|]. intros _ m a m' E. injection E as _ <-. apply stored_length.
Qed.
Lemma sized_element mut t p i : sized (element Allocation mut t p i).
Proof.
  apply sized_bind; [apply sized_quiet, quiet_ptr_add|]. intros q. apply sized_quiet, quiet_bind; [apply quiet_check|]. intros _. apply quiet_give.
Qed.
Lemma sized_read t p : sized (read Allocation t p).
Proof.
  apply sized_quiet, quiet_bind; [apply quiet_check|]. intros _. apply quiet_bind; [apply quiet_check|]. intros _ m a m' E. injection E as _ <-. reflexivity.
Qed.
(** The stacks of [b] only have tags from [n] on. *)
Definition fresh_at (n : nat) (S : stacks) (b : nat) : Prop := forall k, Forall (fun i => n <= owner i) (S b k).
Lemma local_run w a bs : old w -> exists p w', local_b a bs w = Ok (p, w') /\ local a bs (mem w) = Ok (to p, mem w') /\ old w' /\ next w' = S (next w) /\
  excl (borrows w') p (length bs) /\ alloc (to p) = length (mem w) /\ length (mem w') = S (length (mem w)) /\
  (forall b k, b <> length (mem w) -> borrows w' b k = borrows w b k) /\ held w' = held w /\ fresh_at (next w) (borrows w') (length (mem w)).
Proof.
  intros [O P]. eexists _, _. split; [reflexivity|]. split; [reflexivity|]. cbn [mem borrows next held to]. split; [split|split; [reflexivity|split; [|split; [reflexivity|split; [|split; [|split; [reflexivity|]]]]]]].
  - intros b k. cbn [borrows next]. destruct (Nat.eqb b (length (mem w))); [repeat constructor|]. eapply Forall_impl; [|exact (O b k)]. cbn. intros i. lia.
  - apply (held_later (next w)); [cbn; lia|exact P].
  - intros k _. exists []. cbn [to tag alloc]. rewrite Nat.eqb_refl. reflexivity.
  - rewrite app_length. cbn. lia.
  - intros b k N. destruct (Nat.eqb_spec b (length (mem w))); [contradiction|reflexivity].
  - intros k. rewrite Nat.eqb_refl. repeat constructor.
Qed.
Lemma excl_other (w w' : world) p n L : excl (borrows w) p n -> alloc (to p) <> L -> (forall b k, b <> L -> borrows w' b k = borrows w b k) -> excl (borrows w') p n.
Proof. intros X N H k Hk. rewrite (H _ _ N). exact (X k Hk). Qed.
Lemma export_hashes_run w places h len hs m : old w -> body (export_hashes Allocation places h len) (mem w) = Ok (hs, m) ->
  exists w', body_b (export_hashes_b Words places h len) w = Ok (hs, w') /\ mem w' = m /\ keeps_live w w' /\ old w'.
Proof.
  intros O R. unfold body in R. destruct (export_hashes Allocation places h len (mem w)) as [[hs' m']| | |] eqn:E; try discriminate. cbn [bind] in R.
  injection R as <- <-.
  destruct (local_run w (q0 places) (repeat x00 OUTBYTES) O) as (p0 & w0 & B0 & M0 & O0 & N0 & X0 & A0 & L0 & K0 & H0 & J0).
  destruct (local_run w0 (q1 places) (repeat x00 OUTBYTES) O0) as (p1 & w1 & B1 & M1 & O1 & N1 & X1 & A1 & L1 & K1 & H1 & J1).
  destruct (local_run w1 (q2 places) (repeat x00 OUTBYTES) O1) as (p2 & w2 & B2 & M2 & O2 & N2 & X2 & A2 & L2 & K2 & H2 & J2).
  destruct (local_run w2 (q3 places) (repeat x00 OUTBYTES) O2) as (p3 & w3 & B3 & M3 & O3 & N3 & X3 & A3 & L3 & K3 & H3 & J3).
  rewrite repeat_length in X0, X1, X2, X3.
  pose proof (fun p => fun X N => excl_other w0 w1 p 32 (length (mem w0)) X N K1) as T1.
  pose proof (fun p => fun X N => excl_other w1 w2 p 32 (length (mem w1)) X N K2) as T2.
  pose proof (fun p => fun X N => excl_other w2 w3 p 32 (length (mem w2)) X N K3) as T3.
  assert (Y0 : excl (borrows w3) p0 32) by (apply T3; [apply T2; [apply T1; [exact X0|]|]|]; lia).
  assert (Y1 : excl (borrows w3) p1 32) by (apply T3; [apply T2; [exact X1|]|]; lia).
  assert (Y2 : excl (borrows w3) p2 32) by (apply T3; [exact X2|]; lia).
  assert (Y3 : excl (borrows w3) p3 32) by exact X3.
  unfold export_hashes in E. unfold andthen at 1 in E. rewrite M0 in E. cbn [bind] in E. unfold andthen at 1 in E. rewrite M1 in E. cbn [bind] in E.
  unfold andthen at 1 in E. rewrite M2 in E. cbn [bind] in E. unfold andthen at 1 in E. rewrite M3 in E. cbn [bind] in E. cbv zeta in E.
  unfold body_b, export_hashes_b. unfold andthen_b at 1. rewrite B0. cbn [bind]. unfold andthen_b at 1. rewrite B1. cbn [bind].
  unfold andthen_b at 1. rewrite B2. cbn [bind]. unfold andthen_b at 1. rewrite B3. cbn [bind]. cbv zeta.
  match type of E with ?x0 (mem w3) = _ => match goal with |- exists w', bind (?x w3) _ = _ /\ _ => assert (F : follows (borrows w3) (next w3) eq x x0) end end.
  - pose proof (fun i x => follows_store_bytes (borrows w3) (next w3) p0 i x Y0) as Z0. pose proof (fun i x => follows_store_bytes (borrows w3) (next w3) p1 i x Y1) as Z1.
    pose proof (fun i x => follows_store_bytes (borrows w3) (next w3) p2 i x Y2) as Z2. pose proof (fun i x => follows_store_bytes (borrows w3) (next w3) p3 i x Y3) as Z3.
    do 8 (apply follows_assoc, follows_bind_eq; [first [apply Z0; lia|apply Z1; lia|apply Z2; lia|apply Z3; lia]|]; intros _).
    apply follows_bind_eq; [apply follows_read; left; assumption|]. intros b0.
    apply follows_bind_eq; [apply follows_read; left; assumption|]. intros b1.
    apply follows_bind_eq; [apply follows_read; left; assumption|]. intros b2.
    apply follows_bind_eq; [apply follows_read; left; assumption|]. intros b3. apply follows_give.
  - destruct (F w3 hs' m' (extends_refl w3 O3) (proj2 O3) E) as (a & s & n & -> & -> & X). cbn [bind mem borrows next held].
    assert (Lm : length m' = length (mem w3)).
    { match type of E with ?x0 (mem w3) = _ => assert (Z : sized x0) end.
      - do 8 (apply sized_bind; [apply sized_element|]; intros ?; apply sized_bind; [apply sized_storeu|]; intros _).
        do 4 (apply sized_bind; [apply sized_read|]; intros ?). apply sized_quiet, quiet_give.
      - exact (Z _ _ _ E). }
    rewrite Lm, L3, L2, L1, L0. match goal with |- context [if ?c then _ else UB] => assert (C : c = true) end.
    { apply forallb_forall. intros b Hb. apply in_seq in Hb. apply forallb_forall. intros k _. apply forallb_forall. intros i Hi.
      apply negb_true_iff, Bool.not_true_iff_false. intros Pi. apply protected_spec in Pi. rewrite H3, H2, H1, H0 in Pi.
      destruct O as [_ P]. rewrite Forall_forall in P. specialize (P _ Pi).
      assert (Q : fresh_at (next w) (borrows w3) b).
      { intros k'. assert (Hb' : b = length (mem w) \/ b = length (mem w0) \/ b = length (mem w1) \/ b = length (mem w2)) by lia. destruct Hb' as [->|[->|[->| ->]]].
        - rewrite (K3 _ k'), (K2 _ k'), (K1 _ k') by lia. exact (J0 k').
        - rewrite (K3 _ k'), (K2 _ k') by lia. eapply Forall_impl; [|exact (J1 k')]. cbn. intros j. lia.
        - rewrite (K3 _ k') by lia. eapply Forall_impl; [|exact (J2 k')]. cbn. intros j. lia.
        - eapply Forall_impl; [|exact (J3 k')]. cbn. intros j. lia. }
      destruct X as (_ & _ & G). destruct (G b k) as (up & Es & Fu & _). rewrite Es in Hi. apply in_app_or in Hi as [Hi|Hi].
      - rewrite Forall_forall in Fu. specialize (Fu _ Hi). lia.
      - specialize (Q k). rewrite Forall_forall in Q. specialize (Q _ Hi). cbn in Q. lia. }
    rewrite C. clear C. eexists. split; [reflexivity|]. cbn [mem borrows next held].
    split; [reflexivity|]. split; [split; [|cbn [held]; congruence]|].
    + intros a k Ha. cbn [borrows]. destruct X as (_ & _ & G). destruct (G a k) as (up & -> & _). exists up. f_equal.
      rewrite (K3 a k), (K2 a k), (K1 a k), (K0 a k) by lia. reflexivity.
    + split; [|apply (held_later (next w3)); [apply X|exact (proj2 O3)]].
      intros a k. cbn [borrows next]. destruct (extends_old _ _ _ _ X) as (Os & _). exact (Os a k).
Qed.

(** As the code is: a store of 16 bytes through a borrow of one *)
Lemma store_bytes_refuted w bs i x : old w -> forall m, andthen (element Allocation true U8 (to bs) i) (fun p => storeu Allocation p x) (mem w) = Ok (tt, m) ->
  store_bytes_b Word bs i x w = UB.
Proof.
  intros O m R. unfold andthen in R. destruct (element Allocation true U8 (to bs) i (mem w)) as [[q m1]| | |] eqn:E; try discriminate. cbn [bind] in R.
  pose proof (element_result _ _ _ _ _ _ _ E) as [-> _].
  unfold store_bytes_b, andthen_b, lift, acting. rewrite E. cbn [bind]. unfold retag at 1. cbn [to tag mem borrows next held].
  destruct (over (held w) (new_unique (tag bs) (next w)) (alloc q) (offset q) 1 (borrows w)) as [S1|] eqn:V1; [|reflexivity]. cbn [bind].
  unfold retag at 1. cbn [to tag mem borrows next held].
  destruct (over (held w) (new_raw (next w) (S (next w))) (alloc q) (offset q) 1 S1) as [S2|] eqn:V2; [|reflexivity]. cbn [bind].
  unfold storeu, _mm_storeu in R. unfold storeu_b, write_unaligned_b, acting. cbn [to tag mem borrows next held]. rewrite R. cbn [bind]. rewrite m128_bytes_length.
  rewrite (over_none _ _ _ _ _ S2 (offset q + 1)); [reflexivity|lia|]. apply write_unknown.
  assert (S2 (alloc q) (offset q + 1) = borrows w (alloc q) (offset q + 1)) as ->.
  { assert (K : forall f T T', over (held w) f (alloc q) (offset q) 1 T = Some T' -> T' (alloc q) (offset q + 1) = T (alloc q) (offset q + 1)).
    { intros f T T' V. unfold over in V. destruct (forallb _ _); [|discriminate]. injection V as <-. cbn beta.
      destruct (covers (alloc q) (offset q) 1 (alloc q) (offset q + 1)) eqn:C; [|reflexivity]. apply covers_spec in C. lia. }
    rewrite (K _ _ _ V2), (K _ _ _ V1). reflexivity. }
  eapply Forall_impl; [|exact (proj1 O _ _)]. cbn. intros j. lia.
Qed.
Lemma export_hashes_refuted w places h len hs m : old w -> body (export_hashes Allocation places h len) (mem w) = Ok (hs, m) ->
  body_b (export_hashes_b Word places h len) w = UB.
Proof.
  intros O R. unfold body in R. destruct (export_hashes Allocation places h len (mem w)) as [[hs' m']| | |] eqn:E; try discriminate. clear R.
  destruct (local_run w (q0 places) (repeat x00 OUTBYTES) O) as (p0 & w0 & B0 & M0 & O0 & _).
  destruct (local_run w0 (q1 places) (repeat x00 OUTBYTES) O0) as (p1 & w1 & B1 & M1 & O1 & _).
  destruct (local_run w1 (q2 places) (repeat x00 OUTBYTES) O1) as (p2 & w2 & B2 & M2 & O2 & _).
  destruct (local_run w2 (q3 places) (repeat x00 OUTBYTES) O2) as (p3 & w3 & B3 & M3 & O3 & _).
  unfold export_hashes in E. unfold andthen at 1 in E. rewrite M0 in E. cbn [bind] in E. unfold andthen at 1 in E. rewrite M1 in E. cbn [bind] in E.
  unfold andthen at 1 in E. rewrite M2 in E. cbn [bind] in E. unfold andthen at 1 in E. rewrite M3 in E. cbn [bind] in E. cbv zeta in E.
  unfold body_b, export_hashes_b. unfold andthen_b at 1. rewrite B0. cbn [bind]. unfold andthen_b at 1. rewrite B1. cbn [bind].
  unfold andthen_b at 1. rewrite B2. cbn [bind]. unfold andthen_b at 1. rewrite B3. cbn [bind]. cbv zeta.
  assert (exists m4, andthen (element Allocation true U8 (to p0) 0) (fun p => storeu Allocation p (q0 (Sse41.transpose_vecs (o0 h) (o1 h) (o2 h) (o3 h)))) (mem w3) = Ok (tt, m4)) as (m4 & E4).
  { unfold andthen at 1 in E. unfold andthen at 1. destruct (element Allocation true U8 (to p0) 0 (mem w3)) as [[q m1]| | |]; try discriminate. cbn [bind] in *.
    unfold andthen at 1 in E. destruct (storeu Allocation q _ m1) as [[[] m2]| | |]; try discriminate. eauto. }
  unfold andthen_b at 1. rewrite (store_bytes_refuted w3 p0 0 _ O3 m4 E4). reflexivity.
Qed.

(** ** The loop *)
Lemma hash4_loop_run places params input n len fuel : forall w h count q hs m, old w ->
  frozen w (q0 input) (q0 n) -> frozen w (q1 input) (q1 n) -> frozen w (q2 input) (q2 n) -> frozen w (q3 input) (q3 n) ->
  len <= q0 n -> len <= q1 n -> len <= q2 n -> len <= q3 n -> len = count + 64 * S q ->
  hash4_exact_loop fuel Allocation places params (to (q0 input)) (to (q1 input)) (to (q2 input)) (to (q3 input)) len h count (mem w) = Ok (hs, m) ->
  (exists w', hash4_exact_loop_b fuel Words places params input n len h count w = Ok (hs, w') /\ mem w' = m /\ keeps_live w w' /\ old w') /\
  hash4_exact_loop_b fuel Word places params input n len h count w = UB.
Proof.
  induction fuel as [|fuel IH]; intros w h count q hs m O F0 F1 F2 F3 L0 L1 L2 L3 L R; [discriminate R|].
  rewrite step_loop_m in R. unfold andthen in R. destruct (step_m params (to (q0 input)) (to (q1 input)) (to (q2 input)) (to (q3 input)) len h count (mem w)) as [[h' m']| | |] eqn:E;
    try discriminate. cbn [bind] in R. pose proof (quiet_step _ _ _ _ _ _ _ _ _ _ _ E) as ->.
  destruct (follows_step (borrows w) (next w) params input n len h count F0 F1 F2 F3 ltac:(lia) ltac:(lia) ltac:(lia) ltac:(lia) w h' (mem w) (extends_refl w O) (proj2 O) E)
    as (a & s & k & X & -> & Y).
  rewrite !step_loop_b. unfold andthen_b. rewrite X. cbn [bind].
  set (w1 := mk_world (mem w) s k (held w)) in *.
  assert (O1 : old w1).
  { split; [destruct (extends_old _ _ _ _ Y) as (Os & _); exact Os|]. apply (held_later (next w)); [apply Y|exact (proj2 O)]. }
  assert (KK : forall w', keeps_live w1 w' -> keeps_live w w').
  { intros w' [K Kh]. split; [|exact Kh]. intros a k' Ha. destruct (K a k' Ha) as (up & ->). destruct Y as (_ & _ & G). destruct (G a k') as (up' & E' & _). cbn [borrows w1]. rewrite E'.
    exists (up ++ up'). apply app_assoc. }
  destruct (Nat.eqb_spec (count + BLOCKBYTES) len) as [El|El].
  - split.
    + destruct (export_hashes_run w1 places h' (p_hash_length params) hs m O1 R) as (w' & B & M & K & O'). exists w'. auto.
    + exact (export_hashes_refuted w1 places h' (p_hash_length params) hs m O1 R).
  - destruct q as [|q]; [change BLOCKBYTES with 64 in El; lia|].
    assert (Z : forall p l, frozen w p l -> frozen w1 p l) by (intros p l; exact (froz_extends _ _ _ _ p l Y)).
    destruct (IH w1 h' (count + BLOCKBYTES) q hs m O1 (Z _ _ F0) (Z _ _ F1) (Z _ _ F2) (Z _ _ F3) L0 L1 L2 L3 ltac:(change BLOCKBYTES with 64; lia) R) as [(w' & B & M & K & O') U].
    split; [exists w'; auto|exact U].
Qed.
Theorem hash4_exact_words_borrows w places params input n hs m q : old w -> (forall l, frozen w (qproj l input) (64 * S q)) -> (forall l, qproj l n = 64 * S q) ->
  hash4_exact Allocation places params (to (q0 input)) (to (q1 input)) (to (q2 input)) (to (q3 input)) (64 * S q) (mem w) = Ok (hs, m) ->
  exists w', hash4_exact_b Words places params input n w = Ok (hs, w') /\ mem w' = m /\ keeps_live w w' /\ old w'.
Proof.
  intros O F N R. pose proof (N M0) as N0. pose proof (N M1) as N1. pose proof (N M2) as N2. pose proof (N M3) as N3. cbn [qproj] in *.
  unfold hash4_exact_b. rewrite N0. unfold hash4_exact in R. cbv zeta in *.
  refine (proj1 (hash4_loop_run places params input n (64 * S q) _ w _ 0 q hs m O _ _ _ _ _ _ _ _ _ R)); try (rewrite ?N0, ?N1, ?N2, ?N3; lia).
  - rewrite N0. exact (F M0).
  - rewrite N1. exact (F M1).
  - rewrite N2. exact (F M2).
  - rewrite N3. exact (F M3).
Qed.
Theorem hash4_exact_word_refuted w places params input n hs m q : old w -> (forall l, frozen w (qproj l input) (64 * S q)) -> (forall l, qproj l n = 64 * S q) ->
  hash4_exact Allocation places params (to (q0 input)) (to (q1 input)) (to (q2 input)) (to (q3 input)) (64 * S q) (mem w) = Ok (hs, m) ->
  hash4_exact_b Word places params input n w = UB.
Proof.
  intros O F N R. pose proof (N M0) as N0. pose proof (N M1) as N1. pose proof (N M2) as N2. pose proof (N M3) as N3. cbn [qproj] in *.
  unfold hash4_exact_b. rewrite N0. unfold hash4_exact in R. cbv zeta in *.
  refine (proj2 (hash4_loop_run places params input n (64 * S q) _ w _ 0 q hs m O _ _ _ _ _ _ _ _ _ R)); try (rewrite ?N0, ?N1, ?N2, ?N3; lia).
  - rewrite N0. exact (F M0).
  - rewrite N1. exact (F M1).
  - rewrite N2. exact (F M2).
  - rewrite N3. exact (F M3).
Qed.
(** A function that ends while a protected borrow of one of its locals is on a stack *)
Lemma return_protected {A} (x : bcode A) w a w' b o k i : x w = Ok (a, w') -> length (mem w) <= b -> nth_error (mem w') b = Some o ->
  k < length (bytes o) -> In i (borrows w' b k) -> In (owner i) (held w') -> body_b x w = UB.
Proof.
  intros E Hb Ho Hk Hi Ht. unfold body_b. rewrite E. cbn [bind].
  destruct (forallb _ _) eqn:F; [exfalso|reflexivity]. rewrite forallb_forall in F.
  assert (Hlt : b < length (mem w')) by (apply nth_error_Some; congruence).
  specialize (F b ltac:(apply in_seq; lia)). rewrite forallb_forall in F.
  unfold size_at in F. rewrite Ho in F. specialize (F k ltac:(apply in_seq; lia)). rewrite forallb_forall in F.
  specialize (F i Hi). apply protected_spec in Ht. rewrite Ht in F. discriminate F.
Qed.
