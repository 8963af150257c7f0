(** * Property C65: the unsafe code under Stacked Borrows. *)
From Verif Require Import Base Consts Intrinsics Portable Params Views Memory MemoryFacts Borrows BorrowFacts BorrowExact Witness PropsMemory.
From Verif Require Sse41 Avx2.
Local Open Scope nat_scope.

(** C65: called with a [&mut] to the state and [&] to what is only read, the AVX2 routines use
    no pointer that Stacked Borrows forbid to use: whenever the code on memory runs (C58 says
    when, and what it does), the code with borrows does the same to memory, and every borrow
    of the caller is still there afterwards ([keeps]), none removed and none disabled.  This
    is so whatever tags the callers protect ([held]), those of the arguments among them. *)
Theorem C65_avx2_compress8 : forall w h msg count lastblock lastnode m, old w ->
  (forall l, exclusive w (proj l h) 32) -> (forall l, frozen w (proj l msg) 64) ->
  compress8 Allocation (oct_map to h) (oct_map to msg) count lastblock lastnode (mem w) = Ok (tt, m) ->
  exists w', compress8_b h msg count lastblock lastnode w = Ok (tt, w') /\ mem w' = m /\ keeps w w' /\ old w'.
Proof. exact compress8_borrows. Qed.
Print Assumptions C65_avx2_compress8.
Theorem C65_avx2_vectorize_words8 : forall w p m, old w -> exclusive w p 256 ->
  vectorize_words8 Allocation (to p) (mem w) = Ok (tt, m) ->
  exists w', vectorize_words8_b p w = Ok (tt, w') /\ mem w' = m /\ keeps w w' /\ old w'.
Proof. exact vectorize_words8_borrows. Qed.
Print Assumptions C65_avx2_vectorize_words8.
Theorem C65_avx2_compress8_vectorized : forall w p msg cl ch lb ln m, old w -> exclusive w p 256 -> (forall l, frozen w (proj l msg) 64) ->
  frozen w cl 32 -> frozen w ch 32 -> frozen w lb 32 -> frozen w ln 32 ->
  compress8_vectorized Allocation (to p) (oct_map to msg) (to cl) (to ch) (to lb) (to ln) (mem w) = Ok (tt, m) ->
  exists w', compress8_vectorized_b p msg cl ch lb ln w = Ok (tt, w') /\ mem w' = m /\ keeps w w' /\ old w'.
Proof. exact compress8_vectorized_borrows. Qed.
Print Assumptions C65_avx2_compress8_vectorized.
(** Inputs of the same length, [1 + q] blocks *)
Theorem C65_avx2_hash8_exact : forall w params input n hs m q, old w -> (forall l, frozen w (proj l input) (64 * S q)) -> n = oct_const (64 * S q) ->
  hash8_exact Allocation params (oct_map to input) (64 * S q) (mem w) = Ok (hs, m) ->
  exists w', hash8_exact_b params input n w = Ok (hs, w') /\ mem w' = m /\ keeps w w' /\ old w'.
Proof. exact hash8_exact_borrows. Qed.
Print Assumptions C65_avx2_hash8_exact.
(** [sse41::compress] does: every call of it that C58 says does its work is undefined
    behaviour, whatever the borrows of the caller. *)
Theorem C65_sse41_compress_refuted : forall w iv h msg count lastblock lastnode m, old w ->
  compress Allocation (to iv) (to h) (to msg) count lastblock lastnode (mem w) = Ok (tt, m) ->
  compress_b Word iv h msg count lastblock lastnode w = UB.
Proof. exact compress_word_refuted. Qed.
Print Assumptions C65_sse41_compress_refuted.
(** It is the borrows of single words that are forbidden: with [h.as_ptr()] for [&h[0]],
    [h.as_ptr().add(4)] for [&h[4]], and so on, it would be as good as the AVX2 routines.
    This includes reading [h] between making [h.as_mut_ptr()] and writing through it. *)
Theorem C65_sse41_compress_repaired : forall w iv h msg count lastblock lastnode m, old w -> frozen w iv 32 -> exclusive w h 32 -> frozen w msg 64 ->
  compress Allocation (to iv) (to h) (to msg) count lastblock lastnode (mem w) = Ok (tt, m) ->
  exists w', compress_b Words iv h msg count lastblock lastnode w = Ok (tt, w') /\ mem w' = m /\ keeps w w' /\ old w'.
Proof. exact compress_words_borrows. Qed.
Print Assumptions C65_sse41_compress_repaired.

(** [sse41::hash4_exact] writes its results through borrows of single bytes.  (The borrows
    kept are those of the allocations there are before the call, its locals are new.) *)
Theorem C65_sse41_hash4_exact_refuted : forall w places params input n hs m q, old w -> (forall l, frozen w (qproj l input) (64 * S q)) -> (forall l, qproj l n = 64 * S q) ->
  hash4_exact Allocation places params (to (q0 input)) (to (q1 input)) (to (q2 input)) (to (q3 input)) (64 * S q) (mem w) = Ok (hs, m) ->
  hash4_exact_b Word places params input n w = UB.
Proof. exact hash4_exact_word_refuted. Qed.
Print Assumptions C65_sse41_hash4_exact_refuted.
Theorem C65_sse41_hash4_exact_repaired : forall w places params input n hs m q, old w -> (forall l, frozen w (qproj l input) (64 * S q)) -> (forall l, qproj l n = 64 * S q) ->
  hash4_exact Allocation places params (to (q0 input)) (to (q1 input)) (to (q2 input)) (to (q3 input)) (64 * S q) (mem w) = Ok (hs, m) ->
  exists w', hash4_exact_b Words places params input n w = Ok (hs, w') /\ mem w' = m /\ keeps_live w w' /\ old w'.
Proof. exact hash4_exact_words_borrows. Qed.
Print Assumptions C65_sse41_hash4_exact_repaired.
(** What the rules forbid: after a write through a [&mut], all that was made from it is dead;
    after a read, the [&mut] made from it are, and the [&] are not; a [&] does not write. *)
Theorem C65_rules_write : forall t up s, ~ In t (map owner up) ->
  on_write t (up ++ mk_item Unique t :: s) = Some (mk_item Unique t :: s) /\
  forall u, In u (map owner up) -> ~ In u (map owner s) ->
    on_read u (mk_item Unique t :: s) = None /\ on_write u (mk_item Unique t :: s) = None.
Proof. exact write_invalidates. Qed.
Print Assumptions C65_rules_write.
Theorem C65_rules_read : forall t up s, ~ In t (map owner up) ->
  exists s', on_read t (up ++ mk_item Unique t :: s) = Some s' /\
  (forall u, ~ In u (map owner s) -> u <> t -> (forall i, In i up -> owner i = u -> allows i = Unique) -> on_read u s' = None /\ on_write u s' = None) /\
  (forall i, In i up -> allows i = SharedRO -> exists s'', on_read (owner i) s' = Some s'').
Proof. exact read_invalidates. Qed.
Print Assumptions C65_rules_read.
Theorem C65_rules_shared : forall t s, (forall i, In i s -> owner i = t -> allows i = SharedRO) -> on_write t s = None.
Proof. exact shared_no_write. Qed.
Print Assumptions C65_rules_shared.
(** Raw pointers made from the same [&mut] may be used in turns. *)
Theorem C65_rules_raw : forall t ts s new, In t ts ->
  on_write t (map (mk_item SharedRW) ts ++ s) = Some (map (mk_item SharedRW) ts ++ s) /\
  on_read t (map (mk_item SharedRW) ts ++ s) = Some (map (mk_item SharedRW) ts ++ s) /\
  new_raw t new (map (mk_item SharedRW) ts ++ s) = Some (map (mk_item SharedRW) (new :: ts) ++ s).
Proof. exact raw_coexist. Qed.
Print Assumptions C65_rules_raw.
(** A tag that is protected, as the arguments of a function are until it returns: a write
    through what it was made from, and for a [&mut] a read too, is undefined behaviour. *)
Theorem C65_rules_protected_write : forall w t p bs k up s j, offset (to p) <= k < offset (to p) + length bs ->
  borrows w (alloc (to p)) k = up ++ mk_item Unique (tag p) :: s -> ~ In (tag p) (map owner up) ->
  In j up -> ~ In (owner j) (map owner s) -> In (owner j) (held w) ->
  forall r, write_b t p bs w <> Ok r.
Proof. exact write_protected. Qed.
Print Assumptions C65_rules_protected_write.
Theorem C65_rules_protected_read : forall w t p k up s j, offset (to p) <= k < offset (to p) + size_of t ->
  borrows w (alloc (to p)) k = up ++ mk_item Unique (tag p) :: s -> ~ In (tag p) (map owner up) ->
  In j up -> allows j = Unique -> ~ In (owner j) (map owner s) -> In (owner j) (held w) ->
  forall r, read_b t p w <> Ok r.
Proof. exact read_protected. Qed.
Print Assumptions C65_rules_protected_read.
(** The same for a function that returns while a protected borrow of one of its locals is
    still there. *)
Theorem C65_rules_locals : forall A (x : bcode A) w a w' b o k i, x w = Ok (a, w') -> length (mem w) <= b -> nth_error (mem w') b = Some o ->
  k < length (bytes o) -> In i (borrows w' b k) -> In (owner i) (held w') -> body_b x w = UB.
Proof. exact @return_protected. Qed.
Print Assumptions C65_rules_locals.
Definition with_local (guarded : bool) : bcode nat :=
  p <== local_b 16 [x01; x02] ;;
  fun w => Ok (length (mem w), mk_world (mem w) (borrows w) (next w) (if guarded then [tag p] else [])).
Example C65_example_locals : forall w, w = mk_world [] (fun _ _ => []) 5 [] ->
  body_b (with_local true) w = UB /\ exists w', body_b (with_local false) w = Ok (1, w') /\ mem w' = [].
Proof. intros w ->. split; [lazy; reflexivity|]. eexists; split; [lazy; reflexivity|reflexivity]. Qed.
Example C65_example_rules :
  let up := [mk_item SharedRO 3; mk_item Unique 2] in
  ~ In 1 (map owner up) /\ In 2 (map owner up) /\ ~ In 2 (map owner [mk_item Unique 0]) /\
  on_read 1 (up ++ [mk_item Unique 1; mk_item Unique 0]) = Some [mk_item SharedRO 3; mk_item Disabled 2; mk_item Unique 1; mk_item Unique 0] /\
  on_write 3 (up ++ [mk_item Unique 1; mk_item Unique 0]) = None.
Proof. cbn. repeat split; try reflexivity; try (intros H; repeat (destruct H as [H|H]; [discriminate H|]); exact H). tauto. Qed.

(** A [&mut] to the first two bytes, from the owner of all; the owner reads and writes them
    while it is protected, and when it is not. *)
Definition two_bytes (held : list nat) : world :=
  mk_world [mk_object 16 [x01; x02]] (fun _ _ => [mk_item Unique 1; mk_item Unique 0]) 2 held.
Definition its_owner := mk_bpointer (mk_pointer 0 0 0 2 true) 0.
Example C65_example_protected :
  (exists w, read_b (Array U8 2) its_owner (two_bytes []) = Ok ([x01; x02], w) /\ borrows w 0 1 = [mk_item Disabled 1; mk_item Unique 0]) /\
  (exists w, write_b (Array U8 2) its_owner [x03; x04] (two_bytes []) = Ok (tt, w) /\ borrows w 0 1 = [mk_item Unique 0]) /\
  read_b (Array U8 2) its_owner (two_bytes [1]) = UB /\ write_b (Array U8 2) its_owner [x03; x04] (two_bytes [1]) = UB /\
  (forall r, write_b (Array U8 2) its_owner [x03; x04] (two_bytes [1]) <> Ok r).
Proof.
  split; [eexists; split; [lazy; reflexivity|reflexivity]|]. split; [eexists; split; [lazy; reflexivity|reflexivity]|].
  split; [lazy; reflexivity|]. split; [lazy; reflexivity|].
  apply (C65_rules_protected_write (two_bytes [1]) (Array U8 2) its_owner [x03; x04] 1 [mk_item Unique 1] [] (mk_item Unique 1)); cbn; try tauto.
  - split; repeat constructor.
  - intros [H|[]]. discriminate H.
Qed.

(** The memory of C58, the state borrowed twice, the rest shared. *)
Definition small_world : world :=
  mk_world small_memory (fun a _ => if Nat.eqb a 1 then [mk_item Unique 1; mk_item Unique 0] else [mk_item SharedRO 2; mk_item Unique 0]) 3 [1; 2].
Definition b_iv := mk_bpointer small_iv 2.
Definition b_h := mk_bpointer small_h 1.
Definition b_msg := mk_bpointer small_msg 2.
Example C65_example_compress :
  old small_world /\ frozen small_world b_iv 32 /\ exclusive small_world b_h 32 /\ frozen small_world b_msg 64 /\
  (exists m, compress Allocation small_iv small_h small_msg (of_N 64 64) (umax 32) (uzero 32) (mem small_world) = Ok (tt, m)) /\
  compress_b Word b_iv b_h b_msg (of_N 64 64) (umax 32) (uzero 32) small_world = UB.
Proof.
  assert (C : exists m, compress Allocation small_iv small_h small_msg (of_N 64 64) (umax 32) (uzero 32) (mem small_world) = Ok (tt, m)).
  { destruct C58_example_compress as (H1 & H2 & H3 & H4 & H5 & H6).
    destruct (C58_sse41_compress small_memory small_iv small_h small_msg _ _ (of_N 64 64) (umax 32) (uzero 32) H1 H2 H3 H4 H5 H6) as (w' & E & _).
    eexists. exact E. }
  assert (O : old small_world).
  { split; [|repeat constructor]. intros a k. cbn. destruct a as [|[|a]]; repeat constructor. }
  split; [exact O|]. split; [|split; [|split; [|split; [exact C|]]]].
  - intros k _. exists [], [mk_item Unique 0]. split; [reflexivity|constructor].
  - intros k _. exists [mk_item Unique 0]. reflexivity.
  - intros k _. exists [], [mk_item Unique 0]. split; [reflexivity|constructor].
  - destruct C as (m & E). exact (C65_sse41_compress_refuted small_world b_iv b_h b_msg _ _ _ m O E).
Qed.
(** Eight transposed states; and the same through a pointer that the owner has invalidated by
    writing, or that was made from a [&]. *)
Definition states_world (s : stack) : world := mk_world (states_at 64) (fun _ _ => s) 2 [1].
Example C65_example_vectorize :
  old (states_world [mk_item Unique 1; mk_item Unique 0]) /\
  exclusive (states_world [mk_item Unique 1; mk_item Unique 0]) (mk_bpointer the_states 1) 256 /\
  (exists m, vectorize_words8 Allocation the_states (states_at 64) = Ok (tt, m)) /\
  on_write 0 [mk_item Unique 1; mk_item Unique 0] = Some [mk_item Unique 0] /\
  vectorize_words8_b (mk_bpointer the_states 1) (states_world [mk_item Unique 0]) = UB /\
  vectorize_words8_b (mk_bpointer the_states 1) (states_world [mk_item SharedRO 1; mk_item Unique 0]) = UB.
Proof.
  split; [split; [intros a k|]; repeat constructor|]. split; [intros k _; exists [mk_item Unique 0]; reflexivity|]. split; [eexists; lazy; reflexivity|].
  split; [reflexivity|]. split; lazy; reflexivity.
Qed.
(** Eight overlapping inputs of one block. *)
Definition input_world : world := mk_world input_memory (fun _ _ => [mk_item SharedRO 1; mk_item Unique 0]) 2 [1].
Definition b_inputs : oct bpointer := oct_map (fun i => mk_bpointer (input_at i) 1) (Oct 0 1 2 3 4 5 6 8).
Example C65_example_hash8_exact : old input_world /\ (forall l, frozen input_world (proj l b_inputs) (64 * 1)) /\
  exists hs, hash8_exact Allocation Params_new (oct_map to b_inputs) (64 * 1) (mem input_world) = Ok (hs, mem input_world).
Proof.
  split; [split; [intros a k|]; repeat constructor|]. split; [intros l k _; exists [], [mk_item Unique 0]; split; [destruct l; reflexivity|constructor]|].
  destruct C58_example_exact as (H & _ & y & E).
  pose proof (C58_avx2_hash8_exact Allocation input_memory Params_new (oct_map to b_inputs)
    (Oct (block_from 0) (block_from 1) (block_from 2) (block_from 3) (block_from 4) (block_from 5) (block_from 6) (block_from 8))) as K.
  exists y. rewrite E in K. apply K; clear K E.
  - intros l; destruct l; apply H; cbn; tauto.
  - intros l; destruct l; reflexivity.
  - intros l; destruct l; apply H; cbn; tauto.
  - right. exists y. reflexivity.
Qed.
(** Four of them. *)
Definition b_inputs4 : quad bpointer := Quad (mk_bpointer (input_at 0) 1) (mk_bpointer (input_at 3) 1) (mk_bpointer (input_at 3) 1) (mk_bpointer (input_at 7) 1).
Example C65_example_hash4_exact : (forall l, frozen input_world (qproj l b_inputs4) (64 * 1)) /\
  exists hs, hash4_exact Allocation (Quad 0 32 64 96)%N Params_new (input_at 0) (input_at 3) (input_at 3) (input_at 7) (64 * 1) (mem input_world) = Ok (hs, mem input_world).
Proof.
  split; [intros l k _; exists [], [mk_item Unique 0]; split; [destruct l; reflexivity|constructor]|].
  destruct C58_example_exact as (H & (y & E) & _). exists y.
  destruct (H 0 ltac:(cbn; tauto)) as [R0 B0]. destruct (H 3 ltac:(cbn; tauto)) as [R3 B3]. destruct (H 7 ltac:(cbn; tauto)) as [R7 B7].
  exact (C58_sse41_hash4_exact input_memory (Quad 0 32 64 96)%N Params_new (input_at 0) (input_at 3) (input_at 3) (input_at 7)
    (block_from 0) (block_from 3) (block_from 3) (block_from 7) y R0 R3 R3 R7 B0 B3 B3 B7 E).
Qed.
(** Eight states next to each other, their messages, and eight words of each kind. *)
Definition eight_world : world :=
  mk_world [mk_object 4096 (concat (repeat (words_bytes IV) 8)); mk_object 8192 (ramp 64)]
    (fun a _ => if Nat.eqb a 0 then [mk_item Unique 1; mk_item Unique 0] else [mk_item SharedRO 2; mk_item Unique 0]) 3 [1; 2].
Definition b_states : oct bpointer := oct_map (fun i => mk_bpointer (mk_pointer 0 (32 * i) (32 * i) (32 * i + 32) true) 1) (Oct 0 1 2 3 4 5 6 7).
Definition b_block : bpointer := mk_bpointer (mk_pointer 1 0 0 64 false) 2.
Definition b_words : bpointer := mk_bpointer (mk_pointer 1 32 32 64 false) 2.
Example C65_example_compress8 : old eight_world /\ (forall l, exclusive eight_world (proj l b_states) 32) /\ frozen eight_world b_block 64 /\ frozen eight_world b_words 32 /\
  exclusive eight_world (mk_bpointer the_states 1) 256 /\
  (forall l, reference (mem eight_world) (proj l (oct_map to b_states)) StateWords_ty true) /\ reference (mem eight_world) (to b_block) Block_ty false /\
  reference (mem eight_world) the_states Words8_ty true /\ reference (mem eight_world) (to b_words) AlignedWords8_ty false.
Proof.
  split; [split; [intros a k; cbn; destruct a as [|a]|]; repeat constructor|].
  split; [intros l k _; exists [mk_item Unique 0]; destruct l; reflexivity|].
  split; [intros k _; exists [], [mk_item Unique 0]; split; [reflexivity|constructor]|].
  split; [intros k _; exists [], [mk_item Unique 0]; split; [reflexivity|constructor]|].
  split; [intros k _; exists [mk_item Unique 0]; reflexivity|].
  split; [|split; [|split]].
  - intros l. exists (mk_object 4096 (concat (repeat (words_bytes IV) 8))). destruct l; (split; [reflexivity|]; split; [apply Nat.leb_le; reflexivity|]; split; [apply N.mod_divide; [discriminate|reflexivity]|];
      split; [|split; [|reflexivity]]; apply Nat.leb_le; reflexivity).
  - exists (mk_object 8192 (ramp 64)). split; [reflexivity|]. split; [apply Nat.leb_le; reflexivity|]. split; [exists 8192%N; reflexivity|].
    split; [|split; [|discriminate]]; apply Nat.leb_le; reflexivity.
  - exists (mk_object 4096 (concat (repeat (words_bytes IV) 8))). split; [reflexivity|]. split; [apply Nat.leb_le; reflexivity|]. split; [exists 128%N; reflexivity|].
    split; [|split; [|reflexivity]]; apply Nat.leb_le; reflexivity.
  - exists (mk_object 8192 (ramp 64)). split; [reflexivity|]. split; [apply Nat.leb_le; reflexivity|]. split; [exists 257%N; reflexivity|].
    split; [|split; [|discriminate]]; apply Nat.leb_le; reflexivity.
Qed.
Example C65_example_compress8_runs : exists m,
  compress8 Allocation (oct_map to b_states) (oct_map to (oct_const b_block)) (oct_const (of_N 64 64)) (oct_const (umax 32)) (oct_const (uzero 32)) (mem eight_world) = Ok (tt, m).
Proof.
  destruct C65_example_compress8 as (_ & _ & _ & _ & _ & R & B & _).
  destruct (C58_avx2_compress8 Allocation (mem eight_world) (oct_map to b_states) (oct_map to (oct_const b_block)) (oct_const (of_N 64 64)) (oct_const (umax 32)) (oct_const (uzero 32))
    (oct_const IV) (oct_const (ramp 64))) as (m & w & E & _); [exact R| | | | |exists m; exact E].
  - intros l. destruct l; exact B.
  - intros l. destruct l; lazy; reflexivity.
  - intros l. destruct l; lazy; reflexivity.
  - intros l l' N. destruct l, l'; try (exfalso; apply N; reflexivity); right; cbn; try (left; apply Nat.leb_le; reflexivity); right; apply Nat.leb_le; reflexivity.
Qed.
