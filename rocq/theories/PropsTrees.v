(** * Property C66: the unsafe code under Tree Borrows. *)
From Verif Require Import Base Consts Intrinsics Portable Params Views Memory MemoryFacts Trees TreeFacts TreeUse Witness PropsMemory.
From Verif Require Sse41 Avx2 PropsBorrows.
Local Open Scope nat_scope.

(** C66: called with pointers that may be read and written where the code does, and a state
    apart from what is only read, the pointer-based routines of both files use no pointer that
    Tree Borrows forbid to use: whenever the code on memory runs (C58 says when, and what it
    does), the code with borrows does the same to memory.  What the caller could read or write
    elsewhere, or with the pointers it passed, it still can ([spares]). *)
Theorem C66_avx2_compress8 : forall w h msg count lastblock lastnode m, old w ->
  (forall l, writable w (proj l h) 32) -> (forall l l', l <> l' -> apart (proj l h) 32 (proj l' h) 32) ->
  (forall l, readable w (proj l msg) 64) -> (forall l l', apart (proj l msg) 64 (proj l' h) 32) ->
  compress8 Allocation (oct_map to h) (oct_map to msg) count lastblock lastnode (mem w) = Ok (tt, m) ->
  exists w', compress8_tb h msg count lastblock lastnode w = Ok (tt, w') /\ mem w' = m /\ old w' /\ spares w w' (each 32 h) (each 64 msg).
Proof. exact compress8_trees. Qed.
Print Assumptions C66_avx2_compress8.
Theorem C66_avx2_vectorize_words8 : forall w p m, old w -> writable w p 256 ->
  vectorize_words8 Allocation (to p) (mem w) = Ok (tt, m) ->
  exists w', vectorize_words8_tb p w = Ok (tt, w') /\ mem w' = m /\ old w' /\ spares w w' [(p, 256)] [].
Proof. exact vectorize_words8_trees. Qed.
Print Assumptions C66_avx2_vectorize_words8.
Theorem C66_avx2_compress8_vectorized : forall w p msg cl ch lb ln m, old w -> writable w p 256 ->
  (forall l, readable w (proj l msg) 64 /\ apart (proj l msg) 64 p 256) ->
  (forall q, In q [cl; ch; lb; ln] -> readable w q 32 /\ apart q 32 p 256) ->
  compress8_vectorized Allocation (to p) (oct_map to msg) (to cl) (to ch) (to lb) (to ln) (mem w) = Ok (tt, m) ->
  exists w', compress8_vectorized_tb p msg cl ch lb ln w = Ok (tt, w') /\ mem w' = m /\ old w' /\
    spares w w' [(p, 256)] (each 64 msg ++ map (fun q => (q, 32)) [cl; ch; lb; ln]).
Proof. exact compress8_vectorized_trees. Qed.
Print Assumptions C66_avx2_compress8_vectorized.
(** Inputs of the same length, [1 + q] blocks *)
Theorem C66_avx2_hash8_exact : forall w params input n hs m q, old w -> (forall l, readable w (proj l input) (64 * S q)) -> n = oct_const (64 * S q) ->
  hash8_exact Allocation params (oct_map to input) (64 * S q) (mem w) = Ok (hs, m) ->
  exists w', hash8_exact_tb params input n w = Ok (hs, w') /\ mem w' = m /\ old w' /\ spares w w' [] (each (64 * S q) input).
Proof. exact hash8_exact_trees. Qed.
Print Assumptions C66_avx2_hash8_exact.
(** [sse41::compress] and [sse41::hash4_exact] too, as they are: what Stacked Borrows forbid
    (C65), to go beyond the bytes a reference was made for, Tree Borrows allow. *)
Theorem C66_sse41_compress : forall w iv h msg count lastblock lastnode m, old w ->
  readable w iv 32 -> writable w h 32 -> readable w msg 64 -> apart iv 32 h 32 -> apart msg 64 h 32 ->
  compress Allocation (to iv) (to h) (to msg) count lastblock lastnode (mem w) = Ok (tt, m) ->
  exists w', compress_tb iv h msg count lastblock lastnode w = Ok (tt, w') /\ mem w' = m /\ old w' /\ spares w w' [(h, 32)] [(iv, 32); (msg, 64)].
Proof. exact compress_trees. Qed.
Print Assumptions C66_sse41_compress.
Theorem C66_sse41_hash4_exact : forall w places params input n hs m q, old w -> (forall l, readable w (qproj l input) (64 * S q)) -> (forall l, qproj l n = 64 * S q) ->
  hash4_exact Allocation places params (to (q0 input)) (to (q1 input)) (to (q2 input)) (to (q3 input)) (64 * S q) (mem w) = Ok (hs, m) ->
  exists w', hash4_exact_tb places params input n w = Ok (hs, w') /\ mem w' = m /\ old w' /\ spares w w' [] (each4 (64 * S q) input).
Proof. exact hash4_exact_trees. Qed.
Print Assumptions C66_sse41_hash4_exact.

(** What the rules forbid: after a write, every pointer with a tag above it that the writer
    does not have above it is dead, for the bytes written. *)
Theorem C66_rules_write : forall held up a i n s s', over held true up a i n s = Some s' ->
  forall k held' wr other u, i <= k < i + n -> In u other -> ~ In u up -> over held' wr other a k 1 s' = None.
Proof. exact write_invalidates. Qed.
Print Assumptions C66_rules_write.
(** After a read, what could be read still can; what others have written through becomes read
    only; what was not written through yet, and is not protected, may still be. *)
Theorem C66_rules_read : forall held up a i n s s', over held false up a i n s = Some s' -> forall k other, i <= k < i + n ->
  (forall u, perm (s a k u) = Active -> used (s a k u) = true) ->
  ((exists s1, over held false other a k 1 s = Some s1) -> exists s1, over held false other a k 1 s' = Some s1) /\
  (forall u, In u other -> ~ In u up -> perm (s a k u) = Active -> over held true other a k 1 s' = None) /\
  ((exists s1, over held true other a k 1 s = Some s1) -> (forall u, In u other -> ~ In u up -> perm (s a k u) = Reserved /\ ~ In u held) ->
     (forall u, In u held -> In u up -> In u other) -> exists s1, over held true other a k 1 s' = Some s1).
Proof. exact read_invalidates. Qed.
Print Assumptions C66_rules_read.
(** A [&] does not write, nor what is made from it; a [&mut] may be made from what may be
    written, and both may be written then. *)
Theorem C66_rules_shared : forall p n w q w' held' i m, retag Frozen p n w = Ok (q, w') -> 0 < m ->
  over held' true (family w' (tag q)) (alloc (to q)) i m (perms w') = None.
Proof. exact shared_no_write. Qed.
Print Assumptions C66_rules_shared.
Theorem C66_rules_lent : forall p n w, old w -> writable w p n ->
  exists q w', retag Reserved p n w = Ok (q, w') /\ writable w' q n /\ writable w' p n /\ old w'.
Proof. exact retag_lends. Qed.
Print Assumptions C66_rules_lent.
(** While a function runs, nobody else may write what was accessed through a reference passed
    to it, nor read what was written through it; if somebody reads what was not, it may no
    longer be written through the reference.  When the function returns, what was written
    through the reference counts as written once more. *)
Theorem C66_rules_protected : forall held wr up a i n s k t, i <= k < i + n -> In t held -> ~ In t up -> used (s a k t) = true ->
  perm (s a k t) = Active \/ wr = true /\ perm (s a k t) <> Disabled -> over held wr up a i n s = None.
Proof. exact protected_forbids. Qed.
Print Assumptions C66_rules_protected.
Theorem C66_rules_conflict : forall held up a i n s s' k t other, over held false up a i n s = Some s' -> i <= k < i + n -> In t held -> ~ In t up -> In t other ->
  perm (s a k t) = Reserved -> over held true other a k 1 s' = None.
Proof. exact protected_conflict. Qed.
Print Assumptions C66_rules_conflict.
Theorem C66_rules_return : forall held fam t a n s s' k u, release held fam t a n s = Some s' -> k < n -> perm (s a k t) = Active -> used (s a k t) = true ->
  ~ In u (fam t) -> ~ In t (fam u) -> perm (s' a k u) = Disabled.
Proof. exact release_writes. Qed.
Print Assumptions C66_rules_return.
(** To use a pointer that may not be used, or to end a protection that may not be, is
    undefined behaviour. *)
Theorem C66_rules_stop : forall w p n,
  (forall x m, read_unaligned Allocation (to p) n (mem w) = Ok (x, m) ->
     over (held w) false (family w (tag p)) (alloc (to p)) (offset (to p)) n (perms w) = None -> read_unaligned_tb p n w = UB) /\
  (forall b x m, write_unaligned Allocation (to p) b (mem w) = Ok (x, m) ->
     over (held w) true (family w (tag p)) (alloc (to p)) (offset (to p)) (length b) (perms w) = None -> write_unaligned_tb p b w = UB) /\
  (forall f, over (held w) false (family w (tag p)) (alloc (to p)) (offset (to p)) n (perms w) = None -> retag f p n w = UB) /\
  (forall (x : bcode unit) ps w', x (mk_world (mem w) (family w) (perms w) (next w) (map tag ps ++ held w)) = Ok (tt, w') ->
     releases (held w') (family w') (mem w') ps (perms w') = None -> protecting ps x w = UB).
Proof. exact forbidden_is_ub. Qed.
Print Assumptions C66_rules_stop.
(** The same for a function that returns while something protected uses one of its locals;
    and a new reference is of no use for other allocations. *)
Theorem C66_rules_locals : forall A (x : bcode A) w a w' b o k t, x w = Ok (a, w') -> length (mem w) <= b -> nth_error (mem w') b = Some o ->
  k < length (bytes o) -> In t (held w') -> used (perms w' b k t) = true -> body_tb x w = UB.
Proof. exact @return_protected. Qed.
Print Assumptions C66_rules_locals.
Theorem C66_rules_elsewhere :
  (forall first p n w q w', retag first p n w = Ok (q, w') ->
     forall held write b i m, b <> alloc (to p) -> 0 < m -> over held write (family w' (tag q)) b i m (perms w') = None) /\
  (forall a bs w q w', local_tb a bs w = Ok (q, w') ->
     forall held write b i m, b <> length (mem w) -> 0 < m -> over held write (family w' (tag q)) b i m (perms w') = None).
Proof. exact (conj elsewhere local_elsewhere). Qed.
Print Assumptions C66_rules_elsewhere.
(** A function with a local of two bytes that is, or is not, protected when it returns. *)
Definition with_local (guarded : bool) : bcode nat :=
  p <== local_tb 16 [x01; x02] ;;
  fun w => Ok (length (mem w), mk_world (mem w) (family w) (perms w) (next w) (if guarded then [tag p] else [])).
Example C66_example_locals : forall w, w = mk_world [] (fun _ => []) (fun _ _ _ => absent) 5 [] ->
  body_tb (with_local true) w = UB /\ (exists w', body_tb (with_local false) w = Ok (1, w') /\ mem w' = []) /\
  exists q w', local_tb 16 [x01; x02] w = Ok (q, w') /\ over [] false (family w' (tag q)) 0 1 1 (perms w') <> None /\
    over [] false (family w' (tag q)) 1 1 1 (perms w') = None.
Proof.
  intros w ->. split; [lazy; reflexivity|]. split; [eexists; split; [lazy; reflexivity|reflexivity]|].
  eexists _, _. split; [reflexivity|]. split; [discriminate|reflexivity].
Qed.

(** Three tags: an owner (0), a [&mut] made from it (1), and a [&] made from that (2). *)
Definition a_tree (_ _ t : nat) : cell := match t with 0 => mk_cell Active true | 1 => mk_cell Reserved true | _ => mk_cell Frozen true end.
Example C66_example_rules :
  (exists s, over [] true [1; 0] 7 0 4 a_tree = Some s /\ over [] false [2; 1; 0] 7 3 1 s = None /\ perm (s 7 3 1) = Active /\
     exists s1, over [] false [0] 7 3 1 s = Some s1 /\ over [] true [1; 0] 7 3 1 s1 = None /\ over [] true [1; 0] 7 2 1 s1 <> None) /\
  (exists s, over [] false [0] 7 0 4 a_tree = Some s /\ over [] true [1; 0] 7 3 1 s <> None /\ over [] true [2; 1; 0] 7 3 1 s = None) /\
  over [] true [1; 0] 7 4 1 a_tree <> None.
Proof.
  split; [|split].
  - eexists. split; [reflexivity|]. split; [reflexivity|]. split; [reflexivity|]. eexists. split; [reflexivity|]. split; [reflexivity|discriminate].
  - eexists. split; [reflexivity|]. split; [discriminate|reflexivity].
  - discriminate.
Qed.
(** The same with 1 protected: only it, and what is below it, may write; and after a write
    through it, only they may read.  If the owner reads first, it may not be written.  When
    the protection ends, another [&mut] of the owner's (5) is disabled. *)
Example C66_example_protected :
  over [1] true [0] 7 0 4 a_tree = None /\
  (exists s, over [1] true [1; 0] 7 0 4 a_tree = Some s /\ over [1] false [0] 7 3 1 s = None /\ over [1] false [0] 7 4 1 s <> None /\
     exists s1, release [1] (fun t => match t with 0 => [0] | 1 => [1; 0] | t => [t; 0] end) 1 7 5 (fun a k t => if Nat.eqb t 5 then mk_cell Reserved true else s a k t) = Some s1 /\
       perm (s1 7 3 5) = Disabled /\ perm (s1 7 4 5) = Reserved) /\
  (exists s, over [1] false [0] 7 0 4 a_tree = Some s /\ over [1] true [1; 0] 7 3 1 s = None /\ over [1] true [1; 0] 7 4 1 s <> None /\ over [] true [1; 0] 7 3 1 s <> None).
Proof.
  split; [reflexivity|]. split.
  - eexists. split; [reflexivity|]. split; [reflexivity|]. split; [discriminate|]. eexists. split; [reflexivity|]. split; reflexivity.
  - eexists. split; [reflexivity|]. split; [reflexivity|]. split; discriminate.
Qed.

(** The memory of C58.  Allocation [a] is owned by tag [a]; from it is made the reference 3,
    4 or 5, and the state is borrowed once more (6).  The three references passed are
    protected. *)
Definition small_family (t : nat) : list nat :=
  match t with 3 => [3; 0] | 4 => [4; 1] | 5 => [5; 2] | 6 => [6; 4; 1] | t => [t] end.
Definition small_world : world :=
  mk_world small_memory small_family
    (fun a _ t => match a, t with
                  | 0, 0 | 1, 1 | 2, 2 | 1, 4 => mk_cell Active true
                  | 0, 3 | 2, 5 => mk_cell Frozen true
                  | 1, 6 => mk_cell Reserved true
                  | _, _ => absent
                  end) 7 [3; 5; 6].
Definition t_iv := mk_bpointer small_iv 3.
Definition t_h := mk_bpointer small_h 6.
Definition t_msg := mk_bpointer small_msg 5.
Example C66_example_compress :
  old small_world /\ readable small_world t_iv 32 /\ writable small_world t_h 32 /\ readable small_world t_msg 64 /\ apart t_iv 32 t_h 32 /\ apart t_msg 64 t_h 32 /\
  exists m, compress Allocation (to t_iv) (to t_h) (to t_msg) (of_N 64 64) (umax 32) (uzero 32) (mem small_world) = Ok (tt, m).
Proof.
  split.
  { split; [|repeat constructor]. intros t H. change (next small_world) with 7 in *. do 7 (destruct t as [|t]; [repeat constructor|]). do 7 apply le_S_n in H. inversion H. }
  split; [split; [apply Nat.leb_le; reflexivity|intros k _; split; [intros t [<-|[<-|[]]]; discriminate|intros t [<-|[<-|[<-|[]]]] _; discriminate]]|].
  split; [split; [apply Nat.leb_le; reflexivity|intros k _; split; [intros t [<-|[<-|[<-|[]]]]; cbn; auto|intros t [<-|[<-|[<-|[]]]] N; cbn; auto; destruct N; cbn; auto]]|].
  split; [split; [apply Nat.leb_le; reflexivity|intros k _; split; [intros t [<-|[<-|[]]]; discriminate|intros t [<-|[<-|[<-|[]]]] _; discriminate]]|].
  split; [left; discriminate|]. split; [left; discriminate|].
  destruct C58_example_compress as (H1 & H2 & H3 & H4 & H5 & H6).
  destruct (C58_sse41_compress small_memory small_iv small_h small_msg _ _ (of_N 64 64) (umax 32) (uzero 32) H1 H2 H3 H4 H5 H6) as (w' & E & _).
  eexists. exact E.
Qed.
(** Eight transposed states, owner 0, borrowed 1 and protected; and the same through a pointer
    that the owner has invalidated by writing, or that is a [&]; or through the owner's. *)
Definition states_world (p : permission) (held : list nat) : world :=
  mk_world (states_at 64) (fun t => match t with 1 => [1; 0] | t => [t] end) (fun _ _ t => match t with 1 => mk_cell p true | _ => mk_cell Active true end) 2 held.
Lemma states_old p : old (states_world p [1]).
Proof. split; [|repeat constructor]. intros t H. change (next (states_world p [1])) with 2 in *. do 2 (destruct t as [|t]; [repeat constructor|]). do 2 apply le_S_n in H. inversion H. Qed.
Example C66_example_vectorize :
  old (states_world Reserved [1]) /\ writable (states_world Reserved [1]) (mk_bpointer the_states 1) 256 /\
  (exists m, vectorize_words8 Allocation the_states (states_at 64) = Ok (tt, m)) /\
  vectorize_words8_tb (mk_bpointer the_states 1) (states_world Disabled []) = UB /\
  vectorize_words8_tb (mk_bpointer the_states 1) (states_world Frozen []) = UB /\
  vectorize_words8_tb (mk_bpointer the_states 0) (states_world Reserved [1]) = UB /\
  vectorize_words8_tb (mk_bpointer the_states 1) (states_world Conflicted [1]) = UB.
Proof.
  split; [apply states_old|]. split; [split; [apply Nat.leb_le; reflexivity|intros k _; split; [intros t [<-|[<-|[]]]; cbn; auto|intros t [<-|[]] N; destruct N; cbn; auto]]|].
  split; [eexists; lazy; reflexivity|]. split; [lazy; reflexivity|]. split; [lazy; reflexivity|]. split; lazy; reflexivity.
Qed.
(** Eight overlapping inputs of one block, and four. *)
Definition input_world : world :=
  mk_world input_memory (fun t => match t with 1 => [1; 0] | t => [t] end) (fun _ _ t => match t with 1 => mk_cell Frozen true | _ => mk_cell Active true end) 2 [1].
Definition t_inputs : oct bpointer := oct_map (fun i => mk_bpointer (input_at i) 1) (Oct 0 1 2 3 4 5 6 8).
Definition t_inputs4 : quad bpointer := Quad (mk_bpointer (input_at 0) 1) (mk_bpointer (input_at 3) 1) (mk_bpointer (input_at 3) 1) (mk_bpointer (input_at 7) 1).
Example C66_example_exact : old input_world /\ (forall l, readable input_world (proj l t_inputs) (64 * 1)) /\ (forall l, readable input_world (qproj l t_inputs4) (64 * 1)) /\
  (exists hs, hash8_exact Allocation Params_new (oct_map to t_inputs) (64 * 1) (mem input_world) = Ok (hs, mem input_world)) /\
  exists hs, hash4_exact Allocation (Quad 0 32 64 96)%N Params_new (input_at 0) (input_at 3) (input_at 3) (input_at 7) (64 * 1) (mem input_world) = Ok (hs, mem input_world).
Proof.
  split; [exact (states_old Frozen)|]. split; [|split; [|split]].
  - intros l. split; [destruct l; apply Nat.leb_le; reflexivity|]. intros k _. assert (E : tag (proj l t_inputs) = 1) by (destruct l; reflexivity). rewrite E.
    split; [intros t [<-|[<-|[]]]; discriminate|intros t [<-|[]] _; discriminate].
  - intros l. split; [destruct l; apply Nat.leb_le; reflexivity|]. intros k _. assert (E : tag (qproj l t_inputs4) = 1) by (destruct l; reflexivity). rewrite E.
    split; [intros t [<-|[<-|[]]]; discriminate|intros t [<-|[]] _; discriminate].
  - destruct PropsBorrows.C65_example_hash8_exact as (_ & _ & hs & E). exists hs. exact E.
  - destruct PropsBorrows.C65_example_hash4_exact as (_ & hs & E). exists hs. exact E.
Qed.
(** Eight states next to each other (owner 0, borrowed 1), their messages, and eight words of
    each kind (owner 2, borrowed 3).  What is borrowed is protected. *)
Definition eight_world : world :=
  mk_world (Borrows.mem PropsBorrows.eight_world) (fun t => match t with 1 => [1; 0] | 3 => [3; 2] | t => [t] end)
    (fun a _ t => match a, t with 0, 0 | 1, 2 => mk_cell Active true | 0, 1 => mk_cell Reserved true | 1, 3 => mk_cell Frozen true | _, _ => absent end) 4 [1; 3].
Definition t_states : oct bpointer := oct_map (fun i => mk_bpointer (mk_pointer 0 (32 * i) (32 * i) (32 * i + 32) true) 1) (Oct 0 1 2 3 4 5 6 7).
Definition t_block : bpointer := mk_bpointer (mk_pointer 1 0 0 64 false) 3.
Definition t_words : bpointer := mk_bpointer (mk_pointer 1 32 32 64 false) 3.
Example C66_example_compress8 : old eight_world /\ (forall l, writable eight_world (proj l t_states) 32) /\ (forall l l', l <> l' -> apart (proj l t_states) 32 (proj l' t_states) 32) /\
  readable eight_world t_block 64 /\ (forall l, apart t_block 64 (proj l t_states) 32) /\
  writable eight_world (mk_bpointer the_states 1) 256 /\ apart t_block 64 (mk_bpointer the_states 1) 256 /\ readable eight_world t_words 32 /\ apart t_words 32 (mk_bpointer the_states 1) 256 /\
  exists m, compress8 Allocation (oct_map to t_states) (oct_map to (oct_const t_block)) (oct_const (of_N 64 64)) (oct_const (umax 32)) (oct_const (uzero 32)) (mem eight_world) = Ok (tt, m).
Proof.
  split.
  { split; [|repeat constructor]. intros t H. change (next eight_world) with 4 in *. do 4 (destruct t as [|t]; [repeat constructor|]). do 4 apply le_S_n in H. inversion H. }
  split. { intros l. split; [destruct l; apply Nat.leb_le; reflexivity|]. intros k _.
    assert (E : tag (proj l t_states) = 1) by (destruct l; reflexivity). assert (E' : alloc (to (proj l t_states)) = 0) by (destruct l; reflexivity). rewrite E, E'.
    split; [intros t [<-|[<-|[]]]; cbn; auto|intros t [<-|[<-|[]]] N; cbn; auto; destruct N; cbn; auto]. }
  split. { intros l l' N. right. destruct l, l'; try (exfalso; apply N; reflexivity); cbn; try (left; apply Nat.leb_le; reflexivity); right; apply Nat.leb_le; reflexivity. }
  split; [split; [apply Nat.leb_le; reflexivity|intros k _; split; [intros t [<-|[<-|[]]]; discriminate|intros t [<-|[<-|[]]] _; discriminate]]|].
  split; [intros l; left; destruct l; discriminate|].
  split; [split; [apply Nat.leb_le; reflexivity|intros k _; split; [intros t [<-|[<-|[]]]; cbn; auto|intros t [<-|[<-|[]]] N; cbn; auto; destruct N; cbn; auto]]|].
  split; [left; discriminate|].
  split; [split; [apply Nat.leb_le; reflexivity|intros k _; split; [intros t [<-|[<-|[]]]; discriminate|intros t [<-|[<-|[]]] _; discriminate]]|].
  split; [left; discriminate|].
  destruct PropsBorrows.C65_example_compress8_runs as (m & E). exists m. exact E.
Qed.
(** Two [&mut] made from the same: either may be written through, but not both. *)
Example C66_example_stale : exists q w q' w', retag Reserved (mk_bpointer the_states 1) 2 (states_world Reserved []) = Ok (q, w) /\
  retag Reserved (mk_bpointer the_states 1) 2 w = Ok (q', w') /\
  (exists w1, write_unaligned_tb q' [x01] w' = Ok (tt, w1) /\ write_unaligned_tb q [x01] w1 = UB) /\
  exists w1, write_unaligned_tb q [x01] w' = Ok (tt, w1) /\ write_unaligned_tb q' [x01] w1 = UB.
Proof.
  eexists _, _, _, _. split; [reflexivity|]. split; [reflexivity|]. split; eexists; (split; [reflexivity|]); reflexivity.
Qed.
