(** * BorrowFacts: the vector routines obey Stacked Borrows (sse41.rs apart from its borrows of single words). *)
From Verif Require Import Base BaseFacts Consts Intrinsics Portable Params Memory MemoryFacts Views Borrows.
From Verif Require Sse41 Avx2.
From Coq Require Import Lia.
Local Open Scope nat_scope.

(** ** One stack: [s] is [s0] with newer items on top. *)
Definition shared_top (s : stack) : Prop := exists t s', s = mk_item SharedRO t :: s'.
Definition grown (n0 n : nat) (s0 s : stack) : Prop :=
  exists up, s = up ++ s0 /\ Forall (fun i => n0 <= owner i < n) up /\ (shared_top s0 -> Forall (fun i => allows i = SharedRO) up).

Lemma grown_refl n s : grown n n s s.
Proof. exists []. repeat constructor. Qed.
Lemma grown_le n0 n n' s0 s : n <= n' -> grown n0 n s0 s -> grown n0 n' s0 s.
Proof.
  intros H (up & E & F & G). exists up. split; [exact E|]. split; [|exact G]. eapply Forall_impl; [|exact F]. cbn. intros i. lia.
Qed.
Lemma grown_trans n0 n1 n2 s0 s1 s2 : n0 <= n1 -> n1 <= n2 -> grown n0 n1 s0 s1 -> grown n1 n2 s1 s2 -> grown n0 n2 s0 s2.
Proof.
  intros H H' (up & -> & F & G) (up' & -> & F' & G'). exists (up' ++ up). rewrite app_assoc. split; [reflexivity|]. split.
  - apply Forall_app. split; [eapply Forall_impl; [|exact F']|eapply Forall_impl; [|exact F]]; cbn; intros i; lia.
  - intros T. specialize (G T). apply Forall_app. split; [|exact G]. apply G'.
    destruct up as [|i up]; [exact T|]. inversion G as [|? ? Hi Gu]; subst. destruct i as [x t]. cbn in Hi. subst x. exists t, (up ++ s0). reflexivity.
Qed.
Lemma grants_other w t i : owner i <> t -> grants w t i = false.
Proof. intros H. unfold grants. apply Nat.eqb_neq in H. rewrite H. reflexivity. Qed.
Lemma read_above t up s s' : Forall (fun i => owner i <> t) up -> on_read t s = Some s' ->
  exists up', on_read t (up ++ s) = Some (up' ++ s') /\ map owner up' = map owner up /\
    (Forall (fun i => allows i = SharedRO) up -> up' = up).
Proof.
  intros F E. induction up as [|i up IH]; [exists []; auto|]. inversion F as [|? ? Hi Fu]; subst. destruct (IH Fu) as (up' & Eu & Mu & Ku).
  cbn [app on_read]. rewrite (grants_other _ _ _ Hi), Eu. eexists (_ :: up'). split; [reflexivity|]. split.
  - cbn [map]. rewrite Mu. destruct (is_unique i); reflexivity.
  - intros G. inversion G as [|? ? Gi Gu]; subst. rewrite (Ku Gu). unfold is_unique. rewrite Gi. reflexivity.
Qed.
Lemma map_owner_forall (P : nat -> Prop) up up' : map owner up' = map owner up -> Forall (fun i => P (owner i)) up -> Forall (fun i => P (owner i)) up'.
Proof.
  revert up'. induction up as [|i up IH]; intros [|i' up'] E F; try discriminate; [constructor|]. cbn in E. injection E as E1 E2.
  inversion F; subst. constructor; [rewrite E1; assumption|auto].
Qed.
Lemma grown_above n0 n s0 s t : Forall (fun i => owner i < n0) s0 -> t < n0 -> grown n0 n s0 s ->
  exists up, s = up ++ s0 /\ Forall (fun i => owner i <> t) up.
Proof.
  intros _ Ht (up & -> & F & _). exists up. split; [reflexivity|]. eapply Forall_impl; [|exact F]. cbn. intros i. lia.
Qed.
(** A read with an old tag that changes nothing below *)
Lemma grown_read n0 n s0 s t : t < n0 -> on_read t s0 = Some s0 -> grown n0 n s0 s ->
  exists s', on_read t s = Some s' /\ grown n0 n s0 s'.
Proof.
  intros Ht E (up & -> & F & G). destruct (read_above t up s0 s0) as (up' & Eu & Mu & Ku); [|exact E|].
  - eapply Forall_impl; [|exact F]. cbn. intros i. lia.
  - exists (up' ++ s0). split; [exact Eu|]. exists up'. split; [reflexivity|]. split.
    + exact (map_owner_forall (fun o => n0 <= o < n) _ _ Mu F).
    + intros T. rewrite (Ku (G T)). exact (G T).
Qed.
(** Where the top lets [t] write *)
Lemma split_above t up i s : Forall (fun j => owner j <> t) up -> grants true t i = true -> is_sharedrw i = false ->
  split_at t (up ++ i :: s) = Some (up, i :: s).
Proof.
  intros F E W. induction up as [|j up IH]; cbn [app split_at]; [rewrite E; reflexivity|]. inversion F as [|? ? Hj Fu]; subst.
  rewrite (grants_other _ _ _ Hj), (IH Fu). destruct up as [|j' up]; [|reflexivity]. rewrite W, andb_false_r. reflexivity.
Qed.
Lemma grants_unique w t : grants w t (mk_item Unique t) = true.
Proof. unfold grants. cbn. rewrite Nat.eqb_refl. reflexivity. Qed.
Lemma grown_split n0 n s0 s t r : t < n0 -> s0 = mk_item Unique t :: r -> grown n0 n s0 s ->
  exists up, split_at t s = Some (up, s0) /\ s = up ++ s0.
Proof.
  intros Ht -> (up & -> & F & _). exists up. split; [|reflexivity]. apply split_above; [|apply grants_unique|reflexivity].
  eapply Forall_impl; [|exact F]. cbn. intros i. lia.
Qed.
Lemma read_unique t r : on_read t (mk_item Unique t :: r) = Some (mk_item Unique t :: r).
Proof. cbn [on_read]. rewrite grants_unique. reflexivity. Qed.
Lemma read_frozen t up r : Forall (fun i => allows i = SharedRO) up ->
  on_read t (up ++ mk_item SharedRO t :: r) = Some (up ++ mk_item SharedRO t :: r).
Proof.
  intros F. induction up as [|i up IH]; cbn [app on_read].
  - unfold grants. cbn. rewrite Nat.eqb_refl. reflexivity.
  - inversion F as [|? ? Hi Fu]; subst. destruct (grants false t i); [reflexivity|]. rewrite (IH Fu). unfold is_unique. rewrite Hi. reflexivity.
Qed.

(** ** All stacks *)
Definition extends (S0 : stacks) (n0 : nat) (S : stacks) (n : nat) : Prop :=
  (forall a k, Forall (fun i => owner i < n0) (S0 a k)) /\ n0 <= n /\ forall a k, grown n0 n (S0 a k) (S a k).

Lemma extends_refl w : old w -> extends (borrows w) (next w) (borrows w) (next w).
Proof. intros [H _]. split; [exact H|]. split; [lia|]. intros a k. apply grown_refl. Qed.
Lemma extends_old S0 n0 S n : extends S0 n0 S n -> extends S n S n.
Proof.
  intros (H & L & G). split; [|split; [lia|intros a k; apply grown_refl]]. intros a k. destruct (G a k) as (up & -> & F & _).
  apply Forall_app. split; [eapply Forall_impl; [|exact F]|eapply Forall_impl; [|exact (H a k)]]; cbn; intros i; lia.
Qed.
Lemma extends_trans S0 n0 S1 n1 S2 n2 : extends S0 n0 S1 n1 -> extends S1 n1 S2 n2 -> extends S0 n0 S2 n2.
Proof.
  intros (H & L & G) (H' & L' & G'). split; [exact H|]. split; [lia|]. intros a k. exact (grown_trans _ _ _ _ _ _ L L' (G a k) (G' a k)).
Qed.

(** The bytes [i..j] of an allocation under tag [t] *)
Definition exclusive_at (S : stacks) (a i j t : nat) : Prop := forall k, i <= k < j -> exists s, S a k = mk_item Unique t :: s.
Definition frozen_at (S : stacks) (a i j t : nat) : Prop :=
  forall k, i <= k < j -> exists up s, S a k = up ++ mk_item SharedRO t :: s /\ Forall (fun i => allows i = SharedRO) up.
Definition readable_at (S : stacks) (a i j t : nat) : Prop := exclusive_at S a i j t \/ frozen_at S a i j t.

Lemma frozen_extends S0 n0 S n a i j t : extends S0 n0 S n -> frozen_at S0 a i j t -> frozen_at S a i j t.
Proof.
  intros (_ & _ & G) H k Hk. destruct (H k Hk) as (up & s & E & F). destruct (G a k) as (up' & E' & _ & F').
  exists (up' ++ up), s. rewrite E', E, app_assoc. split; [reflexivity|]. apply Forall_app. split; [|exact F]. apply F'. rewrite E.
  destruct up as [|x up]; [exists t, s; reflexivity|]. inversion F; subst. destruct x as [y o]. cbn in *. subst y. eexists o, _. reflexivity.
Qed.
Lemma readable_read S0 n0 S n a i j t k : extends S0 n0 S n -> readable_at S0 a i j t -> i <= k < j ->
  exists s, on_read t (S a k) = Some s /\ grown n0 n (S0 a k) s.
Proof.
  intros (O & _ & G) R Hk. assert (t < n0 /\ on_read t (S0 a k) = Some (S0 a k)) as [Ht E].
  { destruct R as [R|R].
    - destruct (R k Hk) as (s & E). pose proof (O a k) as Oa. rewrite E in *. inversion Oa; subst. split; [assumption|apply read_unique].
    - destruct (R k Hk) as (up & s & E & F). pose proof (O a k) as Oa. rewrite E in *. apply Forall_app in Oa as [_ Oa]. inversion Oa; subst.
      split; [assumption|apply read_frozen; exact F]. }
  exact (grown_read _ _ _ _ _ Ht E (G a k)).
Qed.
Lemma exclusive_split S0 n0 S n a i j t k : extends S0 n0 S n -> exclusive_at S0 a i j t -> i <= k < j ->
  exists up, split_at t (S a k) = Some (up, S0 a k) /\ S a k = up ++ S0 a k.
Proof.
  intros (O & _ & G) R Hk. destruct (R k Hk) as (s & E). pose proof (O a k) as Oa. rewrite E in Oa. inversion Oa; subst.
  eapply grown_split; [|exact E|exact (G a k)]. assumption.
Qed.

Lemma covers_spec a i n b k : covers a i n b k = true <-> b = a /\ i <= k < i + n.
Proof. unfold covers. rewrite !andb_true_iff, Nat.eqb_eq, Nat.leb_le, Nat.ltb_lt. tauto. Qed.
Lemma intact_nil s s' : intact [] s s' = true.
Proof. apply forallb_forall. intros i _. reflexivity. Qed.
Lemma over_ok (P : stack -> stack -> Prop) f a i n S : (forall k, i <= k < i + n -> exists s, f (S a k) = Some s /\ P (S a k) s) ->
  exists S', over [] f a i n S = Some S' /\ forall b k, (b = a /\ i <= k < i + n) /\ f (S b k) = Some (S' b k) /\ P (S b k) (S' b k) \/ ~ (b = a /\ i <= k < i + n) /\ S' b k = S b k.
Proof.
  intros H. unfold over. assert (forallb (fun k => match f (S a k) with Some s' => intact [] (S a k) s' | None => false end) (seq i n) = true) as ->.
  { apply forallb_forall. intros k Hk. apply in_seq in Hk. destruct (H k ltac:(lia)) as (s & -> & _). apply intact_nil. }
  eexists. split; [reflexivity|]. intros b k. cbn beta. destruct (covers a i n b k) eqn:E.
  - left. apply covers_spec in E. split; [exact E|]. destruct E as [-> Hk]. destruct (H k Hk) as (s & -> & p). auto.
  - right. split; [|reflexivity]. intros N. apply covers_spec in N. congruence.
Qed.
Lemma over_none H f a i n S k : i <= k < i + n -> f (S a k) = None -> over H f a i n S = None.
Proof.
  intros Hk E. unfold over. destruct (forallb _ _) eqn:F; [|reflexivity]. rewrite forallb_forall in F.
  specialize (F k ltac:(apply in_seq; lia)). cbn in F. rewrite E in F. discriminate.
Qed.

(** ** Protected tags *)
Definition held_before (n0 : nat) (H : list nat) : Prop := Forall (fun t => t < n0) H.
Lemma same_item_spec i j : same_item i j = true <-> i = j.
Proof.
  destruct i as [p t], j as [q u]. unfold same_item. cbn [owner allows]. rewrite andb_true_iff, Nat.eqb_eq. split.
  - intros [-> E]. destruct p, q; try discriminate E; reflexivity.
  - intros E. injection E as -> ->. split; [reflexivity|]. destruct q; reflexivity.
Qed.
Lemma protected_spec H i : protected H i = true <-> In (owner i) H.
Proof.
  unfold protected. rewrite existsb_exists. split.
  - intros (t & I & E). apply Nat.eqb_eq in E. congruence.
  - intros I. exists (owner i). split; [exact I|]. apply Nat.eqb_refl.
Qed.
Lemma intact_spec H s s' : intact H s s' = true <-> (forall i, In i s -> In (owner i) H -> In i s').
Proof.
  unfold intact. rewrite forallb_forall. split; intros K i I.
  - intros P. specialize (K i I). apply protected_spec in P. rewrite P in K. cbn in K.
    apply existsb_exists in K as (j & J & E). apply same_item_spec in E. subst j. exact J.
  - destruct (protected H i) eqn:P; [|reflexivity]. cbn. apply existsb_exists. exists i. split; [|apply same_item_spec; reflexivity].
    apply K; [exact I|]. apply protected_spec, P.
Qed.
(** Tags older than [n0] are safe. *)
Lemma over_held S0 n0 S n S' n' H f a i l : extends S0 n0 S n -> held_before n0 H -> over [] f a i l S = Some S' -> extends S0 n0 S' n' ->
  over H f a i l S = Some S'.
Proof.
  intros (O & L & G) B E (_ & L' & G'). unfold over in *. destruct (forallb _ _) eqn:F in E; [|discriminate]. rewrite forallb_forall in F.
  injection E as <-. assert (forallb (fun k => match f (S a k) with Some s' => intact H (S a k) s' | None => false end) (seq i l) = true) as ->; [|reflexivity].
  apply forallb_forall. intros k Ik. specialize (F k Ik). apply in_seq in Ik. destruct (f (S a k)) as [s|] eqn:Ef; [|discriminate].
  specialize (G' a k). cbn beta in G'. assert (covers a i l a k = true) as C by (apply covers_spec; lia). rewrite C, Ef in G'. clear C.
  destruct (G a k) as (up & Es & Fu & _). destruct G' as (up' & -> & _). apply intact_spec. intros j J P. apply in_or_app. right.
  rewrite Es in J. apply in_app_or in J as [J|J]; [|exact J]. exfalso.
  rewrite Forall_forall in Fu. specialize (Fu j J). unfold held_before in B. rewrite Forall_forall in B. specialize (B _ P). lia.
Qed.

(** ** Code *)

(** From stacks that extend [S0], [x] does to memory what [x0] does, and the stacks still
    extend [S0], whatever older tags are protected. *)
Definition follows {A B} (S0 : stacks) (n0 : nat) (rel : A -> B -> Prop) (x : bcode A) (x0 : code B) : Prop :=
  forall w b m, extends S0 n0 (borrows w) (next w) -> held_before n0 (held w) -> x0 (mem w) = Ok (b, m) ->
  exists a s n, x w = Ok (a, mk_world m s n (held w)) /\ rel a b /\ extends S0 n0 s n.

Lemma follows_bind {A B A' B'} S0 n0 (rel : A -> B -> Prop) (rel' : A' -> B' -> Prop) x x0 f f0 :
  follows S0 n0 rel x x0 -> (forall a b, rel a b -> follows S0 n0 rel' (f a) (f0 b)) ->
  follows S0 n0 rel' (andthen_b x f) (andthen x0 f0).
Proof.
  intros H K w b m E P R. unfold andthen in R. destruct (x0 (mem w)) as [[b1 m1]| | |] eqn:R1; try discriminate. cbn in R.
  destruct (H w b1 m1 E P R1) as (a1 & s1 & n1 & X1 & r1 & E1). unfold andthen_b. rewrite X1. cbn [bind].
  exact (K a1 b1 r1 (mk_world m1 s1 n1 (held w)) b m E1 P R).
Qed.
Lemma follows_bind_eq {A A' B'} S0 n0 (rel' : A' -> B' -> Prop) (x : bcode A) x0 f f0 :
  follows S0 n0 eq x x0 -> (forall a, follows S0 n0 rel' (f a) (f0 a)) -> follows S0 n0 rel' (andthen_b x f) (andthen x0 f0).
Proof. intros H K. apply (follows_bind S0 n0 eq); [exact H|]. intros a b ->. apply K. Qed.
Lemma follows_give {A} S0 n0 (a : A) : follows S0 n0 eq (give_b a) (give a).
Proof. intros w b m E _ R. injection R as <- <-. exists a, (borrows w), (next w). destruct w. auto. Qed.
Lemma follows_assoc0 {A B C D} S0 n0 (rel : A -> D -> Prop) (x : bcode A) (y : code B) (f : B -> code C) (g : C -> code D) :
  follows S0 n0 rel x (andthen y (fun b => andthen (f b) g)) -> follows S0 n0 rel x (andthen (andthen y f) g).
Proof.
  intros H w b m E P R. apply (H w b m E P). rewrite <- R. unfold andthen. destruct (y (mem w)) as [[b1 m1]| | |]; reflexivity.
Qed.
(** Binds of the source that [Memory] has in a row *)
Lemma follows_assoc {A B C D} S0 n0 (rel : A -> D -> Prop) (x : bcode A) (y : code B) (f : B -> code C) (g : C -> code D) :
  follows S0 n0 rel x (andthen (andthen y f) g) -> follows S0 n0 rel x (andthen y (fun b => andthen (f b) g)).
Proof.
  intros H w b m E P R. apply (H w b m E P). rewrite <- R. unfold andthen. destruct (y (mem w)) as [[b1 m1]| | |]; reflexivity.
Qed.

Lemma follows_acting {A} S0 n0 (x0 : code A) f :
  (forall S n H, extends S0 n0 S n -> held_before n0 H -> exists S', f H S = Some S' /\ extends S0 n0 S' n) -> follows S0 n0 eq (acting x0 f) x0.
Proof.
  intros H w b m E P R. unfold acting. rewrite R. cbn [bind]. destruct (H _ _ _ E P) as (S' & -> & E'). exists b, S', (next w). auto.
Qed.
Lemma extends_over S0 n0 S n S' n' a i l f :
  extends S0 n0 S n -> n <= n' ->
  (forall b k, (b = a /\ i <= k < i + l) /\ f (S b k) = Some (S' b k) /\ grown n0 n' (S0 b k) (S' b k) \/ ~ (b = a /\ i <= k < i + l) /\ S' b k = S b k) ->
  extends S0 n0 S' n'.
Proof.
  intros (O & L & G) Hn H. split; [exact O|]. split; [lia|]. intros b k. destruct (H b k) as [(_ & _ & g)|[_ ->]]; [exact g|].
  exact (grown_le _ _ _ _ _ Hn (G b k)).
Qed.
Lemma over_grown S0 n0 S n n' f a i l : extends S0 n0 S n -> n <= n' ->
  (forall k, i <= k < i + l -> exists s, f (S a k) = Some s /\ grown n0 n' (S0 a k) s) ->
  exists S', over [] f a i l S = Some S' /\ extends S0 n0 S' n' /\
    forall b k, (b = a /\ i <= k < i + l) /\ f (S b k) = Some (S' b k) \/ ~ (b = a /\ i <= k < i + l) /\ S' b k = S b k.
Proof.
  intros E Hn H. destruct (over_ok (fun _ _ => True) f a i l S) as (S' & X & Y).
  { intros k Hk. destruct (H k Hk) as (s & Es & _). exists s. auto. }
  exists S'. split; [exact X|]. split.
  - apply (extends_over S0 n0 S n S' n' a i l f E Hn). intros b k. destruct (Y b k) as [(c & e & _)|r]; [left|right; exact r].
    split; [exact c|]. split; [exact e|]. destruct c as [-> Hk]. destruct (H k Hk) as (s & Es & g). rewrite Es in e. injection e as <-. exact g.
  - intros b k. destruct (Y b k) as [(c & e & _)|r]; auto.
Qed.

Lemma follows_read S0 n0 p t : readable_at S0 (alloc (to p)) (offset (to p)) (offset (to p) + size_of t) (tag p) ->
  follows S0 n0 eq (read_b t p) (read Allocation t (to p)).
Proof.
  intros R. apply follows_acting. intros S n H E P.
  destruct (over_grown S0 n0 S n n (on_read (tag p)) (alloc (to p)) (offset (to p)) (size_of t) E (le_n _)) as (S' & X & E' & _); [|exists S'; split; [exact (over_held _ _ _ _ _ _ _ _ _ _ _ E P X E')|exact E']].
  intros k Hk. exact (readable_read _ _ _ _ _ _ _ _ _ E R Hk).
Qed.
Lemma follows_read_unaligned S0 n0 p l : readable_at S0 (alloc (to p)) (offset (to p)) (offset (to p) + l) (tag p) ->
  follows S0 n0 eq (read_unaligned_b p l) (read_unaligned Allocation (to p) l).
Proof.
  intros R. apply follows_acting. intros S n H E P.
  destruct (over_grown S0 n0 S n n (on_read (tag p)) (alloc (to p)) (offset (to p)) l E (le_n _)) as (S' & X & E' & _); [|exists S'; split; [exact (over_held _ _ _ _ _ _ _ _ _ _ _ E P X E')|exact E']].
  intros k Hk. exact (readable_read _ _ _ _ _ _ _ _ _ E R Hk).
Qed.
Lemma grown_self n0 n s0 : n0 <= n -> grown n0 n s0 s0.
Proof. intros H. exists []. repeat constructor. Qed.
Lemma exclusive_write S0 n0 S n a i l t : extends S0 n0 S n -> exclusive_at S0 a i (i + l) t ->
  exists S', over [] (on_write t) a i l S = Some S' /\ extends S0 n0 S' n.
Proof.
  intros E R. destruct (over_grown S0 n0 S n n (on_write t) a i l E (le_n _)) as (S' & X & E' & _); [|exists S'; auto].
  intros k Hk. destruct (exclusive_split _ _ _ _ _ _ _ _ _ E R Hk) as (up & Es & _). unfold on_write. rewrite Es. eexists.
  split; [reflexivity|]. apply grown_self. apply E.
Qed.
Lemma follows_write S0 n0 p t bs : exclusive_at S0 (alloc (to p)) (offset (to p)) (offset (to p) + length bs) (tag p) ->
  follows S0 n0 eq (write_b t p bs) (write Allocation t (to p) bs).
Proof.
  intros R. apply follows_acting. intros S n H E P. destruct (exclusive_write _ _ _ _ _ _ _ _ E R) as (S' & X & E').
  exists S'. split; [exact (over_held _ _ _ _ _ _ _ _ _ _ _ E P X E')|exact E'].
Qed.
Lemma follows_ptr_add {A B} S0 n0 (rel : A -> B -> Prop) t p k (f : bpointer -> bcode A) f0 :
  follows S0 n0 rel (f (mk_bpointer (shift (to p) (k * size_of t)) (tag p))) (f0 (shift (to p) (k * size_of t))) ->
  follows S0 n0 rel (andthen_b (ptr_add_b t p k) f) (andthen (ptr_add t (to p) k) f0).
Proof.
  intros H w b m E P R. unfold andthen, ptr_add in R. unfold andthen, check, give in R. cbn [bind] in R.
  unfold andthen_b, ptr_add_b, lift, acting, ptr_add, andthen_b, andthen, check, give, give_b.
  change (mk_pointer _ _ _ _ _) with (shift (to p) (k * size_of t)) in *.
  destruct (within Allocation (mem w) (shift (to p) (k * size_of t)) 0); [|discriminate]. cbn [bind] in *.
  destruct w as [m0 s0 n' h']. exact (H _ b m E P R).
Qed.

(** New tags *)
Lemma frozen_new S0 n0 S n a i l t : extends S0 n0 S n -> readable_at S0 a i (i + l) t ->
  exists S', over [] (new_shared t n) a i l S = Some S' /\ extends S0 n0 S' (1 + n) /\ frozen_at S' a i (i + l) n.
Proof.
  intros E R.
  destruct (over_grown S0 n0 S n (1 + n) (new_shared t n) a i l E ltac:(lia)) as (S' & X & E' & Y).
  { intros k Hk. destruct (readable_read _ _ _ _ _ _ _ _ _ E R Hk) as (s & Es & up & -> & F & G). unfold new_shared. rewrite Es. eexists.
    split; [reflexivity|]. exists (mk_item SharedRO n :: up). split; [reflexivity|]. split.
    - constructor; [cbn; destruct E as (_ & L & _); lia|]. eapply Forall_impl; [|exact F]. cbn. intros j. lia.
    - intros T. constructor; [reflexivity|exact (G T)]. }
  exists S'. split; [exact X|]. split; [exact E'|]. intros k Hk. destruct (Y a k) as [(_ & e)|[e _]]; [|exfalso; apply e; auto].
  unfold new_shared in e. destruct (on_read t (S a k)) as [s|]; [|discriminate]. injection e as <-. exists [], s. split; [reflexivity|constructor].
Qed.
Lemma unique_new S0 n0 S n a i l t : extends S0 n0 S n -> exclusive_at S0 a i (i + l) t ->
  exists S', over [] (new_unique t n) a i l S = Some S' /\ extends S0 n0 S' (1 + n) /\ exclusive_at S' a i (i + l) n.
Proof.
  intros E R.
  destruct (over_grown S0 n0 S n (1 + n) (new_unique t n) a i l E ltac:(lia)) as (S' & X & E' & Y).
  { intros k Hk. destruct (exclusive_split _ _ _ _ _ _ _ _ _ E R Hk) as (up & Es & _). unfold new_unique, on_write. rewrite Es. eexists.
    split; [reflexivity|]. exists [mk_item Unique n]. split; [reflexivity|]. split.
    - constructor; [cbn; destruct E as (_ & L & _); lia|constructor].
    - intros (t' & s' & T). destruct (R k Hk) as (s & Es'). congruence. }
  exists S'. split; [exact X|]. split; [exact E'|]. intros k Hk. destruct (Y a k) as [(_ & e)|[e _]]; [|exfalso; apply e; auto].
  unfold new_unique in e. destruct (on_write t (S a k)) as [s|]; [|discriminate]. injection e as <-. exists s. reflexivity.
Qed.
(** A raw pointer from [&mut], with nothing above *)
Definition raw_at (S : stacks) (a i j t : nat) : Prop := forall k, i <= k < j -> exists u s, S a k = mk_item SharedRW t :: mk_item Unique u :: s.
Lemma raw_new S n a i l t : extends S n S n -> exclusive_at S a i (i + l) t ->
  exists S', over [] (new_raw t n) a i l S = Some S' /\ extends S n S' (1 + n) /\ raw_at S' a i (i + l) n.
Proof.
  intros E R.
  destruct (over_grown S n S n (1 + n) (new_raw t n) a i l E ltac:(lia)) as (S' & X & E' & Y).
  { intros k Hk. destruct (R k Hk) as (s & Es). unfold new_raw. rewrite Es. cbn [split_at]. rewrite grants_unique. eexists.
    split; [reflexivity|]. exists [mk_item SharedRW n]. split; [reflexivity|]. split; [constructor; [cbn; lia|constructor]|].
    intros (t' & s' & T). congruence. }
  exists S'. split; [exact X|]. split; [exact E'|]. intros k Hk. destruct (Y a k) as [(_ & e)|[e _]]; [|exfalso; apply e; auto].
  destruct (R k Hk) as (s & Es). unfold new_raw in e. rewrite Es in e. cbn [split_at] in e. rewrite grants_unique in e. cbn in e.
  injection e as <-. exists t, s. reflexivity.
Qed.
Lemma raw_unique_new S n a i l t : extends S n S n -> raw_at S a i (i + l) t ->
  exists S', over [] (new_unique t n) a i l S = Some S' /\ extends S n S' (1 + n) /\ exclusive_at S' a i (i + l) n.
Proof.
  intros E R.
  assert (Z : forall k, i <= k < i + l -> new_unique t n (S a k) = Some (mk_item Unique n :: S a k)).
  { intros k Hk. destruct (R k Hk) as (u & s & Es). unfold new_unique, on_write. rewrite Es. cbn [split_at]. unfold grants. cbn.
    rewrite Nat.eqb_refl. reflexivity. }
  destruct (over_grown S n S n (1 + n) (new_unique t n) a i l E ltac:(lia)) as (S' & X & E' & Y).
  { intros k Hk. rewrite (Z k Hk). eexists. split; [reflexivity|]. exists [mk_item Unique n]. split; [reflexivity|].
    split; [constructor; [cbn; lia|constructor]|]. intros (t' & s' & T). destruct (R k Hk) as (u & s & Es). congruence. }
  exists S'. split; [exact X|]. split; [exact E'|]. intros k Hk. destruct (Y a k) as [(_ & e)|[e _]]; [|exfalso; apply e; auto].
  rewrite (Z k Hk) in e. injection e as <-. eexists. reflexivity.
Qed.

Lemma held_later n0 n H : n0 <= n -> held_before n0 H -> held_before n H.
Proof. intros L. apply Forall_impl. intros t. lia. Qed.
(** From here on, code that starts at [S0] itself, or under a new tag. *)
Lemma follows_retag_lt {A B} S0 n0 (rel : A -> B -> Prop) new p l (f : bpointer -> bcode A) (x0 : code B) (P : stacks -> nat -> Prop) :
  (forall S n, extends S0 n0 S n -> exists S', over [] (new (tag p) n) (alloc (to p)) (offset (to p)) l S = Some S' /\ extends S0 n0 S' (1 + n) /\ P S' n) ->
  (forall S n t, extends S0 n0 S n -> t < n -> P S t -> follows S n rel (f (mk_bpointer (to p) t)) x0) ->
  follows S0 n0 rel (andthen_b (retag new p l) f) x0.
Proof.
  intros H K w b m E hb R. destruct (H _ _ E) as (S' & X & E' & PS). unfold andthen_b, retag.
  rewrite (over_held _ _ _ _ _ _ _ _ _ _ _ E hb X E'). cbn [bind].
  destruct (K S' (1 + next w) (next w) E' ltac:(lia) PS (mk_world (mem w) S' (1 + next w) (held w)) b m) as (a & s & n & Y & r & Z).
  - exact (extends_old _ _ _ _ E').
  - apply (held_later n0); [|exact hb]. destruct E as (_ & L & _). lia.
  - exact R.
  - exists a, s, n. split; [exact Y|]. split; [exact r|]. exact (extends_trans _ _ _ _ _ _ E' Z).
Qed.
Lemma follows_retag {A B} S0 n0 (rel : A -> B -> Prop) new p l (f : bpointer -> bcode A) (x0 : code B) (P : stacks -> nat -> Prop) :
  (forall S n, extends S0 n0 S n -> exists S', over [] (new (tag p) n) (alloc (to p)) (offset (to p)) l S = Some S' /\ extends S0 n0 S' (1 + n) /\ P S' n) ->
  (forall S n t, extends S0 n0 S n -> P S t -> follows S n rel (f (mk_bpointer (to p) t)) x0) ->
  follows S0 n0 rel (andthen_b (retag new p l) f) x0.
Proof. intros H K. apply (follows_retag_lt S0 n0 rel new p l f x0 P H). intros S n t E _. exact (K S n t E). Qed.
Lemma follows_as_ptr {A B} S0 n0 (rel : A -> B -> Prop) p l (f : bpointer -> bcode A) (x0 : code B) :
  readable_at S0 (alloc (to p)) (offset (to p)) (offset (to p) + l) (tag p) ->
  (forall S n t, extends S0 n0 S n -> frozen_at S (alloc (to p)) (offset (to p)) (offset (to p) + l) t ->
     follows S n rel (f (mk_bpointer (to p) t)) x0) ->
  follows S0 n0 rel (andthen_b (as_ptr_b p l) f) x0.
Proof.
  intros R K. apply (follows_retag S0 n0 rel new_shared p l f x0 (fun S t => frozen_at S (alloc (to p)) (offset (to p)) (offset (to p) + l) t)); [|exact K].
  intros S n E. exact (frozen_new _ _ _ _ _ _ _ _ E R).
Qed.
Lemma follows_pass {A B} S0 n0 (rel : A -> B -> Prop) p l (f : bpointer -> bcode A) (x0 : code B) :
  readable_at S0 (alloc (to p)) (offset (to p)) (offset (to p) + l) (tag p) ->
  (forall S n t, extends S0 n0 S n -> t < n -> frozen_at S (alloc (to p)) (offset (to p)) (offset (to p) + l) t ->
     follows S n rel (f (mk_bpointer (to p) t)) x0) ->
  follows S0 n0 rel (andthen_b (pass_b p l) f) x0.
Proof.
  intros R K. apply (follows_retag_lt S0 n0 rel new_shared p l f x0 (fun S t => frozen_at S (alloc (to p)) (offset (to p)) (offset (to p) + l) t)); [|exact K].
  intros S n E. exact (frozen_new _ _ _ _ _ _ _ _ E R).
Qed.
Lemma follows_pass_mut {A B} S0 n0 (rel : A -> B -> Prop) p l (f : bpointer -> bcode A) (x0 : code B) :
  exclusive_at S0 (alloc (to p)) (offset (to p)) (offset (to p) + l) (tag p) ->
  (forall S n t, extends S0 n0 S n -> t < n -> exclusive_at S (alloc (to p)) (offset (to p)) (offset (to p) + l) t ->
     follows S n rel (f (mk_bpointer (to p) t)) x0) ->
  follows S0 n0 rel (andthen_b (pass_mut_b p l) f) x0.
Proof.
  intros R K. apply (follows_retag_lt S0 n0 rel new_unique p l f x0 (fun S t => exclusive_at S (alloc (to p)) (offset (to p)) (offset (to p) + l) t)); [|exact K].
  intros S n E. exact (unique_new _ _ _ _ _ _ _ _ E R).
Qed.
(** A protected call *)
Lemma follows_protecting {A B} S0 n0 (rel : A -> B -> Prop) ps (x : bcode A) (x0 : code B) : held_before n0 (map tag ps) ->
  follows S0 n0 rel x x0 -> follows S0 n0 rel (protecting ps x) x0.
Proof.
  intros T H w b m E P R. unfold protecting.
  destruct (H (mk_world (mem w) (borrows w) (next w) (map tag ps ++ held w)) b m E) as (a & s & n & X & r & Y); [|exact R|].
  - apply Forall_app. split; [exact T|exact P].
  - rewrite X. cbn [bind mem borrows next]. exists a, s, n. auto.
Qed.
Lemma follows_lift {A A' B'} S0 n0 (rel : A' -> B' -> Prop) (x0 : code A) (f : A -> bcode A') f0 :
  (forall m a m', x0 m = Ok (a, m') -> m' = m /\ follows S0 n0 rel (f a) (f0 a)) -> follows S0 n0 rel (andthen_b (lift x0) f) (andthen x0 f0).
Proof.
  intros H w b m E P R. unfold andthen in R. destruct (x0 (mem w)) as [[a m1]| | |] eqn:R1; try discriminate. cbn in R.
  destruct (H _ _ _ R1) as [-> K]. unfold andthen_b, lift, acting. rewrite R1. cbn [bind]. destruct w as [m0 s0 n' h']. exact (K _ b m E P R).
Qed.
Lemma reborrow_result w t p m q m' : reborrow Allocation w t p m = Ok (q, m') -> m' = m /\ q = narrow p (size_of t) w.
Proof.
  unfold reborrow, andthen, check, give. destruct (_ && _); [|discriminate]. cbn [bind]. intros H. injection H as <- <-. auto.
Qed.
Lemma andthen_b_assoc {A B C} (x : bcode A) (f : A -> bcode B) (g : B -> bcode C) w :
  andthen_b (andthen_b x f) g w = andthen_b x (fun a => andthen_b (f a) g) w.
Proof. unfold andthen_b. destruct (x w) as [[a w']| | |]; reflexivity. Qed.
Lemma follows_assoc_b {A B C D} S0 n0 (rel : C -> D -> Prop) (x : bcode A) (f : A -> bcode B) (g : B -> bcode C) x0 :
  follows S0 n0 rel (andthen_b x (fun a => andthen_b (f a) g)) x0 -> follows S0 n0 rel (andthen_b (andthen_b x f) g) x0.
Proof. intros H w b m E P R. rewrite andthen_b_assoc. exact (H w b m E P R). Qed.
Lemma follows_reborrow {A B} S0 n0 (rel : A -> B -> Prop) t p (f : bpointer -> bcode A) (f0 : pointer -> code B) :
  readable_at S0 (alloc (to p)) (offset (to p)) (offset (to p) + size_of t) (tag p) ->
  (forall S n u, extends S0 n0 S n -> frozen_at S (alloc (to p)) (offset (to p)) (offset (to p) + size_of t) u ->
     follows S n rel (f (mk_bpointer (narrow (to p) (size_of t) false) u)) (f0 (narrow (to p) (size_of t) false))) ->
  follows S0 n0 rel (andthen_b (reborrow_b false t p) f) (andthen (reborrow Allocation false t (to p)) f0).
Proof.
  intros R K. unfold reborrow_b. apply follows_assoc_b. apply follows_lift. intros m q m' E. apply reborrow_result in E as [-> ->].
  split; [reflexivity|]. apply (follows_as_ptr S0 n0 rel (mk_bpointer (narrow (to p) (size_of t) false) (tag p)) (size_of t)); [exact R|].
  intros S n u X F. exact (K S n u X F).
Qed.
(** [&mut *(p as *mut _)] at the start *)
Lemma follows_cast_vecs {A B} S0 n0 (rel : A -> B -> Prop) p (f : bpointer -> bcode A) (f0 : pointer -> code B) : extends S0 n0 S0 n0 ->
  exclusive_at S0 (alloc (to p)) (offset (to p)) (offset (to p) + 256) (tag p) ->
  (forall S n u, extends S0 n0 S n -> exclusive_at S (alloc (to p)) (offset (to p)) (offset (to p) + 256) u ->
     follows S n rel (f (mk_bpointer (narrow (to p) 256 true) u)) (f0 (narrow (to p) 256 true))) ->
  forall w b m, borrows w = S0 -> next w = n0 -> held_before n0 (held w) -> andthen (reborrow Allocation true (Array M256 8) (to p)) f0 (mem w) = Ok (b, m) ->
  exists a s n, andthen_b (cast_vecs_b p) f w = Ok (a, mk_world m s n (held w)) /\ rel a b /\ extends S0 n0 s n.
Proof.
  intros E R K w b m <- <- P X.
  destruct (raw_new _ _ _ _ _ _ E R) as (S1 & X1 & E1 & R1).
  destruct (raw_unique_new _ _ _ _ _ _ (extends_old _ _ _ _ E1) R1) as (S2 & X2 & E2 & R2).
  pose proof (extends_trans _ _ _ _ _ _ E1 E2) as E3.
  assert (P1 : held_before (1 + next w) (held w)) by (apply (held_later (next w)); [lia|exact P]).
  generalize (over_held _ _ _ _ _ _ (held w) _ _ _ _ E P X1 E1); clear X1; intros X1.
  generalize (over_held _ _ _ _ _ _ (held w) _ _ _ _ (extends_old _ _ _ _ E1) P1 X2 E2); clear X2; intros X2.
  unfold andthen in X. destruct (reborrow Allocation true (Array M256 8) (to p) (mem w)) as [[q m1]| | |] eqn:Y; try discriminate.
  pose proof (reborrow_result _ _ _ _ _ _ Y) as [-> ->]. cbn [bind] in X.
  unfold cast_vecs_b, as_raw_b, reborrow_b, andthen_b, lift, acting. unfold retag at 1. rewrite X1. cbn [bind mem borrows next held to tag]. rewrite Y. cbn [bind].
  unfold retag. cbn [to tag mem borrows next held]. change (size_of (Array M256 8)) with 256 in *. cbn [alloc offset narrow]. 
  change (S (next w)) with (1 + next w) in *. rewrite X2. cbn [bind].
  destruct (K S2 (1 + (1 + next w)) (1 + next w) E3 R2 (mk_world (mem w) S2 (1 + (1 + next w)) (held w)) b m) as (a & s & n & Z & r & E4).
  - exact (extends_old _ _ _ _ E2).
  - apply (held_later (next w)); [lia|exact P].
  - exact X.
  - exists a, s, n. split; [exact Z|]. split; [exact r|]. exact (extends_trans _ _ _ _ _ _ E3 E4).
Qed.

(** ** avx2.rs *)
Lemma frozen_part S a i j t i' j' : frozen_at S a i j t -> i <= i' -> j' <= j -> frozen_at S a i' j' t.
Proof. intros H Hi Hj k Hk. apply H. lia. Qed.
Lemma exclusive_part S a i j t i' j' : exclusive_at S a i j t -> i <= i' -> j' <= j -> exclusive_at S a i' j' t.
Proof. intros H Hi Hj k Hk. apply H. lia. Qed.
(** The bytes of a pointer *)
Definition excl (S : stacks) (p : bpointer) (n : nat) : Prop := exclusive_at S (alloc (to p)) (offset (to p)) (offset (to p) + n) (tag p).
Definition froz (S : stacks) (p : bpointer) (n : nat) : Prop := frozen_at S (alloc (to p)) (offset (to p)) (offset (to p) + n) (tag p).
Lemma froz_extends S0 n0 S n p l : extends S0 n0 S n -> froz S0 p l -> froz S p l.
Proof. apply frozen_extends. Qed.

Lemma follows_loadu256 S0 n0 p : readable_at S0 (alloc (to p)) (offset (to p)) (offset (to p) + 32) (tag p) ->
  follows S0 n0 eq (_mm256_loadu_b p) (_mm256_loadu Allocation (to p)).
Proof.
  intros R. unfold _mm256_loadu_b, _mm256_loadu. apply follows_bind_eq; [exact (follows_read_unaligned _ _ _ _ R)|]. intros bs. apply follows_give.
Qed.
Lemma follows_load_2x256_body S0 n0 p : froz S0 p 64 -> follows S0 n0 eq
  (a <== (q <== as_ptr_b p BLOCKBYTES ;; _mm256_loadu_b q) ;;
   b <== (q <== as_ptr_b p BLOCKBYTES ;; r <== ptr_add_b M256 q 1 ;; _mm256_loadu_b r) ;;
   give_b (a, b)) (load_2x256 Allocation (to p)).
Proof.
  intros F. unfold load_2x256. apply follows_bind_eq.
  - apply follows_as_ptr; [right; exact F|]. intros S n t _ F'. apply (follows_loadu256 S n (mk_bpointer (to p) t)). right. cbn [to tag].
    apply (frozen_part _ _ _ _ _ _ _ F'); change BLOCKBYTES with 64; lia.
  - intros a. apply (follows_assoc S0 n0 eq _ _ (fun p => _mm256_loadu Allocation p)). apply follows_bind_eq; [|intros b; apply follows_give].
    apply follows_as_ptr; [right; exact F|]. intros S n t _ F'.
    apply (follows_ptr_add S n eq M256 (mk_bpointer (to p) t) 1 (fun q => _mm256_loadu_b q)).
    apply (follows_loadu256 S n (mk_bpointer (shift (to p) (1 * size_of M256)) t)). right.
    cbn [to tag alloc offset shift size_of]. apply (frozen_part _ _ _ _ _ _ _ F'); change BLOCKBYTES with 64; lia.
Qed.
Lemma follows_load_2x256 S0 n0 p : froz S0 p 64 -> follows S0 n0 eq (load_2x256_b p) (load_2x256 Allocation (to p)).
Proof.
  intros F. unfold load_2x256_b. apply follows_pass; [right; exact F|]. intros S n t _ L F'.
  apply follows_protecting; [constructor; [exact L|constructor]|]. exact (follows_load_2x256_body S n (mk_bpointer (to p) t) F').
Qed.
Lemma follows_load_msg S0 n0 msg : octall (fun p => froz S0 p 64) msg ->
  follows S0 n0 eq (load_msg_vecs_interleave_b msg) (load_msg_vecs_interleave Allocation (oct_map to msg)).
Proof.
  intros F. destruct msg as [p0 p1 p2 p3 p4 p5 p6 p7]. unfold octall in F. cbn [o0 o1 o2 o3 o4 o5 o6 o7] in F.
  destruct F as (F0 & F1 & F2 & F3 & F4 & F5 & F6 & F7).
  unfold load_msg_vecs_interleave_b. cbn [o0 o1 o2 o3 o4 o5 o6 o7 oct_map].
  apply follows_pass; [right; exact F0|]. intros S1 k1 t1 X1 L1 P1.
  apply follows_pass; [right; exact (froz_extends _ _ _ _ _ _ X1 F1)|]. intros S2 k2 t2 X2 L2 P2. pose proof (extends_trans _ _ _ _ _ _ X1 X2) as Y2.
  apply follows_pass; [right; exact (froz_extends _ _ _ _ _ _ Y2 F2)|]. intros S3 k3 t3 X3 L3 P3. pose proof (extends_trans _ _ _ _ _ _ Y2 X3) as Y3.
  apply follows_pass; [right; exact (froz_extends _ _ _ _ _ _ Y3 F3)|]. intros S4 k4 t4 X4 L4 P4. pose proof (extends_trans _ _ _ _ _ _ Y3 X4) as Y4.
  apply follows_pass; [right; exact (froz_extends _ _ _ _ _ _ Y4 F4)|]. intros S5 k5 t5 X5 L5 P5. pose proof (extends_trans _ _ _ _ _ _ Y4 X5) as Y5.
  apply follows_pass; [right; exact (froz_extends _ _ _ _ _ _ Y5 F5)|]. intros S6 k6 t6 X6 L6 P6. pose proof (extends_trans _ _ _ _ _ _ Y5 X6) as Y6.
  apply follows_pass; [right; exact (froz_extends _ _ _ _ _ _ Y6 F6)|]. intros S7 k7 t7 X7 L7 P7. pose proof (extends_trans _ _ _ _ _ _ Y6 X7) as Y7.
  apply follows_pass; [right; exact (froz_extends _ _ _ _ _ _ Y7 F7)|]. intros S8 k8 t8 X8 L8 P8.
  pose proof (extends_trans _ _ _ _ _ _ X7 X8) as Z7. pose proof (extends_trans _ _ _ _ _ _ X6 Z7) as Z6. pose proof (extends_trans _ _ _ _ _ _ X5 Z6) as Z5.
  pose proof (extends_trans _ _ _ _ _ _ X4 Z5) as Z4. pose proof (extends_trans _ _ _ _ _ _ X3 Z4) as Z3. pose proof (extends_trans _ _ _ _ _ _ X2 Z3) as Z2.
  pose proof (frozen_extends _ _ _ _ _ _ _ _ X8 P7) as Q7. pose proof (frozen_extends _ _ _ _ _ _ _ _ Z7 P6) as Q6. pose proof (frozen_extends _ _ _ _ _ _ _ _ Z6 P5) as Q5.
  pose proof (frozen_extends _ _ _ _ _ _ _ _ Z5 P4) as Q4. pose proof (frozen_extends _ _ _ _ _ _ _ _ Z4 P3) as Q3. pose proof (frozen_extends _ _ _ _ _ _ _ _ Z3 P2) as Q2.
  pose proof (frozen_extends _ _ _ _ _ _ _ _ Z2 P1) as Q1.
  apply follows_protecting.
  { destruct X8 as (_ & H8 & _), Z7 as (_ & H7 & _), Z6 as (_ & H6 & _), Z5 as (_ & H5 & _), Z4 as (_ & H4 & _), Z3 as (_ & H3 & _), Z2 as (_ & H2 & _).
    repeat constructor; cbn [tag]; lia. }
  unfold load_msg_vecs_interleave. cbn [o0 o1 o2 o3 o4 o5 o6 o7].
  apply follows_bind_eq; [exact (follows_load_2x256 S8 k8 (mk_bpointer (to p0) t1) Q1)|]. intros [? ?].
  apply follows_bind_eq; [exact (follows_load_2x256 S8 k8 (mk_bpointer (to p1) t2) Q2)|]. intros [? ?].
  apply follows_bind_eq; [exact (follows_load_2x256 S8 k8 (mk_bpointer (to p2) t3) Q3)|]. intros [? ?].
  apply follows_bind_eq; [exact (follows_load_2x256 S8 k8 (mk_bpointer (to p3) t4) Q4)|]. intros [? ?].
  apply follows_bind_eq; [exact (follows_load_2x256 S8 k8 (mk_bpointer (to p4) t5) Q5)|]. intros [? ?].
  apply follows_bind_eq; [exact (follows_load_2x256 S8 k8 (mk_bpointer (to p5) t6) Q6)|]. intros [? ?].
  apply follows_bind_eq; [exact (follows_load_2x256 S8 k8 (mk_bpointer (to p6) t7) Q7)|]. intros [? ?].
  apply follows_bind_eq; [exact (follows_load_2x256 S8 k8 (mk_bpointer (to p7) t8) P8)|]. intros [? ?].
  apply follows_give.
Qed.
Lemma follows_vec_get S0 n0 p i : excl S0 p 256 -> i < 8 -> follows S0 n0 eq (vec_get_b p i) (vec_get Allocation (to p) i).
Proof.
  intros E Hi. unfold vec_get_b, vec_get. apply follows_ptr_add. apply follows_bind_eq; [|intros bs; apply follows_give].
  apply (follows_read S0 n0 (mk_bpointer (shift (to p) (i * size_of M256)) (tag p))). left. cbn [to tag alloc offset shift size_of].
  apply (exclusive_part _ _ _ _ _ _ _ E); lia.
Qed.
Lemma follows_vec_set S0 n0 p i x : excl S0 p 256 -> i < 8 -> follows S0 n0 eq (vec_set_b p i x) (vec_set Allocation (to p) i x).
Proof.
  intros E Hi. unfold vec_set_b, vec_set. apply follows_ptr_add.
  apply (follows_write S0 n0 (mk_bpointer (shift (to p) (i * size_of M256)) (tag p))). cbn [to tag alloc offset shift size_of].
  rewrite m256_bytes_length. apply (exclusive_part _ _ _ _ _ _ _ E); lia.
Qed.
Lemma follows_vecs_get S0 n0 p : excl S0 p 256 -> follows S0 n0 eq (vecs_get_b p) (vecs_get Allocation (to p)).
Proof.
  intros E. unfold vecs_get_b, vecs_get. do 8 (apply follows_bind_eq; [apply follows_vec_get; [exact E|lia]|]; intros ?). apply follows_give.
Qed.
Lemma follows_compress8_transposed S0 n0 p mv a b c d : excl S0 p 256 ->
  follows S0 n0 eq (compress8_transposed_b p mv a b c d) (compress8_transposed Allocation (to p) mv a b c d).
Proof.
  intros E. unfold compress8_transposed_b, compress8_transposed. apply follows_bind_eq; [apply follows_vecs_get; exact E|]. intros h. cbv zeta.
  generalize (rounds8 h mv a b c d). intros v.
  assert (K : forall i, i < 8 -> follows S0 n0 eq
    (x <== vec_get_b p i ;; vec_set_b p i (Avx2.xor x (Avx2.xor (Avx2.vget v i) (Avx2.vget v (8 + i)))))
    (x <-- vec_get Allocation (to p) i ;; vec_set Allocation (to p) i (Avx2.xor x (Avx2.xor (Avx2.vget v i) (Avx2.vget v (8 + i)))))).
  { intros i Hi. apply follows_bind_eq; [apply follows_vec_get; assumption|]. intros x. apply follows_vec_set; assumption. }
  do 7 (apply follows_bind_eq; [apply K; lia|]; intros _). apply K. lia.
Qed.
Lemma follows_load_state S0 n0 p : excl S0 p 32 -> follows S0 n0 eq (load_state_b p) (loadu256 Allocation (to p)).
Proof.
  intros E. unfold load_state_b. apply follows_as_ptr; [left; exact E|]. intros S n t _ F. apply (follows_loadu256 S n (mk_bpointer (to p) t)). right. exact F.
Qed.
Lemma follows_write_state S0 n0 p x : excl S0 p 32 -> follows S0 n0 eq (write_b StateWords_ty p (m256_bytes x)) (write Allocation StateWords_ty (to p) (m256_bytes x)).
Proof. intros E. apply follows_write. rewrite m256_bytes_length. exact E. Qed.
Lemma follows_compress8 S0 n0 h msg count lastblock lastnode : octall (fun p => excl S0 p 32) h -> octall (fun p => froz S0 p 64) msg ->
  follows S0 n0 eq (compress8_b h msg count lastblock lastnode) (compress8 Allocation (oct_map to h) (oct_map to msg) count lastblock lastnode).
Proof.
  intros E F. destruct h as [p0 p1 p2 p3 p4 p5 p6 p7]. unfold octall in E. cbn [o0 o1 o2 o3 o4 o5 o6 o7] in E.
  destruct E as (E0 & E1 & E2 & E3 & E4 & E5 & E6 & E7).
  unfold compress8_b, compress8. cbn [o0 o1 o2 o3 o4 o5 o6 o7 oct_map].
  do 8 (apply follows_bind_eq; [apply follows_load_state; assumption|]; intros ?). cbv zeta.
  apply follows_bind_eq; [apply follows_load_msg; exact F|]. intros mv.
  match goal with |- context [Avx2.transpose_vecs (Avx2.compress8_transposed ?a ?b ?c ?d ?e ?f)] => generalize (Avx2.transpose_vecs (Avx2.compress8_transposed a b c d e f)) end.
  intros v. do 7 (apply follows_bind_eq; [apply follows_write_state; assumption|]; intros _). apply follows_write_state; assumption.
Qed.

(** *** The whole routines *)
Lemma exclusive_excl w p n : exclusive w p n <-> excl (borrows w) p n.
Proof. reflexivity. Qed.
Lemma frozen_froz w p n : frozen w p n <-> froz (borrows w) p n.
Proof. reflexivity. Qed.
Lemma extends_keeps w s n m : old w -> extends (borrows w) (next w) s n -> keeps w (mk_world m s n (held w)) /\ old (mk_world m s n (held w)).
Proof.
  intros [_ P] E. split; [split; [|reflexivity]|split].
  - intros a k. destruct E as (_ & _ & G). destruct (G a k) as (up & X & _). exists up. exact X.
  - apply extends_old in E. destruct E as (O & _). exact O.
  - apply (held_later (next w)); [apply E|exact P].
Qed.
Lemma follows_run {A} w (x : bcode A) x0 b m : old w -> follows (borrows w) (next w) eq x x0 -> x0 (mem w) = Ok (b, m) ->
  exists w', x w = Ok (b, w') /\ mem w' = m /\ keeps w w' /\ old w'.
Proof.
  intros O F R. destruct (F w b m (extends_refl w O) (proj2 O) R) as (a & s & n & X & -> & E). exists (mk_world m s n (held w)).
  destruct (extends_keeps w s n m O E). auto.
Qed.
Theorem compress8_borrows w h msg count lastblock lastnode m : old w ->
  (forall l, exclusive w (proj l h) 32) -> (forall l, frozen w (proj l msg) 64) ->
  compress8 Allocation (oct_map to h) (oct_map to msg) count lastblock lastnode (mem w) = Ok (tt, m) ->
  exists w', compress8_b h msg count lastblock lastnode w = Ok (tt, w') /\ mem w' = m /\ keeps w w' /\ old w'.
Proof.
  intros O E F R. refine (follows_run w _ _ tt m O _ R). apply follows_compress8; apply octall_proj; [exact E|exact F].
Qed.
Lemma cast_vecs_run {A} w p (f : bpointer -> bcode A) (f0 : pointer -> code A) b m : old w -> exclusive w p 256 ->
  (forall S n u, extends (borrows w) (next w) S n -> exclusive_at S (alloc (to p)) (offset (to p)) (offset (to p) + 256) u ->
     follows S n eq (f (mk_bpointer (narrow (to p) 256 true) u)) (f0 (narrow (to p) 256 true))) ->
  andthen (reborrow Allocation true (Array M256 8) (to p)) f0 (mem w) = Ok (b, m) ->
  exists w', andthen_b (cast_vecs_b p) f w = Ok (b, w') /\ mem w' = m /\ keeps w w' /\ old w'.
Proof.
  intros O E K R. destruct (follows_cast_vecs _ _ eq p f f0 (extends_refl w O) E K w b m eq_refl eq_refl (proj2 O) R) as (a & s & n & X & -> & Y).
  exists (mk_world m s n (held w)). destruct (extends_keeps w s n m O Y). auto.
Qed.
Theorem vectorize_words8_borrows w p m : old w -> exclusive w p 256 ->
  vectorize_words8 Allocation (to p) (mem w) = Ok (tt, m) ->
  exists w', vectorize_words8_b p w = Ok (tt, w') /\ mem w' = m /\ keeps w w' /\ old w'.
Proof.
  intros O E R. unfold vectorize_words8_b. unfold vectorize_words8 in R. refine (cast_vecs_run w p _ _ tt m O E _ R).
  intros S n u X Eu. apply follows_pass_mut; [exact Eu|]. intros S' n' u' _ Lu Eu'. cbn [to] in *.
  apply follows_protecting; [constructor; [exact Lu|constructor]|].
  assert (Ex : excl S' (mk_bpointer (narrow (to p) 256 true) u') 256) by exact Eu'.
  apply (follows_bind_eq S' n' eq (vecs_get_b (mk_bpointer (narrow (to p) 256 true) u'))); [apply follows_vecs_get; exact Ex|].
  intros v. cbv zeta. generalize (Avx2.transpose_vecs v). intros y.
  do 7 (apply follows_bind_eq; [apply (follows_vec_set S' n' _ _ _ Ex); lia|]; intros _). apply (follows_vec_set S' n' _ _ _ Ex). lia.
Qed.
Theorem compress8_vectorized_borrows w p msg cl ch lb ln m : old w -> exclusive w p 256 -> (forall l, frozen w (proj l msg) 64) ->
  frozen w cl 32 -> frozen w ch 32 -> frozen w lb 32 -> frozen w ln 32 ->
  compress8_vectorized Allocation (to p) (oct_map to msg) (to cl) (to ch) (to lb) (to ln) (mem w) = Ok (tt, m) ->
  exists w', compress8_vectorized_b p msg cl ch lb ln w = Ok (tt, w') /\ mem w' = m /\ keeps w w' /\ old w'.
Proof.
  intros O E F F1 F2 F3 F4 R. unfold compress8_vectorized_b. unfold compress8_vectorized in R. refine (cast_vecs_run w p _ _ tt m O E _ R).
  intros S n u X Eu. apply follows_bind_eq.
  { apply follows_load_msg. apply octall_proj. intros l. exact (froz_extends _ _ _ _ _ _ X (F l)). }
  intros mv. apply follows_pass_mut; [exact Eu|]. intros S' n' u' X' Lu Eu'. pose proof (extends_trans _ _ _ _ _ _ X X') as Y. cbn [to] in *.
  assert (K : forall q, frozen w q 32 -> follows S' n' eq (read_b AlignedWords8_ty q) (read Allocation AlignedWords8_ty (to q))).
  { intros q Fq. apply follows_read. right. exact (frozen_extends _ _ _ _ _ _ _ _ Y Fq). }
  do 4 (apply follows_bind_eq; [apply K; assumption|]; intros ?).
  apply follows_protecting; [constructor; [exact Lu|constructor]|].
  apply (follows_compress8_transposed S' n' (mk_bpointer (narrow (to p) 256 true) u')). exact Eu'.
Qed.

(** *** [hash8_exact] *)
Lemma follows_block_at {A B} S0 n0 (rel : A -> B -> Prop) p n count (f : bpointer -> bcode A) (f0 : pointer -> code B) : froz S0 p n -> count + 64 <= n ->
  (forall S k u, extends S0 n0 S k -> froz S (mk_bpointer (narrow (shift (to p) (count * 1)) 64 false) u) 64 ->
     follows S k rel (f (mk_bpointer (narrow (shift (to p) (count * 1)) 64 false) u)) (f0 (narrow (shift (to p) (count * 1)) 64 false))) ->
  follows S0 n0 rel (andthen_b (block_at_b p n count) f) (andthen (block_at Allocation (to p) count) f0).
Proof.
  intros F L K. unfold block_at_b, block_at. apply follows_assoc_b.
  apply follows_as_ptr; [right; exact F|]. intros S k t X F'. apply follows_assoc_b. apply follows_assoc0.
  apply (follows_ptr_add S k rel U8 (mk_bpointer (to p) t) count (fun q => andthen_b (reborrow_b false Block_ty q) f)). cbn [to tag size_of].
  apply (follows_reborrow S k rel Block_ty (mk_bpointer (shift (to p) (count * 1)) t) f f0).
  - right. cbn [to tag alloc offset shift]. change (size_of Block_ty) with 64. apply (frozen_part _ _ _ _ _ _ _ F'); lia.
  - intros S' k' u X' F''. change (size_of Block_ty) with 64 in *. apply (K S' k' u); [|exact F'']. exact (extends_trans _ _ _ _ _ _ X X').
Qed.
Lemma follows_hash8_loop params input n len fuel : forall S0 n0 h count q, octall (fun p => froz S0 (fst p) (snd p) /\ len <= snd p) (oct_map2 pair input n) ->
  len = count + 64 * S q ->
  follows S0 n0 eq (hash8_exact_loop_b fuel params input n len h count) (hash8_exact_loop fuel Allocation params (oct_map to input) len h count).
Proof.
  destruct input as [i0 i1 i2 i3 i4 i5 i6 i7], n as [l0 l1 l2 l3 l4 l5 l6 l7]. cbn [oct_map2 oct_map].
  induction fuel as [|fuel IH]; intros S0 n0 h count q F L; [intros w b m _ _ R; discriminate R|].
  pose proof F as F_. unfold octall in F_. cbn [fst snd o0 o1 o2 o3 o4 o5 o6 o7] in F_.
  destruct F_ as ((F0 & L0) & (F1 & L1) & (F2 & L2) & (F3 & L3) & (F4 & L4) & (F5 & L5) & (F6 & L6) & (F7 & L7)).
  cbn [hash8_exact_loop_b hash8_exact_loop o0 o1 o2 o3 o4 o5 o6 o7].
  apply follows_block_at; [exact F0|lia|]; intros S1 k1 u1 X1 P0.
  apply follows_block_at; [exact (froz_extends _ _ _ _ _ _ X1 F1)|lia|]; intros S2 k2 u2 X2 P1; pose proof (extends_trans _ _ _ _ _ _ X1 X2) as Y2.
  apply follows_block_at; [exact (froz_extends _ _ _ _ _ _ Y2 F2)|lia|]; intros S3 k3 u3 X3 P2; pose proof (extends_trans _ _ _ _ _ _ Y2 X3) as Y3.
  apply follows_block_at; [exact (froz_extends _ _ _ _ _ _ Y3 F3)|lia|]; intros S4 k4 u4 X4 P3; pose proof (extends_trans _ _ _ _ _ _ Y3 X4) as Y4.
  apply follows_block_at; [exact (froz_extends _ _ _ _ _ _ Y4 F4)|lia|]; intros S5 k5 u5 X5 P4; pose proof (extends_trans _ _ _ _ _ _ Y4 X5) as Y5.
  apply follows_block_at; [exact (froz_extends _ _ _ _ _ _ Y5 F5)|lia|]; intros S6 k6 u6 X6 P5; pose proof (extends_trans _ _ _ _ _ _ Y5 X6) as Y6.
  apply follows_block_at; [exact (froz_extends _ _ _ _ _ _ Y6 F6)|lia|]; intros S7 k7 u7 X7 P6; pose proof (extends_trans _ _ _ _ _ _ Y6 X7) as Y7.
  apply follows_block_at; [exact (froz_extends _ _ _ _ _ _ Y7 F7)|lia|]; intros S8 k8 u8 X8 P7; pose proof (extends_trans _ _ _ _ _ _ Y7 X8) as Y8.
  cbv zeta.
  match goal with |- follows _ _ _ (andthen_b (load_msg_vecs_interleave_b ?msg) _) _ => apply (follows_bind_eq S8 k8 eq (load_msg_vecs_interleave_b msg)) end.
  - match goal with |- follows _ _ _ (load_msg_vecs_interleave_b ?msg) _ => apply (follows_load_msg S8 k8 msg) end. unfold octall. cbn [o0 o1 o2 o3 o4 o5 o6 o7].
    pose proof (froz_extends _ _ _ _ _ _ X8 P6) as Q6. pose proof (extends_trans _ _ _ _ _ _ X7 X8) as Z6.
    pose proof (froz_extends _ _ _ _ _ _ Z6 P5) as Q5. pose proof (extends_trans _ _ _ _ _ _ X6 Z6) as Z5.
    pose proof (froz_extends _ _ _ _ _ _ Z5 P4) as Q4. pose proof (extends_trans _ _ _ _ _ _ X5 Z5) as Z4.
    pose proof (froz_extends _ _ _ _ _ _ Z4 P3) as Q3. pose proof (extends_trans _ _ _ _ _ _ X4 Z4) as Z3.
    pose proof (froz_extends _ _ _ _ _ _ Z3 P2) as Q2. pose proof (extends_trans _ _ _ _ _ _ X3 Z3) as Z2.
    pose proof (froz_extends _ _ _ _ _ _ Z2 P1) as Q1. pose proof (extends_trans _ _ _ _ _ _ X2 Z2) as Z1.
    pose proof (froz_extends _ _ _ _ _ _ Z1 P0) as Q0. exact (conj Q0 (conj Q1 (conj Q2 (conj Q3 (conj Q4 (conj Q5 (conj Q6 P7))))))).
  - intros mv. destruct (Nat.eqb_spec (count + BLOCKBYTES) len) as [El|El]; [apply follows_give|]. destruct q as [|q]; [change BLOCKBYTES with 64 in El; lia|].
    apply (IH S8 k8 _ _ q); [|change BLOCKBYTES with 64; lia]. unfold octall. cbn [fst snd o0 o1 o2 o3 o4 o5 o6 o7].
    assert (Z : forall p l, froz S0 p l -> froz S8 p l) by (intros p l; exact (froz_extends _ _ _ _ _ _ Y8)).
    split; [split; [exact (Z _ _ F0)|exact L0]|]. split; [split; [exact (Z _ _ F1)|exact L1]|]. split; [split; [exact (Z _ _ F2)|exact L2]|].
    split; [split; [exact (Z _ _ F3)|exact L3]|]. split; [split; [exact (Z _ _ F4)|exact L4]|]. split; [split; [exact (Z _ _ F5)|exact L5]|].
    split; [split; [exact (Z _ _ F6)|exact L6]|]. split; [exact (Z _ _ F7)|exact L7].
Qed.
Theorem hash8_exact_borrows w params input n hs m q : old w -> (forall l, frozen w (proj l input) (64 * S q)) -> n = oct_const (64 * S q) ->
  hash8_exact Allocation params (oct_map to input) (64 * S q) (mem w) = Ok (hs, m) ->
  exists w', hash8_exact_b params input n w = Ok (hs, w') /\ mem w' = m /\ keeps w w' /\ old w'.
Proof.
  intros O F -> R. refine (follows_run w _ _ hs m O _ R). unfold hash8_exact_b, hash8_exact. cbv zeta. unfold oct_const at 1 3. cbn [o0].
  apply (follows_hash8_loop params input (oct_const (64 * S q)) (64 * S q) _ _ _ _ 0 q); [|lia].
  destruct input as [i0 i1 i2 i3 i4 i5 i6 i7]. unfold oct_const, octall. cbn [oct_map2 fst snd o0 o1 o2 o3 o4 o5 o6 o7].
  pose proof (F L0). pose proof (F L1). pose proof (F L2). pose proof (F L3). pose proof (F L4). pose proof (F L5). pose proof (F L6). pose proof (F L7).
  repeat split; try assumption; apply le_n.
Qed.

(** ** sse41.rs *)

(** As the code is: a tag that is only on the stacks of one word does not read the next. *)
Lemma read_unknown t s : Forall (fun i => owner i <> t) s -> on_read t s = None.
Proof. intros F. induction F as [|i s H F IH]; [reflexivity|]. cbn [on_read]. rewrite (grants_other _ _ _ H), IH. reflexivity. Qed.
Theorem load_words_refuted w h i : old w -> forall x m, andthen (element Allocation false U32 (to h) i) (loadu Allocation) (mem w) = Ok (x, m) ->
  load_words_b Word h i w = UB.
Proof.
  intros O x m R. unfold andthen in R. destruct (element Allocation false U32 (to h) i (mem w)) as [[q m1]| | |] eqn:E; try discriminate. cbn [bind] in R.
  assert (m1 = mem w) as ->.
  { unfold element, andthen in E. destruct (ptr_add U32 (to h) i (mem w)) as [[p m2]| | |] eqn:E1; try discriminate. cbn [bind] in E.
    apply reborrow_result in E as [-> _]. unfold ptr_add, andthen, check, give in E1. destruct (within _ _ _ _); [|discriminate]. cbn in E1. congruence. }
  unfold load_words_b, const_at, andthen_b, lift, acting. rewrite E. cbn [bind]. unfold retag. cbn [to tag mem borrows next held].
  destruct (over (held w) (new_shared (tag h) (next w)) (alloc q) (offset q) 4 (borrows w)) as [S'|] eqn:V; [|reflexivity]. cbn [bind].
  unfold loadu_b, andthen_b, read_unaligned_b, acting. cbn [to tag mem borrows next held].
  unfold loadu, _mm_loadu, andthen in R. destruct (read_unaligned Allocation q 16 (mem w)) as [[bs m2]| | |]; try discriminate. cbn [bind].
  rewrite (over_none _ _ _ _ _ S' (offset q + 4)); [reflexivity|lia|]. apply read_unknown.
  assert (S' (alloc q) (offset q + 4) = borrows w (alloc q) (offset q + 4)) as ->.
  { unfold over in V. destruct (forallb _ _); [|discriminate]. injection V as <-. cbn beta.
    destruct (covers (alloc q) (offset q) 4 (alloc q) (offset q + 4)) eqn:C; [|reflexivity]. apply covers_spec in C. lia. }
  eapply Forall_impl; [|exact (proj1 O _ _)]. cbn. intros j. lia.
Qed.
Theorem compress_word_refuted w iv h msg count lastblock lastnode m : old w ->
  compress Allocation (to iv) (to h) (to msg) count lastblock lastnode (mem w) = Ok (tt, m) ->
  compress_b Word iv h msg count lastblock lastnode w = UB.
Proof.
  intros O R. unfold compress_b, andthen_b at 1.
  assert (exists x m1, andthen (element Allocation false U32 (to h) 0) (loadu Allocation) (mem w) = Ok (x, m1)) as (x & m1 & E).
  { unfold compress, andthen at 1 in R. unfold andthen at 1. destruct (element Allocation false U32 (to h) 0 (mem w)) as [[q m1]| | |]; try discriminate.
    cbn [bind] in *. unfold andthen at 1 in R. destruct (loadu Allocation q m1) as [[x m2]| | |]; try discriminate. eauto. }
  rewrite (load_words_refuted w h 0 O x m1 E). reflexivity.
Qed.

(** With the pointers made from the array *)
Definition above (S0 S : stacks) (a i j : nat) (up : stack) : Prop := forall k, i <= k < j -> S a k = up ++ S0 a k.
Lemma above_over S0 n0 S n n' f a i l up up' t : extends S0 n0 S n -> n <= n' -> exclusive_at S0 a i (i + l) t -> above S0 S a i (i + l) up ->
  (forall r, f (up ++ mk_item Unique t :: r) = Some (up' ++ mk_item Unique t :: r)) -> Forall (fun x => n0 <= owner x < n') up' ->
  exists S', over [] f a i l S = Some S' /\ extends S0 n0 S' n' /\ above S0 S' a i (i + l) up'.
Proof.
  intros E Hn X A H G. destruct (over_grown S0 n0 S n n' f a i l E Hn) as (S' & Y & E' & Z).
  - intros k Hk. destruct (X k Hk) as (r & Er). rewrite (A k Hk), Er, H. eexists. split; [reflexivity|]. exists up'. split; [reflexivity|].
    split; [exact G|]. intros (t' & s' & T). discriminate T.
  - exists S'. split; [exact Y|]. split; [exact E'|]. intros k Hk. destruct (Z a k) as [(_ & e)|[e _]]; [|exfalso; apply e; auto].
    destruct (X k Hk) as (r & Er). rewrite (A k Hk), Er, H in e. injection e as <-. rewrite Er. reflexivity.
Qed.
Lemma above_part S0 S a i j up i' j' : above S0 S a i j up -> i <= i' -> j' <= j -> above S0 S a i' j' up.
Proof. intros H Hi Hj k Hk. apply H. lia. Qed.
Lemma element_result mut t p i m q m' : element Allocation mut t p i m = Ok (q, m') -> m' = m /\ q = narrow (shift p (i * size_of t)) (size_of t) mut.
Proof.
  unfold element, andthen. destruct (ptr_add t p i m) as [[p1 m1]| | |] eqn:E; try discriminate. cbn [bind]. intros R. apply reborrow_result in R as [-> ->].
  unfold ptr_add, andthen, check, give in E. destruct (within _ _ _ _); [|discriminate]. cbn in E. injection E as <- <-. auto.
Qed.
Lemma exclusive_unique_new S0 n0 S n a i l t : extends S0 n0 S n -> exclusive_at S0 a i (i + l) t ->
  exists S', over [] (new_unique t n) a i l S = Some S' /\ extends S0 n0 S' (1 + n) /\ above S0 S' a i (i + l) [mk_item Unique n].
Proof.
  intros E R.
  destruct (over_grown S0 n0 S n (1 + n) (new_unique t n) a i l E ltac:(lia)) as (S' & X & E' & Y).
  { intros k Hk. destruct (exclusive_split _ _ _ _ _ _ _ _ _ E R Hk) as (up & Es & _). unfold new_unique, on_write. rewrite Es. eexists.
    split; [reflexivity|]. exists [mk_item Unique n]. split; [reflexivity|]. split.
    - constructor; [cbn; destruct E as (_ & L & _); lia|constructor].
    - intros (t' & s' & T). destruct (R k Hk) as (s & Es'). congruence. }
  exists S'. split; [exact X|]. split; [exact E'|]. intros k Hk. destruct (Y a k) as [(_ & e)|[e _]]; [|exfalso; apply e; auto].
  destruct (exclusive_split _ _ _ _ _ _ _ _ _ E R Hk) as (up & Es & _). unfold new_unique, on_write in e. rewrite Es in e. injection e as <-. reflexivity.
Qed.
Lemma follows_xor_words S0 n0 h i x : excl S0 h 32 -> i <= 4 ->
  follows S0 n0 eq (xor_words_b Words h i x)
    (q <-- element Allocation true U32 (to h) i ;; p <-- element Allocation false U32 (to h) i ;; y <-- loadu Allocation p ;; storeu Allocation q (Sse41.xor y x)).
Proof.
  intros X Hi w b m E P R. destruct h as [h t]. destruct w as [m0 S n H]. unfold excl in X. cbn [to tag borrows next mem held] in *.
  assert (Ht : t < n0).
  { destruct (X (offset h) ltac:(lia)) as (r & Er). destruct E as (O & _). pose proof (O (alloc h) (offset h)) as Oh. rewrite Er in Oh. inversion Oh; subst. assumption. }
  assert (Hn : n0 <= n) by apply E.
  unfold andthen at 1 in R. destruct (element Allocation true U32 h i m0) as [[q m1]| | |] eqn:Eq; try discriminate. cbn [bind] in R.
  pose proof (element_result _ _ _ _ _ _ _ Eq) as [-> ->].
  unfold andthen at 1 in R. destruct (element Allocation false U32 h i m0) as [[p m1]| | |] eqn:Ep; try discriminate. cbn [bind] in R.
  pose proof (element_result _ _ _ _ _ _ _ Ep) as [-> ->].
  unfold andthen at 1, loadu, _mm_loadu in R. unfold andthen at 1 in R.
  set (p := narrow (shift h (i * size_of U32)) (size_of U32) false) in *. set (q := narrow (shift h (i * size_of U32)) (size_of U32) true) in *.
  destruct (read_unaligned Allocation p 16 m0) as [[bs m1]| | |] eqn:Er; try discriminate. cbn [bind give] in R.
  assert (m1 = m0) as ->.
  { unfold read_unaligned, andthen, check in Er. destruct (within _ _ _ _); [|discriminate]. cbn in Er. congruence. }
  destruct (exclusive_unique_new S0 n0 S n (alloc h) (offset h) 32 t E X) as (S1 & V1 & E1 & A1).
  destruct (above_over S0 n0 S1 (1 + n) (2 + n) (new_raw n (1 + n)) (alloc h) (offset h) 32 _ [mk_item SharedRW (1 + n); mk_item Unique n] t E1 ltac:(lia) X A1)
    as (S2 & V2 & E2 & A2).
  { intros r. unfold new_raw. cbn [app split_at]. rewrite grants_unique. reflexivity. }
  { repeat constructor; cbn; lia. }
  destruct (above_over S0 n0 S2 (2 + n) (3 + n) (new_shared t (2 + n)) (alloc h) (offset h) 32 _
    [mk_item SharedRO (2 + n); mk_item SharedRW (1 + n); mk_item Disabled n] t E2 ltac:(lia) X A2) as (S3 & V3 & E3 & A3).
  { intros r. unfold new_shared. cbn [app on_read]. rewrite grants_other by (cbn; lia). rewrite grants_other by (cbn; lia). rewrite grants_unique. reflexivity. }
  { repeat constructor; cbn; lia. }
  assert (X' : exclusive_at S0 (alloc h) (offset h + i * 4) (offset h + i * 4 + 16) t) by (apply (exclusive_part _ _ _ _ _ _ _ X); lia).
  assert (A3' : above S0 S3 (alloc h) (offset h + i * 4) (offset h + i * 4 + 16) [mk_item SharedRO (2 + n); mk_item SharedRW (1 + n); mk_item Disabled n])
    by (apply (above_part _ _ _ _ _ _ _ _ A3); lia).
  destruct (above_over S0 n0 S3 (3 + n) (3 + n) (on_read (2 + n)) (alloc h) (offset h + i * 4) 16 _
    [mk_item SharedRO (2 + n); mk_item SharedRW (1 + n); mk_item Disabled n] t E3 ltac:(lia) X' A3') as (S4 & V4 & E4 & A4).
  { intros r. cbn [app on_read]. unfold grants. cbn [owner allows negb]. rewrite Nat.eqb_refl. reflexivity. }
  { repeat constructor; cbn; lia. }
  destruct (above_over S0 n0 S4 (3 + n) (3 + n) (on_write (1 + n)) (alloc h) (offset h + i * 4) 16 _
    [mk_item SharedRW (1 + n); mk_item Disabled n] t E4 ltac:(lia) X' A4) as (S5 & V5 & E5 & A5).
  { intros r. unfold on_write. cbn [app split_at]. rewrite grants_other by (cbn; lia). unfold grants at 1. cbn [owner allows]. rewrite Nat.eqb_refl. reflexivity. }
  { repeat constructor; cbn; lia. }
  generalize (over_held _ _ _ _ _ _ H _ _ _ _ E P V1 E1); clear V1; intros V1. generalize (over_held _ _ _ _ _ _ H _ _ _ _ E1 P V2 E2); clear V2; intros V2.
  generalize (over_held _ _ _ _ _ _ H _ _ _ _ E2 P V3 E3); clear V3; intros V3. generalize (over_held _ _ _ _ _ _ H _ _ _ _ E3 P V4 E4); clear V4; intros V4.
  generalize (over_held _ _ _ _ _ _ H _ _ _ _ E4 P V5 E5); clear V5; intros V5.
  unfold storeu, _mm_storeu in R.
  unfold xor_words_b, mut_at, load_words_b, const_at, andthen_b, lift, acting, give_b. cbn [mem to tag]. rewrite Eq. cbn [bind mem borrows next held].
  unfold retag at 1. cbn [to tag next borrows mem held]. rewrite V1. cbn [bind mem borrows next held].
  unfold retag at 1. cbn [to tag next borrows mem held]. change (Datatypes.S n) with (1 + n). rewrite V2. cbn [bind mem borrows next held].
  rewrite Ep. cbn [bind mem borrows next held]. unfold retag at 1. cbn [to tag next borrows mem held]. change (Datatypes.S (1 + n)) with (2 + n). rewrite V3. cbn [bind mem borrows next held].
  unfold loadu_b, read_unaligned_b, andthen_b, acting. cbn [to tag next borrows mem held]. fold p. rewrite Er. cbn [bind].
  change (alloc p) with (alloc h). change (offset p) with (offset h + i * 4). rewrite V4. cbn [bind give_b].
  unfold storeu_b, write_unaligned_b, acting. cbn [to tag next borrows mem held]. fold q. rewrite R. cbn [bind].
  rewrite m128_bytes_length. change (alloc q) with (alloc h). change (offset q) with (offset h + i * 4). rewrite V5.
  exists b, S5, (3 + n). auto.
Qed.
Lemma follows_loadu S0 n0 p : readable_at S0 (alloc (to p)) (offset (to p)) (offset (to p) + 16) (tag p) ->
  follows S0 n0 eq (loadu_b p) (loadu Allocation (to p)).
Proof.
  intros R. unfold loadu_b, loadu, _mm_loadu. apply follows_bind_eq; [exact (follows_read_unaligned _ _ _ _ R)|]. intros bs. apply follows_give.
Qed.
Lemma follows_load_words S0 n0 h i : readable_at S0 (alloc (to h)) (offset (to h)) (offset (to h) + 32) (tag h) -> i <= 4 ->
  follows S0 n0 eq (load_words_b Words h i) (andthen (element Allocation false U32 (to h) i) (loadu Allocation)).
Proof.
  intros R Hi. unfold load_words_b, const_at. apply follows_assoc_b. apply follows_lift. intros m q m' E. apply element_result in E as [-> ->].
  split; [reflexivity|]. apply follows_assoc_b. apply (follows_as_ptr S0 n0 eq h 32); [exact R|]. intros S n t _ F.
  intros w b m1 X P Y. unfold andthen_b, give_b. cbn [bind tag].
  refine (follows_loadu S n (mk_bpointer (narrow (shift (to h) (i * size_of U32)) (size_of U32) false) t) _ w b m1 X P Y).
  right. cbn [to tag alloc offset narrow shift size_of]. apply (frozen_part _ _ _ _ _ _ _ F); lia.
Qed.
Lemma follows_load_bytes S0 n0 msg i : froz S0 msg 64 -> i <= 48 ->
  follows S0 n0 eq (load_bytes_b msg i) (andthen (ptr_add U8 (to msg) i) (loadu Allocation)).
Proof.
  intros R Hi. unfold load_bytes_b. apply follows_as_ptr; [right; exact R|]. intros S n t _ F.
  apply (follows_ptr_add S n eq U8 (mk_bpointer (to msg) t) i loadu_b).
  apply (follows_loadu S n (mk_bpointer (shift (to msg) (i * size_of U8)) t)). right. cbn [to tag alloc offset shift size_of].
  apply (frozen_part _ _ _ _ _ _ _ F); change BLOCKBYTES with 64; lia.
Qed.
Lemma follows_assoc3 {A B C D E F} S0 n0 (rel : A -> F -> Prop) (x : bcode A) (y : code B) (f : B -> code C) (g : B -> C -> code D) (k : B -> C -> D -> code E) (z : E -> code F) :
  follows S0 n0 rel x (andthen (andthen y (fun b => andthen (f b) (fun c => andthen (g b c) (k b c)))) z) ->
  follows S0 n0 rel x (andthen y (fun b => andthen (f b) (fun c => andthen (g b c) (fun d => andthen (k b c d) z)))).
Proof.
  intros H w b m X P R. apply (H w b m X P). rewrite <- R. unfold andthen. destruct (y (mem w)) as [[b1 m1]| | |]; try reflexivity. cbn [bind].
  destruct (f b1 m1) as [[c1 m2]| | |]; try reflexivity. cbn [bind]. destruct (g b1 c1 m2) as [[d1 m3]| | |]; reflexivity.
Qed.
Theorem compress_words_borrows w iv h msg count lastblock lastnode m : old w -> frozen w iv 32 -> exclusive w h 32 -> frozen w msg 64 ->
  compress Allocation (to iv) (to h) (to msg) count lastblock lastnode (mem w) = Ok (tt, m) ->
  exists w', compress_b Words iv h msg count lastblock lastnode w = Ok (tt, w') /\ mem w' = m /\ keeps w w' /\ old w'.
Proof.
  intros O Fi Xh Fm R. refine (follows_run w _ _ tt m O _ R). unfold compress_b, compress.
  pose proof (fun i => follows_load_words (borrows w) (next w) h i (or_introl Xh)) as Lh.
  pose proof (fun i => follows_load_words (borrows w) (next w) iv i (or_intror Fi)) as Li.
  pose proof (fun i => follows_load_bytes (borrows w) (next w) msg i Fm) as Lm.
  apply follows_assoc, follows_bind_eq; [apply Lh; lia|]. intros row1.
  apply follows_assoc, follows_bind_eq; [apply Lh; lia|]. intros row2.
  apply follows_assoc, follows_bind_eq; [apply Li; lia|]. intros row3.
  apply follows_assoc, follows_bind_eq; [apply Li; lia|]. intros iv4. cbv zeta.
  apply follows_assoc, follows_bind_eq; [apply Lm; lia|]. intros m0.
  apply follows_assoc, follows_bind_eq; [apply Lm; lia|]. intros m1.
  apply follows_assoc, follows_bind_eq; [apply Lm; lia|]. intros m2.
  apply follows_assoc, follows_bind_eq; [apply Lm; lia|]. intros m3.
  destruct (compress_rounds _ _ _ _ _ _ _ _) as [[[r1 r2] r3] r4].
  pose proof (fun i x => follows_xor_words (borrows w) (next w) h i x Xh) as K.
  apply (follows_assoc3 _ _ eq _ (element Allocation true U32 (to h) 0)
    (fun q => element Allocation false U32 (to h) 0) (fun q p => loadu Allocation p) (fun q p y => storeu Allocation q (Sse41.xor y (Sse41.xor r1 r3)))).
  apply follows_bind_eq; [apply K; lia|]. intros _. apply K. lia.
Qed.

(** ** What the rules forbid *)
Lemma write_unknown t s : Forall (fun i => owner i <> t) s -> on_write t s = None.
Proof.
  intros F. unfold on_write. induction F as [|i s H F IH]; [reflexivity|]. cbn [split_at]. rewrite (grants_other _ _ _ H).
  destruct (split_at t s); [discriminate IH|reflexivity].
Qed.
(** A write through a [&mut] removes what was made from it. *)
Theorem write_invalidates t up s : ~ In t (map owner up) ->
  on_write t (up ++ mk_item Unique t :: s) = Some (mk_item Unique t :: s) /\
  forall u, In u (map owner up) -> ~ In u (map owner s) ->
    on_read u (mk_item Unique t :: s) = None /\ on_write u (mk_item Unique t :: s) = None.
Proof.
  intros N. split.
  - unfold on_write. rewrite split_above; [reflexivity| |apply grants_unique|reflexivity]. apply Forall_forall. intros i Hi E. apply N. rewrite <- E. apply in_map, Hi.
  - intros u Hu Hs. assert (F : Forall (fun i => owner i <> u) (mk_item Unique t :: s)).
    { constructor; [cbn; intros E; subst u; exact (N Hu)|]. apply Forall_forall. intros i Hi E. apply Hs. rewrite <- E. apply in_map, Hi. }
    split; [exact (read_unknown u _ F)|exact (write_unknown u _ F)].
Qed.
(** A read through it ends the [&mut] that were made from it, and keeps the other borrows. *)
Lemma grants_disabled w t u : grants w t (mk_item Disabled u) = false.
Proof. unfold grants. cbn. apply andb_false_r. Qed.
Definition without_unique (up : stack) : stack := map (fun i => if is_unique i then mk_item Disabled (owner i) else i) up.
Lemma read_over t up s : ~ In t (map owner up) -> on_read t (up ++ mk_item Unique t :: s) = Some (without_unique up ++ mk_item Unique t :: s).
Proof.
  intros N. induction up as [|i up IH]; cbn [app without_unique map]; [apply read_unique|]. cbn [map] in N. cbn [on_read].
  rewrite grants_other by (intros E; apply N; left; exact E). rewrite IH by (intros H; apply N; right; exact H). reflexivity.
Qed.
Lemma ungranted w u s : (forall i, In i s -> grants w u i = false) -> (if w then on_write u s = None else on_read u s = None).
Proof.
  intros H. destruct w.
  - unfold on_write. induction s as [|i s IH]; [reflexivity|]. cbn [split_at]. rewrite (H i (or_introl eq_refl)).
    destruct (split_at u s); [discriminate (IH (fun j Hj => H j (or_intror Hj)))|reflexivity].
  - induction s as [|i s IH]; [reflexivity|]. cbn [on_read]. rewrite (H i (or_introl eq_refl)), IH; [reflexivity|]. intros j Hj. apply H. right. exact Hj.
Qed.
Theorem read_invalidates t up s : ~ In t (map owner up) ->
  exists s', on_read t (up ++ mk_item Unique t :: s) = Some s' /\
  (forall u, ~ In u (map owner s) -> u <> t -> (forall i, In i up -> owner i = u -> allows i = Unique) -> on_read u s' = None /\ on_write u s' = None) /\
  (forall i, In i up -> allows i = SharedRO -> exists s'', on_read (owner i) s' = Some s'').
Proof.
  intros N. eexists. split; [exact (read_over t up s N)|]. split.
  - intros u Hs Hu H. assert (G : forall w i, In i (without_unique up ++ mk_item Unique t :: s) -> grants w u i = false).
    { intros w i Hi. apply in_app_or in Hi as [Hi|[<-|Hi]].
      - unfold without_unique in Hi. apply in_map_iff in Hi as (j & <- & Hj). destruct (Nat.eq_dec (owner j) u) as [E|E].
        + unfold is_unique. rewrite (H j Hj E). apply grants_disabled.
        + destruct (is_unique j); [apply grants_disabled|apply grants_other, E].
      - apply grants_other. cbn. auto.
      - apply grants_other. intros E. apply Hs. rewrite <- E. apply in_map, Hi. }
    split; [exact (ungranted false u _ (G false))|exact (ungranted true u _ (G true))].
  - intros i Hi E. clear N. induction up as [|j up IH]; [contradiction|]. cbn [without_unique map app on_read].
    destruct (grants false (owner i) _) eqn:G; [eauto|]. destruct Hi as [->|Hi].
    + exfalso. unfold is_unique in G. rewrite E in G. unfold grants in G. rewrite E, Nat.eqb_refl in G. discriminate.
    + destruct (IH Hi) as (s'' & Es). unfold without_unique in Es. rewrite Es. eauto.
Qed.
(** A [&] does not write. *)
Theorem shared_no_write t s : (forall i, In i s -> owner i = t -> allows i = SharedRO) -> on_write t s = None.
Proof.
  intros H. apply (ungranted true). intros i Hi. destruct (Nat.eq_dec (owner i) t) as [E|E]; [|exact (grants_other _ _ _ E)].
  unfold grants. rewrite (H i Hi E). apply andb_false_r.
Qed.
(** Raw pointers made one after the other do not disturb each other. *)
Lemma split_raw t ts s : In t ts -> split_at t (map (mk_item SharedRW) ts ++ s) = Some ([], map (mk_item SharedRW) ts ++ s).
Proof.
  intros H. induction ts as [|u ts IH]; [contradiction|]. cbn [map app split_at]. destruct (Nat.eq_dec u t) as [->|N].
  - unfold grants. cbn [owner allows]. rewrite Nat.eqb_refl. reflexivity.
  - rewrite grants_other by (cbn; exact N). destruct H as [->|H]; [contradiction|]. rewrite (IH H). destruct ts as [|v ts]; [contradiction|]. reflexivity.
Qed.
Theorem raw_coexist t ts s new : In t ts ->
  on_write t (map (mk_item SharedRW) ts ++ s) = Some (map (mk_item SharedRW) ts ++ s) /\
  on_read t (map (mk_item SharedRW) ts ++ s) = Some (map (mk_item SharedRW) ts ++ s) /\
  new_raw t new (map (mk_item SharedRW) ts ++ s) = Some (map (mk_item SharedRW) (new :: ts) ++ s).
Proof.
  intros H. pose proof (split_raw t ts s H) as E. split; [unfold on_write; rewrite E; reflexivity|]. split; [|unfold new_raw; rewrite E; reflexivity].
  clear E. induction ts as [|u ts IH]; [contradiction|]. cbn [map app on_read]. destruct (Nat.eq_dec u t) as [->|N].
  - unfold grants. cbn [owner allows]. rewrite Nat.eqb_refl. reflexivity.
  - rewrite grants_other by (cbn; exact N). destruct H as [->|H]; [contradiction|]. rewrite (IH H). reflexivity.
Qed.
(** What is protected is neither removed nor disabled. *)
Lemma over_violated H f a i n S k s' j : i <= k < i + n -> f (S a k) = Some s' -> In j (S a k) -> In (owner j) H -> ~ In j s' -> over H f a i n S = None.
Proof.
  intros Hk E J P N. unfold over. destruct (forallb _ _) eqn:F; [|reflexivity]. exfalso. rewrite forallb_forall in F.
  specialize (F k ltac:(apply in_seq; lia)). cbn beta in F. rewrite E in F. apply N. exact (proj1 (intact_spec _ _ _) F j J P).
Qed.
Lemma acting_fails {A} (x : code A) f w r : f (held w) (borrows w) = None -> acting x f w <> Ok r.
Proof. intros E. unfold acting. destruct (x (mem w)) as [[a m]| | |]; cbn [bind]; try discriminate. rewrite E. discriminate. Qed.
Theorem write_protected w t p bs k up s j : offset (to p) <= k < offset (to p) + length bs ->
  borrows w (alloc (to p)) k = up ++ mk_item Unique (tag p) :: s -> ~ In (tag p) (map owner up) ->
  In j up -> ~ In (owner j) (map owner s) -> In (owner j) (held w) ->
  forall r, write_b t p bs w <> Ok r.
Proof.
  intros Hk E N J Ns P r. apply acting_fails. destruct (write_invalidates (tag p) up s N) as [W _].
  apply (over_violated _ _ _ _ _ _ k (mk_item Unique (tag p) :: s) j Hk); [rewrite E; exact W|rewrite E; apply in_or_app; left; exact J|exact P|].
  intros [Ej|Ij]; [|apply Ns, in_map, Ij]. apply N. change (tag p) with (owner (mk_item Unique (tag p))). rewrite Ej. apply in_map, J.
Qed.
Theorem read_protected w t p k up s j : offset (to p) <= k < offset (to p) + size_of t ->
  borrows w (alloc (to p)) k = up ++ mk_item Unique (tag p) :: s -> ~ In (tag p) (map owner up) ->
  In j up -> allows j = Unique -> ~ In (owner j) (map owner s) -> In (owner j) (held w) ->
  forall r, read_b t p w <> Ok r.
Proof.
  intros Hk E N J U Ns P r. apply acting_fails. pose proof (read_over (tag p) up s N) as W.
  apply (over_violated _ _ _ _ _ _ k _ j Hk (eq_trans (f_equal _ E) W)); [rewrite E; apply in_or_app; left; exact J|exact P|].
  intros I. apply in_app_or in I as [I|[Ej|Ij]].
  - unfold without_unique in I. apply in_map_iff in I as (i & Ei & _). destruct (is_unique i) eqn:V.
    + rewrite <- Ei in U. discriminate U.
    + subst i. unfold is_unique in V. rewrite U in V. discriminate V.
  - apply N. change (tag p) with (owner (mk_item Unique (tag p))). rewrite Ej. apply in_map, J.
  - apply Ns, in_map, Ij.
Qed.
