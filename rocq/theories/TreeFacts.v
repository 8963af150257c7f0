(** * TreeFacts: the vector routines obey Tree Borrows. *)
From Verif Require Import Base BaseFacts Consts Intrinsics Portable Params Memory MemoryFacts Views Trees.
From Verif Require Sse41 Avx2.
From Coq Require Import Lia.
Local Open Scope nat_scope.

(** ** What is known about permissions *)

(** What may be known about a tag and a byte: it is not disabled; it may be written through;
    the same, protected or not; it has never been written through; it is not active; it is not
    used or disabled; it is not used. *)
Inductive kind := Visible | Mutable | Strict | Fresh | Calm | Quiet | Idle.
Definition means (K : kind) (guarded : Prop) (c : cell) : Prop :=
  match K with
  | Visible => perm c <> Disabled
  | Mutable => perm c = Reserved \/ perm c = Active \/ perm c = Conflicted /\ ~ guarded
  | Strict => perm c = Reserved \/ perm c = Active
  | Fresh => perm c = Reserved
  | Calm => perm c <> Active
  | Quiet => used c = false \/ perm c = Disabled
  | Idle => used c = false
  end.
(** Facts about the tags below [known] ([up]: those above each tag), which accesses must
    respect; [guests]: the protected tags. *)
Record claims := mk_claims { known : nat; up : nat -> list nat; guests : list nat; fact : kind -> nat -> nat -> nat -> Prop }.
Definition holds (C : claims) (w : world) : Prop :=
  old w /\ known C <= next w /\ (forall t, t < known C -> family w t = up C t) /\ held w = guests C /\
  (forall K u a k, fact C K u a k -> u < known C /\ means K (In u (guests C)) (perms w a k u)).
(** A fact that lets read or write; that shows that nothing protected forbids to; one that
    stays true *)
Definition lets (wr : bool) (K : kind) : Prop :=
  match K with Visible => wr = false | Fresh => wr = false | Mutable => True | Strict => True | _ => False end.
Definition yields (wr : bool) (K : kind) : Prop :=
  match K with Quiet => True | Idle => True | Calm => wr = false | _ => False end.
Definition stays (C : claims) (wr : bool) (t a k : nat) (K : kind) (u : nat) : Prop :=
  match K with
  | Visible => In u (up C t) \/ wr = false /\ (In u (guests C) -> fact C Calm u a k)
  | Mutable => In u (up C t)
  | Strict => In u (up C t)
  | Fresh => wr = false /\ ~ In u (guests C)
  | Calm => wr = false \/ ~ In u (up C t)
  | Quiet => ~ In u (up C t)
  | Idle => ~ In u (up C t)
  end.
Definition can (C : claims) (wr : bool) (t a k : nat) : Prop :=
  t < known C /\ (forall u, In u (up C t) -> exists K, fact C K u a k /\ lets wr K) /\
  (forall u, In u (guests C) -> ~ In u (up C t) -> exists K, fact C K u a k /\ yields wr K) /\
  (forall K u, fact C K u a k -> stays C wr t a k K u).
Lemma write_read C t a k : can C true t a k -> can C false t a k.
Proof.
  intros (K & M & G & S). split; [exact K|]. split; [|split].
  - intros u Hu. destruct (M u Hu) as (X & F & L). exists X. split; [exact F|]. destruct X; cbn in *; auto; discriminate.
  - intros u Hu N. destruct (G u Hu N) as (X & F & L). exists X. split; [exact F|]. destruct X; cbn in *; auto; discriminate.
  - intros X u F. specialize (S X u F). destruct X; cbn in *; intuition; discriminate.
Qed.

(** ** Accesses *)
Lemma covers_spec a i n b k : covers a i n b k = true <-> b = a /\ i <= k < i + n.
Proof. unfold covers. rewrite !andb_true_iff, Nat.eqb_eq, Nat.leb_le, Nat.ltb_lt. tauto. Qed.
Lemma member_spec t ts : member t ts = true <-> In t ts.
Proof.
  unfold member. rewrite existsb_exists. split; [intros (u & Hu & E); apply Nat.eqb_eq in E; subst; exact Hu|].
  intros H. exists t. split; [exact H|apply Nat.eqb_refl].
Qed.
Lemma not_member t ts : ~ In t ts -> member t ts = false.
Proof. intros N. destruct (member t ts) eqn:E; [|reflexivity]. apply member_spec in E. contradiction. Qed.
Definition stepped (held : list nat) (wr : bool) (ts : list nat) (f : nat -> cell) (t : nat) : cell :=
  if member t ts then by_child wr (f t) else by_stranger (member t held) wr (f t).
Lemma access_ok held wr ts f : (forall t, In t ts -> allowed (member t held) wr (f t) = true) ->
  (forall t, In t held -> ~ In t ts -> forbids wr (f t) = false) -> access held wr ts f = Some (stepped held wr ts f).
Proof.
  intros H G. unfold access. assert (forallb (fun t => allowed (member t held) wr (f t)) ts = true) as -> by (apply forallb_forall; exact H).
  assert (forallb (fun t => member t ts || negb (forbids wr (f t))) held = true) as ->; [|reflexivity].
  apply forallb_forall. intros t Ht. destruct (member t ts) eqn:E; [reflexivity|]. rewrite (G t Ht); [reflexivity|]. rewrite <- member_spec, E. discriminate.
Qed.
(** One byte *)
Lemma can_access C w wr t a k : holds C w -> can C wr t a k -> access (held w) wr (family w t) (perms w a k) = Some (stepped (guests C) wr (up C t) (perms w a k)).
Proof.
  intros (O & L & F & Hd & V) (T & G1 & G2 & _). rewrite Hd, (F t T). apply access_ok.
  - intros u Hu. destruct (G1 u Hu) as (K & Fk & Lk). destruct (V K u a k Fk) as [_ m]. unfold allowed.
    destruct K; cbn in Lk, m; try contradiction; subst; try (destruct (perm (perms w a k u)); try reflexivity; try contradiction; try discriminate; rewrite ?andb_false_r; reflexivity).
    + destruct m as [->|[->|[-> N]]]; try reflexivity. rewrite (not_member _ _ N). reflexivity.
    + destruct m as [->| ->]; reflexivity.
  - intros u Hu N. destruct (G2 u Hu N) as (K & Fk & Lk). destruct (V K u a k Fk) as [_ m]. unfold forbids.
    destruct K; cbn in Lk, m; try contradiction; subst.
    + destruct (perm (perms w a k u)); try contradiction; rewrite ?andb_false_r; reflexivity.
    + destruct m as [->| ->]; [reflexivity|]. rewrite andb_false_r. reflexivity.
    + rewrite m. reflexivity.
Qed.
Lemma can_means C w wr t a k : holds C w -> can C wr t a k -> forall K u, fact C K u a k -> means K (In u (guests C)) (stepped (guests C) wr (up C t) (perms w a k) u).
Proof.
  intros (O & L & F & Hd & V) (T & G1 & G2 & G3) K u Fk. pose proof (V K u a k Fk) as [_ m]. pose proof (G3 K u Fk) as st. unfold stepped.
  destruct (member u (up C t)) eqn:E.
  - pose proof (proj1 (member_spec _ _) E) as Iu. unfold by_child. destruct K; cbn in *; cbn [perm used].
    + destruct wr; [discriminate|exact m].
    + destruct wr; [auto|exact m].
    + destruct wr; [auto|exact m].
    + destruct st as [-> _]. exact m.
    + destruct st as [->|N]; [exact m|contradiction].
    + contradiction.
    + contradiction.
  - assert (N : ~ In u (up C t)) by (rewrite <- member_spec, E; discriminate). unfold by_stranger.
    destruct K; cbn in *; cbn [perm used].
    + destruct st as [I|[-> Cm]]; [contradiction|]. destruct (member u (guests C)) eqn:Eg.
      * apply member_spec in Eg. destruct (V Calm u a k (Cm Eg)) as [_ nc]. cbn in nc. destruct (perm (perms w a k u)); congruence.
      * destruct (perm (perms w a k u)); congruence.
    + contradiction.
    + contradiction.
    + destruct st as [-> Ng]. rewrite m, (not_member _ _ Ng). reflexivity.
    + destruct wr; [discriminate|]. destruct (perm (perms w a k u)); try congruence; destruct (member u (guests C)); discriminate.
    + destruct m as [m|m]; [left; exact m|right]. rewrite m. destruct wr; reflexivity.
    + exact m.
Qed.
Lemma over_can C w wr t a i n : holds C w -> (forall k, i <= k < i + n -> can C wr t a k) ->
  exists s, over (held w) wr (family w t) a i n (perms w) = Some s /\ (forall m, holds C (mk_world m (family w) s (next w) (held w))) /\
    (forall b k, ~ (b = a /\ i <= k < i + n) -> s b k = perms w b k).
Proof.
  intros h H. pose proof (fun k Hk => can_access C w wr t a k h (H k Hk)) as A.
  unfold over. assert (forallb (fun k => match access (held w) wr (family w t) (perms w a k) with Some _ => true | None => false end) (seq i n) = true) as ->.
  { apply forallb_forall. intros k Hk. apply in_seq in Hk. rewrite A by lia. reflexivity. }
  eexists. split; [reflexivity|]. split.
  - intros m. pose proof h as (O & L & F & Hd & V). split; [exact O|]. split; [exact L|]. split; [exact F|]. split; [exact Hd|].
    intros K u b k Fk. cbn [perms]. split; [apply (V K u b k Fk)|]. destruct (covers a i n b k) eqn:E; [|apply (V K u b k Fk)].
    apply covers_spec in E as [-> Hk]. rewrite (A k Hk). apply (can_means C w wr t a k h (H k Hk) K u Fk).
  - intros b k N. cbn beta. destruct (covers a i n b k) eqn:E; [|reflexivity]. apply covers_spec in E. contradiction.
Qed.

(** ** Code *)

(** From worlds with [P], [x] does to memory what [x0] does, and then there is [Q]. *)
Definition follows {A} (P Q : world -> Prop) (x : bcode A) (x0 : code A) : Prop :=
  forall w b m, P w -> x0 (mem w) = Ok (b, m) -> exists w', x w = Ok (b, w') /\ mem w' = m /\ Q w'.
Definition respects {A} (C : claims) (x : bcode A) (x0 : code A) : Prop := follows (holds C) (holds C) x x0.

Lemma follows_weaken {A} (P P' Q Q' : world -> Prop) (x : bcode A) x0 : (forall w, P w -> P' w) -> (forall w, Q' w -> Q w) -> follows P' Q' x x0 -> follows P Q x x0.
Proof. intros HP HQ H w b m p R. destruct (H w b m (HP w p) R) as (w' & X & M & q). exists w'. auto. Qed.
Lemma follows_bind {A B} P Q R (x : bcode A) x0 (f : A -> bcode B) f0 :
  follows P Q x x0 -> (forall a, follows Q R (f a) (f0 a)) -> follows P R (andthen_tb x f) (andthen x0 f0).
Proof.
  intros H K w b m p E. unfold andthen in E. destruct (x0 (mem w)) as [[b1 m1]| | |] eqn:E1; try discriminate. cbn in E.
  destruct (H w b1 m1 p E1) as (w1 & X1 & M1 & q). unfold andthen_tb. rewrite X1. cbn [bind]. subst m1. exact (K b1 w1 b m q E).
Qed.
Lemma respects_bind {A B} C (x : bcode A) x0 (f : A -> bcode B) f0 :
  respects C x x0 -> (forall a, respects C (f a) (f0 a)) -> respects C (andthen_tb x f) (andthen x0 f0).
Proof. apply follows_bind. Qed.
Lemma respects_give {A} C (a : A) : respects C (give_tb a) (give a).
Proof. intros w b m p R. injection R as <- <-. exists w. auto. Qed.
Lemma follows_assoc0 {A B D} P Q (x : bcode D) (y : code A) (f : A -> code B) (g : B -> code D) :
  follows P Q x (andthen y (fun b => andthen (f b) g)) -> follows P Q x (andthen (andthen y f) g).
Proof. intros H w b m p R. apply (H w b m p). rewrite <- R. unfold andthen. destruct (y (mem w)) as [[b1 m1]| | |]; reflexivity. Qed.
Lemma follows_assoc {A B D} P Q (x : bcode D) (y : code A) (f : A -> code B) (g : B -> code D) :
  follows P Q x (andthen (andthen y f) g) -> follows P Q x (andthen y (fun b => andthen (f b) g)).
Proof. intros H w b m p R. apply (H w b m p). rewrite <- R. unfold andthen. destruct (y (mem w)) as [[b1 m1]| | |]; reflexivity. Qed.
Lemma follows_assoc3 {A B D E F} P Q (x : bcode F) (y : code A) (f : A -> code B) (g : A -> B -> code D) (k : A -> B -> D -> code E) (z : E -> code F) :
  follows P Q x (andthen (andthen y (fun b => andthen (f b) (fun c => andthen (g b c) (k b c)))) z) ->
  follows P Q x (andthen y (fun b => andthen (f b) (fun c => andthen (g b c) (fun d => andthen (k b c d) z)))).
Proof.
  intros H w b m p R. apply (H w b m p). rewrite <- R. unfold andthen. destruct (y (mem w)) as [[b1 m1]| | |]; try reflexivity. cbn [bind].
  destruct (f b1 m1) as [[c1 m2]| | |]; try reflexivity. cbn [bind]. destruct (g b1 c1 m2) as [[d1 m3]| | |]; reflexivity.
Qed.
Lemma follows_assoc_tb {A B D} P Q (x : bcode A) (f : A -> bcode B) (g : B -> bcode D) x0 :
  follows P Q (andthen_tb x (fun a => andthen_tb (f a) g)) x0 -> follows P Q (andthen_tb (andthen_tb x f) g) x0.
Proof. intros H w b m p R. destruct (H w b m p R) as (w' & X & K). exists w'. split; [|exact K]. rewrite <- X. unfold andthen_tb. destruct (x w) as [[a1 w1]| | |]; reflexivity. Qed.

Definition reads (C : claims) (p : bpointer) (n : nat) : Prop :=
  tag p < known C /\ forall k, offset (to p) <= k < offset (to p) + n -> can C false (tag p) (alloc (to p)) k.
Definition writes (C : claims) (p : bpointer) (n : nat) : Prop :=
  tag p < known C /\ forall k, offset (to p) <= k < offset (to p) + n -> can C true (tag p) (alloc (to p)) k.
Lemma writes_reads C p n : writes C p n -> reads C p n.
Proof. intros [T H]. split; [exact T|]. intros k Hk. apply write_read, H, Hk. Qed.
Lemma reads_part C p n q m : reads C p n -> alloc (to q) = alloc (to p) -> tag q = tag p -> offset (to p) <= offset (to q) -> offset (to q) + m <= offset (to p) + n -> reads C q m.
Proof. intros [T H] A E L U. split; [rewrite E; exact T|]. intros k Hk. rewrite A, E. apply H. lia. Qed.
Lemma writes_part C p n q m : writes C p n -> alloc (to q) = alloc (to p) -> tag q = tag p -> offset (to p) <= offset (to q) -> offset (to q) + m <= offset (to p) + n -> writes C q m.
Proof. intros [T H] A E L U. split; [rewrite E; exact T|]. intros k Hk. rewrite A, E. apply H. lia. Qed.

Lemma respects_read C p n {A} (x0 : code A) : reads C p n -> respects C (acting x0 false p n) x0.
Proof.
  intros [T H] w b m h R. unfold acting. rewrite R. cbn [bind].
  destruct (over_can C w false (tag p) (alloc (to p)) (offset (to p)) n h H) as (s & -> & K & _). eexists. split; [reflexivity|]. split; [reflexivity|apply K].
Qed.
Lemma respects_write C p n {A} (x0 : code A) : writes C p n -> respects C (acting x0 true p n) x0.
Proof.
  intros [T H] w b m h R. unfold acting. rewrite R. cbn [bind].
  destruct (over_can C w true (tag p) (alloc (to p)) (offset (to p)) n h H) as (s & -> & K & _). eexists. split; [reflexivity|]. split; [reflexivity|apply K].
Qed.
Lemma follows_lift {A B} C Q (x0 : code A) (f : A -> bcode B) f0 :
  (forall m a m', x0 m = Ok (a, m') -> m' = m /\ follows (holds C) Q (f a) (f0 a)) -> follows (holds C) Q (andthen_tb (lift x0) f) (andthen x0 f0).
Proof.
  intros H w b m h R. unfold andthen in R. destruct (x0 (mem w)) as [[a m1]| | |] eqn:R1; try discriminate. cbn in R.
  destruct (H _ _ _ R1) as [-> K]. unfold andthen_tb, lift. rewrite R1. cbn [bind]. destruct w. exact (K _ b m h R).
Qed.
Lemma follows_ptr_add {A} C Q t p k (f : bpointer -> bcode A) f0 :
  follows (holds C) Q (f (mk_bpointer (shift (to p) (k * size_of t)) (tag p))) (f0 (shift (to p) (k * size_of t))) ->
  follows (holds C) Q (andthen_tb (ptr_add_tb t p k) f) (andthen (ptr_add t (to p) k) f0).
Proof.
  intros H. unfold ptr_add_tb. apply follows_assoc_tb. apply follows_lift. intros m q m' E.
  unfold ptr_add, andthen, check, give in E. change (mk_pointer _ _ _ _ _) with (shift (to p) (k * size_of t)) in E.
  destruct (within _ _ _ _); [|discriminate]. cbn in E. injection E as <- <-. split; [reflexivity|]. exact H.
Qed.
Lemma reborrow_result w t p m q m' : reborrow Allocation w t p m = Ok (q, m') -> m' = m /\ q = narrow p (size_of t) w.
Proof.
  unfold reborrow, andthen, check, give. destruct (_ && _); [|discriminate]. cbn [bind]. intros H. injection H as <- <-. auto.
Qed.
Lemma element_result mut t p i m q m' : element Allocation mut t p i m = Ok (q, m') -> m' = m /\ q = narrow (shift p (i * size_of t)) (size_of t) mut.
Proof.
  unfold element, andthen. destruct (ptr_add t p i m) as [[p1 m1]| | |] eqn:E; try discriminate. cbn [bind]. intros R. apply reborrow_result in R as [-> ->].
  unfold ptr_add, andthen, check, give in E. destruct (within _ _ _ _); [|discriminate]. cbn in E. injection E as <- <-. auto.
Qed.

(** ** New tags *)

(** [C'] is [C] and more, and what [C] lets read it lets read. *)
Definition shares (C C' : claims) : Prop :=
  (forall w, holds C' w -> holds C w) /\ (forall u a k, can C false u a k -> can C' false u a k) /\
  (forall K u a k, u < known C -> fact C K u a k <-> fact C' K u a k) /\ known C <= known C'.
Lemma shares_refl C : shares C C.
Proof. split; [auto|]. split; [auto|]. split; [tauto|apply le_n]. Qed.
Lemma shares_trans C C1 C2 : shares C C1 -> shares C1 C2 -> shares C C2.
Proof. intros (A & B & F & D) (A' & B' & F' & D'). split; [auto|]. split; [auto|]. split; [|lia]. intros K u a k Hu. rewrite (F K u a k Hu). apply F'. lia. Qed.
Lemma shares_reads C C' p n : shares C C' -> reads C p n -> reads C' p n.
Proof. intros (_ & B & _ & L) [T H]. split; [lia|]. intros k Hk. apply B, H, Hk. Qed.

(** The claims of [C], and the facts [G], some of them about a new tag [t] *)
Definition adding (C : claims) (fam : nat -> list nat) (t : nat) (G : kind -> nat -> nat -> nat -> Prop) : claims :=
  mk_claims (S t) fam (guests C) (fun K u a k => fact C K u a k \/ G K u a k).
Lemma holds_adding C w m fam s t (G : kind -> nat -> nat -> nat -> Prop) :
  holds C (mk_world m (family w) s (next w) (held w)) -> t = next w ->
  (forall u, u < t -> fam u = family w u) -> Forall (fun u => u <= t) (fam t) ->
  forall s', (forall K b k u, fact C K u b k -> u < t -> s' b k u = s b k u) ->
  (forall K u b k, G K u b k -> u <= t /\ means K (In u (guests C)) (s' b k u)) ->
  forall m', holds (adding C fam t G) (mk_world m' fam s' (S t) (held w)).
Proof.
  intros ((O & Oh) & L & F & Hd & HV) Et Ef Ff s' Es NG m'. cbn [next family perms held] in *. subst t.
  split; [|split; [apply le_n|split; [intros u Hu; reflexivity|split; [exact Hd|]]]].
  - split; cbn [next family held] in *.
    + intros u Hu. destruct (Nat.eq_dec u (next w)) as [->|N].
      * eapply Forall_impl; [|exact Ff]. cbn. intros; lia.
      * rewrite Ef by lia. eapply Forall_impl; [|exact (O u ltac:(cbn; lia))]. cbn. intros; lia.
    + eapply Forall_impl; [|exact Oh]. cbn. intros; lia.
  - cbn [adding known fact guests perms]. intros K u a k [H|H].
    + destruct (HV K u a k H) as [Ku g]. split; [lia|]. rewrite (Es K _ _ _ H) by lia. exact g.
    + destruct (NG K u a k H) as [Ku g]. split; [lia|exact g].
Qed.
Lemma adding_holds C w fam t G :
  holds C w -> known C <= t -> (forall u, u < known C -> fam u = up C u) ->
  forall w', holds (adding C fam t G) w' -> holds C w'.
Proof.
  intros (_ & _ & _ & _ & HV) Lt Ef w' (O & L & F & Hd & HV'). cbn [adding known up fact guests] in *.
  split; [exact O|]. split; [lia|]. split; [intros u Hu; rewrite F by lia; apply Ef; exact Hu|]. split; [exact Hd|].
  intros K u a k H. split; [apply (HV K u a k H)|]. apply HV'. left. exact H.
Qed.
(** What could be done before can be done with the new facts, if they stay true. *)
Lemma adding_can C fam t (G : kind -> nat -> nat -> nat -> Prop) wr u a k : can C wr u a k -> known C <= t -> (forall u, u < known C -> fam u = up C u) ->
  (forall K v, G K v a k -> stays (adding C fam t G) wr u a k K v) -> can (adding C fam t G) wr u a k.
Proof.
  intros (T & G1 & G2 & G3) Lt Ef H. assert (Eu : up (adding C fam t G) u = up C u) by exact (Ef u T).
  split; [cbn [adding known]; lia|]. rewrite Eu. cbn [adding guests]. split; [|split].
  - intros v Hv. destruct (G1 v Hv) as (K & F & L). exists K. split; [left; exact F|exact L].
  - intros v Hv N. destruct (G2 v Hv N) as (K & F & L). exists K. split; [left; exact F|exact L].
  - intros K v [F|F]; [|exact (H K v F)]. specialize (G3 K v F). unfold stays in *. cbn [adding fact guests]. rewrite Eu.
    destruct K; try exact G3. destruct G3 as [g|[g g']]; [left; exact g|right]. split; [exact g|]. intros I. left. exact (g' I).
Qed.

(** A new reference.  [G] is what is said of it: only of it, true, and the rest goes on. *)
Lemma follows_retag {A} C Q first p l (G : nat -> kind -> nat -> nat -> Prop) (f : bpointer -> bcode A) x0 : reads C p l ->
  (forall t K b k, G t K b k -> means K False (if Nat.eqb b (alloc (to p)) then mk_cell first (covers (alloc (to p)) (offset (to p)) l b k) else absent)) ->
  (forall t fam, known C <= t -> (forall u, u < known C -> fam u = up C u) -> fam t = t :: up C (tag p) -> ~ In t (guests C) ->
     (forall u, u < known C -> ~ In t (up C u)) -> (forall K u a k, fact C K u a k -> u < known C) ->
     let C' := adding C fam t (fun K u b k => u = t /\ G t K b k) in
     (forall w, holds C' w -> holds C w) -> follows (holds C') Q (f (mk_bpointer (to p) t)) x0) ->
  follows (holds C) Q (andthen_tb (retag first p l) f) x0.
Proof.
  intros [T H] HG Kf w b m h R. destruct (over_can C w false (tag p) (alloc (to p)) (offset (to p)) l h H) as (s & E & Hs & _).
  unfold andthen_tb, retag. rewrite E. cbn [bind]. specialize (Hs (mem w)).
  pose proof h as ((O & Oh) & L & F & Hd & HV).
  set (t := next w) in *. set (fam := fun u => if Nat.eqb u t then t :: family w (tag p) else family w u).
  set (s' := fun b k u => if Nat.eqb u t then (if Nat.eqb b (alloc (to p)) then mk_cell first (covers (alloc (to p)) (offset (to p)) l b k) else absent) else s b k u).
  assert (Ft : fam t = t :: up C (tag p)) by (unfold fam; rewrite Nat.eqb_refl, F by exact T; reflexivity).
  assert (Fu : forall u, u < t -> fam u = family w u) by (intros u Hu; unfold fam; destruct (Nat.eqb_spec u t); [lia|reflexivity]).
  assert (Fk : forall u, u < known C -> fam u = up C u) by (intros u Hu; rewrite Fu by (unfold t; lia); apply F; exact Hu).
  assert (Ng : ~ In t (guests C)) by (rewrite <- Hd; intros I; rewrite Forall_forall in Oh; specialize (Oh t I); unfold t in Oh; lia).
  assert (Nu : forall u, u < known C -> ~ In t (up C u)).
  { intros u Hu I. rewrite <- F in I by exact Hu. pose proof (O u ltac:(lia)) as Z. rewrite Forall_forall in Z. specialize (Z t I). unfold t in Z. lia. }
  assert (Wk : forall w', holds (adding C fam t (fun K u b k => u = t /\ G t K b k)) w' -> holds C w') by (apply (adding_holds C w); [exact h|exact L|exact Fk]).
  refine (Kf t fam L Fk Ft Ng Nu _ Wk (mk_world (mem w) fam s' (S t) (held w)) b m _ R).
  - intros K u a k Fct. exact (proj1 (HV K u a k Fct)).
  - refine (holds_adding C w (mem w) fam s t _ Hs eq_refl Fu _ s' _ _ (mem w)).
    + rewrite Ft. constructor; [apply le_n|]. rewrite <- F by exact T. eapply Forall_impl; [|exact (O (tag p) ltac:(lia))]. cbn. intros; unfold t; lia.
    + intros K b' k u _ Hu. unfold s'. destruct (Nat.eqb_spec u t); [lia|]. reflexivity.
    + intros K u b' k [-> g]. split; [apply le_n|]. specialize (HG t K b' k g). unfold s'. rewrite Nat.eqb_refl.
      destruct K; try exact HG. cbn in *. destruct HG as [g1|[g1|[g1 _]]]; auto.
Qed.
(** A [&]; [lim]: it is not used outside the bytes it is for *)
Definition shared_facts (lim : bool) (p : bpointer) (l : nat) (_ : nat) (K : kind) (b k : nat) : Prop :=
  match K with
  | Visible => b = alloc (to p)
  | Calm => b = alloc (to p)
  | Idle => lim = true /\ ~ (b = alloc (to p) /\ offset (to p) <= k < offset (to p) + l)
  | _ => False
  end.
(** A tag [t] that may be protected while others are read *)
Definition guest (C : claims) (t a i n : nat) : Prop :=
  t < known C /\ (forall b k, b = a /\ fact C Calm t b k \/ b <> a /\ fact C Idle t b k) /\
  (forall k, i <= k < i + n -> can C false t a k) /\ (forall k, ~ (i <= k < i + n) -> fact C Idle t a k) /\
  (forall b k, ~ fact C Mutable t b k /\ ~ fact C Fresh t b k /\ (fact C Visible t b k -> b = a)).
Lemma follows_shared {A} lim C Q p l (f : bpointer -> bcode A) x0 : reads C p l ->
  (forall C' t, shares C C' -> guests C' = guests C -> t < known C' ->
     (forall k, can C false (tag p) (alloc (to p)) k -> lim = false \/ offset (to p) <= k < offset (to p) + l -> can C' false t (alloc (to p)) k) ->
     (lim = true -> guest C' t (alloc (to p)) (offset (to p)) l) -> (forall K b k, fact C' K t b k -> known C <= t /\ shared_facts lim p l t K b k) ->
     follows (holds C') Q (f (mk_bpointer (to p) t)) x0) ->
  follows (holds C) Q (andthen_tb (retag Frozen p l) f) x0.
Proof.
  intros Hr Kf. apply (follows_retag C Q Frozen p l (shared_facts lim p l)); [exact Hr| |].
  - intros t K b k g. destruct K; cbn in g; try contradiction.
    + subst b. rewrite Nat.eqb_refl. discriminate.
    + subst b. rewrite Nat.eqb_refl. discriminate.
    + destruct g as [_ g]. cbn. destruct (Nat.eqb b (alloc (to p))) eqn:E; [|reflexivity]. cbn [used].
      destruct (covers (alloc (to p)) (offset (to p)) l b k) eqn:E2; [|reflexivity]. apply covers_spec in E2. contradiction.
  - intros t fam Lt Fk Ft Ng Nu Old C' Wk.
    assert (Mono : forall u a k, can C false u a k -> can C' false u a k).
    { intros u a k Cu. apply adding_can; [exact Cu|exact Lt|exact Fk|]. intros K v [-> g]. pose proof (proj1 Cu) as Ku.
      assert (Nt : ~ In t (fam u)) by (rewrite Fk by exact Ku; apply Nu; exact Ku).
      unfold stays. destruct K; cbn in g; try contradiction; cbn [adding up guests fact].
      - right. split; [reflexivity|]. intros I. contradiction.
      - left. reflexivity.
      - exact Nt. }
    assert (Own : forall K b k, fact C' K t b k -> shared_facts lim p l t K b k).
    { intros K b k [F|[_ F]]; [|exact F]. apply Old in F. lia. }
    assert (Cn : forall k, can C false (tag p) (alloc (to p)) k -> lim = false \/ offset (to p) <= k < offset (to p) + l -> can C' false t (alloc (to p)) k).
    { intros k (Kp & G1 & G2 & G3) Hl. split; [cbn [C' adding known]; lia|]. assert (Eu : up C' t = t :: up C (tag p)) by exact Ft. rewrite Eu. split; [|split].
      - intros v [<-|Hv]; [exists Visible; split; [right; split; [reflexivity|reflexivity]|reflexivity]|].
        destruct (G1 v Hv) as (K & F & Ll). exists K. split; [left; exact F|exact Ll].
      - intros v Hv N. destruct (G2 v Hv) as (K & F & Ll); [intros I; apply N; right; exact I|]. exists K. split; [left; exact F|exact Ll].
      - intros K v [F|[-> F]]; unfold stays; rewrite Eu; cbn [C' adding guests].
        + specialize (G3 K v F). pose proof (Old K v _ _ F) as Ov. assert (Nv : t <> v) by lia. unfold stays in G3. destruct K; cbn [In].
          * destruct G3 as [g|[_ g]]; [left; right; exact g|right]. split; [reflexivity|]. intros I. left. exact (g I).
          * right. exact G3.
          * right. exact G3.
          * exact G3.
          * left. reflexivity.
          * intros [E|I]; contradiction.
          * intros [E|I]; contradiction.
        + destruct K; cbn in F; try contradiction; cbn [In].
          * left. left. reflexivity.
          * left. reflexivity.
          * destruct F as [El F]. destruct Hl as [Hl|Hl]; [congruence|]. destruct F. auto. }
    apply (Kf C' t).
    + split; [exact Wk|]. split; [exact Mono|]. split; [|cbn [C' adding known]; lia].
      intros K u a k Hu. split; [intros F; left; exact F|]. intros [F|[-> _]]; [exact F|lia].
    + reflexivity.
    + cbn [C' adding known]. lia.
    + exact Cn.
    + intros El. split; [cbn [C' adding known]; lia|]. split; [|split; [|split]].
      * intros b k. destruct (Nat.eq_dec b (alloc (to p))) as [Eb|Nb]; [left; split; [exact Eb|right; auto]|right; split; [exact Nb|right]]. split; [reflexivity|]. cbn. tauto.
      * intros k Hk. apply Cn; [apply Hr; exact Hk|right; exact Hk].
      * intros k Nk. right. split; [reflexivity|]. cbn. split; [exact El|]. tauto.
      * intros b k. split; [|split]; intros F; apply Own in F; exact F.
    + intros K b k F. split; [exact Lt|]. apply Own. exact F.
Qed.
Lemma follows_share {A} C Q p l (f : bpointer -> bcode A) x0 : reads C p l ->
  (forall C' t, shares C C' -> t < known C' -> (forall k, can C false (tag p) (alloc (to p)) k -> can C' false t (alloc (to p)) k) ->
     follows (holds C') Q (f (mk_bpointer (to p) t)) x0) ->
  follows (holds C) Q (andthen_tb (retag Frozen p l) f) x0.
Proof. intros Hr K. apply (follows_shared false); [exact Hr|]. intros C' t Sh _ T G _ _. apply K; [exact Sh|exact T|]. intros k Ck. apply G; auto. Qed.

(** A [&mut]: [C'] lets write through the new tag [r] bytes from [p] on, and for the rest lets
    read what [C] does. *)
Definition lends (C C' : claims) (p : bpointer) (r t : nat) : Prop :=
  (forall w, holds C' w -> holds C w) /\ known C <= known C' /\ t < known C' /\
  (forall u a k, can C false u a k -> ~ (a = alloc (to p) /\ offset (to p) <= k < offset (to p) + r) -> can C' false u a k) /\
  (forall k, offset (to p) <= k < offset (to p) + r -> can C true (tag p) (alloc (to p)) k -> can C' true t (alloc (to p)) k).
(** Before the first write, and after; [lim] as above *)
Definition lent_facts (lim : bool) (p : bpointer) (l r : nat) (late : bool) (_ : nat) (K : kind) (b k : nat) : Prop :=
  match K with
  | Strict => late = true /\ b = alloc (to p) /\ offset (to p) <= k < offset (to p) + r
  | Fresh => late = false /\ b = alloc (to p) /\ offset (to p) <= k < offset (to p) + r
  | Idle => lim = true /\ ~ (b = alloc (to p) /\ offset (to p) <= k < offset (to p) + r)
  | _ => False
  end.
Definition lodger (C : claims) (t a i n : nat) : Prop :=
  t < known C /\ In t (up C t) /\ (forall b k, ~ (b = a /\ i <= k < i + n) -> fact C Idle t b k) /\ (forall k, i <= k < i + n -> can C true t a k) /\
  (forall b k, ~ fact C Mutable t b k /\ ~ fact C Fresh t b k /\ ~ fact C Visible t b k).
Lemma follows_lent {A} lim C Q p l r (f : bpointer -> bcode A) x0 : reads C p l -> (lim = true -> r = l) ->
  (forall C1 C2 t, shares C C1 -> (forall w, holds C1 w -> holds C2 w) -> lends C C2 p r t ->
     (lim = true -> (forall k, offset (to p) <= k < offset (to p) + r -> can C true (tag p) (alloc (to p)) k) -> lodger C2 t (alloc (to p)) (offset (to p)) r) ->
     follows (holds C1) Q (f (mk_bpointer (to p) t)) x0) ->
  follows (holds C) Q (andthen_tb (retag Reserved p l) f) x0.
Proof.
  intros Hr El Kf. apply (follows_retag C Q Reserved p l (lent_facts lim p l r false)); [exact Hr| |].
  - intros t K b k g. destruct K; cbn in g; try contradiction.
    + destruct g; discriminate.
    + destruct g as (_ & -> & _). rewrite Nat.eqb_refl. reflexivity.
    + destruct g as [e g]. rewrite (El e) in g. cbn. destruct (Nat.eqb b (alloc (to p))) eqn:E; [|reflexivity]. cbn [used].
      destruct (covers (alloc (to p)) (offset (to p)) l b k) eqn:E2; [|reflexivity]. apply covers_spec in E2. contradiction.
  - intros t fam Lt Fk Ft Ng Nu Old C1 Wk.
    set (C2 := adding C fam t (fun K u b k => u = t /\ lent_facts lim p l r true t K b k)).
    assert (W12 : forall w, holds C1 w -> holds C2 w).
    { intros w (O & L & F & Hd & V). split; [exact O|]. split; [exact L|]. split; [exact F|]. split; [exact Hd|].
      intros K u a k [Fc|[-> Fc]]; [exact (V K u a k (or_introl Fc))|]. destruct K; cbn in Fc; try contradiction.
      - destruct (V Fresh t a k) as [Ku m]; [right; split; [reflexivity|]; cbn; tauto|]. split; [exact Ku|]. left. exact m.
      - destruct Fc; discriminate.
      - destruct (V Idle t a k) as [Ku m]; [right; split; [reflexivity|]; cbn; tauto|]. split; [exact Ku|exact m]. }
    assert (W2 : forall w, holds C2 w -> holds C w).
    { intros w (O & L & F & Hd & V). cbn [C2 adding known up guests] in *. split; [exact O|]. split; [lia|].
      split; [intros u Hu; rewrite F by lia; apply Fk; exact Hu|]. split; [exact Hd|].
      intros K u a k Fc. destruct (V K u a k (or_introl Fc)) as [Ku m]. split; [|exact m].
      exact (Old K u a k Fc). }
    assert (Can2 : forall k, offset (to p) <= k < offset (to p) + r -> can C true (tag p) (alloc (to p)) k -> can C2 true t (alloc (to p)) k).
    { intros k Hk (Kp & G1 & G2 & G3). split; [cbn [C2 adding known]; lia|]. assert (Eu : up C2 t = t :: up C (tag p)) by exact Ft. rewrite Eu. split; [|split].
      - intros v [<-|Hv]; [exists Strict; split; [right; split; [reflexivity|]; cbn; auto|exact I]|].
        destruct (G1 v Hv) as (K & F & Ll). exists K. split; [left; exact F|exact Ll].
      - intros v Hv N. destruct (G2 v Hv) as (K & F & Ll); [intros I; apply N; right; exact I|]. exists K. split; [left; exact F|exact Ll].
      - intros K v [F|[-> F]]; unfold stays; rewrite Eu; cbn [C2 adding guests].
        + specialize (G3 K v F). pose proof (Old K v _ _ F) as Ov. assert (Nv : t <> v) by lia. unfold stays in G3. destruct K; cbn [In].
          * destruct G3 as [g|[g _]]; [left; right; exact g|discriminate].
          * right. exact G3.
          * right. exact G3.
          * destruct G3; discriminate.
          * destruct G3 as [g|g]; [discriminate|]. right. intros [E|I]; contradiction.
          * intros [E|I]; contradiction.
          * intros [E|I]; contradiction.
        + destruct K; cbn in F; try contradiction; cbn [In].
          * left. reflexivity.
          * destruct F; discriminate.
          * destruct F as [_ F]. destruct F. auto. }
    assert (Nt : forall u, u < known C -> ~ In t (fam u)) by (intros u Ku; rewrite Fk by exact Ku; apply Nu; exact Ku).
    apply (Kf C1 C2 t).
    + split; [exact Wk|]. split; [|split; [intros K u a k Hu; split; [intros F; left; exact F|]; intros [F|[-> _]]; [exact F|lia]|cbn [C1 adding known]; lia]].
      intros u a k Cu. apply adding_can; [exact Cu|exact Lt|exact Fk|]. intros K v [-> g]. specialize (Nt u (proj1 Cu)).
      unfold stays. destruct K; cbn in g; try contradiction; cbn [adding up guests fact].
      * destruct g; discriminate.
      * split; [reflexivity|exact Ng].
      * exact Nt.
    + exact W12.
    + assert (Eu : up C2 t = t :: up C (tag p)) by exact Ft. split; [exact W2|]. split; [cbn [C2 adding known]; lia|]. split; [cbn [C2 adding known]; lia|]. split.
      * intros u a k Cu No. apply adding_can; [exact Cu|exact Lt|exact Fk|]. intros K v [-> g]. specialize (Nt u (proj1 Cu)).
        unfold stays. destruct K; cbn in g; try contradiction; cbn [adding up guests fact].
        -- destruct g as [_ g]. contradiction.
        -- destruct g; discriminate.
        -- exact Nt.
      * exact Can2.
    + intros e Hw. split; [cbn [C2 adding known]; lia|]. split; [cbn [C2 adding up]; rewrite Ft; left; reflexivity|]. split; [|split].
      * intros b k No. right. split; [reflexivity|]. cbn. auto.
      * intros k Hk. apply (Can2 k Hk). apply Hw. exact Hk.
      * intros b k. split; [|split]; intros [F|[_ F]]; try (apply Old in F; lia); cbn in F; try contradiction. destruct F; discriminate.
Qed.
Lemma follows_lend {A} C Q p l r (f : bpointer -> bcode A) x0 : reads C p l ->
  (forall C1 C2 t, shares C C1 -> (forall w, holds C1 w -> holds C2 w) -> lends C C2 p r t -> follows (holds C1) Q (f (mk_bpointer (to p) t)) x0) ->
  follows (holds C) Q (andthen_tb (retag Reserved p l) f) x0.
Proof. intros Hr K. apply (follows_lent false C Q p l r); [exact Hr|discriminate|]. intros C1 C2 t Sh W Ln _. exact (K C1 C2 t Sh W Ln). Qed.
Lemma follows_pass_mut {A} C Q p l (f : bpointer -> bcode A) x0 : writes C p l ->
  (forall C' t, lends C C' p l t -> lodger C' t (alloc (to p)) (offset (to p)) l -> writes C' (mk_bpointer (to p) t) l -> follows (holds C') Q (f (mk_bpointer (to p) t)) x0) ->
  follows (holds C) Q (andthen_tb (retag Reserved p l) f) x0.
Proof.
  intros H K. apply (follows_lent true C Q p l l); [apply writes_reads; exact H|reflexivity|]. intros C1 C2 t _ W Ln Lo.
  apply (follows_weaken _ (holds C2) _ Q); [exact W|auto|]. apply K; [exact Ln|apply Lo; [reflexivity|apply H]|]. destruct Ln as (_ & _ & T & _ & G). split; [exact T|].
  intros k Hk. apply G; [exact Hk|]. apply H. exact Hk.
Qed.
Lemma follows_as_ptr {A} C Q p l (f : bpointer -> bcode A) x0 : reads C p l ->
  (forall C' t, shares C C' -> reads C' (mk_bpointer (to p) t) l -> follows (holds C') Q (f (mk_bpointer (to p) t)) x0) ->
  follows (holds C) Q (andthen_tb (as_ptr_tb p l) f) x0.
Proof.
  intros H K. apply follows_share; [exact H|]. intros C' t Sh T G. apply K; [exact Sh|]. split; [exact T|]. intros k Hk. apply G, H, Hk.
Qed.
(** The same, back to [C] afterwards *)
Lemma respects_as_ptr {A} C p l (f : bpointer -> bcode A) x0 : reads C p l ->
  (forall C' t, shares C C' -> reads C' (mk_bpointer (to p) t) l -> respects C' (f (mk_bpointer (to p) t)) x0) ->
  respects C (andthen_tb (as_ptr_tb p l) f) x0.
Proof.
  intros H K. apply follows_as_ptr; [exact H|]. intros C' t Sh G. apply (follows_weaken _ (holds C') _ (holds C')); [auto|apply Sh|]. apply K; assumption.
Qed.

(** ** Protection *)
Definition hosting (C : claims) (ts : list nat) : claims := mk_claims (known C) (up C) (ts ++ guests C) (fact C).
(** What the end of the protection of [t] needs *)
Definition leaves (C : claims) (t a : nat) : Prop :=
  forall k, fact C Idle t a k \/ can C false t a k /\ (fact C Calm t a k \/ can C true t a k).
Lemma release_holds C w t a n : holds C w -> leaves C t a ->
  exists s, release (held w) (family w) t a n (perms w) = Some s /\ forall m, holds C (mk_world m (family w) s (next w) (held w)).
Proof.
  intros h H. pose proof h as (O & L & F & Hd & V).
  assert (A : forall k, used (perms w a k t) = true -> can C (active (perm (perms w a k t))) t a k).
  { intros k U. destruct (H k) as [Fi|[Cf Fc]]; [apply V in Fi as [_ Fi]; cbn in Fi; congruence|].
    destruct (perm (perms w a k t)) eqn:E; try exact Cf. destruct Fc as [Fc|Fc]; [|exact Fc]. apply V in Fc as [_ Fc]. cbn in Fc. congruence. }
  pose proof (fun k U => can_access C w _ t a k h (A k U)) as B.
  unfold release. cbv zeta.
  assert (forallb (fun k => negb (used (perms w a k t)) || match access (held w) (active (perm (perms w a k t))) (family w t) (perms w a k) with Some _ => true | None => false end) (seq 0 n) = true) as ->.
  { apply forallb_forall. intros k _. destruct (used (perms w a k t)) eqn:U; [|reflexivity]. rewrite (B k U). reflexivity. }
  eexists. split; [reflexivity|]. intros m. split; [exact O|]. split; [exact L|]. split; [exact F|]. split; [exact Hd|].
  intros K u b k Fk. cbn [perms]. split; [apply (V K u b k Fk)|].
  destruct (covers a 0 n b k && used (perms w a k t) && _) eqn:E; [|apply (V K u b k Fk)].
  apply andb_true_iff in E as [E _]. apply andb_true_iff in E as [E U]. apply covers_spec in E as [-> _]. rewrite (B k U).
  exact (can_means C w _ t a k h (A k U) K u Fk).
Qed.
Lemma releases_hold C m ps : (forall p, In p ps -> leaves C (tag p) (alloc (to p))) -> forall w, holds C w ->
  exists s, releases (held w) (family w) m ps (perms w) = Some s /\ forall m, holds C (mk_world m (family w) s (next w) (held w)).
Proof.
  induction ps as [|p ps IH]; intros H w h; cbn [releases].
  - exists (perms w). split; [reflexivity|]. intros m'. destruct w. exact h.
  - destruct (release_holds C w (tag p) (alloc (to p)) (size_at m (alloc (to p))) h (H p (or_introl eq_refl))) as (s & -> & K).
    destruct (IH (fun q Hq => H q (or_intror Hq)) (mk_world (mem w) (family w) s (next w) (held w)) (K _)) as (s' & E & K').
    exists s'. split; [exact E|exact K'].
Qed.
Lemma respects_protecting {A} C ps (x : bcode A) x0 :
  (forall p, In p ps -> tag p < known C /\ (forall b k, ~ fact C Mutable (tag p) b k) /\ leaves (hosting C (map tag ps)) (tag p) (alloc (to p))) ->
  respects (hosting C (map tag ps)) x x0 -> respects C (protecting ps x) x0.
Proof.
  intros H R w b m h E. pose proof h as ((O & Oh) & L & F & Hd & V).
  assert (Ts : forall u, In u (map tag ps) -> u < known C /\ forall b k, ~ fact C Mutable u b k).
  { intros u Hu. apply in_map_iff in Hu as (p & <- & Hp). destruct (H p Hp) as (T & M & _). auto. }
  assert (Me : forall K u a k c, fact C K u a k -> means K (In u (guests C)) c <-> means K (In u (map tag ps ++ guests C)) c).
  { intros K u a k c Fk. destruct K; cbn; try tauto. rewrite in_app_iff. assert (~ In u (map tag ps)); [|tauto]. intros I. apply (proj2 (Ts u I) a k Fk). }
  destruct (R (mk_world (mem w) (family w) (perms w) (next w) (map tag ps ++ held w)) b m) as (w' & X & M & h').
  - split; [split; [exact O|]|].
    + cbn [held next]. apply Forall_app. split; [|exact Oh]. apply Forall_forall. intros u Hu. pose proof (proj1 (Ts u Hu)). lia.
    + split; [exact L|]. split; [exact F|]. split; [cbn [held hosting guests]; rewrite Hd; reflexivity|].
      intros K u a k Fk. cbn [hosting fact guests perms known] in *. destruct (V K u a k Fk) as [Ku g]. split; [exact Ku|]. apply (Me K u a k); assumption.
  - exact E.
  - unfold protecting. rewrite X. cbn [bind].
    destruct (releases_hold (hosting C (map tag ps)) (mem w') ps (fun p Hp => proj2 (proj2 (H p Hp))) w' h') as (s & -> & K).
    eexists. split; [reflexivity|]. cbn [mem]. split; [exact M|]. destruct (K (mem w')) as ((O' & Oh') & L' & F' & Hd' & V').
    cbn [next held family perms hosting known up guests fact] in *.
    split; [split; [exact O'|]|].
    + cbn [held next]. rewrite Hd' in Oh'. apply Forall_app in Oh' as [_ Oh']. rewrite Hd. exact Oh'.
    + split; [exact L'|]. split; [exact F'|]. split; [exact Hd|].
      intros K0 u a k Fk. destruct (V' K0 u a k Fk) as [Ku g]. split; [exact Ku|]. apply (Me K0 u a k); assumption.
Qed.
(** [&]s *)
Definition guest_at (C : claims) (p : bpointer) (n : nat) : Prop := guest C (tag p) (alloc (to p)) (offset (to p)) n.
Lemma shares_guest C C' p n : shares C C' -> guest_at C p n -> guest_at C' p n.
Proof.
  intros (_ & B & F & L) (T & G1 & G2 & G3 & G4). assert (Fi : forall K a k, fact C K (tag p) a k <-> fact C' K (tag p) a k) by (intros; apply F; exact T).
  split; [lia|]. split; [|split; [|split]].
  - intros b k. destruct (G1 b k) as [[e g]|[e g]]; [left|right]; (split; [exact e|]); apply Fi; exact g.
  - intros k Hk. apply B, G2, Hk.
  - intros k Hk. apply Fi, G3, Hk.
  - intros b k. rewrite <- !Fi. apply G4.
Qed.
Lemma hosting_can C ps n u a k : (forall p, In p ps -> guest_at C p n) -> can C false u a k -> can (hosting C (map tag ps)) false u a k.
Proof.
  intros H (T & G1 & G2 & G3). split; [exact T|]. cbn [hosting up fact guests]. split; [exact G1|]. split.
  - intros v Hv N. apply in_app_iff in Hv as [Hv|Hv]; [|exact (G2 v Hv N)]. apply in_map_iff in Hv as (p & <- & Hp). destruct (H p Hp) as (_ & Q1 & _).
    destruct (Q1 a k) as [[_ g]|[_ g]]; [exists Calm|exists Idle]; (split; [exact g|]); cbn; auto.
  - intros K v Fk. specialize (G3 K v Fk). unfold stays in *. cbn [hosting up fact guests]. destruct K; try exact G3.
    + destruct G3 as [g|[g g']]; [left; exact g|right]. split; [exact g|]. intros I. apply in_app_iff in I as [I|I]; [|exact (g' I)].
      apply in_map_iff in I as (p & <- & Hp). destruct (H p Hp) as (_ & Q1 & _ & _ & Q4). destruct (Q1 a k) as [[_ c]|[e _]]; [exact c|].
      destruct e. apply (Q4 a k). exact Fk.
    + destruct G3 as [g g']. split; [exact g|]. intros I. apply in_app_iff in I as [I|I]; [|exact (g' I)].
      apply in_map_iff in I as (p & <- & Hp). destruct (H p Hp) as (_ & _ & _ & _ & Q4). apply (Q4 a k). exact Fk.
Qed.
Lemma hosting_reads C ps n q m : (forall p, In p ps -> guest_at C p n) -> reads C q m -> reads (hosting C (map tag ps)) q m.
Proof. intros H [T R]. split; [exact T|]. intros k Hk. apply (hosting_can C ps n); [exact H|apply R; exact Hk]. Qed.
Lemma respects_guests {A} C ps n (x : bcode A) x0 : (forall p, In p ps -> guest_at C p n) ->
  respects (hosting C (map tag ps)) x x0 -> respects C (protecting ps x) x0.
Proof.
  intros H R. apply respects_protecting; [|exact R]. intros p Hp. pose proof (H p Hp) as (T & G1 & G2 & G3 & G4). split; [exact T|]. split.
  - intros b k. apply (G4 b k).
  - intros k. assert (D : offset (to p) <= k < offset (to p) + n \/ ~ (offset (to p) <= k < offset (to p) + n)) by lia. destruct D as [D|D]; [right|left; apply G3; exact D].
    split; [apply (hosting_can C ps n); [exact H|apply G2; exact D]|]. left. destruct (G1 (alloc (to p)) k) as [[_ g]|[e _]]; [exact g|contradiction].
Qed.
Lemma guest_reads C p n : guest_at C p n -> reads C p n.
Proof. intros (T & _ & G & _). split; [exact T|exact G]. Qed.
Lemma follows_pass {A} C Q p l (f : bpointer -> bcode A) x0 : reads C p l ->
  (forall C' t, shares C C' -> guest_at C' (mk_bpointer (to p) t) l -> follows (holds C') Q (f (mk_bpointer (to p) t)) x0) ->
  follows (holds C) Q (andthen_tb (pass_tb p l) f) x0.
Proof. intros Hr K. apply (follows_shared true); [exact Hr|]. intros C' t Sh _ T G Gu _. apply K; [exact Sh|]. apply Gu. reflexivity. Qed.
(** A [&mut] *)
Lemma respects_lodger {A} C p n (x : bcode A) x0 : lodger C (tag p) (alloc (to p)) (offset (to p)) n ->
  (writes (hosting C [tag p]) p n -> respects (hosting C [tag p]) x x0) -> respects C (protecting [p] x) x0.
Proof.
  intros (T & I & Id & W & No) R.
  assert (Cw : forall k, offset (to p) <= k < offset (to p) + n -> can (hosting C [tag p]) true (tag p) (alloc (to p)) k).
  { intros k Hk. destruct (W k Hk) as (_ & G1 & G2 & G3). split; [exact T|]. cbn [hosting up fact guests]. split; [exact G1|]. split.
    - intros v [<-|Hv] N; [contradiction|exact (G2 v Hv N)].
    - intros K v Fk. specialize (G3 K v Fk). unfold stays in *. cbn [hosting up fact guests]. destruct K; try exact G3.
      + destruct G3 as [g|[g _]]; [left; exact g|discriminate].
      + destruct G3 as [g _]. discriminate. }
  apply (respects_protecting C [p]); [|apply R; split; [exact T|exact Cw]]. intros q [<-|[]]. split; [exact T|]. split; [intros b k; apply (No b k)|].
  intros k. assert (D : offset (to p) <= k < offset (to p) + n \/ ~ (offset (to p) <= k < offset (to p) + n)) by lia. destruct D as [D|D].
  - right. split; [apply write_read, Cw, D|right; apply Cw, D].
  - left. apply Id. tauto.
Qed.

(** ** avx2.rs *)
Lemma respects_loadu256 C p : reads C p 32 -> respects C (_mm256_loadu_tb p) (_mm256_loadu Allocation (to p)).
Proof. intros R. apply respects_bind; [apply respects_read; exact R|]. intros bs. apply respects_give. Qed.
Lemma respects_load_2x256 C p : reads C p 64 -> respects C (load_2x256_tb p) (load_2x256 Allocation (to p)).
Proof.
  intros F0. unfold load_2x256_tb. apply follows_pass; [exact F0|]. intros C1 t1 Sh Gu. change BLOCKBYTES with 64 in Gu.
  apply (follows_weaken _ (holds C1) _ (holds C1)); [auto|apply Sh|]. set (p1 := mk_bpointer (to p) t1) in *. change (to p) with (to p1).
  assert (Gs : forall q, In q [p1] -> guest_at C1 q 64) by (intros q [<-|[]]; exact Gu).
  apply (respects_guests C1 [p1] 64); [exact Gs|]. pose proof (hosting_reads C1 [p1] 64 p1 64 Gs (guest_reads _ _ _ Gu)) as F.
  generalize dependent (hosting C1 (map tag [p1])). intros D F. unfold load_2x256. apply respects_bind.
  - apply respects_as_ptr; [exact F|]. intros C' t _ F'. apply (respects_loadu256 C' (mk_bpointer (to p1) t)).
    apply (reads_part _ _ _ _ _ F'); cbn [to tag alloc offset shift size_of]; change BLOCKBYTES with 64; lia.
  - intros a. apply (follows_assoc _ _ _ _ (fun p => _mm256_loadu Allocation p)). apply respects_bind; [|intros b; apply respects_give].
    apply respects_as_ptr; [exact F|]. intros C' t _ F'.
    apply (follows_ptr_add C' _ M256 (mk_bpointer (to p1) t) 1 (fun q => _mm256_loadu_tb q)).
    apply (respects_loadu256 C' (mk_bpointer (shift (to p1) (1 * size_of M256)) t)). apply (reads_part _ _ _ _ _ F'); cbn [to tag alloc offset shift size_of]; change BLOCKBYTES with 64; lia.
Qed.
(** Eight [&]s passed *)
Lemma respects_pass8 {A} C p0 p1 p2 p3 p4 p5 p6 p7 (f : bpointer -> bpointer -> bpointer -> bpointer -> bpointer -> bpointer -> bpointer -> bpointer -> bcode A) x0 :
  reads C p0 64 -> reads C p1 64 -> reads C p2 64 -> reads C p3 64 -> reads C p4 64 -> reads C p5 64 -> reads C p6 64 -> reads C p7 64 ->
  (forall D r0 r1 r2 r3 r4 r5 r6 r7, to r0 = to p0 -> to r1 = to p1 -> to r2 = to p2 -> to r3 = to p3 -> to r4 = to p4 -> to r5 = to p5 -> to r6 = to p6 -> to r7 = to p7 ->
     reads D r0 64 -> reads D r1 64 -> reads D r2 64 -> reads D r3 64 -> reads D r4 64 -> reads D r5 64 -> reads D r6 64 -> reads D r7 64 ->
     respects D (f r0 r1 r2 r3 r4 r5 r6 r7) x0) ->
  respects C (r0 <== pass_tb p0 64 ;; r1 <== pass_tb p1 64 ;; r2 <== pass_tb p2 64 ;; r3 <== pass_tb p3 64 ;;
              r4 <== pass_tb p4 64 ;; r5 <== pass_tb p5 64 ;; r6 <== pass_tb p6 64 ;; r7 <== pass_tb p7 64 ;;
              protecting [r0; r1; r2; r3; r4; r5; r6; r7] (f r0 r1 r2 r3 r4 r5 r6 r7)) x0.
Proof.
  intros F0 F1 F2 F3 F4 F5 F6 F7 K.
  apply follows_pass; [exact F0|]; intros C1 u0 X1 P0.
  apply follows_pass; [exact (shares_reads _ _ _ _ X1 F1)|]; intros C2 u1 X2 P1; pose proof (shares_trans _ _ _ X1 X2) as Y2.
  apply follows_pass; [exact (shares_reads _ _ _ _ Y2 F2)|]; intros C3 u2 X3 P2; pose proof (shares_trans _ _ _ Y2 X3) as Y3.
  apply follows_pass; [exact (shares_reads _ _ _ _ Y3 F3)|]; intros C4 u3 X4 P3; pose proof (shares_trans _ _ _ Y3 X4) as Y4.
  apply follows_pass; [exact (shares_reads _ _ _ _ Y4 F4)|]; intros C5 u4 X5 P4; pose proof (shares_trans _ _ _ Y4 X5) as Y5.
  apply follows_pass; [exact (shares_reads _ _ _ _ Y5 F5)|]; intros C6 u5 X6 P5; pose proof (shares_trans _ _ _ Y5 X6) as Y6.
  apply follows_pass; [exact (shares_reads _ _ _ _ Y6 F6)|]; intros C7 u6 X7 P6; pose proof (shares_trans _ _ _ Y6 X7) as Y7.
  apply follows_pass; [exact (shares_reads _ _ _ _ Y7 F7)|]; intros C8 u7 X8 P7; pose proof (shares_trans _ _ _ Y7 X8) as Y8.
  apply (follows_weaken _ (holds C8) _ (holds C8)); [auto|apply Y8|].
  pose proof (shares_guest _ _ _ _ X8 P6) as Q6. pose proof (shares_trans _ _ _ X7 X8) as Z6.
  pose proof (shares_guest _ _ _ _ Z6 P5) as Q5. pose proof (shares_trans _ _ _ X6 Z6) as Z5.
  pose proof (shares_guest _ _ _ _ Z5 P4) as Q4. pose proof (shares_trans _ _ _ X5 Z5) as Z4.
  pose proof (shares_guest _ _ _ _ Z4 P3) as Q3. pose proof (shares_trans _ _ _ X4 Z4) as Z3.
  pose proof (shares_guest _ _ _ _ Z3 P2) as Q2. pose proof (shares_trans _ _ _ X3 Z3) as Z2.
  pose proof (shares_guest _ _ _ _ Z2 P1) as Q1. pose proof (shares_trans _ _ _ X2 Z2) as Z1.
  pose proof (shares_guest _ _ _ _ Z1 P0) as Q0.
  match goal with |- follows _ _ (protecting ?ps _) _ => assert (Gs : forall q, In q ps -> guest_at C8 q 64) by (cbn [In]; intros q Hq; intuition (subst; assumption)); apply (respects_guests C8 ps 64); [exact Gs|] end.
  apply K; try reflexivity; apply (hosting_reads C8 _ 64 _ 64 Gs), guest_reads; assumption.
Qed.
Lemma respects_load_msg C msg : octall (fun p => reads C p 64) msg ->
  respects C (load_msg_vecs_interleave_tb msg) (load_msg_vecs_interleave Allocation (oct_map to msg)).
Proof.
  intros F. destruct msg as [p0 p1 p2 p3 p4 p5 p6 p7]. unfold octall in F. cbn [o0 o1 o2 o3 o4 o5 o6 o7] in F.
  destruct F as (F0 & F1 & F2 & F3 & F4 & F5 & F6 & F7).
  unfold load_msg_vecs_interleave_tb, load_msg_vecs_interleave. cbn [o0 o1 o2 o3 o4 o5 o6 o7 oct_map]. change BLOCKBYTES with 64.
  apply respects_pass8; try assumption. intros D r0 r1 r2 r3 r4 r5 r6 r7 E0 E1 E2 E3 E4 E5 E6 E7 R0 R1 R2 R3 R4 R5 R6 R7.
  rewrite <- E0, <- E1, <- E2, <- E3, <- E4, <- E5, <- E6, <- E7.
  do 8 (apply respects_bind; [apply respects_load_2x256; assumption|]; intros [? ?]). apply respects_give.
Qed.
Lemma respects_vec_get C p i : writes C p 256 -> i < 8 -> respects C (vec_get_tb p i) (vec_get Allocation (to p) i).
Proof.
  intros E Hi. unfold vec_get_tb, vec_get. apply follows_ptr_add. apply respects_bind; [|intros bs; apply respects_give].
  apply respects_read. apply writes_reads in E. apply (reads_part _ _ _ _ _ E); cbn [to tag alloc offset shift size_of]; lia.
Qed.
Lemma respects_vec_set C p i x : writes C p 256 -> i < 8 -> respects C (vec_set_tb p i x) (vec_set Allocation (to p) i x).
Proof.
  intros E Hi. unfold vec_set_tb, vec_set. apply follows_ptr_add.
  apply respects_write. rewrite m256_bytes_length. apply (writes_part _ _ _ _ _ E); cbn [to tag alloc offset shift size_of]; lia.
Qed.
Lemma respects_vecs_get C p : writes C p 256 -> respects C (vecs_get_tb p) (vecs_get Allocation (to p)).
Proof.
  intros E. unfold vecs_get_tb, vecs_get. do 8 (apply respects_bind; [apply respects_vec_get; [exact E|lia]|]; intros ?). apply respects_give.
Qed.
Lemma respects_compress8_transposed C p mv a b c d : writes C p 256 ->
  respects C (compress8_transposed_tb p mv a b c d) (compress8_transposed Allocation (to p) mv a b c d).
Proof.
  intros E. unfold compress8_transposed_tb, compress8_transposed. apply respects_bind; [apply respects_vecs_get; exact E|]. intros h. cbv zeta.
  generalize (rounds8 h mv a b c d). intros v.
  assert (K : forall i, i < 8 -> respects C
    (x <== vec_get_tb p i ;; vec_set_tb p i (Avx2.xor x (Avx2.xor (Avx2.vget v i) (Avx2.vget v (8 + i)))))
    (x <-- vec_get Allocation (to p) i ;; vec_set Allocation (to p) i (Avx2.xor x (Avx2.xor (Avx2.vget v i) (Avx2.vget v (8 + i)))))).
  { intros i Hi. apply respects_bind; [apply respects_vec_get; assumption|]. intros x. apply respects_vec_set; assumption. }
  do 7 (apply respects_bind; [apply K; lia|]; intros _). apply K. lia.
Qed.
Lemma respects_load_state C p : reads C p 32 -> respects C (load_state_tb p) (loadu256 Allocation (to p)).
Proof.
  intros E. unfold load_state_tb. apply respects_as_ptr; [exact E|]. intros C' t _ F. exact (respects_loadu256 C' (mk_bpointer (to p) t) F).
Qed.
Lemma respects_write_state C p x : writes C p 32 -> respects C (write_tb StateWords_ty p (m256_bytes x)) (write Allocation StateWords_ty (to p) (m256_bytes x)).
Proof. intros E. apply respects_write. rewrite m256_bytes_length. exact E. Qed.
Lemma respects_compress8 C h msg count lastblock lastnode : octall (fun p => writes C p 32) h -> octall (fun p => reads C p 64) msg ->
  respects C (compress8_tb h msg count lastblock lastnode) (compress8 Allocation (oct_map to h) (oct_map to msg) count lastblock lastnode).
Proof.
  intros E F. destruct h as [p0 p1 p2 p3 p4 p5 p6 p7]. unfold octall in E. cbn [o0 o1 o2 o3 o4 o5 o6 o7] in E.
  destruct E as (E0 & E1 & E2 & E3 & E4 & E5 & E6 & E7).
  unfold compress8_tb, compress8. cbn [o0 o1 o2 o3 o4 o5 o6 o7 oct_map].
  do 8 (apply respects_bind; [apply respects_load_state; apply writes_reads; assumption|]; intros ?). cbv zeta.
  apply respects_bind; [apply respects_load_msg; exact F|]. intros mv.
  match goal with |- context [Avx2.transpose_vecs (Avx2.compress8_transposed ?a ?b ?c ?d ?e ?f)] => generalize (Avx2.transpose_vecs (Avx2.compress8_transposed a b c d e f)) end.
  intros v. do 7 (apply respects_bind; [apply respects_write_state; assumption|]; intros _). apply respects_write_state; assumption.
Qed.
(** [&mut *(p as *mut _)] *)
Lemma respects_cast_vecs {A} C p (f : bpointer -> bcode A) (f0 : pointer -> code A) : writes C p 256 ->
  (forall C' t, lends C C' p 256 t -> writes C' (mk_bpointer (narrow (to p) 256 true) t) 256 ->
     follows (holds C') (holds C) (f (mk_bpointer (narrow (to p) 256 true) t)) (f0 (narrow (to p) 256 true))) ->
  respects C (andthen_tb (cast_vecs_tb p) f) (andthen (reborrow Allocation true (Array M256 8) (to p)) f0).
Proof.
  intros W K. unfold cast_vecs_tb, reborrow_tb. apply follows_assoc_tb. apply follows_lift. intros m q m' E. apply reborrow_result in E as [-> ->].
  split; [reflexivity|]. change (size_of (Array M256 8)) with 256.
  apply (follows_pass_mut C (holds C) (mk_bpointer (narrow (to p) 256 true) (tag p)) 256); [exact W|].
  intros C' t Ln _ W'. apply K; assumption.
Qed.
Lemma respects_vectorize_words8 C p : writes C p 256 -> respects C (vectorize_words8_tb p) (vectorize_words8 Allocation (to p)).
Proof.
  intros W. unfold vectorize_words8_tb, vectorize_words8. apply respects_cast_vecs; [exact W|]. intros C1 t1 Ln1 W1.
  apply follows_pass_mut; [exact W1|]. intros C2 t2 Ln2 Lo _. cbn [to] in *.
  apply (follows_weaken _ (holds C2) _ (holds C2)); [auto|intros w' h; apply Ln1, Ln2, h|].
  apply (respects_lodger C2 (mk_bpointer (narrow (to p) 256 true) t2) 256); [exact Lo|]. generalize (hosting C2 [tag (mk_bpointer (narrow (to p) 256 true) t2)]). intros D W2.
  apply (respects_bind D (vecs_get_tb (mk_bpointer (narrow (to p) 256 true) t2))); [apply respects_vecs_get; exact W2|].
  intros v. cbv zeta. generalize (Avx2.transpose_vecs v). intros y.
  do 7 (apply respects_bind; [apply (respects_vec_set D _ _ _ W2); lia|]; intros _). apply (respects_vec_set D _ _ _ W2). lia.
Qed.
Lemma lends_reads C C' p r t q n : lends C C' p r t -> reads C q n -> apart q n p r -> reads C' q n.
Proof.
  intros (_ & L & _ & G & _) [T H] X. split; [lia|]. intros k Hk. apply G; [apply H; exact Hk|]. intros [Ea Hp]. unfold apart in X. lia.
Qed.
Lemma respects_compress8_vectorized C p msg cl ch lb ln : writes C p 256 -> octall (fun q => reads C q 64 /\ apart q 64 p 256) msg ->
  (forall q, In q [cl; ch; lb; ln] -> reads C q 32 /\ apart q 32 p 256) ->
  respects C (compress8_vectorized_tb p msg cl ch lb ln) (compress8_vectorized Allocation (to p) (oct_map to msg) (to cl) (to ch) (to lb) (to ln)).
Proof.
  intros W F G. unfold compress8_vectorized_tb, compress8_vectorized. apply respects_cast_vecs; [exact W|]. intros C1 t1 Ln1 W1.
  apply (follows_bind _ (holds C1)).
  { apply respects_load_msg. destruct msg as [p0 p1 p2 p3 p4 p5 p6 p7]. unfold octall in *. cbn [o0 o1 o2 o3 o4 o5 o6 o7] in *.
    destruct F as ((F0 & A0) & (F1 & A1) & (F2 & A2) & (F3 & A3) & (F4 & A4) & (F5 & A5) & (F6 & A6) & (F7 & A7)).
    pose proof (fun q R A => lends_reads C C1 p 256 t1 q 64 Ln1 R A) as Z.
    exact (conj (Z _ F0 A0) (conj (Z _ F1 A1) (conj (Z _ F2 A2) (conj (Z _ F3 A3) (conj (Z _ F4 A4) (conj (Z _ F5 A5) (conj (Z _ F6 A6) (Z _ F7 A7)))))))). }
  intros mv. apply follows_pass_mut; [exact W1|]. intros C2 t2 Ln2 Lo _. cbn [to] in *.
  apply (follows_weaken _ (holds C2) _ (holds C2)); [auto|intros w' h; apply Ln1, Ln2, h|].
  assert (K : forall q, In q [cl; ch; lb; ln] -> respects C2 (read_tb AlignedWords8_ty q) (read Allocation AlignedWords8_ty (to q))).
  { intros q Hq. destruct (G q Hq) as [Rq Aq]. apply respects_read. apply (lends_reads C1 C2 _ 256 t2 _ _ Ln2); [|exact Aq].
    exact (lends_reads C C1 p 256 t1 _ _ Ln1 Rq Aq). }
  do 4 (apply respects_bind; [apply K; cbn; tauto|]; intros ?).
  apply (respects_lodger C2 (mk_bpointer (narrow (to p) 256 true) t2) 256); [exact Lo|]. generalize (hosting C2 [tag (mk_bpointer (narrow (to p) 256 true) t2)]). intros D W2.
  apply (respects_compress8_transposed D (mk_bpointer (narrow (to p) 256 true) t2)). exact W2.
Qed.
Lemma follows_block_at {A} C Q p n count (f : bpointer -> bcode A) (f0 : pointer -> code A) : reads C p n -> count + 64 <= n ->
  (forall C' u, shares C C' -> reads C' (mk_bpointer (narrow (shift (to p) (count * 1)) 64 false) u) 64 ->
     follows (holds C') Q (f (mk_bpointer (narrow (shift (to p) (count * 1)) 64 false) u)) (f0 (narrow (shift (to p) (count * 1)) 64 false))) ->
  follows (holds C) Q (andthen_tb (block_at_tb p n count) f) (andthen (block_at Allocation (to p) count) f0).
Proof.
  intros F L K. unfold block_at_tb, block_at. apply follows_assoc_tb.
  apply follows_as_ptr; [exact F|]. intros C1 t X1 F1. apply follows_assoc_tb. apply follows_assoc0.
  apply (follows_ptr_add C1 Q U8 (mk_bpointer (to p) t) count (fun q => andthen_tb (reborrow_tb false Block_ty q) f)). cbn [to tag size_of].
  unfold reborrow_tb. apply follows_assoc_tb. apply follows_lift. intros m q m' E. apply reborrow_result in E as [-> ->]. split; [reflexivity|].
  change (size_of Block_ty) with 64. cbn [to tag].
  apply (follows_as_ptr C1 Q (mk_bpointer (narrow (shift (to p) (count * 1)) 64 false) t) 64).
  - apply (reads_part _ _ _ _ _ F1); cbn [to tag alloc offset shift narrow]; lia.
  - intros C2 u X2 F2. apply K; [exact (shares_trans _ _ _ X1 X2)|exact F2].
Qed.
Lemma respects_hash8_loop params input n len fuel : forall C h count q, octall (fun p => reads C (fst p) (snd p) /\ len <= snd p) (oct_map2 pair input n) ->
  len = count + 64 * S q ->
  respects C (hash8_exact_loop_tb fuel params input n len h count) (hash8_exact_loop fuel Allocation params (oct_map to input) len h count).
Proof.
  destruct input as [i0 i1 i2 i3 i4 i5 i6 i7], n as [l0 l1 l2 l3 l4 l5 l6 l7]. cbn [oct_map2 oct_map].
  induction fuel as [|fuel IH]; intros C h count q F L; [intros w b m _ R; discriminate R|].
  pose proof F as F_. unfold octall in F_. cbn [fst snd o0 o1 o2 o3 o4 o5 o6 o7] in F_.
  destruct F_ as ((F0 & L0) & (F1 & L1) & (F2 & L2) & (F3 & L3) & (F4 & L4) & (F5 & L5) & (F6 & L6) & (F7 & L7)).
  cbn [hash8_exact_loop_tb hash8_exact_loop o0 o1 o2 o3 o4 o5 o6 o7].
  apply follows_block_at; [exact F0|lia|]; intros C1 u1 X1 P0.
  apply follows_block_at; [exact (shares_reads _ _ _ _ X1 F1)|lia|]; intros C2 u2 X2 P1; pose proof (shares_trans _ _ _ X1 X2) as Y2.
  apply follows_block_at; [exact (shares_reads _ _ _ _ Y2 F2)|lia|]; intros C3 u3 X3 P2; pose proof (shares_trans _ _ _ Y2 X3) as Y3.
  apply follows_block_at; [exact (shares_reads _ _ _ _ Y3 F3)|lia|]; intros C4 u4 X4 P3; pose proof (shares_trans _ _ _ Y3 X4) as Y4.
  apply follows_block_at; [exact (shares_reads _ _ _ _ Y4 F4)|lia|]; intros C5 u5 X5 P4; pose proof (shares_trans _ _ _ Y4 X5) as Y5.
  apply follows_block_at; [exact (shares_reads _ _ _ _ Y5 F5)|lia|]; intros C6 u6 X6 P5; pose proof (shares_trans _ _ _ Y5 X6) as Y6.
  apply follows_block_at; [exact (shares_reads _ _ _ _ Y6 F6)|lia|]; intros C7 u7 X7 P6; pose proof (shares_trans _ _ _ Y6 X7) as Y7.
  apply follows_block_at; [exact (shares_reads _ _ _ _ Y7 F7)|lia|]; intros C8 u8 X8 P7; pose proof (shares_trans _ _ _ Y7 X8) as Y8.
  cbv zeta. apply (follows_weaken _ (holds C8) _ (holds C8)); [auto|apply Y8|].
  match goal with |- follows _ _ (andthen_tb (load_msg_vecs_interleave_tb ?msg) _) _ => apply (respects_bind C8 (load_msg_vecs_interleave_tb msg)) end.
  - match goal with |- respects _ (load_msg_vecs_interleave_tb ?msg) _ => apply (respects_load_msg C8 msg) end. unfold octall. cbn [o0 o1 o2 o3 o4 o5 o6 o7].
    pose proof (shares_reads _ _ _ _ X8 P6) as Q6. pose proof (shares_trans _ _ _ X7 X8) as Z6.
    pose proof (shares_reads _ _ _ _ Z6 P5) as Q5. pose proof (shares_trans _ _ _ X6 Z6) as Z5.
    pose proof (shares_reads _ _ _ _ Z5 P4) as Q4. pose proof (shares_trans _ _ _ X5 Z5) as Z4.
    pose proof (shares_reads _ _ _ _ Z4 P3) as Q3. pose proof (shares_trans _ _ _ X4 Z4) as Z3.
    pose proof (shares_reads _ _ _ _ Z3 P2) as Q2. pose proof (shares_trans _ _ _ X3 Z3) as Z2.
    pose proof (shares_reads _ _ _ _ Z2 P1) as Q1. pose proof (shares_trans _ _ _ X2 Z2) as Z1.
    pose proof (shares_reads _ _ _ _ Z1 P0) as Q0. exact (conj Q0 (conj Q1 (conj Q2 (conj Q3 (conj Q4 (conj Q5 (conj Q6 P7))))))).
  - intros mv. destruct (Nat.eqb_spec (count + BLOCKBYTES) len) as [El|El]; [apply respects_give|]. destruct q as [|q]; [change BLOCKBYTES with 64 in El; lia|].
    apply (IH C8 _ _ q); [|change BLOCKBYTES with 64; lia]. unfold octall. cbn [fst snd o0 o1 o2 o3 o4 o5 o6 o7].
    assert (Z : forall p l, reads C p l -> reads C8 p l) by (intros p l; exact (shares_reads _ _ _ _ Y8)).
    split; [split; [exact (Z _ _ F0)|exact L0]|]. split; [split; [exact (Z _ _ F1)|exact L1]|]. split; [split; [exact (Z _ _ F2)|exact L2]|].
    split; [split; [exact (Z _ _ F3)|exact L3]|]. split; [split; [exact (Z _ _ F4)|exact L4]|]. split; [split; [exact (Z _ _ F5)|exact L5]|].
    split; [split; [exact (Z _ _ F6)|exact L6]|]. split; [exact (Z _ _ F7)|exact L7].
Qed.

(** ** sse41.rs *)
Lemma respects_loadu C p : reads C p 16 -> respects C (loadu_tb p) (loadu Allocation (to p)).
Proof. intros R. apply respects_bind; [apply respects_read; exact R|]. intros bs. apply respects_give. Qed.
(** A reference to one word, used for four *)
Lemma respects_load_words C h i : reads C h 32 -> i <= 4 ->
  respects C (load_words_tb h i) (andthen (element Allocation false U32 (to h) i) (loadu Allocation)).
Proof.
  intros R Hi. unfold load_words_tb, const_at_tb. apply follows_assoc_tb. apply follows_lift. intros m q m' E. apply element_result in E as [-> ->].
  split; [reflexivity|]. set (q := narrow (shift (to h) (i * size_of U32)) (size_of U32) false).
  apply (follows_share C (holds C) (mk_bpointer q (tag h)) 4).
  { apply (reads_part _ _ _ _ _ R); cbn [to tag alloc offset narrow shift size_of q]; lia. }
  intros C' t Sh T G. apply (follows_weaken _ (holds C') _ (holds C')); [auto|apply Sh|].
  apply (respects_loadu C' (mk_bpointer q t)). split; [exact T|]. intros k Hk. apply G. apply R. cbn [to tag alloc offset narrow shift size_of q] in *. lia.
Qed.
Lemma respects_load_bytes C msg i : reads C msg 64 -> i <= 48 ->
  respects C (load_bytes_tb msg i) (andthen (ptr_add U8 (to msg) i) (loadu Allocation)).
Proof.
  intros R Hi. unfold load_bytes_tb. apply respects_as_ptr; [exact R|]. intros C' t _ F.
  apply (follows_ptr_add C' _ U8 (mk_bpointer (to msg) t) i loadu_tb).
  apply (respects_loadu C' (mk_bpointer (shift (to msg) (i * size_of U8)) t)). apply (reads_part _ _ _ _ _ F); cbn [to tag alloc offset shift size_of]; change BLOCKBYTES with 64; lia.
Qed.
(** Reading [h] between making [&mut h[i]] and writing through it *)
Lemma respects_xor_words C h i x : writes C h 32 -> i <= 4 ->
  respects C (xor_words_tb h i x)
    (q <-- element Allocation true U32 (to h) i ;; p <-- element Allocation false U32 (to h) i ;; y <-- loadu Allocation p ;; storeu Allocation q (Sse41.xor y x)).
Proof.
  intros W Hi. unfold xor_words_tb, mut_at_tb. apply follows_assoc_tb. apply follows_lift. intros m q m' E. apply element_result in E as [-> ->].
  split; [reflexivity|]. set (q := narrow (shift (to h) (i * size_of U32)) (size_of U32) true).
  apply (follows_lend C (holds C) (mk_bpointer q (tag h)) 4 16).
  { apply writes_reads in W. apply (reads_part _ _ _ _ _ W); cbn [to tag alloc offset narrow shift size_of q]; lia. }
  intros C1 C2 t Sh H12 Ln. cbn [to].
  apply (follows_assoc (holds C1) (holds C) _ (element Allocation false U32 (to h) i) (loadu Allocation)).
  apply (follows_bind _ (holds C1)).
  { apply respects_load_words; [|exact Hi]. apply (shares_reads C C1); [exact Sh|]. apply writes_reads. exact W. }
  intros y. apply (follows_weaken _ (holds C2) _ (holds C2)); [exact H12|apply Ln|].
  apply (respects_write C2 (mk_bpointer q t)). rewrite m128_bytes_length. destruct Ln as (_ & _ & T & _ & G). split; [exact T|].
  intros k Hk. apply (G k Hk). apply W. cbn [to tag alloc offset narrow shift size_of q] in *. lia.
Qed.
Lemma respects_compress C iv h msg count lastblock lastnode : reads C iv 32 -> writes C h 32 -> reads C msg 64 ->
  respects C (compress_tb iv h msg count lastblock lastnode) (compress Allocation (to iv) (to h) (to msg) count lastblock lastnode).
Proof.
  intros Fi Xh Fm. unfold compress_tb, compress.
  pose proof (fun i => respects_load_words C h i (writes_reads _ _ _ Xh)) as Lh.
  pose proof (fun i => respects_load_words C iv i Fi) as Li.
  pose proof (fun i => respects_load_bytes C msg i Fm) as Lm.
  apply follows_assoc, respects_bind; [apply Lh; lia|]. intros row1.
  apply follows_assoc, respects_bind; [apply Lh; lia|]. intros row2.
  apply follows_assoc, respects_bind; [apply Li; lia|]. intros row3.
  apply follows_assoc, respects_bind; [apply Li; lia|]. intros iv4. cbv zeta.
  apply follows_assoc, respects_bind; [apply Lm; lia|]. intros m0.
  apply follows_assoc, respects_bind; [apply Lm; lia|]. intros m1.
  apply follows_assoc, respects_bind; [apply Lm; lia|]. intros m2.
  apply follows_assoc, respects_bind; [apply Lm; lia|]. intros m3.
  destruct (compress_rounds _ _ _ _ _ _ _ _) as [[[r1 r2] r3] r4].
  pose proof (fun i x => respects_xor_words C h i x Xh) as K.
  apply (follows_assoc3 _ _ _ (element Allocation true U32 (to h) 0)
    (fun q => element Allocation false U32 (to h) 0) (fun q p => loadu Allocation p) (fun q p y => storeu Allocation q (Sse41.xor y (Sse41.xor r1 r3)))).
  apply respects_bind; [apply K; lia|]. intros _. apply K. lia.
Qed.
