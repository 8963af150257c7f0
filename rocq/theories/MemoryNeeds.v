(** * MemoryNeeds: what the routines on memory need; without it they are undefined behaviour. *)
From Verif Require Import Base BaseFacts Consts Intrinsics Portable Params Memory Views MemoryFacts.
From Coq Require Import Lia.
Local Open Scope nat_scope.

(** Code that either succeeds or is undefined behaviour. *)
Definition sound {A} (x : code A) : Prop := forall m, x m = UB \/ exists a m', x m = Ok (a, m').
Lemma sound_give {A} (a : A) : sound (give a).
Proof. intros m. right. eexists _, _. reflexivity. Qed.
Lemma sound_check b : sound (check b).
Proof. intros m. unfold check. destruct (b m); [right; eexists _, _; reflexivity|left; reflexivity]. Qed.
Lemma sound_andthen {A B} (x : code A) (f : A -> code B) : sound x -> (forall a, sound (f a)) -> sound (andthen x f).
Proof.
  intros Hx Hf m. unfold andthen. destruct (Hx m) as [->|(a & m' & ->)]; [left; reflexivity|]. cbn [bind]. apply Hf.
Qed.
Lemma sound_ok {A} (f : memory -> A * memory) : sound (fun m => Ok (f m)).
Proof. intros m. right. exists (fst (f m)), (snd (f m)). rewrite <- surjective_pairing. reflexivity. Qed.
Ltac sound_step :=
  match goal with
  | |- sound (give _) => apply sound_give
  | |- sound (check _) => apply sound_check
  | |- sound (andthen _ _) => apply sound_andthen; [|intros ?]
  | |- sound (fun m => Ok (@?f m)) => apply (sound_ok f)
  | |- sound (match ?x with _ => _ end) => destruct x
  end.
Lemma sound_ptr_add t p n : sound (ptr_add t p n).
Proof. unfold ptr_add. repeat sound_step. Qed.
Lemma sound_reborrow r w t p : sound (reborrow r w t p).
Proof. unfold reborrow. repeat sound_step. Qed.
Lemma sound_read_unaligned r p n : sound (read_unaligned r p n).
Proof. unfold read_unaligned. repeat sound_step. Qed.
Lemma sound_write_unaligned r p bs : sound (write_unaligned r p bs).
Proof. unfold write_unaligned. repeat sound_step. Qed.
Lemma sound_element r w t p i : sound (element r w t p i).
Proof. unfold element. apply sound_andthen; [apply sound_ptr_add|intros ?; apply sound_reborrow]. Qed.
Lemma sound_read r t p : sound (read r t p).
Proof. unfold read. apply sound_andthen; [apply sound_check|intros ?; apply sound_read_unaligned]. Qed.
Lemma sound_write r t p bs : sound (write r t p bs).
Proof. unfold write. apply sound_andthen; [apply sound_check|intros ?; apply sound_write_unaligned]. Qed.
Ltac sound_all := repeat
  match goal with
  | |- sound (ptr_add _ _ _) => apply sound_ptr_add
  | |- sound (reborrow _ _ _ _) => apply sound_reborrow
  | |- sound (read_unaligned _ _ _) => apply sound_read_unaligned
  | |- sound (write_unaligned _ _ _) => apply sound_write_unaligned
  | |- sound (element _ _ _ _ _) => apply sound_element
  | |- sound (read _ _ _) => apply sound_read
  | |- sound (write _ _ _ _) => apply sound_write
  | _ => sound_step
  end.
Lemma sound_loadu r p : sound (loadu r p).
Proof. unfold loadu, _mm_loadu. sound_all. Qed.
Lemma sound_storeu r p x : sound (storeu r p x).
Proof. unfold storeu, _mm_storeu. sound_all. Qed.
Lemma sound_loadu256 r p : sound (_mm256_loadu r p).
Proof. unfold _mm256_loadu. sound_all. Qed.

(** What success tells. *)
Lemma andthen_inv {A B} (x : code A) (f : A -> code B) m b m2 : andthen x f m = Ok (b, m2) ->
  exists a m1, x m = Ok (a, m1) /\ f a m1 = Ok (b, m2).
Proof. unfold andthen. destruct (x m) as [[a m1]| | |]; try discriminate. intros H. exists a, m1. split; [reflexivity|exact H]. Qed.
Lemma check_inv b m u m' : check b m = Ok (u, m') -> b m = true /\ m' = m.
Proof. unfold check. destruct (b m); [|discriminate]. intros H. injection H as _ <-. auto. Qed.
Lemma ptr_add_inv t p n m q m' : ptr_add t p n m = Ok (q, m') -> q = shift p (n * size_of t) /\ m' = m.
Proof.
  unfold ptr_add. intros H. apply andthen_inv in H. destruct H as (u & m1 & H & E). apply check_inv in H. destruct H as [_ ->].
  injection E as <- <-. split; reflexivity.
Qed.
Lemma reborrow_inv r w t p m q m' : reborrow r w t p m = Ok (q, m') ->
  q = narrow p (size_of t) w /\ m' = m /\ within r m p (size_of t) = true /\ aligned m p (align_of t) = true /\ (w = true -> mutable p = true).
Proof.
  unfold reborrow. intros H. apply andthen_inv in H. destruct H as (u & m1 & H & E). apply check_inv in H. destruct H as [H ->].
  injection E as <- <-. apply andb_true_iff in H. destruct H as [H H3]. apply andb_true_iff in H. destruct H as [H1 H2].
  repeat split; try assumption. intros ->. exact H3.
Qed.
Lemma element_inv r w t p i m q m' : element r w t p i m = Ok (q, m') ->
  q = narrow (shift p (i * size_of t)) (size_of t) w /\ m' = m /\ aligned m (shift p (i * size_of t)) (align_of t) = true /\ (w = true -> mutable p = true).
Proof.
  unfold element. intros H. apply andthen_inv in H. destruct H as (u & m1 & H & E). apply ptr_add_inv in H. destruct H as [-> ->].
  apply reborrow_inv in E. destruct E as (-> & -> & _ & A & W). auto.
Qed.
Lemma read_unaligned_inv r p n m bs m' : read_unaligned r p n m = Ok (bs, m') -> m' = m /\ within r m p n = true.
Proof.
  unfold read_unaligned. intros H. apply andthen_inv in H. destruct H as (u & m1 & H & E). apply check_inv in H. destruct H as [H ->].
  injection E as _ <-. auto.
Qed.
Lemma read_inv r t p m bs m' : read r t p m = Ok (bs, m') -> m' = m /\ within r m p (size_of t) = true /\ aligned m p (align_of t) = true.
Proof.
  unfold read. intros H. apply andthen_inv in H. destruct H as (u & m1 & H & E). apply check_inv in H. destruct H as [H ->].
  apply read_unaligned_inv in E. destruct E. auto.
Qed.
Lemma write_inv r t p bs m u m' : write r t p bs m = Ok (u, m') ->
  m' = stored m p bs /\ within r m p (length bs) = true /\ aligned m p (align_of t) = true /\ mutable p = true.
Proof.
  unfold write, write_unaligned. intros H. apply andthen_inv in H. destruct H as (u1 & m1 & H & E). apply check_inv in H. destruct H as [H ->].
  apply andthen_inv in E. destruct E as (u2 & m2 & E & E2). apply check_inv in E. destruct E as [E ->]. injection E2 as _ <-.
  apply andb_true_iff in E. destruct E. auto.
Qed.
Lemma loadu_inv r p m x m' : loadu r p m = Ok (x, m') -> m' = m /\ within r m p 16 = true.
Proof.
  unfold loadu, _mm_loadu. intros H. apply andthen_inv in H. destruct H as (u & m1 & H & E). apply read_unaligned_inv in H.
  injection E as _ <-. exact H.
Qed.
Lemma loadu256_inv r p m x m' : _mm256_loadu r p m = Ok (x, m') -> m' = m /\ within r m p 32 = true.
Proof.
  unfold _mm256_loadu. intros H. apply andthen_inv in H. destruct H as (u & m1 & H & E). apply read_unaligned_inv in H.
  injection E as _ <-. exact H.
Qed.
Lemma within_unshift r m p d n : within r m (shift p d) n = true -> within Allocation m p (d + n) = true.
Proof.
  intros H. apply within_alloc in H. unfold within in *. cbn [alloc offset shift] in H. destruct (nth_error m (alloc p)); [|discriminate].
  rewrite andb_true_r in *. rewrite Nat.add_assoc. exact H.
Qed.
Lemma aligned_0 m p a : aligned m (shift p 0) a = aligned m p a.
Proof. unfold aligned. cbn [alloc offset shift]. rewrite Nat.add_0_r. reflexivity. Qed.

(** Takes the first step off a successful run. *)
Ltac first_step H E := apply andthen_inv in H; let a := fresh "a" in let m1 := fresh "m1" in destruct H as (a & m1 & E & H).

(** ** sse41::compress *)
Lemma compress_sound r iv h msg count lastblock lastnode : sound (compress r iv h msg count lastblock lastnode).
Proof.
  unfold compress.
  repeat match goal with
  | |- sound (loadu _ _) => apply sound_loadu
  | |- sound (storeu _ _ _) => apply sound_storeu
  | |- _ => progress sound_all
  end.
Qed.
Theorem compress_needs r m iv h msg count lastblock lastnode :
  within Allocation m h 32 && aligned m h 4 && mutable h &&
  within Allocation m iv 32 && aligned m iv 4 && within Allocation m msg 64 = false ->
  compress r iv h msg count lastblock lastnode m = UB.
Proof.
  intros C. destruct (compress_sound r iv h msg count lastblock lastnode m) as [E|(u & m' & H)]; [exact E|exfalso].
  unfold compress in H.
  first_step H E0. apply element_inv in E0. destruct E0 as (-> & -> & A0 & _).
  first_step H E1. apply loadu_inv in E1. destruct E1 as (-> & W0).
  first_step H E0. apply element_inv in E0. destruct E0 as (-> & -> & A1 & _).
  first_step H E1. apply loadu_inv in E1. destruct E1 as (-> & W1).
  first_step H E0. apply element_inv in E0. destruct E0 as (-> & -> & A2 & _).
  first_step H E1. apply loadu_inv in E1. destruct E1 as (-> & W2).
  first_step H E0. apply element_inv in E0. destruct E0 as (-> & -> & A3 & _).
  first_step H E1. apply loadu_inv in E1. destruct E1 as (-> & W3).
  first_step H E0. apply ptr_add_inv in E0. destruct E0 as (-> & ->).
  first_step H E1. apply loadu_inv in E1. destruct E1 as (-> & W4).
  first_step H E0. apply ptr_add_inv in E0. destruct E0 as (-> & ->).
  first_step H E1. apply loadu_inv in E1. destruct E1 as (-> & W5).
  first_step H E0. apply ptr_add_inv in E0. destruct E0 as (-> & ->).
  first_step H E1. apply loadu_inv in E1. destruct E1 as (-> & W6).
  first_step H E0. apply ptr_add_inv in E0. destruct E0 as (-> & ->).
  first_step H E1. apply loadu_inv in E1. destruct E1 as (-> & W7).
  destruct (compress_rounds _ _ _ _ _ _ _ _) as [[[r1 r2] r3] r4].
  first_step H E0. apply element_inv in E0. destruct E0 as (-> & -> & _ & Mu).
  specialize (Mu eq_refl). clear H.
  apply within_alloc, (within_unshift Allocation m h 16 16) in W1. apply within_alloc, (within_unshift Allocation m iv 16 16) in W3.
  apply (within_unshift r m msg 48 16) in W7. cbn [size_of align_of Nat.mul Nat.add] in *. rewrite aligned_0 in A0, A2.
  rewrite W1, A0, Mu, W3, A2, W7 in C. discriminate C.
Qed.

(** ** avx2.rs *)
Lemma load_2x256_inv r p m x m' : load_2x256 r p m = Ok (x, m') -> m' = m /\ within Allocation m p 64 = true.
Proof.
  unfold load_2x256. intros H. first_step H E. apply loadu256_inv in E. destruct E as [-> _].
  first_step H E. apply ptr_add_inv in E. destruct E as [-> ->]. first_step H E. apply loadu256_inv in E. destruct E as [-> W].
  injection H as _ <-. split; [reflexivity|]. exact (within_unshift r m p 32 32 W).
Qed.
Lemma load_msg_inv r msg m x m' : load_msg_vecs_interleave r msg m = Ok (x, m') ->
  m' = m /\ forall l, within Allocation m (proj l msg) 64 = true.
Proof.
  unfold load_msg_vecs_interleave. intros H.
  do 8 (first_step H E; apply load_2x256_inv in E; destruct E as [-> ?];
        match type of H with (let '(_, _) := ?p in _) _ = _ => destruct p | _ => idtac end).
  injection H as _ <-. split; [reflexivity|]. intros []; assumption.
Qed.
Lemma load_msg_sound r msg : sound (load_msg_vecs_interleave r msg).
Proof. 
  assert (L : forall p, sound (load_2x256 r p)).
  { intros p. unfold load_2x256. do 3 (apply sound_andthen; [first [apply sound_loadu256 | apply sound_ptr_add]|intros ?]). apply sound_give. }
  unfold load_msg_vecs_interleave.
  repeat match goal with
  | |- sound (load_2x256 _ _) => apply L
  | |- _ => progress sound_all
  end.
Qed.

Lemma vec_get_sound r p i : sound (vec_get r p i).
Proof. unfold vec_get. sound_all. Qed.
Lemma vec_set_sound r p i x : sound (vec_set r p i x).
Proof. unfold vec_set. sound_all. Qed.
Lemma vecs_get_sound r p : sound (vecs_get r p).
Proof.
  unfold vecs_get. repeat match goal with
  | |- sound (vec_get _ _ _) => apply vec_get_sound
  | |- _ => progress sound_all
  end.
Qed.
Lemma compress8_transposed_sound r p v a b c d : sound (compress8_transposed r p v a b c d).
Proof.
  unfold compress8_transposed. apply sound_andthen; [apply vecs_get_sound|]. intros h. set (v' := rounds8 _ _ _ _ _ _). clearbody v'. cbv zeta.
  repeat match goal with
  | |- sound (vec_get _ _ _) => apply vec_get_sound
  | |- sound (vec_set _ _ _ _) => apply vec_set_sound
  | |- _ => progress sound_all
  end.
Qed.
Lemma vectorize_sound r p : sound (vectorize_words8 r p).
Proof.
  unfold vectorize_words8. apply sound_andthen; [apply sound_reborrow|]. intros q.
  apply sound_andthen; [apply vecs_get_sound|]. intros v. set (w := Avx2.transpose_vecs v). clearbody w. cbv zeta.
  repeat match goal with
  | |- sound (vec_set _ _ _ _) => apply vec_set_sound
  | |- _ => progress sound_all
  end.
Qed.
Lemma vectorized_sound r p msg cl ch lb ln : sound (compress8_vectorized r p msg cl ch lb ln).
Proof.
  unfold compress8_vectorized. repeat match goal with
  | |- sound (load_msg_vecs_interleave _ _) => apply load_msg_sound
  | |- sound (compress8_transposed _ _ _ _ _ _ _) => apply compress8_transposed_sound
  | |- _ => progress sound_all
  end.
Qed.
Lemma compress8_sound r h msg count lastblock lastnode : sound (compress8 r h msg count lastblock lastnode).
Proof.
  unfold compress8, loadu256. repeat match goal with
  | |- sound (_mm256_loadu _ _) => apply sound_loadu256
  | |- sound (load_msg_vecs_interleave _ _) => apply load_msg_sound
  | |- sound (andthen _ _) => apply sound_andthen; [|intros ?]
  | |- sound (write _ _ _ _) => apply sound_write
  | |- sound (let x := _ in _) => intros ?
  | |- _ => progress cbv zeta
  end.
Qed.

Theorem vectorize_words8_needs r m p :
  within r m p 256 && aligned m p 32 && mutable p = false -> vectorize_words8 r p m = UB.
Proof.
  intros C. destruct (vectorize_sound r p m) as [E|(u & m' & H)]; [exact E|exfalso].
  unfold vectorize_words8 in H. first_step H E. apply reborrow_inv in E. destruct E as (_ & _ & W & A & Mu).
  cbn [size_of align_of Nat.mul Nat.add] in *. change (within r m p 256 = true) in W. rewrite W, A, (Mu eq_refl) in C. discriminate C.
Qed.
Theorem compress8_vectorized_needs r m p msg cl ch lb ln :
  within r m p 256 && aligned m p 32 && mutable p &&
  (within r m cl 32 && aligned m cl 32) && (within r m ch 32 && aligned m ch 32) &&
  (within r m lb 32 && aligned m lb 32) && (within r m ln 32 && aligned m ln 32) = false \/
  (exists l, within Allocation m (proj l msg) 64 = false) ->
  compress8_vectorized r p msg cl ch lb ln m = UB.
Proof.
  intros C. destruct (vectorized_sound r p msg cl ch lb ln m) as [E|(u & m' & H)]; [exact E|exfalso].
  unfold compress8_vectorized in H. first_step H E. apply reborrow_inv in E. destruct E as (_ & -> & W & A & Mu).
  first_step H E. apply load_msg_inv in E. destruct E as [-> L].
  first_step H E. apply read_inv in E. destruct E as (-> & W1 & A1).
  first_step H E. apply read_inv in E. destruct E as (-> & W2 & A2).
  first_step H E. apply read_inv in E. destruct E as (-> & W3 & A3).
  first_step H E. apply read_inv in E. destruct E as (-> & W4 & A4). clear H.
  change (within r m p 256 = true) in W. change (aligned m p 32 = true) in A. change (size_of AlignedWords8_ty) with 32 in *.
  change (align_of AlignedWords8_ty) with 32 in *.
  destruct C as [C|[l C]].
  - rewrite W, A, (Mu eq_refl), W1, A1, W2, A2, W3, A3, W4, A4 in C. discriminate C.
  - rewrite L in C. discriminate C.
Qed.

Lemma compress8_inv r m h msg count lastblock lastnode u m' : compress8 r h msg count lastblock lastnode m = Ok (u, m') ->
  forall l, within r m (proj l h) 32 = true /\ aligned m (proj l h) 4 = true /\ mutable (proj l h) = true /\
            within Allocation m (proj l msg) 64 = true.
Proof.
  intros H. unfold compress8, loadu256 in H.
  do 8 (first_step H E; apply loadu256_inv in E; destruct E as [-> ?]).
  first_step H E. apply load_msg_inv in E. destruct E as [-> L].
  revert H. set (v := Avx2.transpose_vecs (Avx2.compress8_transposed _ _ _ _ _ _)). clearbody v. intros H.
  cbv zeta in H.
  assert (S : forall p x (f : unit -> code unit) m0 o m1, andthen (write r StateWords_ty p (m256_bytes x)) f m0 = Ok (o, m1) ->
    (forall q a, aligned m0 q a = aligned m q a) ->
    aligned m p 4 = true /\ mutable p = true /\ exists m2, f tt m2 = Ok (o, m1) /\ forall q a, aligned m2 q a = aligned m q a).
  { intros p x f m0 o m1 K1 Ha. first_step K1 E. apply write_inv in E. destruct E as (-> & W & A & Mu).
    change (aligned m0 p 4 = true) in A. rewrite Ha in A. repeat split; [exact A|exact Mu|].
    match goal with a : unit |- _ => destruct a end.
    eexists. split; [exact K1|]. intros q b. rewrite aligned_stored by exact (within_alloc _ _ _ _ W). apply Ha. }
  destruct (S _ _ _ _ _ _ H (fun q a => eq_refl)) as (A0 & U0 & n0 & K0 & F0).
  destruct (S _ _ _ _ _ _ K0 F0) as (A1 & U1 & n1 & K1 & F1).
  destruct (S _ _ _ _ _ _ K1 F1) as (A2 & U2 & n2 & K2 & F2).
  destruct (S _ _ _ _ _ _ K2 F2) as (A3 & U3 & n3 & K3 & F3).
  destruct (S _ _ _ _ _ _ K3 F3) as (A4 & U4 & n4 & K4 & F4).
  destruct (S _ _ _ _ _ _ K4 F4) as (A5 & U5 & n5 & K5 & F5).
  destruct (S _ _ _ _ _ _ K5 F5) as (A6 & U6 & n6 & K6 & F6).
  apply write_inv in K6. destruct K6 as (_ & _ & A7 & U7). change (aligned n6 (o7 h) 4 = true) in A7. rewrite F6 in A7.
  intros l. split; [|split; [|split; [|apply L]]]; destruct l; assumption.
Qed.
Theorem compress8_needs r m h msg count lastblock lastnode l :
  within r m (proj l h) 32 && aligned m (proj l h) 4 && mutable (proj l h) && within Allocation m (proj l msg) 64 = false ->
  compress8 r h msg count lastblock lastnode m = UB.
Proof.
  intros C. destruct (compress8_sound r h msg count lastblock lastnode m) as [E|(u & m' & H)]; [exact E|exfalso].
  destruct (compress8_inv _ _ _ _ _ _ _ _ _ H l) as (W & A & Mu & L). rewrite W, A, Mu, L in C. discriminate C.
Qed.
