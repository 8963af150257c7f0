(** * InsideFacts: the accesses inside the compression routines are in range and constant. *)
From Verif Require Import Base BaseFacts Consts Intrinsics Portable Traced Inside Views.
From Verif Require Sse41 Avx2 StateFacts.
From Coq Require Import Lia.
Local Open Scope nat_scope.

(** An access within its array; nothing else. *)
Definition in_range (e : event) : Prop :=
  match e with Access lo hi len => lo < hi <= len | _ => False end.
(** [f] does the same accesses, all in range, for all [e] and [a], and computes [g]. *)
Definition tame {E A B} (PE : E -> Prop) (P : A -> Prop) (Q : B -> Prop) (f : E -> A -> traced B) (g : E -> A -> B) : Prop :=
  exists ev, Forall in_range ev /\ forall e a, PE e -> P a -> f e a = (ev, Ok (g e a)) /\ Q (g e a).
Lemma tbind_ok {A B} l (a : A) (f : A -> traced B) : tbind (l, Ok a) f = (l ++ fst (f a), snd (f a)).
Proof. unfold tbind. destruct (f a) as [l' y]. reflexivity. Qed.
Lemma tame_seq {E A B C} PE P Q R (f : E -> A -> traced B) g (f' : E -> B -> traced C) g' :
  tame PE P Q f g -> tame PE Q R f' g' -> tame PE P R (fun e a => tbind (f e a) (fun b => f' e b)) (fun e a => let b := g e a in g' e b).
Proof.
  intros (ev & F & H) (ev' & F' & H'). exists (ev ++ ev'). split; [apply Forall_app; auto|].
  intros e a He Ha. destruct (H e a He Ha) as [E1 Q1]. destruct (H' e (g e a) He Q1) as [E2 R2].
  rewrite E1, tbind_ok, E2. cbv zeta. auto.
Qed.
Lemma tame_ret {E A} PE (P : A -> Prop) : tame PE P P (fun (_ : E) a => ret a) (fun _ a => a).
Proof. exists []. split; [constructor|]. intros. split; [reflexivity|assumption]. Qed.
Lemma tame_env {E F A B} (PE : E -> Prop) (PF : F -> Prop) (P : A -> Prop) (Q : B -> Prop) (h : E -> F) f g :
  tame PF P Q f g -> (forall e, PE e -> PF (h e)) -> tame PE P Q (fun e a => f (h e) a) (fun e a => g (h e) a).
Proof. intros (ev & D & H) K. exists ev. split; [exact D|]. intros e a He Ha. apply H; [apply K, He|exact Ha]. Qed.

(** ** Arrays. *)
Lemma get_i_ok {A} (d : A) xs i : i < length xs -> get_i xs i = ([Access i (S i) (length xs)], Ok (get d xs i)).
Proof.
  intros H. unfold get_i, note, get. destruct (nth_error xs i) eqn:E.
  - rewrite (nth_error_nth xs i d E). reflexivity.
  - apply nth_error_None in E. lia.
Qed.
Lemma set_i_ok {A} (xs : list A) i x : i < length xs -> set_i xs i x = ([Access i (S i) (length xs)], Ok (upd xs i x)).
Proof. intros H. unfold set_i, note. apply Nat.ltb_lt in H. rewrite H. reflexivity. Qed.
Lemma upd_len {A} (xs : list A) i x : length (upd xs i x) = length xs.
Proof. revert i. induction xs as [|y xs IH]; intros [|i]; cbn; auto. Qed.
Definition long {A} (n : nat) (xs : list A) : Prop := length xs = n.
Ltac one_access := repeat (apply Forall_cons; [cbn [in_range]; lia|]); apply Forall_nil.

Section STATEMENTS.
  Context {E A : Type} (PE : E -> Prop) (d : A).
  (** [v[k] = op(v[a], v[b])] and [v[k] = op(v[a])] *)
  Lemma tame_2 (op : E -> A -> A -> A) k a b : k < 16 -> a < 16 -> b < 16 ->
    tame PE (long 16) (long 16) (fun e v => x <~ get_i v a ;; y <~ get_i v b ;; set_i v k (op e x y))
      (fun e v => upd v k (op e (get d v a) (get d v b))).
  Proof.
    intros Hk Ha Hb. exists [Access a (S a) 16; Access b (S b) 16; Access k (S k) 16].
    split; [one_access|]. unfold long. intros e v _ L.
    rewrite (get_i_ok d) by lia. rewrite tbind_ok. cbn [fst snd]. rewrite (get_i_ok d) by lia. rewrite tbind_ok.
    rewrite set_i_ok by lia. rewrite L, upd_len. split; [reflexivity|exact L].
  Qed.
  Lemma tame_1 (op : A -> A) k a : k < 16 -> a < 16 ->
    tame PE (long 16) (long 16) (fun e v => x <~ get_i v a ;; set_i v k (op x)) (fun e v => upd v k (op (get d v a))).
  Proof.
    intros Hk Ha. exists [Access a (S a) 16; Access k (S k) 16].
    split; [one_access|]. unfold long. intros e v _ L.
    rewrite (get_i_ok d) by lia. rewrite tbind_ok. rewrite set_i_ok by lia. rewrite L, upd_len. split; [reflexivity|exact L].
  Qed.
End STATEMENTS.

(** ** SIGMA *)
Lemma sigma_rows r : r < 12 -> length (nth r SIGMA []) = 16 /\ Forall (fun k => k < 16) (nth r SIGMA []).
Proof.
  intros H. do 12 (destruct r as [|r]; [split; [reflexivity|repeat constructor]|]). lia.
Qed.
Lemma sigma_lt r k : r < 12 -> k < 16 -> sigma r k < 16.
Proof.
  intros Hr Hk. destruct (sigma_rows r Hr) as [L F]. unfold sigma. rewrite Forall_forall in F. apply F, nth_In. lia.
Qed.
Lemma sigma_i_ok r k : r < 12 -> k < 16 -> sigma_i r k = ([Access r (S r) 12; Access k (S k) 16], Ok (sigma r k)).
Proof.
  intros Hr Hk. unfold sigma_i. rewrite (get_i_ok []) by exact Hr. rewrite tbind_ok. unfold get.
  destruct (sigma_rows r Hr) as [L _]. rewrite (get_i_ok 0) by lia. rewrite L. reflexivity.
Qed.
(** [v[k] = op(v[a], m[SIGMA[r][i] as usize])] *)
Lemma tame_m {A} (d : A) (op : A -> A -> A) r k a i : r < 12 -> k < 16 -> a < 16 -> i < 16 ->
  tame (long 16) (long 16) (long 16) (fun m v => x <~ get_i v a ;; j <~ sigma_i r i ;; y <~ get_i m j ;; set_i v k (op x y))
    (fun m v => upd v k (op (get d v a) (get d m (sigma r i)))).
Proof.
  intros Hr Hk Ha Hi. pose proof (sigma_lt r i Hr Hi) as Hs.
  exists [Access a (S a) 16; Access r (S r) 12; Access i (S i) 16; Access (sigma r i) (S (sigma r i)) 16; Access k (S k) 16].
  split; [one_access|]. unfold long. intros m v Lm L.
  rewrite (get_i_ok d) by lia. rewrite tbind_ok, sigma_i_ok by assumption. rewrite tbind_ok. cbn [fst snd].
  rewrite (get_i_ok d) by lia. rewrite tbind_ok. rewrite set_i_ok by lia. rewrite L, Lm, upd_len. split; [reflexivity|exact L].
Qed.

(** ** The rounds of the vector routines. *)
Ltac sequence :=
  lazymatch goal with
  |- tame ?PE ?P ?R (fun e a => tbind (@?f e a) (fun b => @?f' e b)) (fun x y => let z := @?g x y in @?g' x z) =>
      refine (tame_seq PE P (long 16) R f g f' g' _ _)
  end.
Ltac statement4 :=
  first [ refine (tame_m Sse41.zero128 Sse41.add _ _ _ _ _ _ _ _); [assumption|lia|lia|lia]
        | refine (tame_2 (long 16) Sse41.zero128 (fun _ => Sse41.add) _ _ _ _ _ _); lia
        | refine (tame_2 (long 16) Sse41.zero128 (fun _ => Sse41.xor) _ _ _ _ _ _); lia
        | refine (tame_1 (long 16) Sse41.zero128 Sse41.rot16 _ _ _ _); lia
        | refine (tame_1 (long 16) Sse41.zero128 Sse41.rot12 _ _ _ _); lia
        | refine (tame_1 (long 16) Sse41.zero128 Sse41.rot8 _ _ _ _); lia
        | refine (tame_1 (long 16) Sse41.zero128 Sse41.rot7 _ _ _ _); lia ].
Lemma round_4_tame r : r < 12 -> tame (long 16) (long 16) (long 16) (fun m v => round_4_i v m r) (fun m v => Sse41.round_4 v m r).
Proof.
  intros Hr. cbv beta delta [round_4_i Sse41.round_4].
  repeat (sequence; [statement4|]). apply tame_ret.
Qed.
Ltac statement8 :=
  first [ refine (tame_m Avx2.zero256 Avx2.add _ _ _ _ _ _ _ _); [assumption|lia|lia|lia]
        | refine (tame_2 (long 16) Avx2.zero256 (fun _ => Avx2.add) _ _ _ _ _ _); lia
        | refine (tame_2 (long 16) Avx2.zero256 (fun _ => Avx2.xor) _ _ _ _ _ _); lia
        | refine (tame_1 (long 16) Avx2.zero256 Avx2.rot16 _ _ _ _); lia
        | refine (tame_1 (long 16) Avx2.zero256 Avx2.rot12 _ _ _ _); lia
        | refine (tame_1 (long 16) Avx2.zero256 Avx2.rot8 _ _ _ _); lia
        | refine (tame_1 (long 16) Avx2.zero256 Avx2.rot7 _ _ _ _); lia ].
Lemma round_8x_tame r : r < 12 -> tame (long 16) (long 16) (long 16) (fun m v => round_8x_i v m r) (fun m v => Avx2.blake2s_round_8x v m r).
Proof.
  intros Hr. cbv beta delta [round_8x_i Avx2.blake2s_round_8x].
  repeat (sequence; [statement8|]). apply tame_ret.
Qed.

(** ** The rounds of the portable routine. *)
Definition anything {E : Type} (e : E) : Prop := True.
Lemma g_tame a b c d : a < 16 -> b < 16 -> c < 16 -> d < 16 ->
  tame anything (long 16) (long 16) (fun (e : u32 * u32) v => g_i v a b c d (fst e) (snd e)) (fun e v => g v a b c d (fst e) (snd e)).
Proof.
  intros Ha Hb Hc Hd. cbv beta delta [g_i g].
  sequence; [refine (tame_2 anything (uzero 32) (fun e y z => wrapping_add (wrapping_add y z) (fst e)) _ _ _ _ _ _); assumption|].
  sequence; [refine (tame_2 anything (uzero 32) (fun _ y z => rotate_right (uxor y z) 16) _ _ _ _ _ _); assumption|].
  sequence; [refine (tame_2 anything (uzero 32) (fun _ y z => wrapping_add y z) _ _ _ _ _ _); assumption|].
  sequence; [refine (tame_2 anything (uzero 32) (fun _ y z => rotate_right (uxor y z) 12) _ _ _ _ _ _); assumption|].
  sequence; [refine (tame_2 anything (uzero 32) (fun e y z => wrapping_add (wrapping_add y z) (snd e)) _ _ _ _ _ _); assumption|].
  sequence; [refine (tame_2 anything (uzero 32) (fun _ y z => rotate_right (uxor y z) 8) _ _ _ _ _ _); assumption|].
  sequence; [refine (tame_2 anything (uzero 32) (fun _ y z => wrapping_add y z) _ _ _ _ _ _); assumption|].
  sequence; [refine (tame_2 anything (uzero 32) (fun _ y z => rotate_right (uxor y z) 7) _ _ _ _ _ _); assumption|].
  apply tame_ret.
Qed.
Lemma g_m_tame r a b c d i j : r < 12 -> a < 16 -> b < 16 -> c < 16 -> d < 16 -> i < 16 -> j < 16 ->
  tame (long 16) (long 16) (long 16) (fun m v => g_m_i (nth r SIGMA []) m v a b c d i j)
    (fun m v => g v a b c d (wget m (sigma r i)) (wget m (sigma r j))).
Proof.
  intros Hr Ha Hb Hc Hd Hi Hj. destruct (g_tame a b c d Ha Hb Hc Hd) as (ev & F & H).
  pose proof (sigma_lt r i Hr Hi) as Hs. pose proof (sigma_lt r j Hr Hj) as Ht. destruct (sigma_rows r Hr) as [Ls _].
  exists ([Access i (S i) 16; Access (sigma r i) (S (sigma r i)) 16; Access j (S j) 16; Access (sigma r j) (S (sigma r j)) 16] ++ ev).
  split; [apply Forall_app; split; [one_access|exact F]|]. intros m v Lm Lv. unfold g_m_i.
  rewrite (get_i_ok 0) by (rewrite Ls; exact Hi). rewrite tbind_ok. change (get 0 (nth r SIGMA []) i) with (sigma r i).
  rewrite (get_i_ok (uzero 32)) by (rewrite Lm; exact Hs). rewrite tbind_ok.
  rewrite (get_i_ok 0) by (rewrite Ls; exact Hj). rewrite tbind_ok. change (get 0 (nth r SIGMA []) j) with (sigma r j).
  rewrite (get_i_ok (uzero 32)) by (rewrite Lm; exact Ht). rewrite tbind_ok.
  destruct (H (wget m (sigma r i), wget m (sigma r j)) v I Lv) as [K Q]. cbn [fst snd] in K, Q.
  unfold wget in *. rewrite K, Ls, Lm. split; [reflexivity|exact Q].
Qed.
Lemma round_tame r : r < 12 -> tame (long 16) (long 16) (long 16) (fun m v => round_i r m v) (fun m v => round r m v).
Proof.
  intros Hr.
  assert (T : tame (long 16) (long 16) (long 16)
    (fun m v => v <~ g_m_i (nth r SIGMA []) m v 0 4 8 12 0 1 ;;
      v <~ g_m_i (nth r SIGMA []) m v 1 5 9 13 2 3 ;;
      v <~ g_m_i (nth r SIGMA []) m v 2 6 10 14 4 5 ;;
      v <~ g_m_i (nth r SIGMA []) m v 3 7 11 15 6 7 ;;
      v <~ g_m_i (nth r SIGMA []) m v 0 5 10 15 8 9 ;;
      v <~ g_m_i (nth r SIGMA []) m v 1 6 11 12 10 11 ;;
      v <~ g_m_i (nth r SIGMA []) m v 2 7 8 13 12 13 ;;
      v <~ g_m_i (nth r SIGMA []) m v 3 4 9 14 14 15 ;;
      ret v)
    (fun m v => let v := g v 0 4 8 12 (wget m (sigma r 0)) (wget m (sigma r 1)) in
      let v := g v 1 5 9 13 (wget m (sigma r 2)) (wget m (sigma r 3)) in
      let v := g v 2 6 10 14 (wget m (sigma r 4)) (wget m (sigma r 5)) in
      let v := g v 3 7 11 15 (wget m (sigma r 6)) (wget m (sigma r 7)) in
      let v := g v 0 5 10 15 (wget m (sigma r 8)) (wget m (sigma r 9)) in
      let v := g v 1 6 11 12 (wget m (sigma r 10)) (wget m (sigma r 11)) in
      let v := g v 2 7 8 13 (wget m (sigma r 12)) (wget m (sigma r 13)) in
      let v := g v 3 4 9 14 (wget m (sigma r 14)) (wget m (sigma r 15)) in
      v)).
  { repeat (sequence; [apply g_m_tame; first [assumption|lia]|]). apply tame_ret. }
  destruct T as (ev & F & H). exists (Access r (S r) 12 :: ev). split; [constructor; [cbn [in_range]; lia|exact F]|].
  intros m v Lm Lv. destruct (H m v Lm Lv) as [K Q]. clear H. unfold round. cbv zeta in K, Q |- *. split; [|exact Q].
  unfold round_i. rewrite (get_i_ok []) by exact Hr. rewrite tbind_ok. change (get [] SIGMA r) with (nth r SIGMA []).
  rewrite K. reflexivity.
Qed.

(** ** Reading the state, the constants and the message. *)
Lemma list8 {A} (xs : list A) : length xs = 8 -> exists x, xs = oct_list x.
Proof.
  intros L. do 8 (destruct xs as [|? xs]; [discriminate L|]). destruct xs; [|discriminate L].
  eexists (Oct _ _ _ _ _ _ _ _). reflexivity.
Qed.
Lemma list16 {A} (xs : list A) : length xs = 16 -> exists x0 x1 x2 x3 x4 x5 x6 x7 x8 x9 x10 x11 x12 x13 x14 x15,
  xs = [x0; x1; x2; x3; x4; x5; x6; x7; x8; x9; x10; x11; x12; x13; x14; x15].
Proof.
  intros L. do 16 (destruct xs as [|? xs]; [discriminate L|]). destruct xs; [|discriminate L].
  repeat eexists.
Qed.
Lemma read_u32_i_ok msg off : off + 4 <= length msg ->
  read_u32_i msg off = ([Access off (off + 4) (length msg); Access 0 1 4; Access 1 2 4; Access 2 3 4; Access 3 4 4], Ok (read_u32 msg off)).
Proof.
  intros H. unfold read_u32_i, array_ref_t, read_u32, note.
  rewrite StateFacts.array_ref_ok by exact H. change (firstn 4 (skipn off msg)) with (sub msg off 4).
  assert (L : length (sub msg off 4) = 4) by (unfold sub; rewrite firstn_length, skipn_length; lia).
  destruct (sub msg off 4) as [|b0 [|b1 [|b2 [|b3 [|]]]]]; try discriminate L. reflexivity.
Qed.

(** ** The whole routines. *)
Definition inputs {A} (e : list A * list A) : Prop := length (fst e) = 16 /\ length (snd e) = 8.
Ltac feeding ev :=
  exists ev; split; [one_access|intros [m h] v [_ Lh] Lv; cbn [fst snd] in Lh; destruct (list8 h Lh) as [[] ->];
    destruct (list16 v Lv) as (? & ? & ? & ? & ? & ? & ? & ? & ? & ? & ? & ? & ? & ? & ? & ? & ->); clear;
    split; [reflexivity|reflexivity]].
Definition feeds : list event := flat_map (fun i => [Access i (S i) 16; Access (8 + i) (9 + i) 16; Access i (S i) 8; Access i (S i) 8]) (seq 0 8).
Definition feeds' : list event := flat_map (fun i => [Access i (S i) 8; Access i (S i) 16; Access (8 + i) (9 + i) 16; Access i (S i) 8]) (seq 0 8).
Lemma compress_body :
  tame inputs (long 16) (long 8)
    (fun e v =>
       v <~ round_i 0 (fst e) v ;;
       v <~ round_i 1 (fst e) v ;;
       v <~ round_i 2 (fst e) v ;;
       v <~ round_i 3 (fst e) v ;;
       v <~ round_i 4 (fst e) v ;;
       v <~ round_i 5 (fst e) v ;;
       v <~ round_i 6 (fst e) v ;;
       v <~ round_i 7 (fst e) v ;;
       v <~ round_i 8 (fst e) v ;;
       v <~ round_i 9 (fst e) v ;;
       h <~ feed_i (snd e) v 0 ;; h <~ feed_i h v 1 ;; h <~ feed_i h v 2 ;; h <~ feed_i h v 3 ;; h <~ feed_i h v 4 ;; h <~ feed_i h v 5 ;; h <~ feed_i h v 6 ;; h <~ feed_i h v 7 ;; ret h)
    (fun e v =>
       let v := round 0 (fst e) v in
       let v := round 1 (fst e) v in
       let v := round 2 (fst e) v in
       let v := round 3 (fst e) v in
       let v := round 4 (fst e) v in
       let v := round 5 (fst e) v in
       let v := round 6 (fst e) v in
       let v := round 7 (fst e) v in
       let v := round 8 (fst e) v in
       let v := round 9 (fst e) v in
       [uxor (wget (snd e) 0) (uxor (wget v 0) (wget v 8)); uxor (wget (snd e) 1) (uxor (wget v 1) (wget v 9)); uxor (wget (snd e) 2) (uxor (wget v 2) (wget v 10)); uxor (wget (snd e) 3) (uxor (wget v 3) (wget v 11)); uxor (wget (snd e) 4) (uxor (wget v 4) (wget v 12)); uxor (wget (snd e) 5) (uxor (wget v 5) (wget v 13)); uxor (wget (snd e) 6) (uxor (wget v 6) (wget v 14)); uxor (wget (snd e) 7) (uxor (wget v 7) (wget v 15))]).
Proof.
  repeat (sequence; [refine (tame_env _ _ _ _ fst _ _ (round_tame _ _) _); [lia|intros e [H _]; exact H]|]). feeding feeds.
Qed.
Lemma compress4_body :
  tame inputs (long 16) (long 8)
    (fun e v =>
       v <~ round_4_i v (fst e) 0 ;;
       v <~ round_4_i v (fst e) 1 ;;
       v <~ round_4_i v (fst e) 2 ;;
       v <~ round_4_i v (fst e) 3 ;;
       v <~ round_4_i v (fst e) 4 ;;
       v <~ round_4_i v (fst e) 5 ;;
       v <~ round_4_i v (fst e) 6 ;;
       v <~ round_4_i v (fst e) 7 ;;
       v <~ round_4_i v (fst e) 8 ;;
       v <~ round_4_i v (fst e) 9 ;;
       h <~ feed4_i (snd e) v 0 ;; h <~ feed4_i h v 1 ;; h <~ feed4_i h v 2 ;; h <~ feed4_i h v 3 ;; h <~ feed4_i h v 4 ;; h <~ feed4_i h v 5 ;; h <~ feed4_i h v 6 ;; h <~ feed4_i h v 7 ;; ret h)
    (fun e v =>
       let v := Sse41.round_4 v (fst e) 0 in
       let v := Sse41.round_4 v (fst e) 1 in
       let v := Sse41.round_4 v (fst e) 2 in
       let v := Sse41.round_4 v (fst e) 3 in
       let v := Sse41.round_4 v (fst e) 4 in
       let v := Sse41.round_4 v (fst e) 5 in
       let v := Sse41.round_4 v (fst e) 6 in
       let v := Sse41.round_4 v (fst e) 7 in
       let v := Sse41.round_4 v (fst e) 8 in
       let v := Sse41.round_4 v (fst e) 9 in
       [Sse41.xor (Sse41.xor (Sse41.vget (snd e) 0) (Sse41.vget v 0)) (Sse41.vget v 8); Sse41.xor (Sse41.xor (Sse41.vget (snd e) 1) (Sse41.vget v 1)) (Sse41.vget v 9); Sse41.xor (Sse41.xor (Sse41.vget (snd e) 2) (Sse41.vget v 2)) (Sse41.vget v 10); Sse41.xor (Sse41.xor (Sse41.vget (snd e) 3) (Sse41.vget v 3)) (Sse41.vget v 11); Sse41.xor (Sse41.xor (Sse41.vget (snd e) 4) (Sse41.vget v 4)) (Sse41.vget v 12); Sse41.xor (Sse41.xor (Sse41.vget (snd e) 5) (Sse41.vget v 5)) (Sse41.vget v 13); Sse41.xor (Sse41.xor (Sse41.vget (snd e) 6) (Sse41.vget v 6)) (Sse41.vget v 14); Sse41.xor (Sse41.xor (Sse41.vget (snd e) 7) (Sse41.vget v 7)) (Sse41.vget v 15)]).
Proof.
  repeat (sequence; [refine (tame_env _ _ _ _ fst _ _ (round_4_tame _ _) _); [lia|intros e [H _]; exact H]|]). feeding feeds'.
Qed.
Lemma compress8_body :
  tame inputs (long 16) (long 8)
    (fun e v =>
       v <~ round_8x_i v (fst e) 0 ;;
       v <~ round_8x_i v (fst e) 1 ;;
       v <~ round_8x_i v (fst e) 2 ;;
       v <~ round_8x_i v (fst e) 3 ;;
       v <~ round_8x_i v (fst e) 4 ;;
       v <~ round_8x_i v (fst e) 5 ;;
       v <~ round_8x_i v (fst e) 6 ;;
       v <~ round_8x_i v (fst e) 7 ;;
       v <~ round_8x_i v (fst e) 8 ;;
       v <~ round_8x_i v (fst e) 9 ;;
       h <~ feed8_i (snd e) v 0 ;; h <~ feed8_i h v 1 ;; h <~ feed8_i h v 2 ;; h <~ feed8_i h v 3 ;; h <~ feed8_i h v 4 ;; h <~ feed8_i h v 5 ;; h <~ feed8_i h v 6 ;; h <~ feed8_i h v 7 ;; ret h)
    (fun e v =>
       let v := Avx2.blake2s_round_8x v (fst e) 0 in
       let v := Avx2.blake2s_round_8x v (fst e) 1 in
       let v := Avx2.blake2s_round_8x v (fst e) 2 in
       let v := Avx2.blake2s_round_8x v (fst e) 3 in
       let v := Avx2.blake2s_round_8x v (fst e) 4 in
       let v := Avx2.blake2s_round_8x v (fst e) 5 in
       let v := Avx2.blake2s_round_8x v (fst e) 6 in
       let v := Avx2.blake2s_round_8x v (fst e) 7 in
       let v := Avx2.blake2s_round_8x v (fst e) 8 in
       let v := Avx2.blake2s_round_8x v (fst e) 9 in
       [Avx2.xor (Avx2.vget (snd e) 0) (Avx2.xor (Avx2.vget v 0) (Avx2.vget v 8)); Avx2.xor (Avx2.vget (snd e) 1) (Avx2.xor (Avx2.vget v 1) (Avx2.vget v 9)); Avx2.xor (Avx2.vget (snd e) 2) (Avx2.xor (Avx2.vget v 2) (Avx2.vget v 10)); Avx2.xor (Avx2.vget (snd e) 3) (Avx2.xor (Avx2.vget v 3) (Avx2.vget v 11)); Avx2.xor (Avx2.vget (snd e) 4) (Avx2.xor (Avx2.vget v 4) (Avx2.vget v 12)); Avx2.xor (Avx2.vget (snd e) 5) (Avx2.xor (Avx2.vget v 5) (Avx2.vget v 13)); Avx2.xor (Avx2.vget (snd e) 6) (Avx2.xor (Avx2.vget v 6) (Avx2.vget v 14)); Avx2.xor (Avx2.vget (snd e) 7) (Avx2.xor (Avx2.vget v 7) (Avx2.vget v 15))]).
Proof.
  repeat (sequence; [refine (tame_env _ _ _ _ fst _ _ (round_8x_tame _ _) _); [lia|intros e [H _]; exact H]|]). feeding feeds'.
Qed.

Lemma step {A B} (t : traced A) l a (f : A -> traced B) l' r : t = (l, Ok a) -> f a = (l', r) -> tbind t f = (l ++ l', r).
Proof. intros -> K. rewrite tbind_ok, K. reflexivity. Qed.
Lemma step1 {A B} (t : traced A) x a (f : A -> traced B) l' r : t = ([x], Ok a) -> f a = (l', r) -> tbind t f = (x :: l', r).
Proof. exact (step t [x] a f l' r). Qed.
Lemma step5 {A B} x0 x1 x2 x3 x4 (a : A) (f : A -> traced B) l' r :
  f a = (l', r) -> tbind ([x0; x1; x2; x3; x4], Ok a) f = (x0 :: x1 :: x2 :: x3 :: x4 :: l', r).
Proof. exact (step _ [x0; x1; x2; x3; x4] a f l' r eq_refl). Qed.
Lemma get_o0 {A} (x : oct A) : get_i (oct_list x) 0 = ([Access 0 1 8], Ok (o0 x)). Proof. destruct x. reflexivity. Qed.
Lemma get_o1 {A} (x : oct A) : get_i (oct_list x) 1 = ([Access 1 2 8], Ok (o1 x)). Proof. destruct x. reflexivity. Qed.
Lemma get_o2 {A} (x : oct A) : get_i (oct_list x) 2 = ([Access 2 3 8], Ok (o2 x)). Proof. destruct x. reflexivity. Qed.
Lemma get_o3 {A} (x : oct A) : get_i (oct_list x) 3 = ([Access 3 4 8], Ok (o3 x)). Proof. destruct x. reflexivity. Qed.
Lemma get_o4 {A} (x : oct A) : get_i (oct_list x) 4 = ([Access 4 5 8], Ok (o4 x)). Proof. destruct x. reflexivity. Qed.
Lemma get_o5 {A} (x : oct A) : get_i (oct_list x) 5 = ([Access 5 6 8], Ok (o5 x)). Proof. destruct x. reflexivity. Qed.
Lemma get_o6 {A} (x : oct A) : get_i (oct_list x) 6 = ([Access 6 7 8], Ok (o6 x)). Proof. destruct x. reflexivity. Qed.
Lemma get_o7 {A} (x : oct A) : get_i (oct_list x) 7 = ([Access 7 8 8], Ok (o7 x)). Proof. destruct x. reflexivity. Qed.
Ltac reading := first [apply get_o0|apply get_o1|apply get_o2|apply get_o3|apply get_o4|apply get_o5|apply get_o6|apply get_o7].
Definition state_reads : list event := [Access 0 1 8; Access 1 2 8; Access 2 3 8; Access 3 4 8; Access 4 5 8; Access 5 6 8; Access 6 7 8; Access 7 8 8].
Theorem compress8_inside : exists ev, Forall in_range ev /\
  forall h msg_vecs count_low count_high lastblock lastnode, length msg_vecs = 16 ->
    compress8_i (oct_list h) msg_vecs count_low count_high lastblock lastnode
    = (ev, Ok (oct_list (Avx2.compress8_transposed h msg_vecs count_low count_high lastblock lastnode))).
Proof.
  destruct compress8_body as (ev & F & H). exists (state_reads ++ state_reads ++ ev).
  split; [rewrite !Forall_app; repeat split; [one_access..|exact F]|].
  intros h msg_vecs count_low count_high lastblock lastnode L. unfold compress8_i. cbv zeta.
  cbn [state_reads app]. do 16 (eapply step1; [reading|]).
  assert (Lh : length (oct_list h) = 8) by (destruct h; reflexivity).
  assert (Lm : length (msg_vecs) = 16) by exact L.
  destruct (H (msg_vecs, oct_list h) [o0 h; o1 h; o2 h; o3 h; o4 h; o5 h; o6 h; o7 h;
    Avx2.load_256_from_u32 (o0 IV); Avx2.load_256_from_u32 (o1 IV); Avx2.load_256_from_u32 (o2 IV); Avx2.load_256_from_u32 (o3 IV);
    Avx2.xor (Avx2.load_256_from_u32 (o4 IV)) count_low; Avx2.xor (Avx2.load_256_from_u32 (o5 IV)) count_high; Avx2.xor (Avx2.load_256_from_u32 (o6 IV)) lastblock; Avx2.xor (Avx2.load_256_from_u32 (o7 IV)) lastnode] (conj Lm Lh) eq_refl) as [K _]. clear H F L Lh Lm.
  cbv beta delta [fst snd] in K. cbn iota in K. etransitivity; [exact K|]. clear K.
  cbv beta delta [Avx2.compress8_transposed]. cbv zeta.
  match goal with |- context [Avx2.blake2s_round_8x ?a ?b 9] => generalize (Avx2.blake2s_round_8x a b 9) end. intros w. destruct h. reflexivity.
Qed.
Lemma transpose_length m0 m1 m2 m3 : length (Sse41.transpose_message_blocks m0 m1 m2 m3) = 16.
Proof.
  unfold Sse41.transpose_message_blocks.
  destruct (Sse41.loadu_4 m0), (Sse41.loadu_4 m1), (Sse41.loadu_4 m2), (Sse41.loadu_4 m3). reflexivity.
Qed.
Theorem compress4_inside : exists ev, Forall in_range ev /\
  forall h msg0 msg1 msg2 msg3 count_low count_high lastblock lastnode,
    compress4_i (oct_list h) (Sse41.transpose_message_blocks msg0 msg1 msg2 msg3) count_low count_high lastblock lastnode
    = (ev, Ok (oct_list (Sse41.compress4_transposed h msg0 msg1 msg2 msg3 count_low count_high lastblock lastnode))).
Proof.
  destruct compress4_body as (ev & F & H). exists (state_reads ++ state_reads ++ ev).
  split; [rewrite !Forall_app; repeat split; [one_access..|exact F]|].
  intros h msg0 msg1 msg2 msg3 count_low count_high lastblock lastnode. unfold compress4_i. cbv zeta.
  cbn [state_reads app]. do 16 (eapply step1; [reading|]).
  assert (Lh : length (oct_list h) = 8) by (destruct h; reflexivity).
  assert (Lm : length (Sse41.transpose_message_blocks msg0 msg1 msg2 msg3) = 16) by apply transpose_length.
  destruct (H (Sse41.transpose_message_blocks msg0 msg1 msg2 msg3, oct_list h) [o0 h; o1 h; o2 h; o3 h; o4 h; o5 h; o6 h; o7 h;
    Sse41.set1 (o0 IV); Sse41.set1 (o1 IV); Sse41.set1 (o2 IV); Sse41.set1 (o3 IV);
    Sse41.xor (Sse41.set1 (o4 IV)) count_low; Sse41.xor (Sse41.set1 (o5 IV)) count_high; Sse41.xor (Sse41.set1 (o6 IV)) lastblock; Sse41.xor (Sse41.set1 (o7 IV)) lastnode] (conj Lm Lh) eq_refl) as [K _]. clear H F Lh Lm.
  cbv beta delta [fst snd] in K. cbn iota in K. etransitivity; [exact K|]. clear K.
  cbv beta delta [Sse41.compress4_transposed]. cbv zeta.
  match goal with |- context [Sse41.round_4 ?a ?b 9] => generalize (Sse41.round_4 a b 9) end. intros w. destruct h. reflexivity.
Qed.
Definition message_reads : list event := flat_map (fun k => [Access (4 * k) (4 * k + 4) 64; Access 0 1 4; Access 1 2 4; Access 2 3 4; Access 3 4 4]) (seq 0 16).
Theorem compress_inside : exists ev, Forall in_range ev /\
  forall h msg count lastblock lastnode, length msg = 64 ->
    compress_i (oct_list h) msg count lastblock lastnode
    = (ev, Ok (oct_list (compress h msg count lastblock lastnode))).
Proof.
  destruct compress_body as (ev & F & H). exists (state_reads ++ state_reads ++ message_reads ++ ev).
  split; [rewrite !Forall_app; repeat split; [one_access..|exact F]|].
  intros h msg count lastblock lastnode L. unfold compress_i. cbv zeta.
  cbn [state_reads app]. do 16 (eapply step1; [reading|]).
  rewrite !read_u32_i_ok by (rewrite L; lia). rewrite L. cbn [message_reads flat_map seq Nat.mul Nat.add app].
  do 16 (apply step5).
  assert (Lh : length (oct_list h) = 8) by (destruct h; reflexivity).
  assert (Lm : length ([read_u32 msg 0; read_u32 msg 4; read_u32 msg 8; read_u32 msg 12; read_u32 msg 16; read_u32 msg 20; read_u32 msg 24; read_u32 msg 28; read_u32 msg 32; read_u32 msg 36; read_u32 msg 40; read_u32 msg 44; read_u32 msg 48; read_u32 msg 52; read_u32 msg 56; read_u32 msg 60]) = 16) by reflexivity.
  destruct (H ([read_u32 msg 0; read_u32 msg 4; read_u32 msg 8; read_u32 msg 12; read_u32 msg 16; read_u32 msg 20; read_u32 msg 24; read_u32 msg 28; read_u32 msg 32; read_u32 msg 36; read_u32 msg 40; read_u32 msg 44; read_u32 msg 48; read_u32 msg 52; read_u32 msg 56; read_u32 msg 60], oct_list h) [o0 h; o1 h; o2 h; o3 h; o4 h; o5 h; o6 h; o7 h; o0 IV; o1 IV; o2 IV; o3 IV;
    uxor (o4 IV) (cast 32 count); uxor (o5 IV) (cast 32 (ushr count 32)); uxor (o6 IV) lastblock; uxor (o7 IV) lastnode] (conj Lm Lh) eq_refl) as [K _]. clear H F L Lh Lm.
  cbv beta delta [fst snd] in K. cbn iota in K. etransitivity; [exact K|]. clear K.
  cbv beta delta [compress]. cbv zeta.
  match goal with |- context [round 9 ?a ?b] => generalize (round 9 a b) end. intros w. destruct h. reflexivity.
Qed.
