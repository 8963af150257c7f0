(** * PortableFacts: portable.rs compression equals the RFC 7693 function F. *)
From Verif Require Export Views.
From Verif Require Import Base BaseFacts Consts Portable.
From Verif Require Spec.
From Coq Require Import ZArith Lia ZifyBool ZifyNat ZifyN.
Local Open Scope N_scope.

Lemma set_upd (v : list N) i x : Spec.set v i x = upd v i x.
Proof. revert i; induction v as [|y t IH]; intros [|i]; cbn; congruence. Qed.

Lemma at_wget (v : list u32) i : Spec.at_ (map val v) i = val (wget v i).
Proof. unfold Spec.at_, wget. exact (map_nth val v (uzero 32) i). Qed.

Lemma rotr32_ok (a : u32) n : n <= 32 -> Spec.rotr32 (val a) n = val (rotate_right a n).
Proof.
  intros Hn. unfold Spec.rotr32.
  rewrite Spec.low32_mod, N.shiftr_div_pow2, N.shiftl_mul_pow2, val_rotate_right by exact Hn.
  rewrite shl_mod by exact Hn. apply lxor_disjoint, div_pow2_lt; [exact Hn|apply val_lt].
Qed.

Lemma add32_ok (a b : u32) : Spec.add32 (val a) (val b) = val (wrapping_add a b).
Proof. unfold Spec.add32. rewrite Spec.low32_mod. symmetry. apply val_wrapping_add. Qed.

Lemma set_ok (v : list u32) i x : Spec.set (map val v) i (val x) = map val (upd v i x).
Proof. rewrite set_upd, map_upd. reflexivity. Qed.

(** One [let] at a time, so that terms stay small. *)
Ltac step tac :=
  match goal with
  | |- map val (let v := ?e in @?k v) = (let w := ?e' in @?k' w) =>
      let H := fresh in
      assert (H : e' = map val e) by tac;
      change (map val (k e) = k' e'); rewrite H; clear H; generalize e; cbv beta;
      let v := fresh "v" in intro v
  end.

Lemma g_ok v a b c d x y :
  map val (g v a b c d x y) = Spec.G (map val v) a b c d (val x) (val y).
Proof.
  cbv beta delta [g Spec.G].
  step ltac:(rewrite !at_wget, !add32_ok, set_ok; reflexivity).
  step ltac:(rewrite !at_wget, <- !val_uxor, rotr32_ok, set_ok by discriminate; reflexivity).
  step ltac:(rewrite !at_wget, !add32_ok, set_ok; reflexivity).
  step ltac:(rewrite !at_wget, <- !val_uxor, rotr32_ok, set_ok by discriminate; reflexivity).
  step ltac:(rewrite !at_wget, !add32_ok, set_ok; reflexivity).
  step ltac:(rewrite !at_wget, <- !val_uxor, rotr32_ok, set_ok by discriminate; reflexivity).
  step ltac:(rewrite !at_wget, !add32_ok, set_ok; reflexivity).
  step ltac:(rewrite !at_wget, <- !val_uxor, rotr32_ok, set_ok by discriminate; reflexivity).
  reflexivity.
Qed.

Lemma sigma_ok r k : (r < 10)%nat -> nth k (nth r Spec.SIGMA []) O = sigma r k.
Proof. intros H. do 10 (destruct r as [|r]; [reflexivity|]). lia. Qed.

Opaque g Spec.G wget Spec.at_ nth.
Lemma round_ok r m v : (r < 10)%nat ->
  map val (round r m v) = Spec.ROUND (map val m) (map val v) (nth r Spec.SIGMA []).
Proof.
  intros Hr. unfold round, Spec.ROUND. cbv zeta beta delta [sigma].
  pose proof (fun k => sigma_ok r k Hr) as Hs. unfold sigma in Hs.
  rewrite !Hs, !at_wget, <- !g_ok. reflexivity.
Qed.

Transparent g Spec.G wget Spec.at_ nth.

Lemma read_u32_ok bs off : (off + 4 <= length bs)%nat ->
  val (read_u32 bs off) = Spec.le_num (firstn 4 (skipn off bs)).
Proof.
  intros H. unfold read_u32, sub.
  assert (Hl : length (firstn 4 (skipn off bs)) = 4%nat).
  { rewrite firstn_length, skipn_length. lia. }
  destruct (firstn 4 (skipn off bs)) as [|b0 [|b1 [|b2 [|b3 [|b4 t]]]]]; try discriminate Hl.
  rewrite val_u32_of_bytes. cbn [Spec.le_num]. lia.
Qed.

Lemma at_IV i : Spec.at_ Spec.IV i = nth i (nums IV) 0.
Proof. reflexivity. Qed.

Definition sched (msg : Block) : list u32 :=
  [read_u32 msg 0; read_u32 msg 4; read_u32 msg 8; read_u32 msg 12;
   read_u32 msg 16; read_u32 msg 20; read_u32 msg 24; read_u32 msg 28;
   read_u32 msg 32; read_u32 msg 36; read_u32 msg 40; read_u32 msg 44;
   read_u32 msg 48; read_u32 msg 52; read_u32 msg 56; read_u32 msg 60].

Lemma sched_ok msg : length msg = 64%nat -> map val (sched msg) = map (Spec.word msg) (seq 0 16).
Proof.
  intros H. unfold sched. cbn [map seq]. unfold Spec.word.
  rewrite !read_u32_ok by lia. reflexivity.
Qed.

(** The working vector [compress] starts from. *)
Definition init_v (h : StateWords) (lo hi lastblock lastnode : u32) : list u32 :=
  [o0 h; o1 h; o2 h; o3 h; o4 h; o5 h; o6 h; o7 h;
   o0 IV; o1 IV; o2 IV; o3 IV;
   uxor (o4 IV) lo; uxor (o5 IV) hi; uxor (o6 IV) lastblock; uxor (o7 IV) lastnode].

Definition rounds (m v : list u32) : list u32 :=
  round 9 m (round 8 m (round 7 m (round 6 m (round 5 m
    (round 4 m (round 3 m (round 2 m (round 1 m (round 0 m v))))))))).

Definition feed_forward (h : StateWords) (v : list u32) : StateWords :=
  Oct (uxor (o0 h) (uxor (wget v 0) (wget v 8)))
      (uxor (o1 h) (uxor (wget v 1) (wget v 9)))
      (uxor (o2 h) (uxor (wget v 2) (wget v 10)))
      (uxor (o3 h) (uxor (wget v 3) (wget v 11)))
      (uxor (o4 h) (uxor (wget v 4) (wget v 12)))
      (uxor (o5 h) (uxor (wget v 5) (wget v 13)))
      (uxor (o6 h) (uxor (wget v 6) (wget v 14)))
      (uxor (o7 h) (uxor (wget v 7) (wget v 15))).

(** [compress] with the counter already split in two words. *)
Definition compress_words (h : StateWords) (msg : Block) (lo hi lastblock lastnode : u32) : StateWords :=
  feed_forward h (rounds (sched msg) (init_v h lo hi lastblock lastnode)).

Lemma compress_eq h msg count lastblock lastnode :
  compress h msg count lastblock lastnode =
  compress_words h msg (cast 32 count) (cast 32 (ushr count 32)) lastblock lastnode.
Proof.
  cbv beta zeta delta [compress compress_words feed_forward rounds init_v sched]. reflexivity.
Qed.

Opaque round Spec.ROUND.
Lemma rounds_ok m v : map val (rounds m v) = fold_left (Spec.ROUND (map val m)) Spec.SIGMA (map val v).
Proof.
  unfold rounds. rewrite !round_ok by lia.
  change Spec.SIGMA with (map (fun r => nth r Spec.SIGMA []) (seq 0 10)) at 11.
  cbn [seq map fold_left]. reflexivity.
Qed.
Transparent round Spec.ROUND.

Lemma feed_forward_ok h v : nums (feed_forward h v) =
  map (fun i => N.lxor (N.lxor (Spec.at_ (nums h) i) (Spec.at_ (map val v) i))
                       (Spec.at_ (map val v) (i + 8)%nat)) (seq 0 8).
Proof.
  unfold nums, feed_forward. cbn [seq map oct_list Nat.add].
  rewrite !val_uxor, !at_wget, <- !N.lxor_assoc. destruct h. reflexivity.
Qed.

Theorem compress_ok h msg count lastblock lastnode : length msg = 64%nat ->
  nums (compress h msg count lastblock lastnode) =
  Spec.F (nums h) msg (val count) (val lastblock) (val lastnode).
Proof.
  intros Hm. rewrite compress_eq. unfold compress_words, Spec.F.
  rewrite feed_forward_ok, rounds_ok, (sched_ok msg Hm).
  assert (E : map val (init_v h (cast 32 count) (cast 32 (ushr count 32)) lastblock lastnode) =
    nums h ++
     [Spec.at_ Spec.IV 0; Spec.at_ Spec.IV 1; Spec.at_ Spec.IV 2; Spec.at_ Spec.IV 3;
      N.lxor (Spec.at_ Spec.IV 4) (val count mod 2 ^ 32);
      N.lxor (Spec.at_ Spec.IV 5) ((val count / 2 ^ 32) mod 2 ^ 32);
      N.lxor (Spec.at_ Spec.IV 6) (val lastblock);
      N.lxor (Spec.at_ Spec.IV 7) (val lastnode)]).
  { unfold init_v, nums. cbn [map]. rewrite !val_uxor.
    unfold cast, ushr. rewrite !val_of_N, N.shiftr_div_pow2.
    rewrite (N.mod_small (val count / 2 ^ 32) (2 ^ 64)).
    - destruct h; reflexivity.
    - eapply N.le_lt_trans; [|apply (val_lt count)]. apply N.div_le_upper_bound; [discriminate|].
      pose proof (N.pow_nonzero 2 32 ltac:(discriminate)). nia. }
  rewrite E. reflexivity.
Qed.

(** The counter words of [compress8_vectorized]. *)
Lemma join_count_lo lo hi : cast 32 (join_count lo hi) = lo.
Proof.
  apply val_inj. unfold join_count, cast, wrapping_add, ushl.
  rewrite !val_of_N, N.shiftl_mul_pow2.
  pose proof (val_lt lo); pose proof (val_lt hi).
  rewrite (N.mod_small (val hi) (2 ^ 64)) by lia.
  rewrite (N.mod_small (val lo) (2 ^ 64)) by lia.
  rewrite (N.mod_small (val hi * 2 ^ 32) (2 ^ 64)) by lia.
  rewrite (N.mod_small _ (2 ^ 64)) by lia.
  rewrite N.mod_add by discriminate. apply N.mod_small. exact H.
Qed.

Lemma join_count_hi lo hi : cast 32 (ushr (join_count lo hi) 32) = hi.
Proof.
  apply val_inj. unfold join_count, cast, wrapping_add, ushl, ushr.
  rewrite !val_of_N, N.shiftl_mul_pow2, N.shiftr_div_pow2.
  pose proof (val_lt lo); pose proof (val_lt hi).
  rewrite (N.mod_small (val hi) (2 ^ 64)) by lia.
  rewrite (N.mod_small (val lo) (2 ^ 64)) by lia.
  rewrite (N.mod_small (val hi * 2 ^ 32) (2 ^ 64)) by lia.
  rewrite (N.mod_small (val lo + _) (2 ^ 64)) by lia.
  rewrite N.div_add by discriminate. rewrite (N.div_small (val lo)) by exact H.
  rewrite N.add_0_l, (N.mod_small (val hi) (2 ^ 64)) by lia.
  apply N.mod_small. exact H0.
Qed.

Lemma join_count_split (n : u64) : join_count (cast 32 n) (cast 32 (ushr n 32)) = n.
Proof.
  apply val_inj. unfold join_count, cast, wrapping_add, ushl, ushr.
  rewrite !val_of_N, N.shiftl_mul_pow2, N.shiftr_div_pow2.
  pose proof (val_lt n) as H.
  assert (Hd : val n / 2 ^ 32 < 2 ^ 32) by (apply N.div_lt_upper_bound; [discriminate|exact H]).
  pose proof (N.mod_lt (val n) (2 ^ 32) ltac:(discriminate)) as Hm.
  rewrite (N.mod_small (val n / 2 ^ 32) (2 ^ 64)) by lia.
  rewrite (N.mod_small (val n / 2 ^ 32) (2 ^ 32)) by exact Hd.
  rewrite (N.mod_small (val n / 2 ^ 32) (2 ^ 64)) by lia.
  rewrite (N.mod_small (val n / 2 ^ 32 * 2 ^ 32) (2 ^ 64)) by lia.
  rewrite (N.mod_small (val n mod 2 ^ 32) (2 ^ 64)) by lia.
  rewrite (N.mul_comm (val n / 2 ^ 32)), N.add_comm, <- N.div_mod by discriminate.
  apply N.mod_small. exact H.
Qed.
