(** * MemoryUse: the routines on memory, against the specification. *)
From Verif Require Import Base BaseFacts Consts Intrinsics Portable PortableFacts Params ParamsSpec State Many Views Clients Memory
  Avx2Facts ExactFacts MemoryFacts Corollaries Witness.
From Verif Require Sse41 Avx2 Spec.
From Coq Require Import Lia.
Local Open Scope nat_scope.

Theorem vectorize_words8_memory_F r m p w : reference m p Words8_ty true -> contents m p 256 = states_bytes w ->
  exists w', vectorize_words8 r p m = Ok (tt, stored m p (states_bytes w')) /\
  w' = Avx2.vectorize_words8 w /\ forall l k, proj k (proj l w') = proj l (proj k w).
Proof.
  intros H E. eexists. split; [exact (vectorize_words8_memory r m p w H E)|]. split; [reflexivity|].
  intros l k. unfold Avx2.vectorize_words8. apply transpose_spec.
Qed.
Theorem compress8_vectorized_memory_F r m p msg cl ch lb ln w b wl wh wb wn : reference m p Words8_ty true ->
  (forall l, reference m (proj l msg) Block_ty false) ->
  reference m cl AlignedWords8_ty false -> reference m ch AlignedWords8_ty false ->
  reference m lb AlignedWords8_ty false -> reference m ln AlignedWords8_ty false ->
  contents m p 256 = states_bytes w -> (forall l, contents m (proj l msg) 64 = proj l b) ->
  contents m cl 32 = words_bytes wl -> contents m ch 32 = words_bytes wh ->
  contents m lb 32 = words_bytes wb -> contents m ln 32 = words_bytes wn ->
  exists w', compress8_vectorized r p msg cl ch lb ln m = Ok (tt, stored m p (states_bytes w')) /\
  w' = Avx2.compress8_vectorized w b wl wh wb wn /\
  forall l, nums (lane_state w' l) =
    Spec.F (nums (lane_state w l)) (proj l b) (val (proj l wl) + 2 ^ 32 * val (proj l wh)) (val (proj l wb)) (val (proj l wn)).
Proof.
  intros Hp Hm Hl Hh Hb Hn Ep Em El Eh Eb En. eexists.
  split; [apply compress8_vectorized_memory_stated; eassumption|]. split; [reflexivity|].
  assert (B : forall l, length (proj l b) = 64).
  { intros l. rewrite <- Em. exact (contents_length Allocation m _ 64 (reference_within Allocation _ _ _ _ (Hm l))). }
  intros l. etransitivity; [apply f_equal, Avx2Facts.compress8_vectorized_lane; exact B|].
  rewrite compress_ok by apply B. rewrite join_count_val. reflexivity.
Qed.

Theorem hash8_exact_digests r m l p input x : build l = Ok p -> Spec.key (spec_params l) = [] ->
  whole_blocks (map (@length byte) (oct_list x)) -> (forall k, (N.of_nat (length (proj k x)) < 2 ^ 64)%N) ->
  (forall k, reference m (proj k input) (Array U8 (length (proj k x))) false) ->
  (forall k, upto (proj k input) = offset (proj k input) + length (proj k x)) ->
  (forall k, contents m (proj k input) (length (proj k x)) = proj k x) ->
  exists hs, hash8_exact r p input (length (o0 x)) m = Ok (hs, m) /\
  forall k, as_bytes (proj k hs) = Ok (Spec.blake2s (spec_params l) (spec_last_node l) (proj k x)).
Proof.
  intros B K W S R U E.
  destruct (hash8_exact_separately release_avx2 l p x ltac:(repeat split) B K W S) as (hs & H & D).
  exists hs. split; [|intros k; apply D].
  assert (Hv : Avx2.hash8_exact p x = Ok hs).
  { revert H. unfold Many.hash8_exact. cbv zeta. destruct (_ && _); [|discriminate]. intros H. exact H. }
  rewrite (hash8_exact_memory_stated r m p input x R U E (or_intror (ex_intro _ hs Hv))), Hv. reflexivity.
Qed.
Theorem hash4_exact_digests m places l p i0 i1 i2 i3 x0 x1 x2 x3 : build l = Ok p -> Spec.key (spec_params l) = [] ->
  whole_blocks [length x0; length x1; length x2; length x3] -> (N.of_nat (length x0) < 2 ^ 64)%N ->
  reference m i0 (Array U8 (length x0)) false -> reference m i1 (Array U8 (length x1)) false ->
  reference m i2 (Array U8 (length x2)) false -> reference m i3 (Array U8 (length x3)) false ->
  contents m i0 (length x0) = x0 -> contents m i1 (length x1) = x1 -> contents m i2 (length x2) = x2 -> contents m i3 (length x3) = x3 ->
  exists hs, hash4_exact Allocation places p i0 i1 i2 i3 (length x0) m = Ok (hs, m) /\
  forall k, as_bytes (qproj k hs) = Ok (Spec.blake2s (spec_params l) (spec_last_node l) (qproj k (Quad x0 x1 x2 x3))).
Proof.
  intros B K W S R0 R1 R2 R3 E0 E1 E2 E3.
  assert (S' : forall k, (N.of_nat (length (qproj k (Quad x0 x1 x2 x3))) < 2 ^ 64)%N).
  { destruct W as (n & _ & W). cbn [In] in W.
    assert (L : forall x, In x [length x0; length x1; length x2; length x3] -> x = length x0).
    { intros x Hx. transitivity (64 * n); [|symmetry]; apply W; cbn [In] in *; tauto. }
    assert (L1 := L (length x1) ltac:(cbn [In]; tauto)). assert (L2 := L (length x2) ltac:(cbn [In]; tauto)).
    assert (L3 := L (length x3) ltac:(cbn [In]; tauto)).
    intros []; cbn [qproj]; [exact S|rewrite <- L1 in S|rewrite <- L2 in S|rewrite <- L3 in S]; exact S. }
  destruct (hash4_exact_separately release_avx2 l p (Quad x0 x1 x2 x3) ltac:(repeat split) B K W S') as (hs & H & D).
  exists hs. split; [|intros k; apply D].
  assert (Hv : Sse41.hash4_exact p x0 x1 x2 x3 = Ok hs).
  { revert H. unfold Many.hash4_exact. cbv zeta. destruct (_ && _); [|discriminate]. intros H. exact H. }
  exact (hash4_exact_memory_allocation m places p i0 i1 i2 i3 x0 x1 x2 x3 hs R0 R1 R2 R3 E0 E1 E2 E3 Hv).
Qed.
