(** * What the vector code needs of the CPU (for C30).

    The converse of the safety theorems: what happens when the features are missing. *)
From Coq Require Import Lia.
From Verif Require Import Base BaseFacts Consts Params State StateFacts Many Benches.
From Verif Require Portable Sse41 Avx2.
Local Open Scope N_scope.

Lemma missing_sse41 c : has_sse41 c = false ->
  (forall h m t f g, call_compress c compress_sse41 h m t f g = UB) /\
  (forall p input, call_hash4_exact c hash4_exact_sse41 p input = UB) /\
  (forall h m low high last node, call_compress4_transposed c h m low high last node = UB) /\
  (forall st, st_compress_fn st = compress_sse41 -> finalize c st = UB).
Proof.
  intros H. repeat split; intros; unfold call_compress, call_hash4_exact, call_compress4_transposed, finalize;
    try rewrite H; try reflexivity.
  cbn [st_compress_fn]. unfold call_compress. rewrite H0, H. reflexivity.
Qed.

Lemma missing_avx2 c : has_avx2 c = false ->
  (forall h m t f g, call_compress8 c compress8_avx2 h m t f g = UB) /\
  (forall p input, call_hash8_exact c hash8_exact_avx2 p input = UB) /\
  (forall w, call_vectorize8 c vectorize_words8_avx2 w = UB) /\
  (forall w m low high last node, call_compress8_vectorized c compress8_vectorized_avx2 w m low high last node = UB) /\
  (forall h m low high last node, call_compress8_transposed_all c h m low high last node = UB).
Proof.
  intros H. repeat split; intros; unfold call_compress8, call_hash8_exact, call_vectorize8,
    call_compress8_vectorized, call_compress8_transposed_all; rewrite H; reflexivity.
Qed.

(** [default_compress_impl] asks for AVX2 only, and answers with SSE4.1 code too. *)
Lemma avx2_alone c data : arch_x86 c = true -> feature_std c = true -> cpu_avx2 c = true -> cpu_sse41 c = false ->
  blake2s c data = UB.
Proof.
  intros Ha Hs Hv Hn.
  assert (Hno : has_sse41 c = false) by (unfold has_sse41; rewrite Ha, Hn; reflexivity).
  destruct (missing_sse41 c Hno) as (Hcall & _ & _ & Hfin).
  unfold blake2s, State_new, with_params.
  change (0 <? val (p_key_length Params_default)) with false. cbn beta iota.
  assert (Hd : fn_compress (default_compress_impl c) = compress_sse41)
    by (unfold default_compress_impl; rewrite Ha, Hs, Hv; reflexivity).
  rewrite Hd. cbn [bind].
  set (st := {| st_h := _ |}).
  unfold update, compress_buffer_if_possible. change (0 <? val (st_buflen st)) with false. cbn [bind].
  cbn [update_loop].
  destruct (Nat.ltb BLOCKBYTES (length data)) eqn:El.
  - apply PeanoNat.Nat.ltb_lt in El.
    assert (Hu : uadd c (st_count st) (of_N 64 (N.of_nat BLOCKBYTES)) = Ok (of_N 64 64)).
    { unfold uadd. change (_ <? 2 ^ 64) with true. cbn iota. reflexivity. }
    rewrite Hu. cbn [bind].
    rewrite array_ref_ok by lia. cbn [bind]. change (st_compress_fn st) with compress_sse41.
    rewrite Hcall. reflexivity.
  - apply PeanoNat.Nat.ltb_ge in El. cbn [bind].
    assert (Hf : exists st' rest, fill_buf c st data = Ok (st', rest) /\ st_compress_fn st' = compress_sse41).
    { assert (Hb : st_buf st = repeat Byte.x00 BLOCKBYTES) by reflexivity.
      unfold fill_buf. change (buflen_nat st) with 0%nat. rewrite nsub_ok by lia. cbn [bind].
      rewrite PeanoNat.Nat.sub_0_r, PeanoNat.Nat.min_r, PeanoNat.Nat.add_0_l by lia.
      unfold slice_to. rewrite (proj2 (PeanoNat.Nat.leb_le _ _)) by lia. cbn [bind].
      rewrite firstn_all. unfold copy_into. rewrite Hb, repeat_length.
      rewrite (proj2 (PeanoNat.Nat.leb_le _ _)) by lia.
      rewrite (proj2 (PeanoNat.Nat.leb_le _ _)) by lia.
      rewrite PeanoNat.Nat.sub_0_r, PeanoNat.Nat.eqb_refl. cbn [andb bind].
      assert (Hl : N.of_nat (length data) <= 64) by (unfold BLOCKBYTES in El; lia).
      unfold uadd at 1. change (val (st_buflen st)) with 0. rewrite val_of_N.
      rewrite N.mod_small by lia. rewrite (proj2 (N.ltb_lt _ _)) by lia. cbn [bind].
      unfold uadd at 1. change (val (st_count st)) with 0. rewrite val_of_N.
      rewrite N.mod_small by lia. rewrite (proj2 (N.ltb_lt _ _)) by lia. cbn [bind].
      unfold slice_from. rewrite (proj2 (PeanoNat.Nat.leb_le _ _)) by lia. cbn [bind].
      eexists _, _. split; reflexivity. }
    destruct Hf as (st' & rest & Hf & Hfn). rewrite Hf. cbn [bind]. rewrite (Hfin st' Hfn). reflexivity.
Qed.
