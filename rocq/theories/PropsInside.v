(** * PropsInside: C60, the array accesses inside the compression routines. *)
From Verif Require Import Base Consts Intrinsics Portable Traced Inside InsideFacts Views Witness.
From Verif Require Sse41 Avx2.
Local Open Scope nat_scope.

(** C60.  Run with bounds-checked indexing, the routines never index out of range: they
    return what the models say, with one list of accesses [ev] for all arguments. *)
Theorem C60_portable : exists ev,
  Forall (fun e => match e with Access lo hi len => lo < hi <= len | _ => False end) ev /\
  forall (h : oct u32) (msg : list byte) (count : u64) (lastblock lastnode : u32), length msg = 64 ->
    compress_i (oct_list h) msg count lastblock lastnode = (ev, Ok (oct_list (Portable.compress h msg count lastblock lastnode))).
Proof. exact compress_inside. Qed.
Print Assumptions C60_portable.
Theorem C60_sse41 : exists ev,
  Forall (fun e => match e with Access lo hi len => lo < hi <= len | _ => False end) ev /\
  forall (h : oct m128) (msg0 msg1 msg2 msg3 : list byte) (count_low count_high lastblock lastnode : m128),
    compress4_i (oct_list h) (Sse41.transpose_message_blocks msg0 msg1 msg2 msg3) count_low count_high lastblock lastnode
    = (ev, Ok (oct_list (Sse41.compress4_transposed h msg0 msg1 msg2 msg3 count_low count_high lastblock lastnode))).
Proof. exact compress4_inside. Qed.
Print Assumptions C60_sse41.
Theorem C60_avx2 : exists ev,
  Forall (fun e => match e with Access lo hi len => lo < hi <= len | _ => False end) ev /\
  forall (h : oct m256) (msg_vecs : list m256) (count_low count_high lastblock lastnode : m256), length msg_vecs = 16 ->
    compress8_i (oct_list h) msg_vecs count_low count_high lastblock lastnode
    = (ev, Ok (oct_list (Avx2.compress8_transposed h msg_vecs count_low count_high lastblock lastnode))).
Proof. exact compress8_inside. Qed.
Print Assumptions C60_avx2.

(** The list of the portable routine has 2378 accesses; a block that is too short is a panic. *)
Example C60_ex : length (fst (compress_i (oct_list IV) (ramp 64) (uzero 64) (uzero 32) (uzero 32))) = 2378.
Proof. lazy. reflexivity. Qed.
Example C60_ex_short : snd (compress_i (oct_list IV) (ramp 63) (uzero 64) (uzero 32) (uzero 32)) = Panic.
Proof. lazy. reflexivity. Qed.
