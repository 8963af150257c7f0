(** * Property C64: the addresses the unsafe code accesses.

    [compress_t] etc. are the functions of C58 with a record of every read and write:
    address and number of bytes, in order.  [place m p] is the address [p] holds;
    [read_at m p k n] is a read of [n] bytes, [k] bytes after it.  [reads16 m p k] and
    [reads32 m p k] are reads of the 64 bytes from there on, 16 or 32 at a time. *)
From Verif Require Import Base Consts Portable Params Views Memory MemoryFacts Addresses AddressFacts AddressUse Witness.
Local Open Scope nat_scope.

(** The results are those of C58, in every memory and for all arguments. *)
Theorem C64_results :
  (forall r iv h msg count lastblock lastnode m,
     snd (compress_t r iv h msg count lastblock lastnode m) = compress r iv h msg count lastblock lastnode m) /\
  (forall r h msg count lastblock lastnode m,
     snd (compress8_t r h msg count lastblock lastnode m) = compress8 r h msg count lastblock lastnode m) /\
  (forall r p m, snd (vectorize_words8_t r p m) = vectorize_words8 r p m) /\
  (forall r p msg cl ch lb ln m, snd (compress8_vectorized_t r p msg cl ch lb ln m) = compress8_vectorized r p msg cl ch lb ln m) /\
  (forall r places params i0 i1 i2 i3 len m,
     snd (hash4_exact_t r places params i0 i1 i2 i3 len m) = hash4_exact r places params i0 i1 i2 i3 len m) /\
  (forall r params input len m, snd (hash8_exact_t r params input len m) = hash8_exact r params input len m).
Proof. exact (conj erases_compress (conj erases_compress8 (conj erases_vectorize_words8 (conj erases_compress8_vectorized (conj erases_hash4_exact erases_hash8_exact))))). Qed.
Print Assumptions C64_results.
(** The accesses of the routines whenever they succeed (that they do is C58): these lists
    mention no contents of memory, no counter and no flag. *)
Theorem C64_sse41_compress : forall r iv h msg count lastblock lastnode m m',
  compress r iv h msg count lastblock lastnode m = Ok (tt, m') ->
  fst (compress_t r iv h msg count lastblock lastnode m) =
  [read_at m h 0 16; read_at m h 16 16; read_at m iv 0 16; read_at m iv 16 16] ++ reads16 m msg 0 ++
  [read_at m h 0 16; write_at m h 0 16; read_at m h 16 16; write_at m h 16 16].
Proof. exact compress_accesses. Qed.
Print Assumptions C64_sse41_compress.
Theorem C64_avx2_compress8 : forall r h msg count lastblock lastnode m m',
  compress8 r h msg count lastblock lastnode m = Ok (tt, m') ->
  fst (compress8_t r h msg count lastblock lastnode m) =
  map (fun p => read_at m p 0 32) (oct_list h) ++ flat_map (fun p => reads32 m p 0) (oct_list msg) ++
  map (fun p => write_at m p 0 32) (oct_list h).
Proof. exact compress8_accesses. Qed.
Print Assumptions C64_avx2_compress8.
Theorem C64_avx2_vectorize_words8 : forall r p m m', vectorize_words8 r p m = Ok (tt, m') ->
  fst (vectorize_words8_t r p m) =
  map (fun i => read_at m p (32 * i) 32) (seq 0 8) ++ map (fun i => write_at m p (32 * i) 32) (seq 0 8).
Proof. exact vectorize_words8_accesses. Qed.
Print Assumptions C64_avx2_vectorize_words8.
Theorem C64_avx2_compress8_vectorized : forall r p msg cl ch lb ln m m', compress8_vectorized r p msg cl ch lb ln m = Ok (tt, m') ->
  fst (compress8_vectorized_t r p msg cl ch lb ln m) =
  flat_map (fun q => reads32 m q 0) (oct_list msg) ++ map (fun q => read_at m q 0 32) [cl; ch; lb; ln] ++
  map (fun i => read_at m p (32 * i) 32) (seq 0 8) ++
  flat_map (fun i => [read_at m p (32 * i) 32; write_at m p (32 * i) 32]) (seq 0 8).
Proof. exact compress8_vectorized_accesses. Qed.
Print Assumptions C64_avx2_compress8_vectorized.
(** Inputs of [n] blocks: block by block, input by input; then [hash4_exact] writes its
    results to four local arrays at [places] and reads them back. *)
Theorem C64_sse41_hash4_exact : forall r places params i0 i1 i2 i3 n m res m', 0 < n ->
  reference m i0 (Array U8 (64 * n)) false -> reference m i1 (Array U8 (64 * n)) false ->
  reference m i2 (Array U8 (64 * n)) false -> reference m i3 (Array U8 (64 * n)) false ->
  hash4_exact r places params i0 i1 i2 i3 (64 * n) m = Ok (res, m') ->
  fst (hash4_exact_t r places params i0 i1 i2 i3 (64 * n) m) =
  flat_map (fun k => flat_map (fun p => reads16 m p (64 * k)) [i0; i1; i2; i3]) (seq 0 n) ++
  map (fun a => mk_access Write a 16) [q0 places; q1 places; q2 places; q3 places] ++
  map (fun a => mk_access Write (a + 16) 16) [q0 places; q1 places; q2 places; q3 places] ++
  map (fun a => mk_access Read a 32) [q0 places; q1 places; q2 places; q3 places].
Proof. exact hash4_exact_accesses. Qed.
Print Assumptions C64_sse41_hash4_exact.
Theorem C64_avx2_hash8_exact : forall r params input n m res m', 0 < n ->
  (forall l, reference m (proj l input) (Array U8 (64 * n)) false) ->
  hash8_exact r params input (64 * n) m = Ok (res, m') ->
  fst (hash8_exact_t r params input (64 * n) m) =
  flat_map (fun k => flat_map (fun p => reads32 m p (64 * k)) (oct_list input)) (seq 0 n).
Proof. exact hash8_exact_accesses. Qed.
Print Assumptions C64_avx2_hash8_exact.
(** The address a pointer holds depends only on where the allocations are. *)
Theorem C64_places : forall m m' p, map address m = map address m' -> place m p = place m' p.
Proof. exact place_same. Qed.
Print Assumptions C64_places.

(** A state at 8228 (in an allocation of two), a block at 12289. *)
Definition here : memory :=
  [mk_object 4096 (words_bytes IV); mk_object 8196 (words_bytes IV ++ words_bytes IV); mk_object 12288 (ramp 80)].
Example C64_example :
  (exists m', compress Allocation (mk_pointer 0 0 0 32 false) (mk_pointer 1 32 32 64 true) (mk_pointer 2 1 0 80 false)
     (of_N 64 64) (umax 32) (uzero 32) here = Ok (tt, m')) /\
  map where_ (fst (compress_t Allocation (mk_pointer 0 0 0 32 false) (mk_pointer 1 32 32 64 true) (mk_pointer 2 1 0 80 false)
     (of_N 64 64) (umax 32) (uzero 32) here)) =
  [8228; 8244; 4096; 4112; 12289; 12305; 12321; 12337;
   8228; 8228; 8244; 8244]%N.
Proof. split; [eexists|]; lazy; reflexivity. Qed.
Definition one_block (i : nat) : pointer := mk_pointer 0 i i (i + 64) false.
Example C64_example_exact :
  (forall i, In i (seq 0 9) -> reference [mk_object 12288 (ramp 80)] (one_block i) (Array U8 (64 * 1)) false) /\
  (exists res m', hash4_exact Allocation (Quad 100 200 300 400)%N Params_new (one_block 0) (one_block 3) (one_block 3) (one_block 7) (64 * 1)
     [mk_object 12288 (ramp 80)] = Ok (res, m')) /\
  exists res m', hash8_exact Borrow Params_new (Oct (one_block 0) (one_block 1) (one_block 2) (one_block 3)
     (one_block 4) (one_block 5) (one_block 6) (one_block 8)) (64 * 1) [mk_object 12288 (ramp 80)] = Ok (res, m').
Proof.
  split; [|split].
  - intros i Hi. cbn in Hi. repeat (destruct Hi as [<-|Hi]; [|]); [..|contradiction];
      (exists (mk_object 12288 (ramp 80)); split; [reflexivity|]; split; [apply Nat.leb_le; reflexivity|];
       split; [apply N.divide_1_l|]; split; [|split; [|discriminate]]; apply Nat.leb_le; reflexivity).
  - do 2 eexists. lazy. reflexivity.
  - do 2 eexists. lazy. reflexivity.
Qed.
