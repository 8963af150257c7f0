(** * Borrows: the code of [Memory], under Stacked Borrows.

    Rust has no official rules yet about which pointers may be used after which.  Stacked
    Borrows (Jung, Dang, Kang, Dreyer, POPL 2020; what Miri checks) are such rules: every
    byte has a stack of borrows, and every reference and raw pointer has a tag.  Making a
    reference puts an item on the stacks of the bytes it points to; an access must be allowed
    by an item with the tag of the pointer used, and removes or disables what is above that
    item and cannot coexist with the access.

    A reference that is passed to a function is protected until the function returns: what
    would remove or disable its item is undefined behaviour.  [held] are the protected tags.
    A reference that is only made to be passed on or cast to [*const] (as in [as_ptr]) is one
    item here.

    The functions from [compress8_b] on are those of [Memory] with [_b] added to their
    names, and with the reborrows and casts of the source that [Memory] leaves out. *)
From Verif Require Import Base Consts Intrinsics Portable Params Memory.
From Verif Require Sse41 Avx2.
Local Open Scope nat_scope.

(** ** Stacks of borrows *)

Inductive permission := Unique | SharedRW | SharedRO | Disabled.
Record item := mk_item { allows : permission; owner : nat }.
(** The top comes first. *)
Definition stack := list item.

Definition is_unique (i : item) : bool := match allows i with Unique => true | _ => false end.
Definition is_sharedrw (i : item) : bool := match allows i with SharedRW => true | _ => false end.
(** Does the item let tag [t] read ([write = false]) or write? *)
Definition grants (write : bool) (t : nat) (i : item) : bool :=
  Nat.eqb (owner i) t &&
  match allows i with Unique => true | SharedRW => true | SharedRO => negb write | Disabled => false end.
(** A read with tag [t]: the topmost item that allows it; [Unique] items above it become
    [Disabled]. *)
Fixpoint on_read (t : nat) (s : stack) : option stack :=
  match s with
  | [] => None
  | i :: s' =>
      if grants false t i then Some s
      else match on_read t s' with
           | None => None
           | Some s'' => Some ((if is_unique i then mk_item Disabled (owner i) else i) :: s'')
           end
  end.
(** For a write: the topmost item that allows it, what is below it, and, if it is
    [SharedRW], the [SharedRW] items next to it; and apart from that, what is above. *)
Fixpoint split_at (t : nat) (s : stack) : option (stack * stack) :=
  match s with
  | [] => None
  | i :: s' =>
      if grants true t i then Some ([], s)
      else match split_at t s' with
           | None => None
           | Some ([], low) =>
               if is_sharedrw i && match low with j :: _ => is_sharedrw j | [] => false end
               then Some ([], i :: low) else Some ([i], low)
           | Some (up, low) => Some (i :: up, low)
           end
  end.
(** A write with tag [t] removes what is above. *)
Definition on_write (t : nat) (s : stack) : option stack := option_map snd (split_at t s).
(** Tag [new] made from tag [t]: [&], [&mut] and the cast of a [&mut] to [*mut] *)
Definition new_shared (t new : nat) (s : stack) : option stack :=
  option_map (cons (mk_item SharedRO new)) (on_read t s).
Definition new_unique (t new : nat) (s : stack) : option stack :=
  option_map (cons (mk_item Unique new)) (on_write t s).
Definition new_raw (t new : nat) (s : stack) : option stack :=
  option_map (fun '(up, low) => up ++ mk_item SharedRW new :: low) (split_at t s).

(** ** Protected tags *)

Definition same_item (i j : item) : bool :=
  Nat.eqb (owner i) (owner j) &&
  match allows i, allows j with
  | Unique, Unique => true | SharedRW, SharedRW => true | SharedRO, SharedRO => true | Disabled, Disabled => true
  | _, _ => false
  end.
Definition protected (held : list nat) (i : item) : bool := existsb (Nat.eqb (owner i)) held.
(** [s'] has the items of [s] that are protected. *)
Definition intact (held : list nat) (s s' : stack) : bool :=
  forallb (fun i => negb (protected held i) || existsb (same_item i) s') s.

(** ** Code *)

(** The stack of every byte of every allocation *)
Definition stacks := nat -> nat -> stack.
Definition covers (a i n b k : nat) : bool := Nat.eqb b a && ((i <=? k) && (k <? i + n)).
(** [f] on the stacks of bytes [i..i+n] of allocation [a], under protected tags *)
Definition over (held : list nat) (f : stack -> option stack) (a i n : nat) (s : stacks) : option stacks :=
  if forallb (fun k => match f (s a k) with Some s' => intact held (s a k) s' | None => false end) (seq i n)
  then Some (fun b k => if covers a i n b k then match f (s b k) with Some x => x | None => s b k end else s b k)
  else None.

Record world := mk_world { mem : memory; borrows : stacks; next : nat; held : list nat }.
Record bpointer := mk_bpointer { to : pointer; tag : nat }.
Definition bcode (A : Type) : Type := world -> outcome (A * world).
Definition give_b {A} (a : A) : bcode A := fun w => Ok (a, w).
Definition andthen_b {A B} (x : bcode A) (f : A -> bcode B) : bcode B :=
  fun w => bind (x w) (fun '(a, w) => f a w).
Notation "x <== e ;; k" := (andthen_b e (fun x => k))
  (at level 100, e at next level, right associativity).
Notation "' p <== e ;; k" := (andthen_b e (fun p => k))
  (at level 100, p pattern, e at next level, right associativity).
(** Code on memory that acts on the stacks by [f] *)
Definition acting {A} (x : code A) (f : list nat -> stacks -> option stacks) : bcode A :=
  fun w => '(a, m) <- x (mem w) ;;
           match f (held w) (borrows w) with None => UB | Some s => Ok (a, mk_world m s (next w) (held w)) end.
Definition lift {A} (x : code A) : bcode A := acting x (fun _ => Some).
(** A new tag for [n] bytes from [p] on *)
Definition retag (f : nat -> nat -> stack -> option stack) (p : bpointer) (n : nat) : bcode bpointer :=
  fun w => match over (held w) (f (tag p) (next w)) (alloc (to p)) (offset (to p)) n (borrows w) with
           | None => UB
           | Some s => Ok (mk_bpointer (to p) (next w), mk_world (mem w) s (S (next w)) (held w))
           end.
(** A function body: the references passed to it are protected until its end. *)
Definition protecting {A} (ps : list bpointer) (x : bcode A) : bcode A :=
  fun w => bind (x (mk_world (mem w) (borrows w) (next w) (map tag ps ++ held w)))
             (fun '(a, w') => Ok (a, mk_world (mem w') (borrows w') (next w') (held w))).

Definition ptr_add_b (t : ty) (p : bpointer) (n : nat) : bcode bpointer :=
  q <== lift (ptr_add t (to p) n) ;;
  give_b (mk_bpointer q (tag p)).
Definition reborrow_b (mut : bool) (t : ty) (p : bpointer) : bcode bpointer :=
  q <== lift (reborrow Allocation mut t (to p)) ;;
  retag (if mut then new_unique else new_shared) (mk_bpointer q (tag p)) (size_of t).
Definition read_unaligned_b (p : bpointer) (n : nat) : bcode (list byte) :=
  acting (read_unaligned Allocation (to p) n) (fun held => over held (on_read (tag p)) (alloc (to p)) (offset (to p)) n).
Definition read_b (t : ty) (p : bpointer) : bcode (list byte) :=
  acting (read Allocation t (to p)) (fun held => over held (on_read (tag p)) (alloc (to p)) (offset (to p)) (size_of t)).
Definition write_unaligned_b (p : bpointer) (bs : list byte) : bcode unit :=
  acting (write_unaligned Allocation (to p) bs) (fun held => over held (on_write (tag p)) (alloc (to p)) (offset (to p)) (length bs)).
Definition write_b (t : ty) (p : bpointer) (bs : list byte) : bcode unit :=
  acting (write Allocation t (to p) bs) (fun held => over held (on_write (tag p)) (alloc (to p)) (offset (to p)) (length bs)).
(** [p.as_ptr()] for [n] bytes; [p as *mut _]; a [&] and a [&mut] to [n] bytes passed to a function *)
Definition as_ptr_b (p : bpointer) (n : nat) : bcode bpointer := retag new_shared p n.
Definition as_raw_b (p : bpointer) (n : nat) : bcode bpointer := retag new_raw p n.
Definition pass_b (p : bpointer) (n : nat) : bcode bpointer := retag new_shared p n.
Definition pass_mut_b (p : bpointer) (n : nat) : bcode bpointer := retag new_unique p n.

(** ** avx2.rs *)

(** The [_mm256_loadu_si256] instruction; avx2.rs:18-20 [loadu] *)
Definition _mm256_loadu_b (p : bpointer) : bcode m256 :=
  bs <== read_unaligned_b p 32 ;;
  give_b (m256_of_bytes bs).
Definition loadu256_b (p : bpointer) : bcode m256 := _mm256_loadu_b p.

(** avx2.rs:368-373 [load_2x256] *)
Definition load_2x256_b (msg : bpointer) : bcode (m256 * m256) :=
  msg <== pass_b msg BLOCKBYTES ;;
  protecting [msg]
  (a <== (p <== as_ptr_b msg BLOCKBYTES ;;
          _mm256_loadu_b p) ;;
   b <== (p <== as_ptr_b msg BLOCKBYTES ;;
          q <== ptr_add_b M256 p 1 ;;
          _mm256_loadu_b q) ;;
   give_b (a, b)).

(** avx2.rs:506-552 [load_msg_vecs_interleave] *)
Definition load_msg_vecs_interleave_b (msg : oct bpointer) : bcode (list m256) :=
  msg_a <== pass_b (o0 msg) BLOCKBYTES ;;
  msg_b <== pass_b (o1 msg) BLOCKBYTES ;;
  msg_c <== pass_b (o2 msg) BLOCKBYTES ;;
  msg_d <== pass_b (o3 msg) BLOCKBYTES ;;
  msg_e <== pass_b (o4 msg) BLOCKBYTES ;;
  msg_f <== pass_b (o5 msg) BLOCKBYTES ;;
  msg_g <== pass_b (o6 msg) BLOCKBYTES ;;
  msg_h <== pass_b (o7 msg) BLOCKBYTES ;;
  protecting [msg_a; msg_b; msg_c; msg_d; msg_e; msg_f; msg_g; msg_h]
  ('(front_a, back_a) <== load_2x256_b msg_a ;;
   '(front_b, back_b) <== load_2x256_b msg_b ;;
   '(front_c, back_c) <== load_2x256_b msg_c ;;
   '(front_d, back_d) <== load_2x256_b msg_d ;;
   '(front_e, back_e) <== load_2x256_b msg_e ;;
   '(front_f, back_f) <== load_2x256_b msg_f ;;
   '(front_g, back_g) <== load_2x256_b msg_g ;;
   '(front_h, back_h) <== load_2x256_b msg_h ;;
   let front_interleaved := Avx2.transpose_vecs (Oct front_a front_b front_c front_d front_e front_f front_g front_h) in
   let back_interleaved := Avx2.transpose_vecs (Oct back_a back_b back_c back_d back_e back_f back_g back_h) in
   give_b (oct_list front_interleaved ++ oct_list back_interleaved)).

(** [vecs[i]] and [vecs[i] = x] for [vecs: &mut [__m256i; 8]] *)
Definition vec_get_b (vecs : bpointer) (i : nat) : bcode m256 :=
  p <== ptr_add_b M256 vecs i ;;
  bs <== read_b M256 p ;;
  give_b (m256_of_bytes bs).
Definition vec_set_b (vecs : bpointer) (i : nat) (x : m256) : bcode unit :=
  p <== ptr_add_b M256 vecs i ;;
  write_b M256 p (m256_bytes x).
Definition vecs_get_b (vecs : bpointer) : bcode (oct m256) :=
  a0 <== vec_get_b vecs 0 ;;
  a1 <== vec_get_b vecs 1 ;;
  a2 <== vec_get_b vecs 2 ;;
  a3 <== vec_get_b vecs 3 ;;
  a4 <== vec_get_b vecs 4 ;;
  a5 <== vec_get_b vecs 5 ;;
  a6 <== vec_get_b vecs 6 ;;
  a7 <== vec_get_b vecs 7 ;;
  give_b (Oct a0 a1 a2 a3 a4 a5 a6 a7).

(** avx2.rs:606-652 [compress8_transposed_inline] on vectors in memory *)
Definition compress8_transposed_b (h_vecs : bpointer) (msg_vecs : list m256)
    (count_low count_high lastblock lastnode : m256) : bcode unit :=
  h <== vecs_get_b h_vecs ;;
  let v := rounds8 h msg_vecs count_low count_high lastblock lastnode in
  let step i :=
    (x <== vec_get_b h_vecs i ;;
     vec_set_b h_vecs i (Avx2.xor x (Avx2.xor (Avx2.vget v i) (Avx2.vget v (8 + i))))) in
  _ <== step 0 ;;
  _ <== step 1 ;;
  _ <== step 2 ;;
  _ <== step 3 ;;
  _ <== step 4 ;;
  _ <== step 5 ;;
  _ <== step 6 ;;
  step 7.

(** [&mut *(words as *mut _ as *mut [__m256i; 8])] *)
Definition cast_vecs_b (words : bpointer) : bcode bpointer :=
  p <== as_raw_b words 256 ;;
  reborrow_b true (Array M256 8) p.

(** avx2.rs:440-443 [vectorize_words8], with 402-437 [transpose_vecs] on vectors in memory *)
Definition vectorize_words8_b (words : bpointer) : bcode unit :=
  vecs <== cast_vecs_b words ;;
  vecs <== pass_mut_b vecs 256 ;;
  protecting [vecs]
  (v <== vecs_get_b vecs ;;
   let v := Avx2.transpose_vecs v in
   _ <== vec_set_b vecs 0 (o0 v) ;;
   _ <== vec_set_b vecs 1 (o1 v) ;;
   _ <== vec_set_b vecs 2 (o2 v) ;;
   _ <== vec_set_b vecs 3 (o3 v) ;;
   _ <== vec_set_b vecs 4 (o4 v) ;;
   _ <== vec_set_b vecs 5 (o5 v) ;;
   _ <== vec_set_b vecs 6 (o6 v) ;;
   vec_set_b vecs 7 (o7 v)).

(** avx2.rs:558-585 [compress8_vectorized] *)
Definition compress8_vectorized_b (states : bpointer) (msg : oct bpointer)
    (count_low count_high lastblock lastnode : bpointer) : bcode unit :=
  h_vecs <== cast_vecs_b states ;;
  msg_vecs <== load_msg_vecs_interleave_b msg ;;
  h_vecs <== pass_mut_b h_vecs 256 ;;
  low <== read_b AlignedWords8_ty count_low ;;
  high <== read_b AlignedWords8_ty count_high ;;
  last <== read_b AlignedWords8_ty lastblock ;;
  node <== read_b AlignedWords8_ty lastnode ;;
  protecting [h_vecs]
  (compress8_transposed_b h_vecs msg_vecs (transmute_m256 low) (transmute_m256 high)
     (transmute_m256 last) (transmute_m256 node)).

(** [loadu(h.as_ptr())] *)
Definition load_state_b (h : bpointer) : bcode m256 :=
  p <== as_ptr_b h 32 ;;
  loadu256_b p.

(** avx2.rs:209-325 [compress8]; its [h_vecs] is a local *)
Definition compress8_b (h msg : oct bpointer) (count : oct u64) (lastblock lastnode : oct u32) : bcode unit :=
  h0 <== load_state_b (o0 h) ;;
  h1 <== load_state_b (o1 h) ;;
  h2 <== load_state_b (o2 h) ;;
  h3 <== load_state_b (o3 h) ;;
  h4 <== load_state_b (o4 h) ;;
  h5 <== load_state_b (o5 h) ;;
  h6 <== load_state_b (o6 h) ;;
  h7 <== load_state_b (o7 h) ;;
  let h_vecs := Avx2.transpose_vecs (Oct h0 h1 h2 h3 h4 h5 h6 h7) in
  let vec (x : oct u32) := Avx2.load_256_from_8xu32 (o0 x) (o1 x) (o2 x) (o3 x) (o4 x) (o5 x) (o6 x) (o7 x) in
  msg_vecs <== load_msg_vecs_interleave_b msg ;;
  let h_vecs := Avx2.compress8_transposed h_vecs msg_vecs
                  (vec (oct_map (cast 32) count)) (vec (oct_map (fun x => cast 32 (ushr x 32)) count))
                  (vec lastblock) (vec lastnode) in
  let h_vecs := Avx2.transpose_vecs h_vecs in
  _ <== write_b StateWords_ty (o0 h) (m256_bytes (o0 h_vecs)) ;;
  _ <== write_b StateWords_ty (o1 h) (m256_bytes (o1 h_vecs)) ;;
  _ <== write_b StateWords_ty (o2 h) (m256_bytes (o2 h_vecs)) ;;
  _ <== write_b StateWords_ty (o3 h) (m256_bytes (o3 h_vecs)) ;;
  _ <== write_b StateWords_ty (o4 h) (m256_bytes (o4 h_vecs)) ;;
  _ <== write_b StateWords_ty (o5 h) (m256_bytes (o5 h_vecs)) ;;
  _ <== write_b StateWords_ty (o6 h) (m256_bytes (o6 h_vecs)) ;;
  write_b StateWords_ty (o7 h) (m256_bytes (o7 h_vecs)).

(** [&*(input.as_ptr().add(count) as *const Block)]; [len] is [input.len()] *)
Definition block_at_b (input : bpointer) (len count : nat) : bcode bpointer :=
  p <== as_ptr_b input len ;;
  p <== ptr_add_b U8 p count ;;
  reborrow_b false Block_ty p.

(** avx2.rs:730-763, the loop of [hash8_exact] *)
Fixpoint hash8_exact_loop_b (fuel : nat) (params : Params) (input : oct bpointer) (n : oct nat)
    (len : nat) (h_vecs : oct m256) (count : nat) : bcode (oct Hash) :=
  match fuel with
  | O => fun _ => Stuck
  | S fuel =>
      msg0 <== block_at_b (o0 input) (o0 n) count ;;
      msg1 <== block_at_b (o1 input) (o1 n) count ;;
      msg2 <== block_at_b (o2 input) (o2 n) count ;;
      msg3 <== block_at_b (o3 input) (o3 n) count ;;
      msg4 <== block_at_b (o4 input) (o4 n) count ;;
      msg5 <== block_at_b (o5 input) (o5 n) count ;;
      msg6 <== block_at_b (o6 input) (o6 n) count ;;
      msg7 <== block_at_b (o7 input) (o7 n) count ;;
      let count := (count + BLOCKBYTES)%nat in
      let count_low := Avx2.load_256_from_u32 (of_N 32 (N.of_nat count)) in
      let count_high := Avx2.load_256_from_u32 (cast 32 (ushr (of_N 64 (N.of_nat count)) 32)) in
      let lastblock := Avx2.load_256_from_u32 (if Nat.eqb count len then umax 32 else uzero 32) in
      let lastnode := Avx2.load_256_from_u32
                        (if p_last_node params && Nat.eqb count len then umax 32 else uzero 32) in
      msg_vecs <== load_msg_vecs_interleave_b (Oct msg0 msg1 msg2 msg3 msg4 msg5 msg6 msg7) ;;
      let h_vecs := Avx2.compress8_transposed h_vecs msg_vecs count_low count_high lastblock lastnode in
      if Nat.eqb count len then give_b (Avx2.export_hashes h_vecs (p_hash_length params))
      else hash8_exact_loop_b fuel params input n len h_vecs count
  end.

(** avx2.rs:698-764 [hash8_exact]; [n] are the lengths of the inputs *)
Definition hash8_exact_b (params : Params) (input : oct bpointer) (n : oct nat) : bcode (oct Hash) :=
  let param_words := make_words params in
  let h_vecs := oct_map Avx2.load_256_from_u32 param_words in
  hash8_exact_loop_b (S (o0 n)) params input n (o0 n) h_vecs 0.

(** ** sse41.rs *)

(** sse41.rs:9-11 [loadu], 24-26 [storeu] *)
Definition loadu_b (p : bpointer) : bcode m128 :=
  bs <== read_unaligned_b p 16 ;;
  give_b (m128_of_bytes bs).
Definition storeu_b (p : bpointer) (x : m128) : bcode unit := write_unaligned_b p (m128_bytes x).

(** How to make a pointer to word [i] of an array: [&h[i]] and [&mut h[i]], cast to raw
    pointers, borrow one word; [h.as_ptr().add(i)] and [h.as_mut_ptr().add(i)] would borrow
    the array. *)
Inductive borrowing := Word | Words.
Definition const_at (how : borrowing) (h : bpointer) (i : nat) : bcode bpointer :=
  q <== lift (element Allocation false U32 (to h) i) ;;
  match how with
  | Word => retag new_shared (mk_bpointer q (tag h)) 4
  | Words => p <== retag new_shared h 32 ;;
             give_b (mk_bpointer q (tag p))
  end.
Definition mut_at (how : borrowing) (h : bpointer) (i : nat) : bcode bpointer :=
  q <== lift (element Allocation true U32 (to h) i) ;;
  match how with
  | Word => p <== retag new_unique (mk_bpointer q (tag h)) 4 ;;
            retag new_raw p 4
  | Words => p <== retag new_unique h 32 ;;
             p <== retag new_raw p 32 ;;
             give_b (mk_bpointer q (tag p))
  end.
(** [loadu(&h[i])]; [loadu(msg.as_ptr().add(i) as *const u32)] *)
Definition load_words_b (how : borrowing) (h : bpointer) (i : nat) : bcode m128 :=
  p <== const_at how h i ;;
  loadu_b p.
Definition load_bytes_b (msg : bpointer) (i : nat) : bcode m128 :=
  p <== as_ptr_b msg BLOCKBYTES ;;
  p <== ptr_add_b U8 p i ;;
  loadu_b p.
(** [storeu(&mut h[i], xor(loadu(&h[i]), x))] *)
Definition xor_words_b (how : borrowing) (h : bpointer) (i : nat) (x : m128) : bcode unit :=
  q <== mut_at how h i ;;
  y <== load_words_b how h i ;;
  storeu_b q (Sse41.xor y x).

(** sse41.rs:127-371 [compress], for [how = Word] *)
Definition compress_b (how : borrowing) (iv h msg : bpointer) (count : u64) (lastblock lastnode : u32) : bcode unit :=
  row1 <== load_words_b how h 0 ;;
  row2 <== load_words_b how h 4 ;;
  row3 <== load_words_b how iv 0 ;;
  iv4 <== load_words_b how iv 4 ;;
  let row4 := Sse41.xor iv4 (Sse41.setr (cast 32 count) (cast 32 (ushr count 32)) lastblock lastnode) in
  m0 <== load_bytes_b msg 0 ;;
  m1 <== load_bytes_b msg 16 ;;
  m2 <== load_bytes_b msg 32 ;;
  m3 <== load_bytes_b msg 48 ;;
  let '(row1, row2, row3, row4) := compress_rounds row1 row2 row3 row4 m0 m1 m2 m3 in
  _ <== xor_words_b how h 0 (Sse41.xor row1 row3) ;;
  xor_words_b how h 4 (Sse41.xor row2 row4).

(** sse41.rs:14-21 [loadu_4]; [p] is a raw pointer *)
Definition loadu_4_b (p : bpointer) : bcode (quad m128) :=
  p0 <== ptr_add_b M128 p 0 ;;
  a0 <== loadu_b p0 ;;
  p1 <== ptr_add_b M128 p 1 ;;
  a1 <== loadu_b p1 ;;
  p2 <== ptr_add_b M128 p 2 ;;
  a2 <== loadu_b p2 ;;
  p3 <== ptr_add_b M128 p 3 ;;
  a3 <== loadu_b p3 ;;
  give_b (Quad a0 a1 a2 a3).
(** [loadu_4(msg.as_ptr())] *)
Definition load_block_b (msg : bpointer) : bcode (quad m128) :=
  p <== as_ptr_b msg BLOCKBYTES ;;
  loadu_4_b p.

(** sse41.rs:442-476 [transpose_message_blocks] *)
Definition transpose_message_blocks_b (msg_a msg_b msg_c msg_d : bpointer) : bcode (list m128) :=
  msg_a <== pass_b msg_a BLOCKBYTES ;;
  msg_b <== pass_b msg_b BLOCKBYTES ;;
  msg_c <== pass_b msg_c BLOCKBYTES ;;
  msg_d <== pass_b msg_d BLOCKBYTES ;;
  protecting [msg_a; msg_b; msg_c; msg_d]
  ('(Quad a0 a1 a2 a3) <== load_block_b msg_a ;;
   '(Quad b0 b1 b2 b3) <== load_block_b msg_b ;;
   '(Quad c0 c1 c2 c3) <== load_block_b msg_c ;;
   '(Quad d0 d1 d2 d3) <== load_block_b msg_d ;;
   let transposed0 := Sse41.transpose_vecs a0 b0 c0 d0 in
   let transposed1 := Sse41.transpose_vecs a1 b1 c1 d1 in
   let transposed2 := Sse41.transpose_vecs a2 b2 c2 d2 in
   let transposed3 := Sse41.transpose_vecs a3 b3 c3 d3 in
   give_b
   [q0 transposed0; q1 transposed0; q2 transposed0; q3 transposed0;
    q0 transposed1; q1 transposed1; q2 transposed1; q3 transposed1;
    q0 transposed2; q1 transposed2; q2 transposed2; q3 transposed2;
    q0 transposed3; q1 transposed3; q2 transposed3; q3 transposed3]).

(** sse41.rs:596-647 [compress4_transposed_inline]; the caller's [h_vecs] is a local *)
Definition compress4_transposed_b (h_vecs : oct m128) (msg0 msg1 msg2 msg3 : bpointer)
    (count_low count_high lastblock lastnode : m128) : bcode (oct m128) :=
  msg0 <== pass_b msg0 BLOCKBYTES ;;
  msg1 <== pass_b msg1 BLOCKBYTES ;;
  msg2 <== pass_b msg2 BLOCKBYTES ;;
  msg3 <== pass_b msg3 BLOCKBYTES ;;
  protecting [msg0; msg1; msg2; msg3]
  (msg_vecs <== transpose_message_blocks_b msg0 msg1 msg2 msg3 ;;
   give_b (compress4_rounds h_vecs msg_vecs count_low count_high lastblock lastnode)).

(** A local variable: a new allocation, which its own tag owns; and a function body, at whose
    end no protected tag may be on the stacks of its locals *)
Definition local_b (a : N) (bs : list byte) : bcode bpointer :=
  fun w => Ok (mk_bpointer (mk_pointer (length (mem w)) 0 0 (length bs) true) (next w),
               mk_world (mem w ++ [mk_object a bs])
                 (fun b k => if Nat.eqb b (length (mem w)) then [mk_item Unique (next w)] else borrows w b k)
                 (S (next w)) (held w)).
Definition size_at (m : memory) (a : nat) : nat := match nth_error m a with Some o => length (bytes o) | None => 0 end.
Definition body_b {A} (x : bcode A) : bcode A :=
  fun w => bind (x w) (fun '(a, w') =>
    if forallb (fun b => forallb (fun k => forallb (fun i => negb (protected (held w') i)) (borrows w' b k)) (seq 0 (size_at (mem w') b)))
         (seq (length (mem w)) (length (mem w') - length (mem w)))
    then Ok (a, mk_world (firstn (length (mem w)) (mem w')) (borrows w') (next w') (held w'))
    else UB).
(** [storeu(&mut bytes[i] as *mut u8 as *mut _, x)] for [bytes: [u8; OUTBYTES]]; [Words] is
    [bytes.as_mut_ptr().add(i)] *)
Definition store_bytes_b (how : borrowing) (bs : bpointer) (i : nat) (x : m128) : bcode unit :=
  q <== lift (element Allocation true U8 (to bs) i) ;;
  q <== match how with
        | Word => p <== retag new_unique (mk_bpointer q (tag bs)) 1 ;;
                  retag new_raw p 1
        | Words => p <== retag new_unique bs OUTBYTES ;;
                   p <== retag new_raw p OUTBYTES ;;
                   give_b (mk_bpointer q (tag p))
        end ;;
  storeu_b q x.

(** sse41.rs:668-704 [export_hashes]; the four arrays are at the addresses [places] *)
Definition export_hashes_b (how : borrowing) (places : quad N) (h_vecs : oct m128) (hash_length : u8)
  : bcode (quad Hash) :=
  bytes0 <== local_b (q0 places) (repeat x00 OUTBYTES) ;;
  bytes1 <== local_b (q1 places) (repeat x00 OUTBYTES) ;;
  bytes2 <== local_b (q2 places) (repeat x00 OUTBYTES) ;;
  bytes3 <== local_b (q3 places) (repeat x00 OUTBYTES) ;;
  let deinterleaved_lo := Sse41.transpose_vecs (o0 h_vecs) (o1 h_vecs) (o2 h_vecs) (o3 h_vecs) in
  _ <== store_bytes_b how bytes0 0 (q0 deinterleaved_lo) ;;
  _ <== store_bytes_b how bytes1 0 (q1 deinterleaved_lo) ;;
  _ <== store_bytes_b how bytes2 0 (q2 deinterleaved_lo) ;;
  _ <== store_bytes_b how bytes3 0 (q3 deinterleaved_lo) ;;
  let deinterleaved_hi := Sse41.transpose_vecs (o4 h_vecs) (o5 h_vecs) (o6 h_vecs) (o7 h_vecs) in
  _ <== store_bytes_b how bytes0 16 (q0 deinterleaved_hi) ;;
  _ <== store_bytes_b how bytes1 16 (q1 deinterleaved_hi) ;;
  _ <== store_bytes_b how bytes2 16 (q2 deinterleaved_hi) ;;
  _ <== store_bytes_b how bytes3 16 (q3 deinterleaved_hi) ;;
  b0 <== read_b (Array U8 OUTBYTES) bytes0 ;;
  b1 <== read_b (Array U8 OUTBYTES) bytes1 ;;
  b2 <== read_b (Array U8 OUTBYTES) bytes2 ;;
  b3 <== read_b (Array U8 OUTBYTES) bytes3 ;;
  give_b (Quad (mk_Hash b0 hash_length) (mk_Hash b1 hash_length)
               (mk_Hash b2 hash_length) (mk_Hash b3 hash_length)).

(** sse41.rs:734-765, the loop of [hash4_exact]; [n] are the lengths of the inputs *)
Fixpoint hash4_exact_loop_b (fuel : nat) (how : borrowing) (places : quad N) (params : Params)
    (input : quad bpointer) (n : quad nat) (len : nat) (h_vecs : oct m128) (count : nat) : bcode (quad Hash) :=
  match fuel with
  | O => fun _ => Stuck
  | S fuel =>
      msg0 <== block_at_b (q0 input) (q0 n) count ;;
      msg1 <== block_at_b (q1 input) (q1 n) count ;;
      msg2 <== block_at_b (q2 input) (q2 n) count ;;
      msg3 <== block_at_b (q3 input) (q3 n) count ;;
      let count := (count + BLOCKBYTES)%nat in
      let count_low := Sse41.set1 (of_N 32 (N.of_nat count)) in
      let count_high := Sse41.set1 (cast 32 (ushr (of_N 64 (N.of_nat count)) 32)) in
      let lastblock := Sse41.set1 (if Nat.eqb count len then umax 32 else uzero 32) in
      let lastnode := Sse41.set1 (if p_last_node params && Nat.eqb count len then umax 32 else uzero 32) in
      h_vecs <== compress4_transposed_b h_vecs msg0 msg1 msg2 msg3 count_low count_high lastblock lastnode ;;
      if Nat.eqb count len then body_b (export_hashes_b how places h_vecs (p_hash_length params))
      else hash4_exact_loop_b fuel how places params input n len h_vecs count
  end.

(** sse41.rs:707-766 [hash4_exact], for [how = Word] *)
Definition hash4_exact_b (how : borrowing) (places : quad N) (params : Params) (input : quad bpointer) (n : quad nat)
  : bcode (quad Hash) :=
  let param_words := make_words params in
  let h_vecs := oct_map Sse41.set1 param_words in
  hash4_exact_loop_b (S (q0 n)) how places params input n (q0 n) h_vecs 0.

(** ** Words for the statements *)

(** Everything on the stacks and all that is protected is older than the next tag. *)
Definition old (w : world) : Prop :=
  (forall a k, Forall (fun i => owner i < next w) (borrows w a k)) /\ Forall (fun t => t < next w) (held w).
(** A [&mut] to [n] bytes that was just made: on top of their stacks. *)
Definition exclusive (w : world) (p : bpointer) (n : nat) : Prop :=
  forall k, offset (to p) <= k < offset (to p) + n ->
  exists s, borrows w (alloc (to p)) k = mk_item Unique (tag p) :: s.
(** A [&] to [n] bytes: among the shared borrows on top. *)
Definition frozen (w : world) (p : bpointer) (n : nat) : Prop :=
  forall k, offset (to p) <= k < offset (to p) + n ->
  exists up s, borrows w (alloc (to p)) k = up ++ mk_item SharedRO (tag p) :: s /\ Forall (fun i => allows i = SharedRO) up.
(** All borrows of [w] are still there in [w'], and the same are protected. *)
Definition keeps (w w' : world) : Prop :=
  (forall a k, exists up, borrows w' a k = up ++ borrows w a k) /\ held w' = held w.
(** The same for the allocations of [w]: a function may reuse the place of another's locals. *)
Definition keeps_live (w w' : world) : Prop :=
  (forall a k, a < length (mem w) -> exists up, borrows w' a k = up ++ borrows w a k) /\ held w' = held w.
