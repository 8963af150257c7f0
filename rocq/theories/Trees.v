(** * Trees: the code of [Memory], under Tree Borrows.

    Tree Borrows (Villani, Hostert, Dreyer, Jung, PLDI 2025) are the proposed successor of
    Stacked Borrows ([Borrows]).  The tags of an allocation form a tree: a reference made from
    a pointer is its child.  Every tag has a permission for every byte.  An access with a tag
    is an access by a child for the tag and those above it, and by a stranger for all others.
    A raw pointer has the tag of the reference it is made from, and a reference may be used
    outside the bytes it was made for, if the tree allows it.

    Without interior mutability, which the code does not use.  References passed to functions
    of the crate that use them for memory the caller sees are protected while the function
    runs ([protecting]).  The functions from [load_2x256_tb] on are those of [Borrows], with
    [_tb] for [_b]. *)
From Verif Require Import Base Consts Intrinsics Portable Params Memory.
From Verif Require Sse41 Avx2.
Local Open Scope nat_scope.

(** ** Trees of borrows *)

(** [Reserved]: a [&mut] not yet written through; [Conflicted]: the same, and another has read
    the byte while the tag was protected; [Active]: one that was written through; [Frozen]:
    read only *)
Inductive permission := Reserved | Conflicted | Active | Frozen | Disabled.
(** What a tree says about a tag and a byte; [used]: the byte was accessed with the tag or one
    below it. *)
Record cell := mk_cell { perm : permission; used : bool }.
(** A tag that is not in the tree *)
Definition absent : cell := mk_cell Disabled false.
(** May the tag, or one below it, read ([write = false]) or write?  And what is the
    permission afterwards?  [guarded]: the tag is protected. *)
Definition allowed (guarded write : bool) (c : cell) : bool :=
  match perm c with
  | Reserved => true
  | Conflicted => negb (guarded && write)
  | Active => true
  | Frozen => negb write
  | Disabled => false
  end.
Definition by_child (write : bool) (c : cell) : cell := mk_cell (if write then Active else perm c) true.
(** What an access with a tag that is not below does to a permission; and when a protected tag
    forbids it *)
Definition by_stranger (guarded write : bool) (c : cell) : cell :=
  mk_cell (if write then Disabled
           else match perm c with
                | Reserved => if guarded then Conflicted else Reserved
                | Active => if guarded then Disabled else Frozen
                | p => p
                end) (used c).
Definition forbids (write : bool) (c : cell) : bool :=
  used c && match perm c with Active => true | Disabled => false | _ => write end.

Definition member (t : nat) (ts : list nat) : bool := existsb (Nat.eqb t) ts.
(** An access to a byte with a tag; [up] are the tag and those above it, [held] the protected
    tags.  [f] are the permissions for the byte. *)
Definition access (held : list nat) (write : bool) (up : list nat) (f : nat -> cell) : option (nat -> cell) :=
  if forallb (fun t => allowed (member t held) write (f t)) up && forallb (fun t => member t up || negb (forbids write (f t))) held
  then Some (fun t => if member t up then by_child write (f t) else by_stranger (member t held) write (f t))
  else None.

(** ** Code *)

(** For every byte of every allocation, every tag *)
Definition trees := nat -> nat -> nat -> cell.
Definition covers (a i n b k : nat) : bool := Nat.eqb b a && ((i <=? k) && (k <? i + n)).
(** An access to bytes [i..i+n] of allocation [a] *)
Definition over (held : list nat) (write : bool) (up : list nat) (a i n : nat) (s : trees) : option trees :=
  if forallb (fun k => match access held write up (s a k) with Some _ => true | None => false end) (seq i n)
  then Some (fun b k => if covers a i n b k then match access held write up (s b k) with Some f => f | None => s b k end else s b k)
  else None.

(** [family w t]: the tag [t] and those above it in its tree; [held w]: the protected tags *)
Record world := mk_world { mem : memory; family : nat -> list nat; perms : trees; next : nat; held : list nat }.
Record bpointer := mk_bpointer { to : pointer; tag : nat }.
Definition bcode (A : Type) : Type := world -> outcome (A * world).
Definition give_tb {A} (a : A) : bcode A := fun w => Ok (a, w).
Definition andthen_tb {A B} (x : bcode A) (f : A -> bcode B) : bcode B :=
  fun w => bind (x w) (fun '(a, w) => f a w).
Notation "x <== e ;; k" := (andthen_tb e (fun x => k))
  (at level 100, e at next level, right associativity).
Notation "' p <== e ;; k" := (andthen_tb e (fun p => k))
  (at level 100, p pattern, e at next level, right associativity).
Definition lift {A} (x : code A) : bcode A :=
  fun w => '(a, m) <- x (mem w) ;; Ok (a, mk_world m (family w) (perms w) (next w) (held w)).
(** Code on memory that accesses [n] bytes from [p] on *)
Definition acting {A} (x : code A) (write : bool) (p : bpointer) (n : nat) : bcode A :=
  fun w => '(a, m) <- x (mem w) ;;
           match over (held w) write (family w (tag p)) (alloc (to p)) (offset (to p)) n (perms w) with
           | None => UB
           | Some s => Ok (a, mk_world m (family w) s (next w) (held w))
           end.
(** A reference to [n] bytes made from [p].  This counts as a read.  The new tag has the
    same permission for all bytes of the allocation, those outside the [n] included. *)
Definition retag (first : permission) (p : bpointer) (n : nat) : bcode bpointer :=
  fun w => match over (held w) false (family w (tag p)) (alloc (to p)) (offset (to p)) n (perms w) with
           | None => UB
           | Some s =>
               Ok (mk_bpointer (to p) (next w),
                   mk_world (mem w)
                     (fun t => if Nat.eqb t (next w) then next w :: family w (tag p) else family w t)
                     (fun b k t => if Nat.eqb t (next w)
                                   then (if Nat.eqb b (alloc (to p)) then mk_cell first (covers (alloc (to p)) (offset (to p)) n b k) else absent)
                                   else s b k t)
                     (S (next w)) (held w))
           end.
(** The end of the protection of [p]: every byte of its allocation ([n] bytes) accessed with
    it is accessed once more, written if it was written before.  Those below do not see it. *)
Definition active (p : permission) : bool := match p with Active => true | _ => false end.
Definition release (held : list nat) (fam : nat -> list nat) (t a n : nat) (s : trees) : option trees :=
  let last k := access held (active (perm (s a k t))) (fam t) (s a k) in
  if forallb (fun k => negb (used (s a k t)) || match last k with Some _ => true | None => false end) (seq 0 n)
  then Some (fun b k u => if covers a 0 n b k && used (s a k t) && (Nat.eqb u t || negb (member t (fam u)))
                          then match last k with Some f => f u | None => s b k u end
                          else s b k u)
  else None.
Definition size_at (m : memory) (a : nat) : nat := match nth_error m a with Some o => length (bytes o) | None => 0 end.
Fixpoint releases (held : list nat) (fam : nat -> list nat) (m : memory) (ps : list bpointer) (s : trees) : option trees :=
  match ps with
  | [] => Some s
  | p :: ps =>
      match release held fam (tag p) (alloc (to p)) (size_at m (alloc (to p))) s with
      | Some s => releases held fam m ps s
      | None => None
      end
  end.
(** A function called with the references [ps] *)
Definition protecting {A} (ps : list bpointer) (x : bcode A) : bcode A :=
  fun w => bind (x (mk_world (mem w) (family w) (perms w) (next w) (map tag ps ++ held w)))
             (fun '(a, w') => match releases (held w') (family w') (mem w') ps (perms w') with
                              | None => UB
                              | Some s => Ok (a, mk_world (mem w') (family w') s (next w') (held w))
                              end).

Definition ptr_add_tb (t : ty) (p : bpointer) (n : nat) : bcode bpointer :=
  q <== lift (ptr_add t (to p) n) ;;
  give_tb (mk_bpointer q (tag p)).
Definition reborrow_tb (mut : bool) (t : ty) (p : bpointer) : bcode bpointer :=
  q <== lift (reborrow Allocation mut t (to p)) ;;
  retag (if mut then Reserved else Frozen) (mk_bpointer q (tag p)) (size_of t).
Definition read_unaligned_tb (p : bpointer) (n : nat) : bcode (list byte) :=
  acting (read_unaligned Allocation (to p) n) false p n.
Definition read_tb (t : ty) (p : bpointer) : bcode (list byte) :=
  acting (read Allocation t (to p)) false p (size_of t).
Definition write_unaligned_tb (p : bpointer) (bs : list byte) : bcode unit :=
  acting (write_unaligned Allocation (to p) bs) true p (length bs).
Definition write_tb (t : ty) (p : bpointer) (bs : list byte) : bcode unit :=
  acting (write Allocation t (to p) bs) true p (length bs).
(** [p.as_ptr()] for [n] bytes; a [&] and a [&mut] to [n] bytes passed to a function *)
Definition as_ptr_tb (p : bpointer) (n : nat) : bcode bpointer := retag Frozen p n.
Definition pass_tb (p : bpointer) (n : nat) : bcode bpointer := retag Frozen p n.
Definition pass_mut_tb (p : bpointer) (n : nat) : bcode bpointer := retag Reserved p n.

(** ** avx2.rs *)

(** The [_mm256_loadu_si256] instruction; avx2.rs:18-20 [loadu] *)
Definition _mm256_loadu_tb (p : bpointer) : bcode m256 :=
  bs <== read_unaligned_tb p 32 ;;
  give_tb (m256_of_bytes bs).
Definition loadu256_tb (p : bpointer) : bcode m256 := _mm256_loadu_tb p.

(** avx2.rs:368-373 [load_2x256] *)
Definition load_2x256_tb (msg : bpointer) : bcode (m256 * m256) :=
  msg <== pass_tb msg BLOCKBYTES ;;
  protecting [msg]
  (a <== (p <== as_ptr_tb msg BLOCKBYTES ;;
          _mm256_loadu_tb p) ;;
   b <== (p <== as_ptr_tb msg BLOCKBYTES ;;
          q <== ptr_add_tb M256 p 1 ;;
          _mm256_loadu_tb q) ;;
   give_tb (a, b)).

(** avx2.rs:506-552 [load_msg_vecs_interleave] *)
Definition load_msg_vecs_interleave_tb (msg : oct bpointer) : bcode (list m256) :=
  msg_a <== pass_tb (o0 msg) BLOCKBYTES ;;
  msg_b <== pass_tb (o1 msg) BLOCKBYTES ;;
  msg_c <== pass_tb (o2 msg) BLOCKBYTES ;;
  msg_d <== pass_tb (o3 msg) BLOCKBYTES ;;
  msg_e <== pass_tb (o4 msg) BLOCKBYTES ;;
  msg_f <== pass_tb (o5 msg) BLOCKBYTES ;;
  msg_g <== pass_tb (o6 msg) BLOCKBYTES ;;
  msg_h <== pass_tb (o7 msg) BLOCKBYTES ;;
  protecting [msg_a; msg_b; msg_c; msg_d; msg_e; msg_f; msg_g; msg_h]
  ('(front_a, back_a) <== load_2x256_tb msg_a ;;
   '(front_b, back_b) <== load_2x256_tb msg_b ;;
   '(front_c, back_c) <== load_2x256_tb msg_c ;;
   '(front_d, back_d) <== load_2x256_tb msg_d ;;
   '(front_e, back_e) <== load_2x256_tb msg_e ;;
   '(front_f, back_f) <== load_2x256_tb msg_f ;;
   '(front_g, back_g) <== load_2x256_tb msg_g ;;
   '(front_h, back_h) <== load_2x256_tb msg_h ;;
   let front_interleaved := Avx2.transpose_vecs (Oct front_a front_b front_c front_d front_e front_f front_g front_h) in
   let back_interleaved := Avx2.transpose_vecs (Oct back_a back_b back_c back_d back_e back_f back_g back_h) in
   give_tb (oct_list front_interleaved ++ oct_list back_interleaved)).

(** [vecs[i]] and [vecs[i] = x] for [vecs: &mut [__m256i; 8]] *)
Definition vec_get_tb (vecs : bpointer) (i : nat) : bcode m256 :=
  p <== ptr_add_tb M256 vecs i ;;
  bs <== read_tb M256 p ;;
  give_tb (m256_of_bytes bs).
Definition vec_set_tb (vecs : bpointer) (i : nat) (x : m256) : bcode unit :=
  p <== ptr_add_tb M256 vecs i ;;
  write_tb M256 p (m256_bytes x).
Definition vecs_get_tb (vecs : bpointer) : bcode (oct m256) :=
  a0 <== vec_get_tb vecs 0 ;;
  a1 <== vec_get_tb vecs 1 ;;
  a2 <== vec_get_tb vecs 2 ;;
  a3 <== vec_get_tb vecs 3 ;;
  a4 <== vec_get_tb vecs 4 ;;
  a5 <== vec_get_tb vecs 5 ;;
  a6 <== vec_get_tb vecs 6 ;;
  a7 <== vec_get_tb vecs 7 ;;
  give_tb (Oct a0 a1 a2 a3 a4 a5 a6 a7).

(** avx2.rs:606-652 [compress8_transposed_inline] on vectors in memory *)
Definition compress8_transposed_tb (h_vecs : bpointer) (msg_vecs : list m256)
    (count_low count_high lastblock lastnode : m256) : bcode unit :=
  h <== vecs_get_tb h_vecs ;;
  let v := rounds8 h msg_vecs count_low count_high lastblock lastnode in
  let step i :=
    (x <== vec_get_tb h_vecs i ;;
     vec_set_tb h_vecs i (Avx2.xor x (Avx2.xor (Avx2.vget v i) (Avx2.vget v (8 + i))))) in
  _ <== step 0 ;;
  _ <== step 1 ;;
  _ <== step 2 ;;
  _ <== step 3 ;;
  _ <== step 4 ;;
  _ <== step 5 ;;
  _ <== step 6 ;;
  step 7.

(** [&mut *(words as *mut _ as *mut [__m256i; 8])] *)
Definition cast_vecs_tb (words : bpointer) : bcode bpointer :=
  reborrow_tb true (Array M256 8) words.

(** avx2.rs:440-443 [vectorize_words8], with 402-437 [transpose_vecs] on vectors in memory *)
Definition vectorize_words8_tb (words : bpointer) : bcode unit :=
  vecs <== cast_vecs_tb words ;;
  vecs <== pass_mut_tb vecs 256 ;;
  protecting [vecs]
  (v <== vecs_get_tb vecs ;;
   let v := Avx2.transpose_vecs v in
   _ <== vec_set_tb vecs 0 (o0 v) ;;
   _ <== vec_set_tb vecs 1 (o1 v) ;;
   _ <== vec_set_tb vecs 2 (o2 v) ;;
   _ <== vec_set_tb vecs 3 (o3 v) ;;
   _ <== vec_set_tb vecs 4 (o4 v) ;;
   _ <== vec_set_tb vecs 5 (o5 v) ;;
   _ <== vec_set_tb vecs 6 (o6 v) ;;
   vec_set_tb vecs 7 (o7 v)).

(** avx2.rs:558-585 [compress8_vectorized] *)
Definition compress8_vectorized_tb (states : bpointer) (msg : oct bpointer)
    (count_low count_high lastblock lastnode : bpointer) : bcode unit :=
  h_vecs <== cast_vecs_tb states ;;
  msg_vecs <== load_msg_vecs_interleave_tb msg ;;
  h_vecs <== pass_mut_tb h_vecs 256 ;;
  low <== read_tb AlignedWords8_ty count_low ;;
  high <== read_tb AlignedWords8_ty count_high ;;
  last <== read_tb AlignedWords8_ty lastblock ;;
  node <== read_tb AlignedWords8_ty lastnode ;;
  protecting [h_vecs]
  (compress8_transposed_tb h_vecs msg_vecs (transmute_m256 low) (transmute_m256 high)
     (transmute_m256 last) (transmute_m256 node)).

(** [loadu(h.as_ptr())] *)
Definition load_state_tb (h : bpointer) : bcode m256 :=
  p <== as_ptr_tb h 32 ;;
  loadu256_tb p.

(** avx2.rs:209-325 [compress8]; its [h_vecs] is a local *)
Definition compress8_tb (h msg : oct bpointer) (count : oct u64) (lastblock lastnode : oct u32) : bcode unit :=
  h0 <== load_state_tb (o0 h) ;;
  h1 <== load_state_tb (o1 h) ;;
  h2 <== load_state_tb (o2 h) ;;
  h3 <== load_state_tb (o3 h) ;;
  h4 <== load_state_tb (o4 h) ;;
  h5 <== load_state_tb (o5 h) ;;
  h6 <== load_state_tb (o6 h) ;;
  h7 <== load_state_tb (o7 h) ;;
  let h_vecs := Avx2.transpose_vecs (Oct h0 h1 h2 h3 h4 h5 h6 h7) in
  let vec (x : oct u32) := Avx2.load_256_from_8xu32 (o0 x) (o1 x) (o2 x) (o3 x) (o4 x) (o5 x) (o6 x) (o7 x) in
  msg_vecs <== load_msg_vecs_interleave_tb msg ;;
  let h_vecs := Avx2.compress8_transposed h_vecs msg_vecs
                  (vec (oct_map (cast 32) count)) (vec (oct_map (fun x => cast 32 (ushr x 32)) count))
                  (vec lastblock) (vec lastnode) in
  let h_vecs := Avx2.transpose_vecs h_vecs in
  _ <== write_tb StateWords_ty (o0 h) (m256_bytes (o0 h_vecs)) ;;
  _ <== write_tb StateWords_ty (o1 h) (m256_bytes (o1 h_vecs)) ;;
  _ <== write_tb StateWords_ty (o2 h) (m256_bytes (o2 h_vecs)) ;;
  _ <== write_tb StateWords_ty (o3 h) (m256_bytes (o3 h_vecs)) ;;
  _ <== write_tb StateWords_ty (o4 h) (m256_bytes (o4 h_vecs)) ;;
  _ <== write_tb StateWords_ty (o5 h) (m256_bytes (o5 h_vecs)) ;;
  _ <== write_tb StateWords_ty (o6 h) (m256_bytes (o6 h_vecs)) ;;
  write_tb StateWords_ty (o7 h) (m256_bytes (o7 h_vecs)).

(** [&*(input.as_ptr().add(count) as *const Block)]; [len] is [input.len()] *)
Definition block_at_tb (input : bpointer) (len count : nat) : bcode bpointer :=
  p <== as_ptr_tb input len ;;
  p <== ptr_add_tb U8 p count ;;
  reborrow_tb false Block_ty p.

(** avx2.rs:730-763, the loop of [hash8_exact] *)
Fixpoint hash8_exact_loop_tb (fuel : nat) (params : Params) (input : oct bpointer) (n : oct nat)
    (len : nat) (h_vecs : oct m256) (count : nat) : bcode (oct Hash) :=
  match fuel with
  | O => fun _ => Stuck
  | S fuel =>
      msg0 <== block_at_tb (o0 input) (o0 n) count ;;
      msg1 <== block_at_tb (o1 input) (o1 n) count ;;
      msg2 <== block_at_tb (o2 input) (o2 n) count ;;
      msg3 <== block_at_tb (o3 input) (o3 n) count ;;
      msg4 <== block_at_tb (o4 input) (o4 n) count ;;
      msg5 <== block_at_tb (o5 input) (o5 n) count ;;
      msg6 <== block_at_tb (o6 input) (o6 n) count ;;
      msg7 <== block_at_tb (o7 input) (o7 n) count ;;
      let count := (count + BLOCKBYTES)%nat in
      let count_low := Avx2.load_256_from_u32 (of_N 32 (N.of_nat count)) in
      let count_high := Avx2.load_256_from_u32 (cast 32 (ushr (of_N 64 (N.of_nat count)) 32)) in
      let lastblock := Avx2.load_256_from_u32 (if Nat.eqb count len then umax 32 else uzero 32) in
      let lastnode := Avx2.load_256_from_u32
                        (if p_last_node params && Nat.eqb count len then umax 32 else uzero 32) in
      msg_vecs <== load_msg_vecs_interleave_tb (Oct msg0 msg1 msg2 msg3 msg4 msg5 msg6 msg7) ;;
      let h_vecs := Avx2.compress8_transposed h_vecs msg_vecs count_low count_high lastblock lastnode in
      if Nat.eqb count len then give_tb (Avx2.export_hashes h_vecs (p_hash_length params))
      else hash8_exact_loop_tb fuel params input n len h_vecs count
  end.

(** avx2.rs:698-764 [hash8_exact]; [n] are the lengths of the inputs *)
Definition hash8_exact_tb (params : Params) (input : oct bpointer) (n : oct nat) : bcode (oct Hash) :=
  let param_words := make_words params in
  let h_vecs := oct_map Avx2.load_256_from_u32 param_words in
  hash8_exact_loop_tb (S (o0 n)) params input n (o0 n) h_vecs 0.

(** ** sse41.rs *)

(** sse41.rs:9-11 [loadu], 24-26 [storeu] *)
Definition loadu_tb (p : bpointer) : bcode m128 :=
  bs <== read_unaligned_tb p 16 ;;
  give_tb (m128_of_bytes bs).
Definition storeu_tb (p : bpointer) (x : m128) : bcode unit := write_unaligned_tb p (m128_bytes x).

(** [&h[i]] and [&mut h[i]], cast to raw pointers *)
Definition const_at_tb (h : bpointer) (i : nat) : bcode bpointer :=
  q <== lift (element Allocation false U32 (to h) i) ;;
  retag Frozen (mk_bpointer q (tag h)) 4.
Definition mut_at_tb (h : bpointer) (i : nat) : bcode bpointer :=
  q <== lift (element Allocation true U32 (to h) i) ;;
  retag Reserved (mk_bpointer q (tag h)) 4.
(** [loadu(&h[i])]; [loadu(msg.as_ptr().add(i) as *const u32)] *)
Definition load_words_tb (h : bpointer) (i : nat) : bcode m128 :=
  p <== const_at_tb h i ;;
  loadu_tb p.
Definition load_bytes_tb (msg : bpointer) (i : nat) : bcode m128 :=
  p <== as_ptr_tb msg BLOCKBYTES ;;
  p <== ptr_add_tb U8 p i ;;
  loadu_tb p.
(** [storeu(&mut h[i], xor(loadu(&h[i]), x))] *)
Definition xor_words_tb (h : bpointer) (i : nat) (x : m128) : bcode unit :=
  q <== mut_at_tb h i ;;
  y <== load_words_tb h i ;;
  storeu_tb q (Sse41.xor y x).

(** sse41.rs:127-371 [compress] *)
Definition compress_tb (iv h msg : bpointer) (count : u64) (lastblock lastnode : u32) : bcode unit :=
  row1 <== load_words_tb h 0 ;;
  row2 <== load_words_tb h 4 ;;
  row3 <== load_words_tb iv 0 ;;
  iv4 <== load_words_tb iv 4 ;;
  let row4 := Sse41.xor iv4 (Sse41.setr (cast 32 count) (cast 32 (ushr count 32)) lastblock lastnode) in
  m0 <== load_bytes_tb msg 0 ;;
  m1 <== load_bytes_tb msg 16 ;;
  m2 <== load_bytes_tb msg 32 ;;
  m3 <== load_bytes_tb msg 48 ;;
  let '(row1, row2, row3, row4) := compress_rounds row1 row2 row3 row4 m0 m1 m2 m3 in
  _ <== xor_words_tb h 0 (Sse41.xor row1 row3) ;;
  xor_words_tb h 4 (Sse41.xor row2 row4).

(** sse41.rs:14-21 [loadu_4]; [p] is a raw pointer *)
Definition loadu_4_tb (p : bpointer) : bcode (quad m128) :=
  p0 <== ptr_add_tb M128 p 0 ;;
  a0 <== loadu_tb p0 ;;
  p1 <== ptr_add_tb M128 p 1 ;;
  a1 <== loadu_tb p1 ;;
  p2 <== ptr_add_tb M128 p 2 ;;
  a2 <== loadu_tb p2 ;;
  p3 <== ptr_add_tb M128 p 3 ;;
  a3 <== loadu_tb p3 ;;
  give_tb (Quad a0 a1 a2 a3).
(** [loadu_4(msg.as_ptr())] *)
Definition load_block_tb (msg : bpointer) : bcode (quad m128) :=
  p <== as_ptr_tb msg BLOCKBYTES ;;
  loadu_4_tb p.

(** sse41.rs:442-476 [transpose_message_blocks] *)
Definition transpose_message_blocks_tb (msg_a msg_b msg_c msg_d : bpointer) : bcode (list m128) :=
  msg_a <== pass_tb msg_a BLOCKBYTES ;;
  msg_b <== pass_tb msg_b BLOCKBYTES ;;
  msg_c <== pass_tb msg_c BLOCKBYTES ;;
  msg_d <== pass_tb msg_d BLOCKBYTES ;;
  protecting [msg_a; msg_b; msg_c; msg_d]
  ('(Quad a0 a1 a2 a3) <== load_block_tb msg_a ;;
   '(Quad b0 b1 b2 b3) <== load_block_tb msg_b ;;
   '(Quad c0 c1 c2 c3) <== load_block_tb msg_c ;;
   '(Quad d0 d1 d2 d3) <== load_block_tb msg_d ;;
   let transposed0 := Sse41.transpose_vecs a0 b0 c0 d0 in
   let transposed1 := Sse41.transpose_vecs a1 b1 c1 d1 in
   let transposed2 := Sse41.transpose_vecs a2 b2 c2 d2 in
   let transposed3 := Sse41.transpose_vecs a3 b3 c3 d3 in
   give_tb
   [q0 transposed0; q1 transposed0; q2 transposed0; q3 transposed0;
    q0 transposed1; q1 transposed1; q2 transposed1; q3 transposed1;
    q0 transposed2; q1 transposed2; q2 transposed2; q3 transposed2;
    q0 transposed3; q1 transposed3; q2 transposed3; q3 transposed3]).

(** sse41.rs:596-647 [compress4_transposed_inline]; the caller's [h_vecs] is a local *)
Definition compress4_transposed_tb (h_vecs : oct m128) (msg0 msg1 msg2 msg3 : bpointer)
    (count_low count_high lastblock lastnode : m128) : bcode (oct m128) :=
  msg0 <== pass_tb msg0 BLOCKBYTES ;;
  msg1 <== pass_tb msg1 BLOCKBYTES ;;
  msg2 <== pass_tb msg2 BLOCKBYTES ;;
  msg3 <== pass_tb msg3 BLOCKBYTES ;;
  protecting [msg0; msg1; msg2; msg3]
  (msg_vecs <== transpose_message_blocks_tb msg0 msg1 msg2 msg3 ;;
   give_tb (compress4_rounds h_vecs msg_vecs count_low count_high lastblock lastnode)).

(** A local variable: a new allocation, with the tag alone in its tree; and a function body.
    It must not end while something protected uses a local. *)
Definition local_tb (a : N) (bs : list byte) : bcode bpointer :=
  fun w => Ok (mk_bpointer (mk_pointer (length (mem w)) 0 0 (length bs) true) (next w),
               mk_world (mem w ++ [mk_object a bs])
                 (fun t => if Nat.eqb t (next w) then [next w] else family w t)
                 (fun b k t => if Nat.eqb t (next w)
                               then (if Nat.eqb b (length (mem w)) then mk_cell Active true else absent)
                               else if Nat.eqb b (length (mem w)) then absent else perms w b k t)
                 (S (next w)) (held w)).
Definition body_tb {A} (x : bcode A) : bcode A :=
  fun w => bind (x w) (fun '(a, w') =>
    if forallb (fun b => forallb (fun k => forallb (fun t => negb (used (perms w' b k t))) (held w')) (seq 0 (size_at (mem w') b)))
         (seq (length (mem w)) (length (mem w') - length (mem w)))
    then Ok (a, mk_world (firstn (length (mem w)) (mem w')) (family w') (perms w') (next w') (held w'))
    else UB).
(** [storeu(&mut bytes[i] as *mut u8 as *mut _, x)] for [bytes: [u8; OUTBYTES]] *)
Definition store_bytes_tb (bs : bpointer) (i : nat) (x : m128) : bcode unit :=
  q <== lift (element Allocation true U8 (to bs) i) ;;
  q <== retag Reserved (mk_bpointer q (tag bs)) 1 ;;
  storeu_tb q x.

(** sse41.rs:668-704 [export_hashes]; the four arrays are at the addresses [places] *)
Definition export_hashes_tb (places : quad N) (h_vecs : oct m128) (hash_length : u8)
  : bcode (quad Hash) :=
  bytes0 <== local_tb (q0 places) (repeat x00 OUTBYTES) ;;
  bytes1 <== local_tb (q1 places) (repeat x00 OUTBYTES) ;;
  bytes2 <== local_tb (q2 places) (repeat x00 OUTBYTES) ;;
  bytes3 <== local_tb (q3 places) (repeat x00 OUTBYTES) ;;
  let deinterleaved_lo := Sse41.transpose_vecs (o0 h_vecs) (o1 h_vecs) (o2 h_vecs) (o3 h_vecs) in
  _ <== store_bytes_tb bytes0 0 (q0 deinterleaved_lo) ;;
  _ <== store_bytes_tb bytes1 0 (q1 deinterleaved_lo) ;;
  _ <== store_bytes_tb bytes2 0 (q2 deinterleaved_lo) ;;
  _ <== store_bytes_tb bytes3 0 (q3 deinterleaved_lo) ;;
  let deinterleaved_hi := Sse41.transpose_vecs (o4 h_vecs) (o5 h_vecs) (o6 h_vecs) (o7 h_vecs) in
  _ <== store_bytes_tb bytes0 16 (q0 deinterleaved_hi) ;;
  _ <== store_bytes_tb bytes1 16 (q1 deinterleaved_hi) ;;
  _ <== store_bytes_tb bytes2 16 (q2 deinterleaved_hi) ;;
  _ <== store_bytes_tb bytes3 16 (q3 deinterleaved_hi) ;;
  b0 <== read_tb (Array U8 OUTBYTES) bytes0 ;;
  b1 <== read_tb (Array U8 OUTBYTES) bytes1 ;;
  b2 <== read_tb (Array U8 OUTBYTES) bytes2 ;;
  b3 <== read_tb (Array U8 OUTBYTES) bytes3 ;;
  give_tb (Quad (mk_Hash b0 hash_length) (mk_Hash b1 hash_length)
               (mk_Hash b2 hash_length) (mk_Hash b3 hash_length)).

(** sse41.rs:734-765, the loop of [hash4_exact]; [n] are the lengths of the inputs *)
Fixpoint hash4_exact_loop_tb (fuel : nat) (places : quad N) (params : Params)
    (input : quad bpointer) (n : quad nat) (len : nat) (h_vecs : oct m128) (count : nat) : bcode (quad Hash) :=
  match fuel with
  | O => fun _ => Stuck
  | S fuel =>
      msg0 <== block_at_tb (q0 input) (q0 n) count ;;
      msg1 <== block_at_tb (q1 input) (q1 n) count ;;
      msg2 <== block_at_tb (q2 input) (q2 n) count ;;
      msg3 <== block_at_tb (q3 input) (q3 n) count ;;
      let count := (count + BLOCKBYTES)%nat in
      let count_low := Sse41.set1 (of_N 32 (N.of_nat count)) in
      let count_high := Sse41.set1 (cast 32 (ushr (of_N 64 (N.of_nat count)) 32)) in
      let lastblock := Sse41.set1 (if Nat.eqb count len then umax 32 else uzero 32) in
      let lastnode := Sse41.set1 (if p_last_node params && Nat.eqb count len then umax 32 else uzero 32) in
      h_vecs <== compress4_transposed_tb h_vecs msg0 msg1 msg2 msg3 count_low count_high lastblock lastnode ;;
      if Nat.eqb count len then body_tb (export_hashes_tb places h_vecs (p_hash_length params))
      else hash4_exact_loop_tb fuel places params input n len h_vecs count
  end.

(** sse41.rs:707-766 [hash4_exact] *)
Definition hash4_exact_tb (places : quad N) (params : Params) (input : quad bpointer) (n : quad nat)
  : bcode (quad Hash) :=
  let param_words := make_words params in
  let h_vecs := oct_map Sse41.set1 param_words in
  hash4_exact_loop_tb (S (q0 n)) places params input n (q0 n) h_vecs 0.

(** ** Words for the statements *)

(** Every tag in use is older than the next one. *)
Definition old (w : world) : Prop :=
  (forall t, t < next w -> Forall (fun u => u < next w) (family w t)) /\ Forall (fun t => t < next w) (held w).
(** [n] bytes from [p] on may be read, may be written through [p], and no protected tag
    forbids it. *)
Definition readable (w : world) (p : bpointer) (n : nat) : Prop :=
  tag p < next w /\
  forall k, offset (to p) <= k < offset (to p) + n ->
  (forall t, In t (family w (tag p)) -> perm (perms w (alloc (to p)) k t) <> Disabled) /\
  (forall t, In t (held w) -> ~ In t (family w (tag p)) -> perm (perms w (alloc (to p)) k t) <> Active).
Definition writable (w : world) (p : bpointer) (n : nat) : Prop :=
  tag p < next w /\
  forall k, offset (to p) <= k < offset (to p) + n ->
  (forall t, In t (family w (tag p)) ->
     let c := perms w (alloc (to p)) k t in perm c = Reserved \/ perm c = Active \/ perm c = Conflicted /\ ~ In t (held w)) /\
  (forall t, In t (held w) -> ~ In t (family w (tag p)) ->
     let c := perms w (alloc (to p)) k t in used c = false \/ perm c = Disabled).
(** No byte is in both. *)
Definition apart (p : bpointer) (n : nat) (q : bpointer) (m : nat) : Prop :=
  alloc (to p) <> alloc (to q) \/ offset (to p) + n <= offset (to q) \/ offset (to q) + m <= offset (to p).
(** After code that writes [written] and may also read [touched], the same tags are protected,
    what could be read elsewhere still can, what could be written and was not accessed still
    can, and so can [written] itself.  (For allocations there are before: a function may reuse
    the place of another's locals.) *)
Definition spares (w w' : world) (written touched : list (bpointer * nat)) : Prop :=
  held w' = held w /\
  (forall p n, alloc (to p) < length (mem w) -> readable w p n ->
     (forall q m, In (q, m) written -> apart p n q m) -> readable w' p n) /\
  (forall p n, alloc (to p) < length (mem w) -> writable w p n ->
     (forall q m, In (q, m) (written ++ touched) -> apart p n q m) -> writable w' p n) /\
  (forall q m, In (q, m) written -> writable w' q m).
(** [n] bytes from each of eight, or four, pointers *)
Definition each (n : nat) (ps : oct bpointer) : list (bpointer * nat) := map (fun p => (p, n)) (oct_list ps).
Definition each4 (n : nat) (ps : quad bpointer) : list (bpointer * nat) := map (fun p => (p, n)) [q0 ps; q1 ps; q2 ps; q3 ps].
