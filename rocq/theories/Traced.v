(** * Traced: the control flow and memory accesses of the crate's functions.

    The functions of the model once more, each with a record of what an observer of the
    program counter and of memory addresses sees: which way every condition goes, which
    ranges of which lengths are accessed, which table entries are read, and which
    compression routines run.  [TracedFacts] proves that, the record aside, these
    functions are the model's ([f_t] is [f]).

    A compression routine is one event.  The routines are straight-line code over words
    with constant indices (portable.rs:12-158, sse41.rs, avx2.rs: no [if], loops only
    with constant bounds), as [Inside] shows for those that index arrays.  Conversions between words
    and bytes ([make_words], [state_words_to_bytes]) are straight-line code as well, and
    so is the text formatting of public numbers.  [default_compress_impl] branches on
    the CPU only and is not recorded. *)
From Verif Require Import Base Consts Portable Params State Many Blake2sp Debug Machine.
From Verif Require Sse41 Avx2.
From Coq Require Import String.
Local Notation length := List.length (only parsing).
Local Open Scope N_scope.

(** The routines that count as one step, with their counters and flags. *)
Inductive routine :=
| Compress (f : CompressFn) (count : u64) (lastblock lastnode : u32)
| Compress8 (f : Compress8Fn) (count : oct u64) (lastblock lastnode : oct u32)
| Vectorize8 (f : Vectorize8Fn)
| Compress8Vectorized (f : Compress8VectorizedFn) (count_low count_high lastblock lastnode : AlignedWords8)
| Compress4Transposed (count : nat) (last node : u32)
| Compress8Transposed (count : nat) (last node : u32).

Inductive event :=
| Branch (b : bool)          (* a condition, and which way it goes *)
| Access (lo hi len : nat)   (* elements [lo..hi] of a slice of length [len] *)
| Lookup (i : nat)           (* entry [i] of the table of hex digits *)
| Run (r : routine).

Definition traced (A : Type) : Type := list event * outcome A.
Definition result {A} (x : traced A) : outcome A := snd x.
Definition events {A} (x : traced A) : list event := fst x.

Definition lift {A} (x : outcome A) : traced A := ([], x).
Definition ret {A} (a : A) : traced A := lift (Ok a).
Definition note {A} (l : list event) (x : outcome A) : traced A := (l, x).
Definition tbind {A B} (x : traced A) (f : A -> traced B) : traced B :=
  match x with
  | (l, Ok a) => let '(l', y) := f a in (l ++ l', y)
  | (l, Panic) => (l, Panic)
  | (l, UB) => (l, UB)
  | (l, Stuck) => (l, Stuck)
  end.
(** [if b { x } else { y }] *)
Definition tif {A} (b : bool) (x y : traced A) : traced A :=
  tbind (note [Branch b] (Ok tt)) (fun _ => if b then x else y).

Notation "x <~ e ;; k" := (tbind e (fun x => k))
  (at level 100, e at next level, right associativity).
Notation "' p <~ e ;; k" := (tbind e (fun p => k))
  (at level 100, p pattern, e at next level, right associativity).

(** ** Base.v *)
Definition uadd_t {w} (c : cfg) (a b : uint w) : traced (uint w) :=
  note (if overflow_checks c then [Branch (val a + val b <? 2 ^ w)] else []) (uadd c a b).
Definition usub_t {w} (c : cfg) (a b : uint w) : traced (uint w) :=
  note (if overflow_checks c then [Branch (val b <=? val a)] else []) (usub c a b).
Definition nsub_t (c : cfg) (a b : nat) : traced nat :=
  note (if overflow_checks c then [Branch (Nat.leb b a)] else []) (nsub c a b).
Definition debug_assert_t (c : cfg) (b : bool) : traced unit :=
  note (if debug_assertions c then [Branch b] else []) (debug_assert c b).
Definition slice_from_t {A} (xs : list A) (lo : nat) : traced (list A) :=
  note [Access lo (length xs) (length xs)] (slice_from xs lo).
Definition slice_to_t {A} (xs : list A) (hi : nat) : traced (list A) :=
  note [Access 0 hi (length xs)] (slice_to xs hi).
Definition copy_into_t {A} (dst : list A) (lo hi : nat) (src : list A) : traced (list A) :=
  note [Access lo hi (length dst); Access 0 (length src) (length src)] (copy_into dst lo hi src).
Definition array_ref_t {A} (xs : list A) (off len : nat) : traced (list A) :=
  note [Access off (off + len) (length xs)] (array_ref xs off len).
Definition raw_read_t {A} (xs : list A) (off len : nat) : traced (list A) :=
  note [Access off (off + len) (length xs)] (raw_read xs off len).
Definition assert_t (b : bool) : traced unit := tif b (ret tt) (lift Panic).
(** [cmp::min(a, b)] and [a.saturating_sub(b)], a condition each *)
Definition min_t (a b : nat) : traced nat := note [Branch (Nat.leb a b)] (Ok (Nat.min a b)).
Definition saturating_sub_t (a b : nat) : traced nat := note [Branch (Nat.leb b a)] (Ok (a - b)%nat).
(** [b0 && b1 && ...], short-circuiting *)
Fixpoint all_t (l : list bool) : traced bool :=
  match l with
  | [] => ret true
  | b :: l => tif b (all_t l) (ret false)
  end.

(** ** Params.v *)
Definition set_hash_length_t (p : Params) (length : N) : traced Params :=
  b <~ all_t [1 <=? length; length <=? N.of_nat OUTBYTES] ;;
  _ <~ assert_t b ;;
  lift (set_hash_length p length).
Definition set_key_t (p : Params) (key : list byte) : traced Params :=
  _ <~ assert_t (Nat.leb (length key) KEYBYTES) ;;
  note [Access 0 (length key) KEYBYTES; Access 0 (length key) (length key)] (set_key p key).
Definition set_salt_t (p : Params) (salt : list byte) : traced Params :=
  _ <~ assert_t (Nat.leb (length salt) SALTBYTES) ;;
  note [Access 0 (length salt) SALTBYTES; Access 0 (length salt) (length salt)] (set_salt p salt).
Definition set_personal_t (p : Params) (personal : list byte) : traced Params :=
  _ <~ assert_t (Nat.leb (length personal) PERSONALBYTES) ;;
  note [Access 0 (length personal) PERSONALBYTES; Access 0 (length personal) (length personal)]
       (set_personal p personal).
Definition set_max_depth_t (p : Params) (depth : u8) : traced Params :=
  note [Branch (negb (val depth =? 0))] (set_max_depth p depth).
Definition set_node_offset_t (p : Params) (offset : u64) : traced Params :=
  note [Branch (val offset <? 2 ^ 48)] (set_node_offset p offset).
Definition set_inner_hash_length_t (p : Params) (length : N) : traced Params :=
  note [Branch (length <=? N.of_nat OUTBYTES)] (set_inner_hash_length p length).
Definition apply_setter_t (p : Params) (s : setter) : traced Params :=
  match s with
  | SHashLength n => set_hash_length_t p n
  | SKey k => set_key_t p k
  | SSalt k => set_salt_t p k
  | SPersonal k => set_personal_t p k
  | SFanout x => lift (set_fanout p x)
  | SMaxDepth x => set_max_depth_t p x
  | SMaxLeafLength x => lift (set_max_leaf_length p x)
  | SNodeOffset x => set_node_offset_t p x
  | SNodeDepth x => lift (set_node_depth p x)
  | SInnerHashLength n => set_inner_hash_length_t p n
  | SLastNode b => lift (set_last_node_param p b)
  end.

Definition as_bytes_t (x : Hash) : traced (list byte) :=
  slice_to_t (h_bytes x) (N.to_nat (val (h_len x))).
(** One digit: the table lookup, and [push], which checks that there is room. *)
Definition push_digit_t (s : list byte) (i : nat) : traced (list byte) :=
  note [Lookup i; Branch (Nat.ltb (length s) HEX_CAP); Access (length s) (S (length s)) HEX_CAP]
       (push_char s (nth i hex_table x00)).
Fixpoint hex_loop_t (s : list byte) (bytes : list byte) : traced (list byte) :=
  match bytes with
  | [] => ret s
  | b :: rest =>
      s <~ push_digit_t s (N.to_nat (N.shiftr (Byte.to_N b) 4)) ;;
      s <~ push_digit_t s (N.to_nat (N.land (Byte.to_N b) 15)) ;;
      hex_loop_t s rest
  end.
Definition to_hex_t (x : Hash) : traced (list byte) :=
  bs <~ as_bytes_t x ;; hex_loop_t [] bs.

(** [constant_time_eq] 0.1: [a.len() == b.len() && constant_time_ne(a, b) == 0], where
    [constant_time_ne] cuts both to [len] and does [for i in 0..len { tmp |= a[i] ^ b[i] }]. *)
Fixpoint ct_ne_t (i len : nat) (tmp : N) (a b : list byte) : traced N :=
  match a, b with
  | x :: a', y :: b' =>
      _ <~ note [Branch true; Access i (S i) len; Access i (S i) len] (Ok tt) ;;
      ct_ne_t (S i) len (N.lor tmp (N.lxor (Byte.to_N x) (Byte.to_N y))) a' b'
  | _, _ => note [Branch false] (Ok tmp)
  end.
Definition constant_time_eq_t (a b : list byte) : traced bool :=
  tif (Nat.eqb (length a) (length b))
    (_ <~ slice_to_t a (length a) ;;
     _ <~ slice_to_t b (length a) ;;
     ne <~ ct_ne_t 0 (length a) 0 a b ;; ret (ne =? 0))
    (ret false).
Definition hash_eq_t (x y : Hash) : traced bool :=
  a <~ as_bytes_t x ;; b <~ as_bytes_t y ;; constant_time_eq_t a b.
Definition hash_eq_slice_t (x : Hash) (other : list byte) : traced bool :=
  a <~ as_bytes_t x ;; constant_time_eq_t a other.

(** ** State.v *)
Definition call_compress_t (c : cfg) (f : CompressFn) (h : StateWords) (msg : Block)
    (count : u64) (lastblock lastnode : u32) : traced StateWords :=
  note [Run (Compress f count lastblock lastnode)] (call_compress c f h msg count lastblock lastnode).
Definition call_compress8_t (c : cfg) (f : Compress8Fn) (h : oct StateWords) (msg : oct Block)
    (count : oct u64) (lastblock lastnode : oct u32) : traced (oct StateWords) :=
  note [Run (Compress8 f count lastblock lastnode)] (call_compress8 c f h msg count lastblock lastnode).
Definition call_vectorize8_t (c : cfg) (f : Vectorize8Fn) (w : oct AlignedWords8)
  : traced (oct AlignedWords8) := note [Run (Vectorize8 f)] (call_vectorize8 c f w).
Definition call_compress8_vectorized_t (c : cfg) (f : Compress8VectorizedFn)
    (w : oct AlignedWords8) (blk : oct Block)
    (count_low count_high lastblock lastnode : AlignedWords8) : traced (oct AlignedWords8) :=
  note [Run (Compress8Vectorized f count_low count_high lastblock lastnode)]
    (call_compress8_vectorized c f w blk count_low count_high lastblock lastnode).

Definition fill_buf_t (c : cfg) (st : State) (input : list byte) : traced (State * list byte) :=
  room <~ nsub_t c BLOCKBYTES (buflen_nat st) ;;
  take <~ min_t room (length input) ;;
  src <~ slice_to_t input take ;;
  buf <~ copy_into_t (st_buf st) (buflen_nat st) (buflen_nat st + take) src ;;
  buflen <~ uadd_t c (st_buflen st) (of_N 8 (N.of_nat take)) ;;
  count <~ uadd_t c (st_count st) (of_N 64 (N.of_nat take)) ;;
  rest <~ slice_from_t input take ;;
  ret ({| st_h := st_h st; st_buf := buf; st_buflen := buflen; st_count := count;
          st_compress_fn := st_compress_fn st; st_last_node := st_last_node st;
          st_hash_length := st_hash_length st |}, rest).

Definition compress_buffer_if_possible_t (c : cfg) (st : State) (input : list byte)
  : traced (State * list byte) :=
  tif (0 <? val (st_buflen st))
    (' (st, input) <~ fill_buf_t c st input ;;
     match input with
     | [] => note [Branch false] (Ok (st, input))
     | _ :: _ =>
         _ <~ note [Branch true] (Ok tt) ;;
         h <~ call_compress_t c (st_compress_fn st) (st_h st) (st_buf st) (st_count st)
                (uzero 32) (uzero 32) ;;
         ret ({| st_h := h; st_buf := st_buf st; st_buflen := uzero 8; st_count := st_count st;
                 st_compress_fn := st_compress_fn st; st_last_node := st_last_node st;
                 st_hash_length := st_hash_length st |}, input)
     end)
    (ret (st, input)).

Fixpoint update_loop_t (fuel : nat) (c : cfg) (st : State) (input : list byte)
  : traced (State * list byte) :=
  match fuel with
  | O => lift Stuck
  | S fuel =>
      tif (Nat.ltb BLOCKBYTES (length input))
        (count <~ uadd_t c (st_count st) (of_N 64 (N.of_nat BLOCKBYTES)) ;;
         block <~ array_ref_t input 0 BLOCKBYTES ;;
         h <~ call_compress_t c (st_compress_fn st) (st_h st) block count (uzero 32) (uzero 32) ;;
         rest <~ slice_from_t input BLOCKBYTES ;;
         update_loop_t fuel c
           {| st_h := h; st_buf := st_buf st; st_buflen := st_buflen st; st_count := count;
              st_compress_fn := st_compress_fn st; st_last_node := st_last_node st;
              st_hash_length := st_hash_length st |} rest)
        (ret (st, input))
  end.

Definition update_t (c : cfg) (st : State) (input : list byte) : traced State :=
  ' (st, input) <~ compress_buffer_if_possible_t c st input ;;
  ' (st, input) <~ update_loop_t (S (length input)) c st input ;;
  ' (st, _) <~ fill_buf_t c st input ;;
  ret st.

Definition with_params_t (c : cfg) (params : Params) : traced State :=
  let state := {|
    st_h := make_words params;
    st_compress_fn := fn_compress (default_compress_impl c);
    st_buf := repeat x00 BLOCKBYTES;
    st_buflen := of_N 8 0;
    st_count := of_N 64 0;
    st_last_node := p_last_node params;
    st_hash_length := p_hash_length params |} in
  tif (0 <? val (p_key_length params))
    (key_block <~ copy_into_t (repeat x00 BLOCKBYTES) 0 KEYBYTES (p_key params) ;;
     update_t c state key_block)
    (ret state).

(** [for i in buflen..BLOCKBYTES { buf[i] = 0 }] *)
Definition zero_tail_t (buf : Block) (buflen : nat) : traced Block :=
  note (flat_map (fun i => [Branch true; Access i (S i) (length buf)]) (seq buflen (BLOCKBYTES - buflen))
        ++ [Branch false])
       (Ok (zero_tail buf buflen)).
Definition flag32_t (b : bool) : traced u32 := note [Branch b] (Ok (flag32 b)).

Definition finalize_t (c : cfg) (st : State) : traced (State * Hash) :=
  buf <~ zero_tail_t (st_buf st) (buflen_nat st) ;;
  let st := {| st_h := st_h st; st_buf := buf;
               st_buflen := st_buflen st; st_count := st_count st;
               st_compress_fn := st_compress_fn st; st_last_node := st_last_node st;
               st_hash_length := st_hash_length st |} in
  last_node <~ flag32_t (st_last_node st) ;;
  h_copy <~ call_compress_t c (st_compress_fn st) (st_h st) (st_buf st) (st_count st)
              (umax 32) last_node ;;
  ret (st, {| h_bytes := state_words_to_bytes h_copy; h_len := st_hash_length st |}).

Definition hash_one_t (c : cfg) (params : Params) (input : list byte) : traced Hash :=
  st <~ with_params_t c params ;;
  st <~ update_t c st input ;;
  ' (_, h) <~ finalize_t c st ;;
  ret h.
Definition blake2s_t (c : cfg) (input : list byte) : traced Hash := hash_one_t c Params_default input.
Definition write_t (c : cfg) (st : State) (buf : list byte) : traced (State * nat) :=
  st <~ update_t c st buf ;; ret (st, length buf).

(** ** Many.v *)
Definition oct_mapM_t {A B} (f : A -> traced B) (a : oct A) : traced (oct B) :=
  x0 <~ f (o0 a) ;; x1 <~ f (o1 a) ;; x2 <~ f (o2 a) ;; x3 <~ f (o3 a) ;;
  x4 <~ f (o4 a) ;; x5 <~ f (o5 a) ;; x6 <~ f (o6 a) ;; x7 <~ f (o7 a) ;;
  ret (Oct x0 x1 x2 x3 x4 x5 x6 x7).
Definition oct_mapM2_t {A B C} (f : A -> B -> traced C) (a : oct A) (b : oct B) : traced (oct C) :=
  x0 <~ f (o0 a) (o0 b) ;; x1 <~ f (o1 a) (o1 b) ;; x2 <~ f (o2 a) (o2 b) ;;
  x3 <~ f (o3 a) (o3 b) ;; x4 <~ f (o4 a) (o4 b) ;; x5 <~ f (o5 a) (o5 b) ;;
  x6 <~ f (o6 a) (o6 b) ;; x7 <~ f (o7 a) (o7 b) ;;
  ret (Oct x0 x1 x2 x3 x4 x5 x6 x7).
Definition oct_all_t {A} (f : A -> bool) (a : oct A) : traced bool := all_t (oct_list (oct_map f a)).

Definition bump_count_t (c : cfg) (st : State) : traced State :=
  n <~ uadd_t c (st_count st) (of_N 64 (N.of_nat BLOCKBYTES)) ;; ret (set_count st n).

Fixpoint update8_loop_t (fuel : nat) (c : cfg) (compress8_fn : Compress8Fn)
    (states : oct State) (inputs : oct (list byte)) : traced (oct State * oct (list byte)) :=
  match fuel with
  | O => lift Stuck
  | S fuel =>
      more <~ oct_all_t (fun i => Nat.ltb BLOCKBYTES (length i)) inputs ;;
      tif more
        (states <~ oct_mapM_t (bump_count_t c) states ;;
         blocks <~ oct_mapM_t (fun i => array_ref_t i 0 BLOCKBYTES) inputs ;;
         hs <~ call_compress8_t c compress8_fn (oct_map st_h states) blocks (oct_map st_count states)
                 (oct_const (uzero 32)) (oct_const (uzero 32)) ;;
         inputs <~ oct_mapM_t (fun i => slice_from_t i BLOCKBYTES) inputs ;;
         update8_loop_t fuel c compress8_fn (oct_map2 set_h states hs) inputs)
        (ret (states, inputs))
  end.
Definition update8_t (c : cfg) (states : oct State) (inputs : oct (list byte)) : traced (oct State) :=
  si <~ oct_mapM2_t (compress_buffer_if_possible_t c) states inputs ;;
  let compress8_fn := fn_compress8 (default_compress_impl c) in
  ' (states, inputs) <~ update8_loop_t (S (length (snd (o0 si)))) c compress8_fn
                          (oct_map fst si) (oct_map snd si) ;;
  oct_mapM2_t (update_t c) states inputs.

Definition finalize8_t (c : cfg) (states : oct State) : traced (oct State * oct Hash) :=
  states <~ oct_mapM_t (fun st => b <~ zero_tail_t (st_buf st) (buflen_nat st) ;; ret (set_buf st b)) states ;;
  last_nodes <~ oct_mapM_t (fun st => flag32_t (st_last_node st)) states ;;
  let h_copies := oct_map st_h states in
  let compress8_fn := fn_compress8 (default_compress_impl c) in
  hs <~ call_compress8_t c compress8_fn h_copies (oct_map st_buf states) (oct_map st_count states)
          (oct_const (umax 32)) last_nodes ;;
  ret (states,
       oct_map2 (fun st h => {| h_bytes := state_words_to_bytes h; h_len := st_hash_length st |})
                states hs).

(** Sse41.v and Avx2.v: the [loop]s with raw pointers.  The conditions are [count == len]
    and [params.last_node && count == len]. *)
Fixpoint sse41_hash4_exact_loop_t (fuel : nat) (params : Params) (input0 input1 input2 input3 : list byte)
    (len : nat) (h_vecs : oct Intrinsics.m128) (count : nat) : traced (quad Hash) :=
  match fuel with
  | O => lift Stuck
  | S fuel =>
      msg0 <~ raw_read_t input0 count BLOCKBYTES ;;
      msg1 <~ raw_read_t input1 count BLOCKBYTES ;;
      msg2 <~ raw_read_t input2 count BLOCKBYTES ;;
      msg3 <~ raw_read_t input3 count BLOCKBYTES ;;
      let count := (count + BLOCKBYTES)%nat in
      let count_low := Sse41.set1 (of_N 32 (N.of_nat count)) in
      let count_high := Sse41.set1 (cast 32 (ushr (of_N 64 (N.of_nat count)) 32)) in
      last <~ flag32_t (Nat.eqb count len) ;;
      node <~ all_t [p_last_node params; Nat.eqb count len] ;;
      node <~ flag32_t node ;;
      h_vecs <~ note [Run (Compress4Transposed count last node)]
                  (Ok (Sse41.compress4_transposed h_vecs msg0 msg1 msg2 msg3
                         count_low count_high (Sse41.set1 last) (Sse41.set1 node))) ;;
      tif (Nat.eqb count len) (ret (Sse41.export_hashes h_vecs (p_hash_length params)))
        (sse41_hash4_exact_loop_t fuel params input0 input1 input2 input3 len h_vecs count)
  end.
Definition sse41_hash4_exact_t (params : Params) (input0 input1 input2 input3 : list byte)
  : traced (quad Hash) :=
  let param_words := make_words params in
  let len := length input0 in
  sse41_hash4_exact_loop_t (S len) params input0 input1 input2 input3 len (oct_map Sse41.set1 param_words) 0.

Fixpoint avx2_hash8_exact_loop_t (fuel : nat) (params : Params) (input : oct (list byte))
    (len : nat) (h_vecs : oct Intrinsics.m256) (count : nat) : traced (oct Hash) :=
  match fuel with
  | O => lift Stuck
  | S fuel =>
      msgs <~ oct_mapM_t (fun i => raw_read_t i count BLOCKBYTES) input ;;
      let count := (count + BLOCKBYTES)%nat in
      let count_low := Avx2.load_256_from_u32 (of_N 32 (N.of_nat count)) in
      let count_high := Avx2.load_256_from_u32 (cast 32 (ushr (of_N 64 (N.of_nat count)) 32)) in
      last <~ flag32_t (Nat.eqb count len) ;;
      node <~ all_t [p_last_node params; Nat.eqb count len] ;;
      node <~ flag32_t node ;;
      h_vecs <~ note [Run (Compress8Transposed count last node)]
                  (Ok (Avx2.compress8_transposed h_vecs (Avx2.load_msg_vecs_interleave msgs) count_low count_high
                         (Avx2.load_256_from_u32 last) (Avx2.load_256_from_u32 node))) ;;
      tif (Nat.eqb count len) (ret (Avx2.export_hashes h_vecs (p_hash_length params)))
        (avx2_hash8_exact_loop_t fuel params input len h_vecs count)
  end.
Definition avx2_hash8_exact_t (params : Params) (input : oct (list byte)) : traced (oct Hash) :=
  let param_words := make_words params in
  let len := length (o0 input) in
  avx2_hash8_exact_loop_t (S len) params input len (oct_map Avx2.load_256_from_u32 param_words) 0.

Definition call_hash4_exact_t (c : cfg) (f : Hash4ExactFn) (params : Params)
    (input : quad (list byte)) : traced (quad Hash) :=
  match f with
  | hash4_exact_portable =>
      h0 <~ hash_one_t c params (q0 input) ;; h1 <~ hash_one_t c params (q1 input) ;;
      h2 <~ hash_one_t c params (q2 input) ;; h3 <~ hash_one_t c params (q3 input) ;;
      ret (Quad h0 h1 h2 h3)
  | hash4_exact_sse41 =>
      if has_sse41 c
      then sse41_hash4_exact_t params (q0 input) (q1 input) (q2 input) (q3 input) else lift UB
  end.
Definition call_hash8_exact_t (c : cfg) (f : Hash8ExactFn) (params : Params)
    (input : oct (list byte)) : traced (oct Hash) :=
  match f with
  | hash8_exact_portable => oct_mapM_t (hash_one_t c params) input
  | hash8_exact_avx2 => if has_avx2 c then avx2_hash8_exact_t params input else lift UB
  end.

Definition hash4_exact_t (c : cfg) (params : Params) (input : quad (list byte)) : traced (quad Hash) :=
  let len := length (q0 input) in
  same_length <~ all_t [Nat.eqb (length (q1 input)) len; Nat.eqb (length (q2 input)) len;
                        Nat.eqb (length (q3 input)) len] ;;
  ok <~ all_t [same_length; Nat.eqb (Nat.modulo len BLOCKBYTES) 0; negb (Nat.eqb len 0)] ;;
  _ <~ assert_t ok ;;
  call_hash4_exact_t c (fn_hash4_exact (default_compress_impl c)) params input.
Definition hash8_exact_t (c : cfg) (params : Params) (input : oct (list byte)) : traced (oct Hash) :=
  let len := length (o0 input) in
  same_length <~ all_t [Nat.eqb (length (o1 input)) len; Nat.eqb (length (o2 input)) len;
                        Nat.eqb (length (o3 input)) len; Nat.eqb (length (o4 input)) len;
                        Nat.eqb (length (o5 input)) len; Nat.eqb (length (o6 input)) len;
                        Nat.eqb (length (o7 input)) len] ;;
  ok <~ all_t [same_length; Nat.eqb (Nat.modulo len BLOCKBYTES) 0; negb (Nat.eqb len 0)] ;;
  _ <~ assert_t ok ;;
  call_hash8_exact_t c (fn_hash8_exact (default_compress_impl c)) params input.

Fixpoint all_remaining_t (c : cfg) (test : nat -> bool) (count : nat) (lens : list nat) : traced bool :=
  match lens with
  | [] => ret true
  | l :: lens =>
      d <~ nsub_t c l count ;; tif (test d) (all_remaining_t c test count lens) (ret false)
  end.
Definition hash8_finish_t (c : cfg) (compress_fn : CompressFn) (count : nat)
    (params : Params) (words : StateWords) (input : list byte) : traced Hash :=
  let state := {| st_h := words; st_buf := repeat x00 BLOCKBYTES; st_buflen := of_N 8 0;
                  st_count := of_N 64 (N.of_nat count); st_compress_fn := compress_fn;
                  st_last_node := p_last_node params; st_hash_length := p_hash_length params |} in
  rest <~ slice_from_t input count ;;
  state <~ update_t c state rest ;;
  ' (_, h) <~ finalize_t c state ;;
  ret h.
Fixpoint hash8_loop_t (fuel : nat) (c : cfg) (fns : impl) (params : oct Params)
    (inputs : oct (list byte)) (state_words8 : oct AlignedWords8) (count : nat)
  : traced (oct Hash) :=
  match fuel with
  | O => lift Stuck
  | S fuel =>
      let lens := oct_list (oct_map (@List.length byte) inputs) in
      update_all <~ all_remaining_t c (fun d => Nat.ltb BLOCKBYTES d) count lens ;;
      finalize_all <~ all_remaining_t c (fun d => Nat.eqb d BLOCKBYTES) count lens ;;
      split <~ all_t [negb update_all; negb finalize_all] ;;
      tif split
        (state_words8 <~ call_vectorize8_t c (fn_vectorize8 fns) state_words8 ;;
         h0 <~ hash8_finish_t c (fn_compress fns) count (o0 params) (o0 state_words8) (o0 inputs) ;;
         h1 <~ hash8_finish_t c (fn_compress fns) count (o1 params) (o1 state_words8) (o1 inputs) ;;
         h2 <~ hash8_finish_t c (fn_compress fns) count (o2 params) (o2 state_words8) (o2 inputs) ;;
         h3 <~ hash8_finish_t c (fn_compress fns) count (o3 params) (o3 state_words8) (o3 inputs) ;;
         h4 <~ hash8_finish_t c (fn_compress fns) count (o4 params) (o4 state_words8) (o4 inputs) ;;
         h5 <~ hash8_finish_t c (fn_compress fns) count (o5 params) (o5 state_words8) (o5 inputs) ;;
         h6 <~ hash8_finish_t c (fn_compress fns) count (o6 params) (o6 state_words8) (o6 inputs) ;;
         h7 <~ hash8_finish_t c (fn_compress fns) count (o7 params) (o7 state_words8) (o7 inputs) ;;
         ret (Oct h0 h1 h2 h3 h4 h5 h6 h7))
        (blocks <~ oct_mapM_t (fun i => array_ref_t i count BLOCKBYTES) inputs ;;
         let count := (count + BLOCKBYTES)%nat in
         let count_low := of_N 32 (N.of_nat count) in
         let count_high := cast 32 (ushr (of_N 64 (N.of_nat count)) 32) in
         lastnode <~ tif finalize_all (oct_mapM_t (fun p => flag32_t (p_last_node p)) params)
                       (ret (oct_const (uzero 32))) ;;
         let lastblock := if finalize_all then oct_const (umax 32) else oct_const (uzero 32) in
         state_words8 <~ call_compress8_vectorized_t c (fn_compress8_vectorized fns) state_words8
                           blocks (oct_const count_low) (oct_const count_high) lastblock lastnode ;;
         tif finalize_all
           (state_words8 <~ call_vectorize8_t c (fn_vectorize8 fns) state_words8 ;;
            ret (oct_map2 (fun p w => {| h_bytes := state_words_to_bytes w; h_len := p_hash_length p |})
                          params state_words8))
           (hash8_loop_t fuel c fns params inputs state_words8 count))
  end.
Definition hash8_t (c : cfg) (params : oct Params) (inputs : oct (list byte)) : traced (oct Hash) :=
  ok <~ oct_all_t (fun p => val (p_key_length p) =? 0) params ;;
  _ <~ assert_t ok ;;
  let fns := default_compress_impl c in
  let state_words8 := oct_map make_words params in
  state_words8 <~ call_vectorize8_t c (fn_vectorize8 fns) state_words8 ;;
  hash8_loop_t (S (length (o0 inputs))) c fns params inputs state_words8 0.

(** ** Blake2sp.v *)
Definition sp_apply_setter_t (p : SpParams) (s : sp_setter) : traced SpParams :=
  match s with
  | SpHashLength n =>
      b <~ all_t [1 <=? n; n <=? N.of_nat OUTBYTES] ;;
      _ <~ assert_t b ;;
      lift (sp_set_hash_length p n)
  | SpKey k =>
      _ <~ assert_t (Nat.leb (length k) KEYBYTES) ;;
      note [Access 0 (length k) KEYBYTES; Access 0 (length k) (length k)] (sp_set_key p k)
  end.

Definition leaf_state_t (c : cfg) (base_params : Params) (worker_index : N) : traced State :=
  p <~ set_node_offset_t base_params (of_N 64 worker_index) ;;
  p <~ lift (set_node_depth p (of_N 8 0)) ;;
  p <~ lift (set_last_node_param p (worker_index =? 7)) ;;
  state <~ with_params_t c p ;;
  ret (set_st_hash_length state (of_N 8 (N.of_nat OUTBYTES))).
Definition sp_with_params_t (c : cfg) (params : SpParams) : traced SpState :=
  p <~ set_hash_length_t Params_new (val (sp_hash_length params)) ;;
  k <~ slice_to_t (sp_key params) (N.to_nat (val (sp_key_length params))) ;;
  p <~ set_key_t p k ;;
  p <~ lift (set_fanout p (of_N 8 8)) ;;
  p <~ set_max_depth_t p (of_N 8 2) ;;
  p <~ lift (set_max_leaf_length p (of_N 32 0)) ;;
  base_params <~ set_inner_hash_length_t p (N.of_nat OUTBYTES) ;;
  p <~ set_node_offset_t base_params (of_N 64 0) ;;
  p <~ lift (set_node_depth p (of_N 8 1)) ;;
  p <~ lift (set_last_node_param p true) ;;
  root_state <~ with_params_t c p ;;
  let root_state := {| st_h := st_h root_state; st_buf := st_buf root_state;
                       st_buflen := of_N 8 0; st_count := of_N 64 0;
                       st_compress_fn := st_compress_fn root_state;
                       st_last_node := st_last_node root_state;
                       st_hash_length := st_hash_length root_state |} in
  leaves <~ oct_mapM_t (leaf_state_t c base_params) (Oct 0 1 2 3 4 5 6 7) ;;
  ret {| sp_leaves := leaves; sp_root := root_state; sp_buf := repeat x00 SPBUF;
         sp_buflen := of_N 16 0; sp_compress8_fn := fn_compress8 (default_compress_impl c) |}.

Definition sp_fill_buf_t (c : cfg) (st : SpState) (input : list byte) : traced (SpState * list byte) :=
  room <~ nsub_t c (length (sp_buf st)) (sp_buflen_nat st) ;;
  take <~ min_t room (length input) ;;
  src <~ slice_to_t input take ;;
  buf <~ copy_into_t (sp_buf st) (sp_buflen_nat st) (sp_buflen_nat st + take) src ;;
  buflen <~ uadd_t c (sp_buflen st) (of_N 16 (N.of_nat take)) ;;
  rest <~ slice_from_t input take ;;
  ret ({| sp_leaves := sp_leaves st; sp_root := sp_root st; sp_buf := buf; sp_buflen := buflen;
          sp_compress8_fn := sp_compress8_fn st |}, rest).

(** A row of debug assertions. *)
Definition debug_asserts_t (c : cfg) (l : list bool) : traced unit :=
  if debug_assertions c then (b <~ all_t l ;; debug_assert_t c b) else ret tt.
Definition sp_compress8_t (c : cfg) (input : list byte) (leaves : oct State)
    (compress8_fn : Compress8Fn) : traced (oct State) :=
  _ <~ debug_asserts_t c (oct_list (oct_map (fun l => 0 =? val (st_buflen l)) leaves)) ;;
  _ <~ debug_asserts_t c (oct_list (oct_map (fun l => val (st_count (o0 leaves)) =? val (st_count l)) leaves)) ;;
  leaves <~ oct_mapM_t (bump_count_t c) leaves ;;
  hs <~ call_compress8_t c compress8_fn (oct_map st_h leaves) (eight_blocks input)
          (oct_map st_count leaves) (oct_const (uzero 32)) (oct_const (uzero 32)) ;;
  ret (oct_map2 set_h leaves hs).

Definition sp_empty_buffer_t (c : cfg) (st : SpState) (input : list byte)
  : traced (SpState * list byte) :=
  tif (0 <? val (sp_buflen st))
    (' (st, input) <~ sp_fill_buf_t c st input ;;
     match input with
     | [] => note [Branch false] (Ok (st, input))
     | _ :: _ =>
         _ <~ note [Branch true] (Ok tt) ;;
         block <~ array_ref_t (sp_buf st) 0 (8 * BLOCKBYTES) ;;
         leaves <~ sp_compress8_t c block (sp_leaves st) (sp_compress8_fn st) ;;
         let st := sp_set_leaves st leaves in
         buflen <~ usub_t c (sp_buflen st) (of_N 16 (N.of_nat (8 * BLOCKBYTES))) ;;
         let st := sp_set_buflen st buflen in
         tif (Nat.ltb (7 * BLOCKBYTES) (length input))
           (block <~ array_ref_t (sp_buf st) (8 * BLOCKBYTES) (8 * BLOCKBYTES) ;;
            leaves <~ sp_compress8_t c block (sp_leaves st) (sp_compress8_fn st) ;;
            ret (sp_set_buflen (sp_set_leaves st leaves) (of_N 16 0), input))
           (left <~ slice_to_t (sp_buf st) (8 * BLOCKBYTES) ;;
            right <~ slice_from_t (sp_buf st) (8 * BLOCKBYTES) ;;
            src <~ slice_to_t right (sp_buflen_nat st) ;;
            left <~ copy_into_t left 0 (sp_buflen_nat st) src ;;
            ret (sp_set_buf st (left ++ right), input))
     end)
    (ret (st, input)).
Fixpoint sp_update_loop_t (fuel : nat) (c : cfg) (st : SpState) (input : list byte)
  : traced (SpState * list byte) :=
  match fuel with
  | O => lift Stuck
  | S fuel =>
      tif (Nat.ltb (15 * BLOCKBYTES) (length input))
        (block <~ array_ref_t input 0 (8 * BLOCKBYTES) ;;
         leaves <~ sp_compress8_t c block (sp_leaves st) (sp_compress8_fn st) ;;
         rest <~ slice_from_t input (8 * BLOCKBYTES) ;;
         sp_update_loop_t fuel c (sp_set_leaves st leaves) rest)
        (ret (st, input))
  end.
Definition sp_update_t (c : cfg) (st : SpState) (input : list byte) : traced SpState :=
  ' (st, input) <~ sp_empty_buffer_t c st input ;;
  ' (st, input) <~ sp_update_loop_t (S (length input)) c st input ;;
  ' (st, input) <~ sp_fill_buf_t c st input ;;
  _ <~ debug_assert_t c (Nat.eqb 0 (length input)) ;;
  ret st.

Definition feed_chunk_t (c : cfg) (buf : list byte) (k : nat) (buflen : nat) (leaf : State) : traced State :=
  n <~ min_t buflen BLOCKBYTES ;;
  s <~ slice_to_t (sub buf (k * BLOCKBYTES) BLOCKBYTES) n ;;
  update_t c leaf s.
Definition feed_root_t (c : cfg) (root leaf : State) : traced State :=
  ' (_, h) <~ finalize_t c leaf ;;
  bs <~ as_bytes_t h ;;
  update_t c root bs.
Definition sp_finalize_t (c : cfg) (st : SpState) : traced Hash :=
  let buf := sp_buf st in
  let '(Oct leaf0 leaf1 leaf2 leaf3 leaf4 leaf5 leaf6 leaf7) := sp_leaves st in
  let buflen := sp_buflen_nat st in
  let less n := saturating_sub_t n BLOCKBYTES in
  leaf0 <~ feed_chunk_t c buf 0 buflen leaf0 ;;
  buflen <~ less buflen ;;
  leaf1 <~ feed_chunk_t c buf 1 buflen leaf1 ;;
  buflen <~ less buflen ;;
  leaf2 <~ feed_chunk_t c buf 2 buflen leaf2 ;;
  buflen <~ less buflen ;;
  leaf3 <~ feed_chunk_t c buf 3 buflen leaf3 ;;
  buflen <~ less buflen ;;
  leaf4 <~ feed_chunk_t c buf 4 buflen leaf4 ;;
  buflen <~ less buflen ;;
  leaf5 <~ feed_chunk_t c buf 5 buflen leaf5 ;;
  buflen <~ less buflen ;;
  leaf6 <~ feed_chunk_t c buf 6 buflen leaf6 ;;
  buflen <~ less buflen ;;
  leaf7 <~ feed_chunk_t c buf 7 buflen leaf7 ;;
  buflen <~ less buflen ;;
  leaf0 <~ feed_chunk_t c buf 8 buflen leaf0 ;;
  buflen <~ less buflen ;;
  leaf1 <~ feed_chunk_t c buf 9 buflen leaf1 ;;
  buflen <~ less buflen ;;
  leaf2 <~ feed_chunk_t c buf 10 buflen leaf2 ;;
  buflen <~ less buflen ;;
  leaf3 <~ feed_chunk_t c buf 11 buflen leaf3 ;;
  buflen <~ less buflen ;;
  leaf4 <~ feed_chunk_t c buf 12 buflen leaf4 ;;
  buflen <~ less buflen ;;
  leaf5 <~ feed_chunk_t c buf 13 buflen leaf5 ;;
  buflen <~ less buflen ;;
  leaf6 <~ feed_chunk_t c buf 14 buflen leaf6 ;;
  buflen <~ less buflen ;;
  leaf7 <~ feed_chunk_t c buf 15 buflen leaf7 ;;
  let root := sp_root st in
  root <~ feed_root_t c root leaf0 ;;
  root <~ feed_root_t c root leaf1 ;;
  root <~ feed_root_t c root leaf2 ;;
  root <~ feed_root_t c root leaf3 ;;
  root <~ feed_root_t c root leaf4 ;;
  root <~ feed_root_t c root leaf5 ;;
  root <~ feed_root_t c root leaf6 ;;
  root <~ feed_root_t c root leaf7 ;;
  ' (_, h) <~ finalize_t c root ;;
  ret h.
Definition sp_count_t (c : cfg) (st : SpState) : traced u64 :=
  let l := oct_map State.count (sp_leaves st) in
  n <~ uadd_t c (o0 l) (o1 l) ;;
  n <~ uadd_t c n (o2 l) ;;
  n <~ uadd_t c n (o3 l) ;;
  n <~ uadd_t c n (o4 l) ;;
  n <~ uadd_t c n (o5 l) ;;
  n <~ uadd_t c n (o6 l) ;;
  n <~ uadd_t c n (o7 l) ;;
  uadd_t c n (cast 64 (sp_buflen st)).
Definition blake2sp_t (c : cfg) (input : list byte) : traced Hash :=
  st <~ sp_with_params_t c SpParams_default ;;
  st <~ sp_update_t c st input ;;
  sp_finalize_t c st.
Definition sp_write_t (c : cfg) (st : SpState) (buf : list byte) : traced (SpState * nat) :=
  st <~ sp_update_t c st buf ;; ret (st, length buf).

(** ** Debug.v *)
Definition hash_debug_t (h : Hash) : traced string :=
  x <~ to_hex_t h ;; ret ("Hash(0x" ++ string_of_list_byte x ++ ")")%string.
Definition sp_state_debug_t (c : cfg) (st : SpState) : traced string :=
  n <~ sp_count_t c st ;;
  ret ("State { count: " ++ dec (val n) ++ ", root: " ++ state_debug (sp_root st)
      ++ ", leaf0: " ++ state_debug (o0 (sp_leaves st))
      ++ ", leaf1: " ++ state_debug (o1 (sp_leaves st))
      ++ ", leaf2: " ++ state_debug (o2 (sp_leaves st))
      ++ ", leaf3: " ++ state_debug (o3 (sp_leaves st)) ++ " }")%string.

(** ** Machine.v *)
Definition give_hash_t (s : session) (h : Hash) : traced (session * obs) :=
  b <~ as_bytes_t h ;; ret (with_hashes s (s_hashes s ++ [h]), OBytes b).
Fixpoint all_bytes_t (l : list Hash) : traced (list (list byte)) :=
  match l with
  | [] => ret []
  | h :: l => b <~ as_bytes_t h ;; bs <~ all_bytes_t l ;; ret (b :: bs)
  end.
Definition give_hashes_t (s : session) (l : list Hash) : traced (session * obs) :=
  bs <~ all_bytes_t l ;; ret (with_hashes s (s_hashes s ++ l), OMany bs).

(** One API call. *)
Definition step_t (c : cfg) (s : session) (o : op) : traced (session * obs) :=
  let invalid := ret (s, OInvalid) in
  let put_state i st := with_states s (upd (s_states s) i st) in
  let put_sstate i st := with_sstates s (upd (s_sstates s) i st) in
  match o with
  | ParamsNew => ret (with_params_list s (s_params s ++ [Params_new]), ONone)
  | ParamsClone i => at_obj (s_params s) i invalid (fun p =>
      ret (with_params_list s (s_params s ++ [p]), ONone))
  | ParamsSet i x => at_obj (s_params s) i invalid (fun p =>
      p <~ apply_setter_t p x ;; ret (with_params_list s (upd (s_params s) i p), ONone))
  | StateNew => st <~ with_params_t c Params_default ;; ret (with_states s (s_states s ++ [st]), ONone)
  | ToState i => at_obj (s_params s) i invalid (fun p =>
      st <~ with_params_t c p ;; ret (with_states s (s_states s ++ [st]), ONone))
  | StateClone i => at_obj (s_states s) i invalid (fun st =>
      ret (with_states s (s_states s ++ [st]), ONone))
  | Update i input => at_obj (s_states s) i invalid (fun st =>
      st <~ update_t c st input ;; ret (put_state i st, ONone))
  | Write i input => at_obj (s_states s) i invalid (fun st =>
      ' (st, n) <~ write_t c st input ;; ret (put_state i st, ONumber (N.of_nat n)))
  | Flush i => at_obj (s_states s) i invalid (fun st =>
      st <~ lift (flush st) ;; ret (put_state i st, ONone))
  | SetLastNode i b => at_obj (s_states s) i invalid (fun st =>
      ret (put_state i (set_last_node st b), ONone))
  | Count i => at_obj (s_states s) i invalid (fun st => ret (s, ONumber (val (count st))))
  | StateDebug i => at_obj (s_states s) i invalid (fun st => ret (s, OText (state_debug st)))
  | ForcePortable i => at_obj (s_states s) i invalid (fun st =>
      ret (put_state i (force_portable st), ONone))
  | Finalize i => at_obj (s_states s) i invalid (fun st =>
      ' (st, h) <~ finalize_t c st ;; give_hash_t (put_state i st) h)
  | Update8 i inputs =>
      match pick8 (s_states s) i with
      | Some sts =>
          if distinct (oct_list i) then
            sts <~ update8_t c sts inputs ;;
            ret (with_states s (put8 (s_states s) i sts), ONone)
          else invalid
      | None => invalid
      end
  | Finalize8 i =>
      match pick8 (s_states s) i with
      | Some sts =>
          if distinct (oct_list i) then
            ' (sts, hs) <~ finalize8_t c sts ;;
            give_hashes_t (with_states s (put8 (s_states s) i sts)) (oct_list hs)
          else invalid
      | None => invalid
      end
  | Blake2s input => h <~ blake2s_t c input ;; give_hash_t s h
  | Hash8 i inputs =>
      match pick8 (s_params s) i with
      | Some ps => hs <~ hash8_t c ps inputs ;; give_hashes_t s (oct_list hs)
      | None => invalid
      end
  | Hash8Exact i inputs => at_obj (s_params s) i invalid (fun p =>
      hs <~ hash8_exact_t c p inputs ;; give_hashes_t s (oct_list hs))
  | Hash4Exact i inputs => at_obj (s_params s) i invalid (fun p =>
      hs <~ hash4_exact_t c p inputs ;; give_hashes_t s (quad_list hs))
  | HashBytes i => at_obj (s_hashes s) i invalid (fun h => b <~ as_bytes_t h ;; ret (s, OBytes b))
  | HashHex i => at_obj (s_hashes s) i invalid (fun h => b <~ to_hex_t h ;; ret (s, OBytes b))
  | HashDebug i => at_obj (s_hashes s) i invalid (fun h => t <~ hash_debug_t h ;; ret (s, OText t))
  | HashEq i j => at_obj (s_hashes s) i invalid (fun h => at_obj (s_hashes s) j invalid (fun h' =>
      b <~ hash_eq_t h h' ;; ret (s, OBool b)))
  | HashEqSlice i x => at_obj (s_hashes s) i invalid (fun h =>
      b <~ hash_eq_slice_t h x ;; ret (s, OBool b))
  | SpParamsNew => ret (with_sparams s (s_sparams s ++ [SpParams_new]), ONone)
  | SpParamsClone i => at_obj (s_sparams s) i invalid (fun p =>
      ret (with_sparams s (s_sparams s ++ [p]), ONone))
  | SpParamsSet i x => at_obj (s_sparams s) i invalid (fun p =>
      p <~ sp_apply_setter_t p x ;; ret (with_sparams s (upd (s_sparams s) i p), ONone))
  | SpParamsDebug i => at_obj (s_sparams s) i invalid (fun p => ret (s, OText (sp_params_debug p)))
  | SpStateNew => st <~ sp_with_params_t c SpParams_default ;; ret (with_sstates s (s_sstates s ++ [st]), ONone)
  | SpToState i => at_obj (s_sparams s) i invalid (fun p =>
      st <~ sp_with_params_t c p ;; ret (with_sstates s (s_sstates s ++ [st]), ONone))
  | SpClone i => at_obj (s_sstates s) i invalid (fun st =>
      ret (with_sstates s (s_sstates s ++ [st]), ONone))
  | SpUpdate i input => at_obj (s_sstates s) i invalid (fun st =>
      st <~ sp_update_t c st input ;; ret (put_sstate i st, ONone))
  | SpWrite i input => at_obj (s_sstates s) i invalid (fun st =>
      ' (st, n) <~ sp_write_t c st input ;; ret (put_sstate i st, ONumber (N.of_nat n)))
  | SpFlush i => at_obj (s_sstates s) i invalid (fun st =>
      st <~ lift (sp_flush st) ;; ret (put_sstate i st, ONone))
  | SpCount i => at_obj (s_sstates s) i invalid (fun st =>
      n <~ sp_count_t c st ;; ret (s, ONumber (val n)))
  | SpDebug i => at_obj (s_sstates s) i invalid (fun st =>
      t <~ sp_state_debug_t c st ;; ret (s, ODump t))
  | SpForcePortable i => at_obj (s_sstates s) i invalid (fun st =>
      ret (put_sstate i (sp_force_portable st), ONone))
  | SpFinalize i => at_obj (s_sstates s) i invalid (fun st =>
      h <~ sp_finalize_t c st ;; give_hash_t s h)
  | OneShotSp input => h <~ blake2sp_t c input ;; give_hash_t s h
  end.

(** Everything an observer of the control flow and of memory addresses sees of a run. *)
Fixpoint trace (c : cfg) (s : session) (ops : list op) : list event :=
  match ops with
  | [] => []
  | o :: ops =>
      match step_t c s o with
      | (l, Ok (s, _)) => l ++ trace c s ops
      | (l, _) => l
      end
  end.

(** Table lookups, and the calls that make them. *)
Definition is_lookup (e : event) : bool := match e with Lookup _ => true | _ => false end.
Definition makes_text (o : op) : bool :=
  match o with HashHex _ | HashDebug _ => true | _ => false end.

(** The routines run, in order. *)
Definition runs (l : list event) : list routine :=
  flat_map (fun e => match e with Run r => [r] | _ => [] end) l.

(** Hashing a message in pieces with one [State]. *)
Fixpoint feed_t (c : cfg) (st : State) (pieces : list (list byte)) : traced State :=
  match pieces with
  | [] => ret st
  | x :: l => st <~ update_t c st x ;; feed_t c st l
  end.
Definition hash_pieces_t (c : cfg) (p : Params) (pieces : list (list byte)) : traced Hash :=
  st <~ with_params_t c p ;;
  st <~ feed_t c st pieces ;;
  ' (_, h) <~ finalize_t c st ;;
  ret h.
Fixpoint sp_feed_t (c : cfg) (st : SpState) (pieces : list (list byte)) : traced SpState :=
  match pieces with
  | [] => ret st
  | x :: l => st <~ sp_update_t c st x ;; sp_feed_t c st l
  end.
Definition sp_hash_pieces_t (c : cfg) (p : SpParams) (pieces : list (list byte)) : traced Hash :=
  st <~ sp_with_params_t c p ;;
  st <~ sp_feed_t c st pieces ;;
  sp_finalize_t c st.

(** How many blocks a routine compresses, and how many blocks a list of them does. *)
Definition weight (r : routine) : nat :=
  match r with
  | Compress _ _ _ _ => 1
  | Compress8 _ _ _ _ | Compress8Vectorized _ _ _ _ _ | Compress8Transposed _ _ _ => 8
  | Compress4Transposed _ _ _ => 4
  | Vectorize8 _ => 0
  end.
Definition work (l : list routine) : nat := list_sum (map weight l).
