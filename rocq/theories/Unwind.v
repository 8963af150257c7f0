(** * Unwind: what a call that panics leaves behind.

    In the model a panic is the end ([Panic] carries nothing).  In Rust a panic unwinds the
    stack, and a program that catches it can go on with the objects the call had borrowed, as
    they were at that moment.  Here every function of lib.rs and blake2sp.rs with a [&mut]
    argument is written once more, one assignment at a time in the order of the source.  A
    call returns, or unwinds and leaves an object.  [UnwindFacts] proves that these functions
    do what those of the model do ([forget]). *)
From Verif Require Import Base Consts Params State Many Blake2sp Debug Views Machine.
Local Open Scope N_scope.

(** ** Calls on an object of type [S] *)
Inductive ended (S A : Type) := Returned (s : S) (a : A) | Unwound (s : S) | Undef | Endless.
Arguments Returned {S A} _ _.
Arguments Unwound {S A} _.
Arguments Undef {S A}.
Arguments Endless {S A}.
Definition act (S A : Type) : Type := S -> ended S A.
Definition forget {S A} (r : ended S A) : outcome (S * A) :=
  match r with Returned s a => Ok (s, a) | Unwound _ => Panic | Undef => UB | Endless => Stuck end.

Definition ret {S A} (a : A) : act S A := fun s => Returned s a.
(** An expression that changes nothing *)
Definition eval {S A} (x : outcome A) : act S A :=
  fun s => match x with Ok a => Returned s a | Panic => Unwound s | UB => Undef | Stuck => Endless end.
Definition andthen {S A B} (x : act S A) (f : A -> act S B) : act S B :=
  fun s => match x s with
           | Returned s a => f a s
           | Unwound s => Unwound s
           | Undef => Undef
           | Endless => Endless
           end.
Notation "x <~ e ;; k" := (andthen e (fun x => k)) (at level 100, e at next level, right associativity).
Definition this {S} : act S S := fun s => Returned s s.
Definition assign {S} (f : S -> S) : act S unit := fun s => Returned (f s) tt.
(** A call on a part of the object *)
Definition within {S T A} (get : T -> S) (put : T -> S -> T) (x : act S A) : act T A :=
  fun t => match x (get t) with
           | Returned s a => Returned (put t s) a
           | Unwound s => Unwound (put t s)
           | Undef => Undef
           | Endless => Endless
           end.

(** ** lib.rs, [Params] *)
(** [self.field = x] *)
Definition put_hash_length (p : Params) (x : u8) : Params :=
  {| p_hash_length := x; p_key_length := p_key_length p; p_key := p_key p; p_salt := p_salt
     p; p_personal := p_personal p; p_fanout := p_fanout p; p_max_depth := p_max_depth p;
     p_max_leaf_length := p_max_leaf_length p; p_node_offset := p_node_offset p; p_node_depth
     := p_node_depth p; p_inner_hash_length := p_inner_hash_length p; p_last_node :=
     p_last_node p |}.
Definition put_key_length (p : Params) (x : u8) : Params :=
  {| p_hash_length := p_hash_length p; p_key_length := x; p_key := p_key p; p_salt := p_salt
     p; p_personal := p_personal p; p_fanout := p_fanout p; p_max_depth := p_max_depth p;
     p_max_leaf_length := p_max_leaf_length p; p_node_offset := p_node_offset p; p_node_depth
     := p_node_depth p; p_inner_hash_length := p_inner_hash_length p; p_last_node :=
     p_last_node p |}.
Definition put_key (p : Params) (x : list byte) : Params :=
  {| p_hash_length := p_hash_length p; p_key_length := p_key_length p; p_key := x; p_salt :=
     p_salt p; p_personal := p_personal p; p_fanout := p_fanout p; p_max_depth := p_max_depth
     p; p_max_leaf_length := p_max_leaf_length p; p_node_offset := p_node_offset p;
     p_node_depth := p_node_depth p; p_inner_hash_length := p_inner_hash_length p;
     p_last_node := p_last_node p |}.
Definition put_salt (p : Params) (x : list byte) : Params :=
  {| p_hash_length := p_hash_length p; p_key_length := p_key_length p; p_key := p_key p;
     p_salt := x; p_personal := p_personal p; p_fanout := p_fanout p; p_max_depth :=
     p_max_depth p; p_max_leaf_length := p_max_leaf_length p; p_node_offset := p_node_offset
     p; p_node_depth := p_node_depth p; p_inner_hash_length := p_inner_hash_length p;
     p_last_node := p_last_node p |}.
Definition put_personal (p : Params) (x : list byte) : Params :=
  {| p_hash_length := p_hash_length p; p_key_length := p_key_length p; p_key := p_key p;
     p_salt := p_salt p; p_personal := x; p_fanout := p_fanout p; p_max_depth := p_max_depth
     p; p_max_leaf_length := p_max_leaf_length p; p_node_offset := p_node_offset p;
     p_node_depth := p_node_depth p; p_inner_hash_length := p_inner_hash_length p;
     p_last_node := p_last_node p |}.
Definition put_fanout (p : Params) (x : u8) : Params :=
  {| p_hash_length := p_hash_length p; p_key_length := p_key_length p; p_key := p_key p;
     p_salt := p_salt p; p_personal := p_personal p; p_fanout := x; p_max_depth :=
     p_max_depth p; p_max_leaf_length := p_max_leaf_length p; p_node_offset := p_node_offset
     p; p_node_depth := p_node_depth p; p_inner_hash_length := p_inner_hash_length p;
     p_last_node := p_last_node p |}.
Definition put_max_depth (p : Params) (x : u8) : Params :=
  {| p_hash_length := p_hash_length p; p_key_length := p_key_length p; p_key := p_key p;
     p_salt := p_salt p; p_personal := p_personal p; p_fanout := p_fanout p; p_max_depth :=
     x; p_max_leaf_length := p_max_leaf_length p; p_node_offset := p_node_offset p;
     p_node_depth := p_node_depth p; p_inner_hash_length := p_inner_hash_length p;
     p_last_node := p_last_node p |}.
Definition put_max_leaf_length (p : Params) (x : u32) : Params :=
  {| p_hash_length := p_hash_length p; p_key_length := p_key_length p; p_key := p_key p;
     p_salt := p_salt p; p_personal := p_personal p; p_fanout := p_fanout p; p_max_depth :=
     p_max_depth p; p_max_leaf_length := x; p_node_offset := p_node_offset p; p_node_depth :=
     p_node_depth p; p_inner_hash_length := p_inner_hash_length p; p_last_node := p_last_node
     p |}.
Definition put_node_offset (p : Params) (x : u64) : Params :=
  {| p_hash_length := p_hash_length p; p_key_length := p_key_length p; p_key := p_key p;
     p_salt := p_salt p; p_personal := p_personal p; p_fanout := p_fanout p; p_max_depth :=
     p_max_depth p; p_max_leaf_length := p_max_leaf_length p; p_node_offset := x;
     p_node_depth := p_node_depth p; p_inner_hash_length := p_inner_hash_length p;
     p_last_node := p_last_node p |}.
Definition put_node_depth (p : Params) (x : u8) : Params :=
  {| p_hash_length := p_hash_length p; p_key_length := p_key_length p; p_key := p_key p;
     p_salt := p_salt p; p_personal := p_personal p; p_fanout := p_fanout p; p_max_depth :=
     p_max_depth p; p_max_leaf_length := p_max_leaf_length p; p_node_offset := p_node_offset
     p; p_node_depth := x; p_inner_hash_length := p_inner_hash_length p; p_last_node :=
     p_last_node p |}.
Definition put_inner_hash_length (p : Params) (x : u8) : Params :=
  {| p_hash_length := p_hash_length p; p_key_length := p_key_length p; p_key := p_key p;
     p_salt := p_salt p; p_personal := p_personal p; p_fanout := p_fanout p; p_max_depth :=
     p_max_depth p; p_max_leaf_length := p_max_leaf_length p; p_node_offset := p_node_offset
     p; p_node_depth := p_node_depth p; p_inner_hash_length := x; p_last_node := p_last_node
     p |}.
Definition put_last_node (p : Params) (x : bool) : Params :=
  {| p_hash_length := p_hash_length p; p_key_length := p_key_length p; p_key := p_key p;
     p_salt := p_salt p; p_personal := p_personal p; p_fanout := p_fanout p; p_max_depth :=
     p_max_depth p; p_max_leaf_length := p_max_leaf_length p; p_node_offset := p_node_offset
     p; p_node_depth := p_node_depth p; p_inner_hash_length := p_inner_hash_length p;
     p_last_node := x |}.

(** lib.rs:210-218 *)
Definition hash_length_u (length : N) : act Params unit :=
  _ <~ eval (assert! ((1 <=? length) && (length <=? N.of_nat OUTBYTES)) ;; Ok tt) ;;
  assign (fun p => put_hash_length p (of_N 8 length)).
(** lib.rs:220-226 *)
Definition key_u (key : list byte) : act Params unit :=
  _ <~ eval (assert! (Nat.leb (length key) KEYBYTES) ;; Ok tt) ;;
  _ <~ assign (fun p => put_key_length p (of_N 8 (N.of_nat (length key)))) ;;
  _ <~ assign (fun p => put_key p (repeat x00 KEYBYTES)) ;;
  p <~ this ;;
  k <~ eval (copy_into (p_key p) 0 (length key) key) ;;
  assign (fun p => put_key p k).
(** lib.rs:228-233 *)
Definition salt_u (salt : list byte) : act Params unit :=
  _ <~ eval (assert! (Nat.leb (length salt) SALTBYTES) ;; Ok tt) ;;
  _ <~ assign (fun p => put_salt p (repeat x00 SALTBYTES)) ;;
  p <~ this ;;
  k <~ eval (copy_into (p_salt p) 0 (length salt) salt) ;;
  assign (fun p => put_salt p k).
(** lib.rs:235-244 *)
Definition personal_u (personalization : list byte) : act Params unit :=
  _ <~ eval (assert! (Nat.leb (length personalization) PERSONALBYTES) ;; Ok tt) ;;
  _ <~ assign (fun p => put_personal p (repeat x00 PERSONALBYTES)) ;;
  p <~ this ;;
  k <~ eval (copy_into (p_personal p) 0 (length personalization) personalization) ;;
  assign (fun p => put_personal p k).
(** lib.rs:246-249 *)
Definition fanout_u (x : u8) : act Params unit := assign (fun p => put_fanout p x).
(** lib.rs:251-255 *)
Definition max_depth_u (depth : u8) : act Params unit :=
  _ <~ eval (assert! (negb (val depth =? 0)) ;; Ok tt) ;;
  assign (fun p => put_max_depth p depth).
(** lib.rs:257-260 *)
Definition max_leaf_length_u (x : u32) : act Params unit := assign (fun p => put_max_leaf_length p x).
(** lib.rs:262-266 *)
Definition node_offset_u (offset : u64) : act Params unit :=
  _ <~ eval (assert! (val offset <? 2 ^ 48) ;; Ok tt) ;;
  assign (fun p => put_node_offset p offset).
(** lib.rs:268-271 *)
Definition node_depth_u (x : u8) : act Params unit := assign (fun p => put_node_depth p x).
(** lib.rs:273-277 *)
Definition inner_hash_length_u (length : N) : act Params unit :=
  _ <~ eval (assert! (length <=? N.of_nat OUTBYTES) ;; Ok tt) ;;
  assign (fun p => put_inner_hash_length p (of_N 8 length)).
(** lib.rs:279-282 *)
Definition last_node_u (x : bool) : act Params unit := assign (fun p => put_last_node p x).

Definition setter_u (s : setter) : act Params unit :=
  match s with
  | SHashLength n => hash_length_u n
  | SKey k => key_u k
  | SSalt k => salt_u k
  | SPersonal k => personal_u k
  | SFanout x => fanout_u x
  | SMaxDepth x => max_depth_u x
  | SMaxLeafLength x => max_leaf_length_u x
  | SNodeOffset x => node_offset_u x
  | SNodeDepth x => node_depth_u x
  | SInnerHashLength n => inner_hash_length_u n
  | SLastNode b => last_node_u b
  end.

(** ** lib.rs, [State] *)
Definition set_buflen (st : State) (n : u8) : State :=
  {| st_h := st_h st; st_buf := st_buf st; st_buflen := n; st_count := st_count st;
     st_compress_fn := st_compress_fn st; st_last_node := st_last_node st;
     st_hash_length := st_hash_length st |}.

(** lib.rs:339-345 [fill_buf]; gives the rest of the input *)
Definition fill_buf_u (c : cfg) (input : list byte) : act State (list byte) :=
  st <~ this ;;
  room <~ eval (nsub c BLOCKBYTES (buflen_nat st)) ;;
  let take := Nat.min room (length input) in
  src <~ eval (slice_to input take) ;;
  buf <~ eval (copy_into (st_buf st) (buflen_nat st) (buflen_nat st + take) src) ;;
  _ <~ assign (fun st => set_buf st buf) ;;
  buflen <~ eval (uadd c (st_buflen st) (of_N 8 (N.of_nat take))) ;;
  _ <~ assign (fun st => set_buflen st buflen) ;;
  count <~ eval (uadd c (st_count st) (of_N 64 (N.of_nat take))) ;;
  _ <~ assign (fun st => set_count st count) ;;
  eval (slice_from input take).

(** lib.rs:350-360 [compress_buffer_if_possible] *)
Definition compress_buffer_if_possible_u (c : cfg) (input : list byte) : act State (list byte) :=
  st <~ this ;;
  if 0 <? val (st_buflen st) then
    input <~ fill_buf_u c input ;;
    match input with
    | [] => ret input
    | _ :: _ =>
        st <~ this ;;
        h <~ eval (call_compress c (st_compress_fn st) (st_h st) (st_buf st) (st_count st) (uzero 32) (uzero 32)) ;;
        _ <~ assign (fun st => set_h st h) ;;
        _ <~ assign (fun st => set_buflen st (uzero 8)) ;;
        ret input
    end
  else ret input.

(** [self.count += BLOCKBYTES as u64] *)
Definition bump_count_u (c : cfg) : act State unit :=
  st <~ this ;;
  n <~ eval (uadd c (st_count st) (of_N 64 (N.of_nat BLOCKBYTES))) ;;
  assign (fun st => set_count st n).

(** lib.rs:369-376, the [while] loop of [update] *)
Fixpoint update_loop_u (fuel : nat) (c : cfg) (input : list byte) : act State (list byte) :=
  match fuel with
  | O => eval Stuck
  | S fuel =>
      if Nat.ltb BLOCKBYTES (length input) then
        _ <~ bump_count_u c ;;
        block <~ eval (array_ref input 0 BLOCKBYTES) ;;
        st <~ this ;;
        h <~ eval (call_compress c (st_compress_fn st) (st_h st) block (st_count st) (uzero 32) (uzero 32)) ;;
        _ <~ assign (fun st => set_h st h) ;;
        rest <~ eval (slice_from input BLOCKBYTES) ;;
        update_loop_u fuel c rest
      else ret input
  end.

(** lib.rs:363-385 [update]; 440-444 [write] *)
Definition update_u (c : cfg) (input : list byte) : act State unit :=
  input <~ compress_buffer_if_possible_u c input ;;
  input <~ update_loop_u (S (length input)) c input ;;
  _ <~ fill_buf_u c input ;;
  ret tt.
Definition write_u (c : cfg) (buf : list byte) : act State nat :=
  _ <~ update_u c buf ;;
  ret (length buf).

(** lib.rs:389-402 [finalize] *)
Definition finalize_u (c : cfg) : act State Hash :=
  _ <~ assign (fun st => set_buf st (zero_tail (st_buf st) (buflen_nat st))) ;;
  st <~ this ;;
  h_copy <~ eval (call_compress c (st_compress_fn st) (st_h st) (st_buf st) (st_count st) (umax 32) (flag32 (st_last_node st))) ;;
  ret {| h_bytes := state_words_to_bytes h_copy; h_len := st_hash_length st |}.

(** ** lib.rs, eight [State]s *)
Definition put_lane {A} (l : lane8) (o : oct A) (x : A) : oct A :=
  let '(Oct a b c d e f g h) := o in
  match l with
  | L0 => Oct x b c d e f g h | L1 => Oct a x c d e f g h | L2 => Oct a b x d e f g h | L3 => Oct a b c x e f g h
  | L4 => Oct a b c d x f g h | L5 => Oct a b c d e x g h | L6 => Oct a b c d e f x h | L7 => Oct a b c d e f g x
  end.
(** The same statement for each of the eight, in order *)
Definition each8 {S A} (f : lane8 -> act S A) : act (oct S) (oct A) :=
  let on l := within (proj l) (put_lane l) (f l) in
  a <~ on L0 ;; b <~ on L1 ;; c <~ on L2 ;; d <~ on L3 ;; e <~ on L4 ;; f <~ on L5 ;; g <~ on L6 ;; h <~ on L7 ;;
  ret (Oct a b c d e f g h).

(** lib.rs:554-621, the [while] loop of [update8] *)
Fixpoint update8_loop_u (fuel : nat) (c : cfg) (compress8_fn : Compress8Fn) (inputs : oct (list byte))
  : act (oct State) (oct (list byte)) :=
  match fuel with
  | O => eval Stuck
  | S fuel =>
      if oct_all (fun i => Nat.ltb BLOCKBYTES (length i)) inputs then
        _ <~ each8 (fun _ => bump_count_u c) ;;
        blocks <~ eval (oct_mapM (fun i => array_ref i 0 BLOCKBYTES) inputs) ;;
        states <~ this ;;
        hs <~ eval (call_compress8 c compress8_fn (oct_map st_h states) blocks (oct_map st_count states)
                      (oct_const (uzero 32)) (oct_const (uzero 32))) ;;
        _ <~ assign (fun states => oct_map2 set_h states hs) ;;
        inputs <~ eval (oct_mapM (fun i => slice_from i BLOCKBYTES) inputs) ;;
        update8_loop_u fuel c compress8_fn inputs
      else ret inputs
  end.
(** lib.rs:523-634 [update8] *)
Definition update8_u (c : cfg) (inputs : oct (list byte)) : act (oct State) unit :=
  inputs <~ each8 (fun l => compress_buffer_if_possible_u c (proj l inputs)) ;;
  inputs <~ update8_loop_u (S (length (o0 inputs))) c (fn_compress8 (default_compress_impl c)) inputs ;;
  _ <~ each8 (fun l => update_u c (proj l inputs)) ;;
  ret tt.
(** lib.rs:636-770 [finalize8] *)
Definition finalize8_u (c : cfg) : act (oct State) (oct Hash) :=
  _ <~ assign (oct_map (fun st => set_buf st (zero_tail (st_buf st) (buflen_nat st)))) ;;
  states <~ this ;;
  hs <~ eval (call_compress8 c (fn_compress8 (default_compress_impl c)) (oct_map st_h states) (oct_map st_buf states)
                (oct_map st_count states) (oct_const (umax 32)) (oct_map (fun st => flag32 (st_last_node st)) states)) ;;
  ret (oct_map2 (fun st h => {| h_bytes := state_words_to_bytes h; h_len := st_hash_length st |}) states hs).

(** ** blake2sp.rs *)
(** [self.field = x] *)
Definition put_sp_hash_length (p : SpParams) (x : u8) : SpParams :=
  {| sp_hash_length := x; sp_key_length := sp_key_length p; sp_key := sp_key p |}.
Definition put_sp_key_length (p : SpParams) (x : u8) : SpParams :=
  {| sp_hash_length := sp_hash_length p; sp_key_length := x; sp_key := sp_key p |}.
Definition put_sp_key (p : SpParams) (x : list byte) : SpParams :=
  {| sp_hash_length := sp_hash_length p; sp_key_length := sp_key_length p; sp_key := x |}.
(** blake2sp.rs:34-42 *)
Definition sp_hash_length_u (length : N) : act SpParams unit :=
  _ <~ eval (assert! ((1 <=? length) && (length <=? N.of_nat OUTBYTES)) ;; Ok tt) ;;
  assign (fun p => put_sp_hash_length p (of_N 8 length)).
(** blake2sp.rs:44-50 *)
Definition sp_key_u (key : list byte) : act SpParams unit :=
  _ <~ eval (assert! (Nat.leb (length key) KEYBYTES) ;; Ok tt) ;;
  _ <~ assign (fun p => put_sp_key_length p (of_N 8 (N.of_nat (length key)))) ;;
  _ <~ assign (fun p => put_sp_key p (repeat x00 KEYBYTES)) ;;
  p <~ this ;;
  k <~ eval (copy_into (sp_key p) 0 (length key) key) ;;
  assign (fun p => put_sp_key p k).
Definition sp_setter_u (s : sp_setter) : act SpParams unit :=
  match s with SpHashLength n => sp_hash_length_u n | SpKey k => sp_key_u k end.

(** blake2sp.rs:159-164 [fill_buf] *)
Definition sp_fill_buf_u (c : cfg) (input : list byte) : act SpState (list byte) :=
  st <~ this ;;
  room <~ eval (nsub c (length (sp_buf st)) (sp_buflen_nat st)) ;;
  let take := Nat.min room (length input) in
  src <~ eval (slice_to input take) ;;
  buf <~ eval (copy_into (sp_buf st) (sp_buflen_nat st) (sp_buflen_nat st + take) src) ;;
  _ <~ assign (fun st => sp_set_buf st buf) ;;
  buflen <~ eval (uadd c (sp_buflen st) (of_N 16 (N.of_nat take))) ;;
  _ <~ assign (fun st => sp_set_buflen st buflen) ;;
  eval (slice_from input take).

(** blake2sp.rs:166-252 [compress8] *)
Definition sp_compress8_u (c : cfg) (input : list byte) (compress8_fn : Compress8Fn) : act (oct State) unit :=
  leaves <~ this ;;
  _ <~ eval (debug_assert c (oct_all (fun l => 0 =? val (st_buflen l)) leaves)) ;;
  _ <~ eval (debug_assert c (oct_all (fun l => val (st_count (o0 leaves)) =? val (st_count l)) leaves)) ;;
  _ <~ each8 (fun _ => bump_count_u c) ;;
  leaves <~ this ;;
  hs <~ eval (call_compress8 c compress8_fn (oct_map st_h leaves) (eight_blocks input)
                (oct_map st_count leaves) (oct_const (uzero 32)) (oct_const (uzero 32))) ;;
  assign (fun leaves => oct_map2 set_h leaves hs).

(** blake2sp.rs:260-301, the first part of [update]; gives the rest of the input *)
Definition sp_empty_buffer_u (c : cfg) (input : list byte) : act SpState (list byte) :=
  st <~ this ;;
  if 0 <? val (sp_buflen st) then
    input <~ sp_fill_buf_u c input ;;
    match input with
    | [] => ret input
    | _ :: _ =>
        st <~ this ;;
        block <~ eval (array_ref (sp_buf st) 0 (8 * BLOCKBYTES)) ;;
        _ <~ within sp_leaves sp_set_leaves (sp_compress8_u c block (sp_compress8_fn st)) ;;
        buflen <~ eval (usub c (sp_buflen st) (of_N 16 (N.of_nat (8 * BLOCKBYTES)))) ;;
        _ <~ assign (fun st => sp_set_buflen st buflen) ;;
        if Nat.ltb (7 * BLOCKBYTES) (length input) then
          st <~ this ;;
          block <~ eval (array_ref (sp_buf st) (8 * BLOCKBYTES) (8 * BLOCKBYTES)) ;;
          _ <~ within sp_leaves sp_set_leaves (sp_compress8_u c block (sp_compress8_fn st)) ;;
          _ <~ assign (fun st => sp_set_buflen st (of_N 16 0)) ;;
          ret input
        else
          st <~ this ;;
          left <~ eval (slice_to (sp_buf st) (8 * BLOCKBYTES)) ;;
          right <~ eval (slice_from (sp_buf st) (8 * BLOCKBYTES)) ;;
          src <~ eval (slice_to right (sp_buflen_nat st)) ;;
          left <~ eval (copy_into left 0 (sp_buflen_nat st) src) ;;
          _ <~ assign (fun st => sp_set_buf st (left ++ right)) ;;
          ret input
    end
  else ret input.

(** blake2sp.rs:306-321, the [while] loop of [update] *)
Fixpoint sp_update_loop_u (fuel : nat) (c : cfg) (input : list byte) : act SpState (list byte) :=
  match fuel with
  | O => eval Stuck
  | S fuel =>
      if Nat.ltb (15 * BLOCKBYTES) (length input) then
        block <~ eval (array_ref input 0 (8 * BLOCKBYTES)) ;;
        st <~ this ;;
        _ <~ within sp_leaves sp_set_leaves (sp_compress8_u c block (sp_compress8_fn st)) ;;
        rest <~ eval (slice_from input (8 * BLOCKBYTES)) ;;
        sp_update_loop_u fuel c rest
      else ret input
  end.

(** blake2sp.rs:255-328 [update]; 404-409 [write] *)
Definition sp_update_u (c : cfg) (input : list byte) : act SpState unit :=
  input <~ sp_empty_buffer_u c input ;;
  input <~ sp_update_loop_u (S (length input)) c input ;;
  input <~ sp_fill_buf_u c input ;;
  eval (debug_assert c (Nat.eqb 0 (length input))).
Definition sp_write_u (c : cfg) (buf : list byte) : act SpState nat :=
  _ <~ sp_update_u c buf ;;
  ret (length buf).

(** ** Programs *)

(** A call on object [i] of a list *)
Definition on_object {S} (get : session -> list S) (put : session -> list S -> session) (i : nat) (x : act S obs) : act session obs :=
  fun s => at_obj (get s) i (Returned s OInvalid) (fun a => within (fun _ => a) (fun s a => put s (upd (get s) i a)) x s).
(** A call on eight of the states *)
Definition on_eight (i : oct nat) {A} (x : act (oct State) A) (k : A -> act session obs) : act session obs :=
  fun s => match pick8 (s_states s) i with
           | Some sts =>
               if distinct (oct_list i)
               then andthen (within (fun _ => sts) (fun s sts => with_states s (put8 (s_states s) i sts)) x) k s
               else Returned s OInvalid
           | None => Returned s OInvalid
           end.
(** One API call.  The calls that borrow no object mutably leave everything as it is when they
    panic. *)
Definition step_u (c : cfg) (o : op) : act session obs :=
  match o with
  | ParamsSet i x => on_object s_params with_params_list i (_ <~ setter_u x ;; ret ONone)
  | SpParamsSet i x => on_object s_sparams with_sparams i (_ <~ sp_setter_u x ;; ret ONone)
  | Update i x => on_object s_states with_states i (_ <~ update_u c x ;; ret ONone)
  | Write i x => on_object s_states with_states i (n <~ write_u c x ;; ret (ONumber (N.of_nat n)))
  | SpUpdate i x => on_object s_sstates with_sstates i (_ <~ sp_update_u c x ;; ret ONone)
  | SpWrite i x => on_object s_sstates with_sstates i (n <~ sp_write_u c x ;; ret (ONumber (N.of_nat n)))
  | Update8 i x => on_eight i (update8_u c x) (fun _ => ret ONone)
  | Finalize8 i => on_eight i (finalize8_u c) (fun hs =>
      bs <~ eval (all_bytes (oct_list hs)) ;;
      _ <~ assign (fun s => with_hashes s (s_hashes s ++ oct_list hs)) ;;
      ret (OMany bs))
  | Finalize i => fun s => at_obj (s_states s) i (Returned s OInvalid) (fun a =>
      andthen (within (fun _ => a) (fun s a => with_states s (upd (s_states s) i a)) (finalize_u c)) (fun h =>
        b <~ eval (as_bytes h) ;;
        _ <~ assign (fun s => with_hashes s (s_hashes s ++ [h])) ;;
        ret (OBytes b)) s)
  | _ => fun s => match step c s o with
                  | Ok (s, x) => Returned s x
                  | Panic => Unwound s
                  | UB => Undef
                  | Stuck => Endless
                  end
  end.

(** A program that catches every panic and goes on: what each call shows, [None] for those
    that panicked. *)
Fixpoint caught (c : cfg) (s : session) (ops : list op) : list (option obs) :=
  match ops with
  | [] => []
  | o :: ops =>
      match step_u c o s with
      | Returned s x => Some x :: caught c s ops
      | Unwound s => None :: caught c s ops
      | Undef | Endless => []
      end
  end.
(** The same for calls on one object: the object in the end *)
Fixpoint persist {S X A} (f : X -> act S A) (s : S) (l : list X) : option S :=
  match l with
  | [] => Some s
  | x :: l => match f x s with Returned s _ | Unwound s => persist f s l | Undef | Endless => None end
  end.
(** The calls that did not panic, and what they showed *)
Fixpoint kept {A B} (seen : list (option A)) (ops : list B) : list B :=
  match seen, ops with
  | Some _ :: seen, o :: ops => o :: kept seen ops
  | None :: seen, _ :: ops => kept seen ops
  | _, _ => []
  end.
Fixpoint somes {A} (l : list (option A)) : list A :=
  match l with [] => [] | Some x :: l => x :: somes l | None :: l => somes l end.

(** What a keyed BLAKE2sp state that has absorbed [D] makes of [x], panicking or not, in
    builds with debug assertions *)
Definition absorbed (D x : list byte) : list byte :=
  match D with
  | [] => if Nat.leb (length x) 960 then x else []
  | _ :: _ => firstn 1024 (D ++ x)
  end.
