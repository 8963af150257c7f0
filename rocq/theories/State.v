(** * State: run-time dispatch and the BLAKE2s [State] of lib.rs. *)
From Verif Require Import Base Consts Portable Params.
From Verif Require Sse41 Avx2.
Local Open Scope N_scope.

(** ** Function pointers.

    lib.rs:60-135.  The crate stores and passes [unsafe fn] pointers.  Only the
    functions below are ever stored, so a pointer is modelled as a tag, and calling
    it as a [call_*] function.  Calling an SSE4.1 or AVX2 routine on a CPU without
    the instructions is undefined behaviour (and the routines do not exist on other
    architectures). *)
Inductive CompressFn := compress_portable | compress_sse41.
Inductive Compress8Fn := compress8_portable | compress8_avx2.
Inductive Hash8ExactFn := hash8_exact_portable | hash8_exact_avx2.
Inductive Hash4ExactFn := hash4_exact_portable | hash4_exact_sse41.
Inductive Vectorize8Fn := vectorize_words8_portable | vectorize_words8_avx2.
Inductive Compress8VectorizedFn := compress8_vectorized_portable | compress8_vectorized_avx2.

Definition has_sse41 (c : cfg) : bool := arch_x86 c && cpu_sse41 c.
Definition has_avx2 (c : cfg) : bool := arch_x86 c && cpu_avx2 c.

Definition call_compress (c : cfg) (f : CompressFn) (h : StateWords) (msg : Block)
    (count : u64) (lastblock lastnode : u32) : outcome StateWords :=
  match f with
  | compress_portable => Ok (Portable.compress h msg count lastblock lastnode)
  | compress_sse41 =>
      if has_sse41 c then Ok (Sse41.compress h msg count lastblock lastnode) else UB
  end.

Definition call_compress8 (c : cfg) (f : Compress8Fn) (h : oct StateWords) (msg : oct Block)
    (count : oct u64) (lastblock lastnode : oct u32) : outcome (oct StateWords) :=
  match f with
  | compress8_portable => Ok (Portable.compress8 h msg count lastblock lastnode)
  | compress8_avx2 =>
      if has_avx2 c then Ok (Avx2.compress8 h msg count lastblock lastnode) else UB
  end.

Definition call_vectorize8 (c : cfg) (f : Vectorize8Fn) (w : oct AlignedWords8)
  : outcome (oct AlignedWords8) :=
  match f with
  | vectorize_words8_portable => Ok (Portable.vectorize_words8 w)
  | vectorize_words8_avx2 => if has_avx2 c then Ok (Avx2.vectorize_words8 w) else UB
  end.

Definition call_compress8_vectorized (c : cfg) (f : Compress8VectorizedFn)
    (w : oct AlignedWords8) (blk : oct Block)
    (count_low count_high lastblock lastnode : AlignedWords8) : outcome (oct AlignedWords8) :=
  match f with
  | compress8_vectorized_portable =>
      Ok (Portable.compress8_vectorized w blk count_low count_high lastblock lastnode)
  | compress8_vectorized_avx2 =>
      if has_avx2 c
      then Ok (Avx2.compress8_vectorized w blk count_low count_high lastblock lastnode) else UB
  end.

(** The six pointers returned by [default_compress_impl]. *)
Record impl := mk_impl {
  fn_compress : CompressFn;
  fn_compress8 : Compress8Fn;
  fn_hash8_exact : Hash8ExactFn;
  fn_hash4_exact : Hash4ExactFn;
  fn_vectorize8 : Vectorize8Fn;
  fn_compress8_vectorized : Compress8VectorizedFn
}.

(** lib.rs:1024-1057 [default_compress_impl] *)
Definition default_compress_impl (c : cfg) : impl :=
  if arch_x86 c && feature_std c && cpu_avx2 c then
    {| fn_compress := compress_sse41;
       fn_compress8 := compress8_avx2;
       fn_hash8_exact := hash8_exact_avx2;
       fn_hash4_exact := hash4_exact_sse41;
       fn_vectorize8 := vectorize_words8_avx2;
       fn_compress8_vectorized := compress8_vectorized_avx2 |}
  else
    {| fn_compress := compress_portable;
       fn_compress8 := compress8_portable;
       fn_hash8_exact := hash8_exact_portable;
       fn_hash4_exact := hash4_exact_portable;
       fn_vectorize8 := vectorize_words8_portable;
       fn_compress8_vectorized := compress8_vectorized_portable |}.

(** ** State *)

(** lib.rs:305-314 [struct State] *)
Record State := mk_State {
  st_h : StateWords;
  st_buf : Block;
  st_buflen : u8;
  st_count : u64;
  st_compress_fn : CompressFn;
  st_last_node : bool;
  st_hash_length : u8
}.

(** [self.buflen as usize] *)
Definition buflen_nat (st : State) : nat := N.to_nat (val (st_buflen st)).

(** lib.rs:339-345 [State::fill_buf].  Returns the new state and the rest of the input. *)
Definition fill_buf (c : cfg) (st : State) (input : list byte) : outcome (State * list byte) :=
  room <- nsub c BLOCKBYTES (buflen_nat st) ;;
  let take := Nat.min room (length input) in
  src <- slice_to input take ;;
  buf <- copy_into (st_buf st) (buflen_nat st) (buflen_nat st + take) src ;;
  buflen <- uadd c (st_buflen st) (of_N 8 (N.of_nat take)) ;;
  count <- uadd c (st_count st) (of_N 64 (N.of_nat take)) ;;
  rest <- slice_from input take ;;
  Ok ({| st_h := st_h st; st_buf := buf; st_buflen := buflen; st_count := count;
         st_compress_fn := st_compress_fn st; st_last_node := st_last_node st;
         st_hash_length := st_hash_length st |}, rest).

(** lib.rs:350-360 [State::compress_buffer_if_possible] *)
Definition compress_buffer_if_possible (c : cfg) (st : State) (input : list byte)
  : outcome (State * list byte) :=
  if 0 <? val (st_buflen st) then
    ' (st, input) <- fill_buf c st input ;;
    match input with
    | [] => Ok (st, input)
    | _ :: _ =>
        h <- call_compress c (st_compress_fn st) (st_h st) (st_buf st) (st_count st)
               (uzero 32) (uzero 32) ;;
        Ok ({| st_h := h; st_buf := st_buf st; st_buflen := uzero 8; st_count := st_count st;
               st_compress_fn := st_compress_fn st; st_last_node := st_last_node st;
               st_hash_length := st_hash_length st |}, input)
    end
  else Ok (st, input).

(** lib.rs:369-376, the [while] loop of [State::update] *)
Fixpoint update_loop (fuel : nat) (c : cfg) (st : State) (input : list byte)
  : outcome (State * list byte) :=
  match fuel with
  | O => Stuck
  | S fuel =>
      if Nat.ltb BLOCKBYTES (length input) then
        count <- uadd c (st_count st) (of_N 64 (N.of_nat BLOCKBYTES)) ;;
        block <- array_ref input 0 BLOCKBYTES ;;
        h <- call_compress c (st_compress_fn st) (st_h st) block count (uzero 32) (uzero 32) ;;
        rest <- slice_from input BLOCKBYTES ;;
        update_loop fuel c
          {| st_h := h; st_buf := st_buf st; st_buflen := st_buflen st; st_count := count;
             st_compress_fn := st_compress_fn st; st_last_node := st_last_node st;
             st_hash_length := st_hash_length st |} rest
      else Ok (st, input)
  end.

(** lib.rs:363-385 [State::update] *)
Definition update (c : cfg) (st : State) (input : list byte) : outcome State :=
  ' (st, input) <- compress_buffer_if_possible c st input ;;
  ' (st, input) <- update_loop (S (length input)) c st input ;;
  ' (st, _) <- fill_buf c st input ;;
  Ok st.

(** lib.rs:321-337 [State::with_params] (also lib.rs:206-208 [Params::to_state]) *)
Definition with_params (c : cfg) (params : Params) : outcome State :=
  let state := {|
    st_h := make_words params;
    st_compress_fn := fn_compress (default_compress_impl c);
    st_buf := repeat x00 BLOCKBYTES;
    st_buflen := of_N 8 0;
    st_count := of_N 64 0;
    st_last_node := p_last_node params;
    st_hash_length := p_hash_length params |} in
  if 0 <? val (p_key_length params) then
    key_block <- copy_into (repeat x00 BLOCKBYTES) 0 KEYBYTES (p_key params) ;;
    update c state key_block
  else Ok state.
Definition to_state (c : cfg) (params : Params) : outcome State := with_params c params.

(** lib.rs:317-319 [State::new] and lib.rs:462-466 [State::default] *)
Definition State_new (c : cfg) : outcome State := with_params c Params_default.
Definition State_default (c : cfg) : outcome State := with_params c Params_default.

(** lib.rs:390-392 [for i in buflen..BLOCKBYTES { buf[i] = 0 }] *)
Definition zero_tail (buf : Block) (buflen : nat) : Block :=
  fold_left (fun b i => upd b i x00) (seq buflen (BLOCKBYTES - buflen)) buf.

(** [if last_node { !0 } else { 0 }] *)
Definition flag32 (b : bool) : u32 := if b then umax 32 else uzero 32.

(** lib.rs:389-402 [State::finalize].  It takes [&mut self]: the new state is returned too. *)
Definition finalize (c : cfg) (st : State) : outcome (State * Hash) :=
  let st := {| st_h := st_h st; st_buf := zero_tail (st_buf st) (buflen_nat st);
               st_buflen := st_buflen st; st_count := st_count st;
               st_compress_fn := st_compress_fn st; st_last_node := st_last_node st;
               st_hash_length := st_hash_length st |} in
  let last_node := flag32 (st_last_node st) in
  h_copy <- call_compress c (st_compress_fn st) (st_h st) (st_buf st) (st_count st)
              (umax 32) last_node ;;
  Ok (st, {| h_bytes := state_words_to_bytes h_copy; h_len := st_hash_length st |}).

(** lib.rs:412-415 [State::set_last_node] *)
Definition set_last_node (st : State) (last_node : bool) : State :=
  {| st_h := st_h st; st_buf := st_buf st; st_buflen := st_buflen st; st_count := st_count st;
     st_compress_fn := st_compress_fn st; st_last_node := last_node;
     st_hash_length := st_hash_length st |}.

(** lib.rs:418-420 [State::count] *)
Definition count (st : State) : u64 := st_count st.

(** lib.rs:159-161 [blake2s] *)
Definition blake2s (c : cfg) (input : list byte) : outcome Hash :=
  st <- State_new c ;;
  st <- update c st input ;;
  ' (_, h) <- finalize c st ;;
  Ok h.

(** lib.rs:440-449 [io::Write for State]: [write] returns [Ok(buf.len())], [flush] [Ok(())]. *)
Definition write (c : cfg) (st : State) (buf : list byte) : outcome (State * nat) :=
  st <- update c st buf ;; Ok (st, length buf).
Definition flush (st : State) : outcome State := Ok st.

(** lib.rs:1078-1080 [benchmarks::force_portable] *)
Definition force_portable (st : State) : State :=
  {| st_h := st_h st; st_buf := st_buf st; st_buflen := st_buflen st; st_count := st_count st;
     st_compress_fn := compress_portable; st_last_node := st_last_node st;
     st_hash_length := st_hash_length st |}.
