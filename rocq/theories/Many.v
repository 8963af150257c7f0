(** * Many: the multi-input functions of lib.rs. *)
From Verif Require Import Base Consts Portable Params State.
From Verif Require Sse41 Avx2.
Local Open Scope N_scope.

(** The same statement once per lane, in order 0 to 7. *)
Definition oct_mapM {A B} (f : A -> outcome B) (a : oct A) : outcome (oct B) :=
  x0 <- f (o0 a) ;; x1 <- f (o1 a) ;; x2 <- f (o2 a) ;; x3 <- f (o3 a) ;;
  x4 <- f (o4 a) ;; x5 <- f (o5 a) ;; x6 <- f (o6 a) ;; x7 <- f (o7 a) ;;
  Ok (Oct x0 x1 x2 x3 x4 x5 x6 x7).
Definition oct_mapM2 {A B C} (f : A -> B -> outcome C) (a : oct A) (b : oct B) : outcome (oct C) :=
  x0 <- f (o0 a) (o0 b) ;; x1 <- f (o1 a) (o1 b) ;; x2 <- f (o2 a) (o2 b) ;;
  x3 <- f (o3 a) (o3 b) ;; x4 <- f (o4 a) (o4 b) ;; x5 <- f (o5 a) (o5 b) ;;
  x6 <- f (o6 a) (o6 b) ;; x7 <- f (o7 a) (o7 b) ;;
  Ok (Oct x0 x1 x2 x3 x4 x5 x6 x7).

(** [cond0 && cond1 && ... && cond7], short-circuiting *)
Definition oct_all {A} (f : A -> bool) (a : oct A) : bool :=
  f (o0 a) && f (o1 a) && f (o2 a) && f (o3 a) && f (o4 a) && f (o5 a) && f (o6 a) && f (o7 a).

Definition set_h (st : State) (h : StateWords) : State :=
  {| st_h := h; st_buf := st_buf st; st_buflen := st_buflen st; st_count := st_count st;
     st_compress_fn := st_compress_fn st; st_last_node := st_last_node st;
     st_hash_length := st_hash_length st |}.
Definition set_count (st : State) (n : u64) : State :=
  {| st_h := st_h st; st_buf := st_buf st; st_buflen := st_buflen st; st_count := n;
     st_compress_fn := st_compress_fn st; st_last_node := st_last_node st;
     st_hash_length := st_hash_length st |}.
Definition set_buf (st : State) (b : Block) : State :=
  {| st_h := st_h st; st_buf := b; st_buflen := st_buflen st; st_count := st_count st;
     st_compress_fn := st_compress_fn st; st_last_node := st_last_node st;
     st_hash_length := st_hash_length st |}.

(** [state.count += BLOCKBYTES as u64] *)
Definition bump_count (c : cfg) (st : State) : outcome State :=
  n <- uadd c (st_count st) (of_N 64 (N.of_nat BLOCKBYTES)) ;; Ok (set_count st n).

(** lib.rs:554-621, the [while] loop of [update8] *)
Fixpoint update8_loop (fuel : nat) (c : cfg) (compress8_fn : Compress8Fn)
    (states : oct State) (inputs : oct (list byte)) : outcome (oct State * oct (list byte)) :=
  match fuel with
  | O => Stuck
  | S fuel =>
      if oct_all (fun i => Nat.ltb BLOCKBYTES (length i)) inputs then
        states <- oct_mapM (bump_count c) states ;;
        blocks <- oct_mapM (fun i => array_ref i 0 BLOCKBYTES) inputs ;;
        hs <- call_compress8 c compress8_fn (oct_map st_h states) blocks (oct_map st_count states)
                (oct_const (uzero 32)) (oct_const (uzero 32)) ;;
        inputs <- oct_mapM (fun i => slice_from i BLOCKBYTES) inputs ;;
        update8_loop fuel c compress8_fn (oct_map2 set_h states hs) inputs
      else Ok (states, inputs)
  end.

(** lib.rs:523-634 [update8] *)
Definition update8 (c : cfg) (states : oct State) (inputs : oct (list byte)) : outcome (oct State) :=
  si <- oct_mapM2 (compress_buffer_if_possible c) states inputs ;;
  let compress8_fn := fn_compress8 (default_compress_impl c) in
  ' (states, inputs) <- update8_loop (S (length (snd (o0 si)))) c compress8_fn
                          (oct_map fst si) (oct_map snd si) ;;
  oct_mapM2 (update c) states inputs.

(** lib.rs:636-770 [finalize8] *)
Definition finalize8 (c : cfg) (states : oct State) : outcome (oct State * oct Hash) :=
  let states := oct_map (fun st => set_buf st (zero_tail (st_buf st) (buflen_nat st))) states in
  let last_nodes := oct_map (fun st => flag32 (st_last_node st)) states in
  let h_copies := oct_map st_h states in
  let compress8_fn := fn_compress8 (default_compress_impl c) in
  hs <- call_compress8 c compress8_fn h_copies (oct_map st_buf states) (oct_map st_count states)
          (oct_const (umax 32)) last_nodes ;;
  Ok (states,
      oct_map2 (fun st h => {| h_bytes := state_words_to_bytes h; h_len := st_hash_length st |})
               states hs).

(** [params.to_state().update(input).finalize()] *)
Definition hash_one (c : cfg) (params : Params) (input : list byte) : outcome Hash :=
  st <- to_state c params ;;
  st <- update c st input ;;
  ' (_, h) <- finalize c st ;;
  Ok h.

(** portable.rs:160-173 [hash4_exact] *)
Definition hash4_exact_port (c : cfg) (params : Params) (input : quad (list byte))
  : outcome (quad Hash) :=
  h0 <- hash_one c params (q0 input) ;; h1 <- hash_one c params (q1 input) ;;
  h2 <- hash_one c params (q2 input) ;; h3 <- hash_one c params (q3 input) ;;
  Ok (Quad h0 h1 h2 h3).

(** portable.rs:175-196 [hash8_exact] *)
Definition hash8_exact_port (c : cfg) (params : Params) (input : oct (list byte))
  : outcome (oct Hash) :=
  oct_mapM (hash_one c params) input.

Definition call_hash4_exact (c : cfg) (f : Hash4ExactFn) (params : Params)
    (input : quad (list byte)) : outcome (quad Hash) :=
  match f with
  | hash4_exact_portable => hash4_exact_port c params input
  | hash4_exact_sse41 =>
      if has_sse41 c
      then Sse41.hash4_exact params (q0 input) (q1 input) (q2 input) (q3 input) else UB
  end.
Definition call_hash8_exact (c : cfg) (f : Hash8ExactFn) (params : Params)
    (input : oct (list byte)) : outcome (oct Hash) :=
  match f with
  | hash8_exact_portable => hash8_exact_port c params input
  | hash8_exact_avx2 => if has_avx2 c then Avx2.hash8_exact params input else UB
  end.

(** lib.rs:772-792 [hash4_exact] *)
Definition hash4_exact (c : cfg) (params : Params) (input : quad (list byte))
  : outcome (quad Hash) :=
  let len := length (q0 input) in
  let same_length := Nat.eqb (length (q1 input)) len && Nat.eqb (length (q2 input)) len
                     && Nat.eqb (length (q3 input)) len in
  let even_length := Nat.eqb (Nat.modulo len BLOCKBYTES) 0 in
  let nonempty := negb (Nat.eqb len 0) in
  assert! (same_length && even_length && nonempty) ;;
  call_hash4_exact c (fn_hash4_exact (default_compress_impl c)) params input.

(** lib.rs:794-828 [hash8_exact] *)
Definition hash8_exact (c : cfg) (params : Params) (input : oct (list byte))
  : outcome (oct Hash) :=
  let len := length (o0 input) in
  let same_length := Nat.eqb (length (o1 input)) len && Nat.eqb (length (o2 input)) len
                     && Nat.eqb (length (o3 input)) len && Nat.eqb (length (o4 input)) len
                     && Nat.eqb (length (o5 input)) len && Nat.eqb (length (o6 input)) len
                     && Nat.eqb (length (o7 input)) len in
  let even_length := Nat.eqb (Nat.modulo len BLOCKBYTES) 0 in
  let nonempty := negb (Nat.eqb len 0) in
  assert! (same_length && even_length && nonempty) ;;
  call_hash8_exact c (fn_hash8_exact (default_compress_impl c)) params input.

(** [input0.len() - count OP BLOCKBYTES && ... && input7.len() - count OP BLOCKBYTES],
    short-circuiting, with the [usize] subtractions *)
Fixpoint all_remaining (c : cfg) (test : nat -> bool) (count : nat) (lens : list nat) : outcome bool :=
  match lens with
  | [] => Ok true
  | l :: lens => d <- nsub c l count ;; if test d then all_remaining c test count lens else Ok false
  end.

(** lib.rs:995-1007, the closure [finish] of [hash8] *)
Definition hash8_finish (c : cfg) (compress_fn : CompressFn) (count : nat)
    (params : Params) (words : StateWords) (input : list byte) : outcome Hash :=
  let state := {| st_h := words; st_buf := repeat x00 BLOCKBYTES; st_buflen := of_N 8 0;
                  st_count := of_N 64 (N.of_nat count); st_compress_fn := compress_fn;
                  st_last_node := p_last_node params; st_hash_length := p_hash_length params |} in
  rest <- slice_from input count ;;
  state <- update c state rest ;;
  ' (_, h) <- finalize c state ;;
  Ok h.

(** lib.rs:886-986, the [loop] of [hash8], and lib.rs:988-1018, what follows a [break] *)
Fixpoint hash8_loop (fuel : nat) (c : cfg) (fns : impl) (params : oct Params)
    (inputs : oct (list byte)) (state_words8 : oct AlignedWords8) (count : nat)
  : outcome (oct Hash) :=
  match fuel with
  | O => Stuck
  | S fuel =>
      let lens := oct_list (oct_map (@length byte) inputs) in
      update_all <- all_remaining c (fun d => Nat.ltb BLOCKBYTES d) count lens ;;
      finalize_all <- all_remaining c (fun d => Nat.eqb d BLOCKBYTES) count lens ;;
      if negb update_all && negb finalize_all then
        (* break *)
        state_words8 <- call_vectorize8 c (fn_vectorize8 fns) state_words8 ;;
        h0 <- hash8_finish c (fn_compress fns) count (o0 params) (o0 state_words8) (o0 inputs) ;;
        h1 <- hash8_finish c (fn_compress fns) count (o1 params) (o1 state_words8) (o1 inputs) ;;
        h2 <- hash8_finish c (fn_compress fns) count (o2 params) (o2 state_words8) (o2 inputs) ;;
        h3 <- hash8_finish c (fn_compress fns) count (o3 params) (o3 state_words8) (o3 inputs) ;;
        h4 <- hash8_finish c (fn_compress fns) count (o4 params) (o4 state_words8) (o4 inputs) ;;
        h5 <- hash8_finish c (fn_compress fns) count (o5 params) (o5 state_words8) (o5 inputs) ;;
        h6 <- hash8_finish c (fn_compress fns) count (o6 params) (o6 state_words8) (o6 inputs) ;;
        h7 <- hash8_finish c (fn_compress fns) count (o7 params) (o7 state_words8) (o7 inputs) ;;
        Ok (Oct h0 h1 h2 h3 h4 h5 h6 h7)
      else
        blocks <- oct_mapM (fun i => array_ref i count BLOCKBYTES) inputs ;;
        let count := (count + BLOCKBYTES)%nat in
        let count_low := of_N 32 (N.of_nat count) in
        let count_high := cast 32 (ushr (of_N 64 (N.of_nat count)) 32) in
        let lastblock := if finalize_all then oct_const (umax 32) else oct_const (uzero 32) in
        let lastnode := if finalize_all then oct_map (fun p => flag32 (p_last_node p)) params
                        else oct_const (uzero 32) in
        state_words8 <- call_compress8_vectorized c (fn_compress8_vectorized fns) state_words8
                          blocks (oct_const count_low) (oct_const count_high) lastblock lastnode ;;
        if finalize_all then
          state_words8 <- call_vectorize8 c (fn_vectorize8 fns) state_words8 ;;
          Ok (oct_map2 (fun p w => {| h_bytes := state_words_to_bytes w; h_len := p_hash_length p |})
                       params state_words8)
        else hash8_loop fuel c fns params inputs state_words8 count
  end.

(** lib.rs:830-1019 [hash8] *)
Definition hash8 (c : cfg) (params : oct Params) (inputs : oct (list byte)) : outcome (oct Hash) :=
  assert! (oct_all (fun p => val (p_key_length p) =? 0) params) ;;
  let fns := default_compress_impl c in
  let state_words8 := oct_map make_words params in
  state_words8 <- call_vectorize8 c (fn_vectorize8 fns) state_words8 ;;
  hash8_loop (S (length (o0 inputs))) c fns params inputs state_words8 0.
