(** * Blake2sp: blake2sp.rs. *)
From Verif Require Import Base Consts Portable Params Many.
From Verif Require State.
Import State (Compress8Fn, compress8_portable, compress_portable, default_compress_impl,
              fn_compress8, call_compress8, st_h, st_buf, st_buflen, st_count, st_compress_fn,
              st_last_node, st_hash_length).
Local Open Scope N_scope.

(** blake2sp.rs:18-23 [struct Params] *)
Record SpParams := mk_SpParams {
  sp_hash_length : u8;
  sp_key_length : u8;
  sp_key : list byte   (* [u8; KEYBYTES] *)
}.

(** blake2sp.rs:52-60 [Params::default], 26-28 [Params::new] *)
Definition SpParams_default : SpParams := {|
  sp_hash_length := of_N 8 (N.of_nat OUTBYTES);
  sp_key_length := of_N 8 0;
  sp_key := repeat x00 KEYBYTES |}.
Definition SpParams_new : SpParams := SpParams_default.

(** blake2sp.rs:34-42 [Params::hash_length] *)
Definition sp_set_hash_length (p : SpParams) (length : N) : outcome SpParams :=
  assert! ((1 <=? length) && (length <=? N.of_nat OUTBYTES)) ;;
  Ok {| sp_hash_length := of_N 8 length; sp_key_length := sp_key_length p; sp_key := sp_key p |}.

(** blake2sp.rs:44-50 [Params::key] *)
Definition sp_set_key (p : SpParams) (key : list byte) : outcome SpParams :=
  assert! (Nat.leb (length key) KEYBYTES) ;;
  key' <- copy_into (repeat x00 KEYBYTES) 0 (length key) key ;;
  Ok {| sp_hash_length := sp_hash_length p; sp_key_length := of_N 8 (N.of_nat (length key));
        sp_key := key' |}.

(** A setter call and a chain of setter calls on [Params::new()]. *)
Inductive sp_setter := SpHashLength (length : N) | SpKey (key : list byte).
Definition sp_apply_setter (p : SpParams) (s : sp_setter) : outcome SpParams :=
  match s with
  | SpHashLength n => sp_set_hash_length p n
  | SpKey k => sp_set_key p k
  end.
Fixpoint sp_apply_setters (p : SpParams) (l : list sp_setter) : outcome SpParams :=
  match l with
  | [] => Ok p
  | s :: l' => p' <- sp_apply_setter p s ;; sp_apply_setters p' l'
  end.
Definition sp_build (l : list sp_setter) : outcome SpParams := sp_apply_setters SpParams_new l.

(** blake2sp.rs:75-90 [struct State] *)
Record SpState := mk_SpState {
  sp_leaves : oct State.State;   (* leaf0 .. leaf7 *)
  sp_root : State.State;
  sp_buf : list byte;            (* [u8; 2 * 8 * BLOCKBYTES] *)
  sp_buflen : u16;
  sp_compress8_fn : Compress8Fn
}.
Definition SPBUF : nat := 2 * 8 * BLOCKBYTES.

(** [state.hash_length = n] *)
Definition set_st_hash_length (st : State.State) (n : u8) : State.State :=
  {| st_h := st_h st; st_buf := st_buf st; st_buflen := st_buflen st; st_count := st_count st;
     st_compress_fn := st_compress_fn st; st_last_node := st_last_node st; st_hash_length := n |}.

(** blake2sp.rs:117-129, the closure [leaf_state] *)
Definition leaf_state (c : cfg) (base_params : Params) (worker_index : N) : outcome State.State :=
  p <- set_node_offset base_params (of_N 64 worker_index) ;;
  p <- set_node_depth p (of_N 8 0) ;;
  p <- set_last_node_param p (worker_index =? 7) ;;
  state <- State.to_state c p ;;
  Ok (set_st_hash_length state (of_N 8 (N.of_nat OUTBYTES))).

(** blake2sp.rs:104-157 [State::with_params] *)
Definition sp_with_params (c : cfg) (params : SpParams) : outcome SpState :=
  p <- set_hash_length Params_new (val (sp_hash_length params)) ;;
  k <- slice_to (sp_key params) (N.to_nat (val (sp_key_length params))) ;;
  p <- set_key p k ;;
  p <- set_fanout p (of_N 8 8) ;;
  p <- set_max_depth p (of_N 8 2) ;;
  p <- set_max_leaf_length p (of_N 32 0) ;;
  base_params <- set_inner_hash_length p (N.of_nat OUTBYTES) ;;
  p <- set_node_offset base_params (of_N 64 0) ;;
  p <- set_node_depth p (of_N 8 1) ;;
  p <- set_last_node_param p true ;;
  root_state <- State.to_state c p ;;
  let root_state := {| st_h := st_h root_state; st_buf := st_buf root_state;
                       st_buflen := of_N 8 0; st_count := of_N 64 0;
                       st_compress_fn := st_compress_fn root_state;
                       st_last_node := st_last_node root_state;
                       st_hash_length := st_hash_length root_state |} in
  leaves <- oct_mapM (leaf_state c base_params) (Oct 0 1 2 3 4 5 6 7) ;;
  Ok {| sp_leaves := leaves; sp_root := root_state; sp_buf := repeat x00 SPBUF;
        sp_buflen := of_N 16 0; sp_compress8_fn := fn_compress8 (default_compress_impl c) |}.
(** blake2sp.rs:30-32 [Params::to_state], 94-96 [State::new], 431-435 [State::default] *)
Definition sp_to_state (c : cfg) (params : SpParams) : outcome SpState := sp_with_params c params.
Definition SpState_new (c : cfg) : outcome SpState := sp_with_params c SpParams_default.
Definition SpState_default (c : cfg) : outcome SpState := sp_with_params c SpParams_default.

Definition sp_buflen_nat (st : SpState) : nat := N.to_nat (val (sp_buflen st)).

(** blake2sp.rs:159-164 [State::fill_buf] *)
Definition sp_fill_buf (c : cfg) (st : SpState) (input : list byte) : outcome (SpState * list byte) :=
  room <- nsub c (length (sp_buf st)) (sp_buflen_nat st) ;;
  let take := Nat.min room (length input) in
  src <- slice_to input take ;;
  buf <- copy_into (sp_buf st) (sp_buflen_nat st) (sp_buflen_nat st + take) src ;;
  buflen <- uadd c (sp_buflen st) (of_N 16 (N.of_nat take)) ;;
  rest <- slice_from input take ;;
  Ok ({| sp_leaves := sp_leaves st; sp_root := sp_root st; sp_buf := buf; sp_buflen := buflen;
         sp_compress8_fn := sp_compress8_fn st |}, rest).

(** The eight 64-byte pieces of a 512-byte array ([array_refs!]). *)
Definition eight_blocks (input : list byte) : oct Block :=
  Oct (sub input 0 BLOCKBYTES) (sub input (1 * BLOCKBYTES) BLOCKBYTES)
      (sub input (2 * BLOCKBYTES) BLOCKBYTES) (sub input (3 * BLOCKBYTES) BLOCKBYTES)
      (sub input (4 * BLOCKBYTES) BLOCKBYTES) (sub input (5 * BLOCKBYTES) BLOCKBYTES)
      (sub input (6 * BLOCKBYTES) BLOCKBYTES) (sub input (7 * BLOCKBYTES) BLOCKBYTES).

(** blake2sp.rs:166-252 [State::compress8] *)
Definition sp_compress8 (c : cfg) (input : list byte) (leaves : oct State.State)
    (compress8_fn : Compress8Fn) : outcome (oct State.State) :=
  _ <- debug_assert c (oct_all (fun l => 0 =? val (st_buflen l)) leaves) ;;
  _ <- debug_assert c (oct_all (fun l => val (st_count (o0 leaves)) =? val (st_count l)) leaves) ;;
  leaves <- oct_mapM (bump_count c) leaves ;;
  hs <- call_compress8 c compress8_fn (oct_map st_h leaves) (eight_blocks input)
          (oct_map st_count leaves) (oct_const (uzero 32)) (oct_const (uzero 32)) ;;
  Ok (oct_map2 set_h leaves hs).

Definition sp_set_leaves (st : SpState) (leaves : oct State.State) : SpState :=
  {| sp_leaves := leaves; sp_root := sp_root st; sp_buf := sp_buf st; sp_buflen := sp_buflen st;
     sp_compress8_fn := sp_compress8_fn st |}.
Definition sp_set_buflen (st : SpState) (n : u16) : SpState :=
  {| sp_leaves := sp_leaves st; sp_root := sp_root st; sp_buf := sp_buf st; sp_buflen := n;
     sp_compress8_fn := sp_compress8_fn st |}.
Definition sp_set_buf (st : SpState) (b : list byte) : SpState :=
  {| sp_leaves := sp_leaves st; sp_root := sp_root st; sp_buf := b; sp_buflen := sp_buflen st;
     sp_compress8_fn := sp_compress8_fn st |}.

(** blake2sp.rs:260-301, the first part of [State::update] *)
Definition sp_empty_buffer (c : cfg) (st : SpState) (input : list byte)
  : outcome (SpState * list byte) :=
  if 0 <? val (sp_buflen st) then
    ' (st, input) <- sp_fill_buf c st input ;;
    match input with
    | [] => Ok (st, input)
    | _ :: _ =>
        block <- array_ref (sp_buf st) 0 (8 * BLOCKBYTES) ;;
        leaves <- sp_compress8 c block (sp_leaves st) (sp_compress8_fn st) ;;
        let st := sp_set_leaves st leaves in
        buflen <- usub c (sp_buflen st) (of_N 16 (N.of_nat (8 * BLOCKBYTES))) ;;
        let st := sp_set_buflen st buflen in
        if Nat.ltb (7 * BLOCKBYTES) (length input) then
          block <- array_ref (sp_buf st) (8 * BLOCKBYTES) (8 * BLOCKBYTES) ;;
          leaves <- sp_compress8 c block (sp_leaves st) (sp_compress8_fn st) ;;
          Ok (sp_set_buflen (sp_set_leaves st leaves) (of_N 16 0), input)
        else
          left <- slice_to (sp_buf st) (8 * BLOCKBYTES) ;;
          right <- slice_from (sp_buf st) (8 * BLOCKBYTES) ;;
          src <- slice_to right (sp_buflen_nat st) ;;
          left <- copy_into left 0 (sp_buflen_nat st) src ;;
          Ok (sp_set_buf st (left ++ right), input)
    end
  else Ok (st, input).

(** blake2sp.rs:306-321, the [while] loop of [State::update] *)
Fixpoint sp_update_loop (fuel : nat) (c : cfg) (st : SpState) (input : list byte)
  : outcome (SpState * list byte) :=
  match fuel with
  | O => Stuck
  | S fuel =>
      if Nat.ltb (15 * BLOCKBYTES) (length input) then
        block <- array_ref input 0 (8 * BLOCKBYTES) ;;
        leaves <- sp_compress8 c block (sp_leaves st) (sp_compress8_fn st) ;;
        rest <- slice_from input (8 * BLOCKBYTES) ;;
        sp_update_loop fuel c (sp_set_leaves st leaves) rest
      else Ok (st, input)
  end.

(** blake2sp.rs:255-328 [State::update] *)
Definition sp_update (c : cfg) (st : SpState) (input : list byte) : outcome SpState :=
  ' (st, input) <- sp_empty_buffer c st input ;;
  ' (st, input) <- sp_update_loop (S (length input)) c st input ;;
  ' (st, input) <- sp_fill_buf c st input ;;
  _ <- debug_assert c (Nat.eqb 0 (length input)) ;;
  Ok st.

(** [leafI.update(&chunks.K[..cmp::min(buflen, BLOCKBYTES)])] *)
Definition feed_chunk (c : cfg) (buf : list byte) (k : nat) (buflen : nat) (leaf : State.State)
  : outcome State.State :=
  s <- slice_to (sub buf (k * BLOCKBYTES) BLOCKBYTES) (Nat.min buflen BLOCKBYTES) ;;
  State.update c leaf s.

(** [root.update(leafI.finalize().as_bytes())] *)
Definition feed_root (c : cfg) (root leaf : State.State) : outcome State.State :=
  ' (_, h) <- State.finalize c leaf ;;
  bs <- as_bytes h ;;
  State.update c root bs.

(** blake2sp.rs:332-388 [State::finalize].  It works on clones, so [self] is
    unchanged; [saturating_sub] is [nat] subtraction. *)
Definition sp_finalize (c : cfg) (st : SpState) : outcome Hash :=
  let buf := sp_buf st in
  let '(Oct leaf0 leaf1 leaf2 leaf3 leaf4 leaf5 leaf6 leaf7) := sp_leaves st in
  let buflen := sp_buflen_nat st in
  leaf0 <- feed_chunk c buf 0 buflen leaf0 ;;
  let buflen := (buflen - BLOCKBYTES)%nat in
  leaf1 <- feed_chunk c buf 1 buflen leaf1 ;;
  let buflen := (buflen - BLOCKBYTES)%nat in
  leaf2 <- feed_chunk c buf 2 buflen leaf2 ;;
  let buflen := (buflen - BLOCKBYTES)%nat in
  leaf3 <- feed_chunk c buf 3 buflen leaf3 ;;
  let buflen := (buflen - BLOCKBYTES)%nat in
  leaf4 <- feed_chunk c buf 4 buflen leaf4 ;;
  let buflen := (buflen - BLOCKBYTES)%nat in
  leaf5 <- feed_chunk c buf 5 buflen leaf5 ;;
  let buflen := (buflen - BLOCKBYTES)%nat in
  leaf6 <- feed_chunk c buf 6 buflen leaf6 ;;
  let buflen := (buflen - BLOCKBYTES)%nat in
  leaf7 <- feed_chunk c buf 7 buflen leaf7 ;;
  let buflen := (buflen - BLOCKBYTES)%nat in
  leaf0 <- feed_chunk c buf 8 buflen leaf0 ;;
  let buflen := (buflen - BLOCKBYTES)%nat in
  leaf1 <- feed_chunk c buf 9 buflen leaf1 ;;
  let buflen := (buflen - BLOCKBYTES)%nat in
  leaf2 <- feed_chunk c buf 10 buflen leaf2 ;;
  let buflen := (buflen - BLOCKBYTES)%nat in
  leaf3 <- feed_chunk c buf 11 buflen leaf3 ;;
  let buflen := (buflen - BLOCKBYTES)%nat in
  leaf4 <- feed_chunk c buf 12 buflen leaf4 ;;
  let buflen := (buflen - BLOCKBYTES)%nat in
  leaf5 <- feed_chunk c buf 13 buflen leaf5 ;;
  let buflen := (buflen - BLOCKBYTES)%nat in
  leaf6 <- feed_chunk c buf 14 buflen leaf6 ;;
  let buflen := (buflen - BLOCKBYTES)%nat in
  leaf7 <- feed_chunk c buf 15 buflen leaf7 ;;
  let root := sp_root st in
  root <- feed_root c root leaf0 ;;
  root <- feed_root c root leaf1 ;;
  root <- feed_root c root leaf2 ;;
  root <- feed_root c root leaf3 ;;
  root <- feed_root c root leaf4 ;;
  root <- feed_root c root leaf5 ;;
  root <- feed_root c root leaf6 ;;
  root <- feed_root c root leaf7 ;;
  ' (_, h) <- State.finalize c root ;;
  Ok h.

(** blake2sp.rs:391-401 [State::count] *)
Definition sp_count (c : cfg) (st : SpState) : outcome u64 :=
  let l := oct_map State.count (sp_leaves st) in
  n <- uadd c (o0 l) (o1 l) ;;
  n <- uadd c n (o2 l) ;;
  n <- uadd c n (o3 l) ;;
  n <- uadd c n (o4 l) ;;
  n <- uadd c n (o5 l) ;;
  n <- uadd c n (o6 l) ;;
  n <- uadd c n (o7 l) ;;
  uadd c n (cast 64 (sp_buflen st)).

(** blake2sp.rs:14-16 [blake2sp] *)
Definition blake2sp (c : cfg) (input : list byte) : outcome Hash :=
  st <- SpState_new c ;;
  st <- sp_update c st input ;;
  sp_finalize c st.

(** blake2sp.rs:404-414 [io::Write for State] *)
Definition sp_write (c : cfg) (st : SpState) (buf : list byte) : outcome (SpState * nat) :=
  st <- sp_update c st buf ;; Ok (st, length buf).
Definition sp_flush (st : SpState) : outcome SpState := Ok st.

(** blake2sp.rs:437-449 [force_portable] *)
Definition sp_force_portable (st : SpState) : SpState :=
  {| sp_leaves := oct_map State.force_portable (sp_leaves st);
     sp_root := State.force_portable (sp_root st);
     sp_buf := sp_buf st; sp_buflen := sp_buflen st;
     sp_compress8_fn := compress8_portable |}.
