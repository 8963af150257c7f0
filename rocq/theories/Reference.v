(** * Reference: the C code of RFC 7693, appendix D (and its self-test, appendix E).

    Written after the C code, as an imperative second definition of BLAKE2s besides [Spec]:
    bytes enter a buffer one at a time, the counter is two 32-bit words with a carry, and
    the parameter block is one xor into the first word.  It shares with [Spec] the two
    operations on 32-bit words ([add32], [rotr32]), the constants, and reading and writing
    an array ([at_], [set]). *)
From Coq Require Import Bool Arith NArith List.
From Coq.Strings Require Import Byte.
From Verif Require Import Spec.
Import ListNotations.
Local Open Scope N_scope.

Definition byte_of (n : N) : byte := match Byte.of_N n with Some b => b | None => x00 end.
(** [xs[i] = x] for bytes *)
Fixpoint put (xs : list byte) (i : nat) (x : byte) : list byte :=
  match xs, i with
  | [], _ => []
  | _ :: t, O => x :: t
  | y :: t, S j => y :: put t j x
  end.

(** [blake2s_ctx] *)
Record ctx := mk_ctx {
  x_b : list byte;        (* uint8_t b[64] *)
  x_h : list N;           (* uint32_t h[8] *)
  x_t0 : N; x_t1 : N;     (* uint32_t t[2] *)
  x_c : nat;              (* size_t c *)
  x_outlen : nat          (* size_t outlen *)
}.

(** [B2S_GET32(p)], at [p = bs + i] *)
Definition GET32 (bs : list byte) (i : nat) : N :=
  let p k := Byte.to_N (nth (i + k) bs x00) in
  N.lxor (N.lxor (N.lxor (p 0%nat) (N.shiftl (p 1%nat) 8)) (N.shiftl (p 2%nat) 16)) (N.shiftl (p 3%nat) 24).
(** [B2S_G] *)
Definition B2S_G (v : list N) (a b c d : nat) (x y : N) : list N :=
  let v := set v a (add32 (add32 (at_ v a) (at_ v b)) x) in
  let v := set v d (rotr32 (N.lxor (at_ v d) (at_ v a)) 16) in
  let v := set v c (add32 (at_ v c) (at_ v d)) in
  let v := set v b (rotr32 (N.lxor (at_ v b) (at_ v c)) 12) in
  let v := set v a (add32 (add32 (at_ v a) (at_ v b)) y) in
  let v := set v d (rotr32 (N.lxor (at_ v d) (at_ v a)) 8) in
  let v := set v c (add32 (at_ v c) (at_ v d)) in
  let v := set v b (rotr32 (N.lxor (at_ v b) (at_ v c)) 7) in
  v.
(** [for (i = from; i < from + n; i++) body] *)
Definition for_ {A} (from n : nat) (body : A -> nat -> A) (a : A) : A := fold_left body (seq from n) a.

(** The loops of [blake2s_compress], in order: the work variables, the message words,
    the ten rounds, the chaining value. *)
Definition init_v (h : list N) : list N :=
  for_ 0 8 (fun v i => let v := set v i (at_ h i) in set v (i + 8) (at_ IV i)) (repeat 0 16).
Definition init_m (bs : list byte) : list N :=
  for_ 0 16 (fun m i => set m i (GET32 bs (4 * i))) (repeat 0 16).
Definition ten_rounds (m v : list N) : list N :=
  for_ 0 10 (fun v i =>
    let s k := at_ m (nth k (nth i SIGMA []) O) in
    let v := B2S_G v 0 4 8 12 (s 0%nat) (s 1%nat) in
    let v := B2S_G v 1 5 9 13 (s 2%nat) (s 3%nat) in
    let v := B2S_G v 2 6 10 14 (s 4%nat) (s 5%nat) in
    let v := B2S_G v 3 7 11 15 (s 6%nat) (s 7%nat) in
    let v := B2S_G v 0 5 10 15 (s 8%nat) (s 9%nat) in
    let v := B2S_G v 1 6 11 12 (s 10%nat) (s 11%nat) in
    let v := B2S_G v 2 7 8 13 (s 12%nat) (s 13%nat) in
    let v := B2S_G v 3 4 9 14 (s 14%nat) (s 15%nat) in
    v) v.
Definition feed (v h : list N) : list N :=
  for_ 0 8 (fun hh i => set hh i (N.lxor (at_ hh i) (N.lxor (at_ v i) (at_ v (i + 8))))) h.
(** [blake2s_compress(ctx, last)] *)
Definition blake2s_compress (x : ctx) (last : bool) : ctx :=
  let v := init_v (x_h x) in
  let v := set v 12 (N.lxor (at_ v 12) (x_t0 x)) in
  let v := set v 13 (N.lxor (at_ v 13) (x_t1 x)) in
  let v := if last then set v 14 (N.lxor (at_ v 14) ones) else v in
  let m := init_m (x_b x) in
  let v := ten_rounds m v in
  mk_ctx (x_b x) (feed v (x_h x)) (x_t0 x) (x_t1 x) (x_c x) (x_outlen x).

(** [ctx->t[0] += ctx->c; if (ctx->t[0] < ctx->c) ctx->t[1]++;] *)
Definition add_counter (x : ctx) : ctx :=
  let n := N.of_nat (x_c x) in
  let t := add32 (x_t0 x) n in
  mk_ctx (x_b x) (x_h x) t (if t <? n then add32 (x_t1 x) 1 else x_t1 x) (x_c x) (x_outlen x).

(** The body of the loop of [blake2s_update]. *)
Definition update_byte (x : ctx) (i : byte) : ctx :=
  let x := if Nat.eqb (x_c x) 64
           then let x := add_counter x in
                let x := blake2s_compress x false in
                mk_ctx (x_b x) (x_h x) (x_t0 x) (x_t1 x) 0 (x_outlen x)
           else x in
  mk_ctx (put (x_b x) (x_c x) i) (x_h x) (x_t0 x) (x_t1 x) (S (x_c x)) (x_outlen x).
(** [blake2s_update] *)
Definition blake2s_update (x : ctx) (inp : list byte) : ctx := fold_left update_byte inp x.

(** [blake2s_init]; [junk] is what the uninitialized buffer contains.  [None] is the
    result -1. *)
Definition blake2s_init (junk : list byte) (outlen : nat) (key : list byte) : option ctx :=
  let keylen := length key in
  if Nat.eqb outlen 0 || Nat.ltb 32 outlen || Nat.ltb 32 keylen
  then None
  else
    let h := for_ 0 8 (fun h i => set h i (at_ IV i)) (repeat 0 8) in
    let h := set h 0 (N.lxor (at_ h 0)
               (N.lxor (N.lxor 0x01010000 (N.shiftl (N.of_nat keylen) 8)) (N.of_nat outlen))) in
    let bb := for_ keylen (64 - keylen) (fun bb i => put bb i x00) junk in
    let x := mk_ctx bb h 0 0 0 outlen in
    if Nat.ltb 0 keylen
    then let x := blake2s_update x key in
         Some (mk_ctx (x_b x) (x_h x) (x_t0 x) (x_t1 x) 64 outlen)
    else Some x.

(** [blake2s_final] *)
Definition blake2s_final (x : ctx) : list byte :=
  let x := add_counter x in
  let bb := for_ (x_c x) (64 - x_c x) (fun bb i => put bb i x00) (x_b x) in
  let x := blake2s_compress (mk_ctx bb (x_h x) (x_t0 x) (x_t1 x) 64 (x_outlen x)) true in
  map (fun i => byte_of (N.land (N.shiftr (at_ (x_h x) (Nat.div i 4)) (8 * N.of_nat (Nat.modulo i 4))) 255)) (seq 0 (x_outlen x)).

(** [blake2s], the message in pieces *)
Definition reference (junk : list byte) (outlen : nat) (key : list byte) (pieces : list (list byte)) : option (list byte) :=
  match blake2s_init junk outlen key with
  | None => None
  | Some x => Some (blake2s_final (fold_left blake2s_update pieces x))
  end.

(** ** RFC 7693 appendix E, for BLAKE2s *)
(** [selftest_seq] *)
Fixpoint selftest_loop (n : nat) (a b : N) : list byte :=
  match n with
  | O => []
  | S n => let t := add32 a b in byte_of (N.land (N.shiftr t 24) 255) :: selftest_loop n b t
  end.
Definition selftest_seq (len seed : nat) : list byte := selftest_loop len (low32 (0xDEAD4BAD * N.of_nat seed)) 1.
(** What [blake2s_selftest] hashes, with any function for [blake2s(md, outlen, key, keylen, in, inlen)] *)
Definition selftest_hashes (blake2s : nat -> list byte -> list byte -> list byte) : list (list byte) :=
  flat_map (fun outlen =>
    flat_map (fun inlen =>
      let inp := selftest_seq inlen inlen in
      let key := selftest_seq outlen outlen in
      [blake2s outlen [] inp; blake2s outlen key inp]) [0; 3; 64; 65; 255; 1024]%nat)
  [16; 20; 28; 32]%nat.
(** [blake2s_res] *)
Definition blake2s_res : list byte := map byte_of
  [0x6A; 0x41; 0x1F; 0x08; 0xCE; 0x25; 0xAD; 0xCD; 0xFB; 0x02; 0xAB; 0xA6; 0x41; 0x45; 0x1C; 0xEC;
   0x53; 0xC5; 0x98; 0xB2; 0x4F; 0x4F; 0xC7; 0x87; 0xFB; 0xDC; 0x88; 0x79; 0x7F; 0x4C; 0x1D; 0xFE].
