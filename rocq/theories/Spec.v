(** * Spec: BLAKE2s and BLAKE2sp, stand-alone.

    Written from RFC 7693 (sections 2.1-2.7, 3.1-3.3), the BLAKE2 paper (parameter
    block and tree hashing, sections 2.5, 2.8, 2.10) and the BLAKE2sp reference
    construction.  It does not import the model.  Words are plain numbers below 2^32. *)
From Coq Require Import Arith NArith List.
From Coq.Strings Require Import Byte.
Import ListNotations.
Local Open Scope N_scope.

(** ** Words and bytes. *)
(** The low 32 bits of a number, that is, the number modulo 2^32. *)
Definition low32 (x : N) : N := N.land x (N.ones 32).
Lemma low32_mod x : low32 x = x mod 2 ^ 32.
Proof. apply N.land_ones. Qed.
Definition add32 (x y : N) : N := low32 (x + y).
(** RFC 7693 2.3: (x >>> n) = (x >> n) ^ (x << (w - n)). *)
Definition rotr32 (x n : N) : N := N.lxor (N.shiftr x n) (low32 (N.shiftl x (32 - n))).

(** [k] little-endian bytes of [n]. *)
Fixpoint le_bytes (k : nat) (n : N) : list byte :=
  match k with
  | O => []
  | S k' => (match Byte.of_N (n mod 256) with Some b => b | None => x00 end)
              :: le_bytes k' (n / 256)
  end.
(** The number a little-endian byte string denotes. *)
Fixpoint le_num (bs : list byte) : N :=
  match bs with [] => 0 | b :: t => Byte.to_N b + 256 * le_num t end.

(** [xs] extended with zero bytes to length [n]. *)
Definition pad (n : nat) (xs : list byte) : list byte := xs ++ repeat x00 (n - length xs)%nat.

(** Word number [i] of a byte string. *)
Definition word (bs : list byte) (i : nat) : N := le_num (firstn 4 (skipn (4 * i)%nat bs)).

(** ** RFC 7693 2.6, 2.7, 3.1, 3.2: constants, mixing, compression. *)
Definition IV : list N :=
  [0x6A09E667; 0xBB67AE85; 0x3C6EF372; 0xA54FF53A; 0x510E527F; 0x9B05688C; 0x1F83D9AB; 0x5BE0CD19].

Definition SIGMA : list (list nat) :=
  [[ 0;  1;  2;  3;  4;  5;  6;  7;  8;  9; 10; 11; 12; 13; 14; 15];
   [14; 10;  4;  8;  9; 15; 13;  6;  1; 12;  0;  2; 11;  7;  5;  3];
   [11;  8; 12;  0;  5;  2; 15; 13; 10; 14;  3;  6;  7;  1;  9;  4];
   [ 7;  9;  3;  1; 13; 12; 11; 14;  2;  6;  5; 10;  4;  0; 15;  8];
   [ 9;  0;  5;  7;  2;  4; 10; 15; 14;  1; 11; 12;  6;  8;  3; 13];
   [ 2; 12;  6; 10;  0; 11;  8;  3;  4; 13;  7;  5; 15; 14;  1;  9];
   [12;  5;  1; 15; 14; 13;  4; 10;  0;  7;  6;  3;  9;  2;  8; 11];
   [13; 11;  7; 14; 12;  1;  3;  9;  5;  0; 15;  4;  8;  6;  2; 10];
   [ 6; 15; 14;  9; 11;  3;  0;  8; 12;  2; 13;  7;  1;  4; 10;  5];
   [10;  2;  8;  4;  7;  6;  1;  5; 15; 11;  9; 14;  3; 12; 13;  0]]%nat.

Fixpoint set (v : list N) (i : nat) (x : N) : list N :=
  match v, i with
  | [], _ => []
  | _ :: t, O => x :: t
  | y :: t, S j => y :: set t j x
  end.
Definition at_ (v : list N) (i : nat) : N := nth i v 0.

(** RFC 7693 3.1 with R1..R4 = 16, 12, 8, 7. *)
Definition G (v : list N) (a b c d : nat) (x y : N) : list N :=
  let v := set v a (add32 (add32 (at_ v a) (at_ v b)) x) in
  let v := set v d (rotr32 (N.lxor (at_ v d) (at_ v a)) 16) in
  let v := set v c (add32 (at_ v c) (at_ v d)) in
  let v := set v b (rotr32 (N.lxor (at_ v b) (at_ v c)) 12) in
  let v := set v a (add32 (add32 (at_ v a) (at_ v b)) y) in
  let v := set v d (rotr32 (N.lxor (at_ v d) (at_ v a)) 8) in
  let v := set v c (add32 (at_ v c) (at_ v d)) in
  let v := set v b (rotr32 (N.lxor (at_ v b) (at_ v c)) 7) in
  v.

Definition ROUND (m : list N) (v : list N) (s : list nat) : list N :=
  let w (k : nat) := at_ m (nth k s O) in
  let v := G v 0 4  8 12 (w 0%nat) (w 1%nat) in
  let v := G v 1 5  9 13 (w 2%nat) (w 3%nat) in
  let v := G v 2 6 10 14 (w 4%nat) (w 5%nat) in
  let v := G v 3 7 11 15 (w 6%nat) (w 7%nat) in
  let v := G v 0 5 10 15 (w 8%nat) (w 9%nat) in
  let v := G v 1 6 11 12 (w 10%nat) (w 11%nat) in
  let v := G v 2 7  8 13 (w 12%nat) (w 13%nat) in
  let v := G v 3 4  9 14 (w 14%nat) (w 15%nat) in
  v.

(** The compression function.  [h]: 8 words; [block]: 64 bytes; [t]: byte offset
    counter; [f0]: all ones in the last block; [f1]: all ones in the last block of a
    last node (BLAKE2 paper 2.4; RFC 7693 has f1 = 0 throughout). *)
Definition F (h : list N) (block : list byte) (t f0 f1 : N) : list N :=
  let m := map (word block) (seq 0 16) in
  let v0 := h ++ [at_ IV 0; at_ IV 1; at_ IV 2; at_ IV 3;
                  N.lxor (at_ IV 4) (t mod 2 ^ 32); N.lxor (at_ IV 5) ((t / 2 ^ 32) mod 2 ^ 32);
                  N.lxor (at_ IV 6) f0; N.lxor (at_ IV 7) f1] in
  let v := fold_left (ROUND m) SIGMA v0 in
  map (fun i => N.lxor (N.lxor (at_ h i) (at_ v i)) (at_ v (i + 8)%nat)) (seq 0 8).

(** ** The hash function. *)
Record params := mk_params {
  digest_length : N;      (* 1..32 *)
  key : list byte;        (* 0..32 bytes *)
  fanout : N;
  depth : N;
  leaf_length : N;
  node_offset : N;        (* 48 bits *)
  node_depth : N;
  inner_length : N;
  salt : list byte;       (* up to 8 bytes *)
  personal : list byte    (* up to 8 bytes *)
}.

(** The ranges of the fields. *)
Definition valid (p : params) : Prop :=
  (1 <= digest_length p <= 32) /\ (length (key p) <= 32)%nat /\ fanout p < 256 /\ depth p < 256 /\
  leaf_length p < 2 ^ 32 /\ node_offset p < 2 ^ 48 /\ node_depth p < 256 /\ inner_length p <= 32 /\
  (length (salt p) <= 8)%nat /\ (length (personal p) <= 8)%nat.

(** BLAKE2 paper, parameter block of BLAKE2s: 32 bytes. *)
Definition param_block (p : params) : list byte :=
  le_bytes 1 (digest_length p) ++ le_bytes 1 (N.of_nat (length (key p)))
  ++ le_bytes 1 (fanout p) ++ le_bytes 1 (depth p)
  ++ le_bytes 4 (leaf_length p)
  ++ le_bytes 6 (node_offset p) ++ le_bytes 1 (node_depth p) ++ le_bytes 1 (inner_length p)
  ++ pad 8 (salt p) ++ pad 8 (personal p).

(** h[0..7] := IV[0..7] xor parameter block. *)
Definition initial (p : params) : list N :=
  map (fun i => N.lxor (at_ IV i) (word (param_block p) i)) (seq 0 8).

(** One call of the compression function: its arguments. *)
Record call := mk_call {
  c_h : list N; c_block : list byte; c_t : N; c_f0 : N; c_f1 : N
}.
Definition run_call (c : call) : list N := F (c_h c) (c_block c) (c_t c) (c_f0 c) (c_f1 c).

(** Number of 64-byte blocks of a message: at least one. *)
Definition nblocks (data : list byte) : nat := Nat.max 1 ((length data + 63) / 64)%nat.
(** Block number [i], zero-padded. *)
Definition block (data : list byte) (i : nat) : list byte :=
  pad 64 (firstn 64 (skipn (64 * i)%nat data)).

(** The chaining value after the first [k] (non-final) blocks. *)
Definition chain (h : list N) (data : list byte) (k : nat) : list N :=
  fold_left (fun h i => F h (block data i) (64 * N.of_nat (i + 1)%nat) 0 0) (seq 0 k) h.

Definition ones : N := 2 ^ 32 - 1.

(** RFC 7693 3.3: all blocks but the last with t = 64(i+1); the last one with
    t = total length and the final-block flag. *)
Definition hash_words (h : list N) (data : list byte) (last_node : bool) : list N :=
  let n := nblocks data in
  F (chain h data (n - 1)%nat) (block data (n - 1)%nat) (N.of_nat (length data))
    ones (if last_node then ones else 0).

(** A non-empty key is padded to a whole block and prepended. *)
Definition key_block (k : list byte) : list byte :=
  match k with [] => [] | _ => pad 64 k end.

Definition words_bytes (h : list N) : list byte := flat_map (le_bytes 4) h.

(** BLAKE2s of [msg] with parameters [p]. *)
Definition blake2s (p : params) (last_node : bool) (msg : list byte) : list byte :=
  firstn (N.to_nat (digest_length p))
    (words_bytes (hash_words (initial p) (key_block (key p) ++ msg) last_node)).

(** The default parameters: 32-byte digest, sequential mode, no key. *)
Definition default_params : params :=
  mk_params 32 [] 1 1 0 0 0 0 [] [].

(** ** BLAKE2sp. *)

(** The bytes of [data] whose position [p] satisfies (p / 64) mod 8 = i: leaf [i]
    gets blocks i, i+8, i+16, ... *)
Definition leaf_input (i : nat) (data : list byte) : list byte :=
  map snd (filter (fun pb => Nat.eqb ((fst pb / 64) mod 8)%nat i)
                  (combine (seq 0 (length data)) data)).

Definition leaf_params (dlen : N) (k : list byte) (i : nat) : params :=
  mk_params dlen k 8 2 0 (N.of_nat i) 0 32 [] [].
Definition root_params (dlen : N) (k : list byte) : params :=
  mk_params dlen k 8 2 0 0 1 32 [] [].

(** A leaf digest is always 32 bytes; the last leaf is a last node. *)
Definition leaf_digest (dlen : N) (k data : list byte) (i : nat) : list byte :=
  words_bytes (hash_words (initial (leaf_params dlen k i))
                          (key_block k ++ leaf_input i data) (Nat.eqb i 7)).

(** The root hashes the eight leaf digests; it does not hash the key block again,
    but the key length is in its parameter block. *)
Definition blake2sp (dlen : N) (k data : list byte) : list byte :=
  firstn (N.to_nat dlen)
    (words_bytes (hash_words (initial (root_params dlen k))
                             (flat_map (leaf_digest dlen k data) (seq 0 8)) true)).

(** ** The sequence of compression calls of a hash computation. *)
Definition hash_calls (h : list N) (data : list byte) (last_node : bool) : list call :=
  let n := nblocks data in
  map (fun i => mk_call (chain h data i) (block data i) (64 * N.of_nat (i + 1)%nat) 0 0)
      (seq 0 (n - 1)%nat)
  ++ [mk_call (chain h data (n - 1)%nat) (block data (n - 1)%nat) (N.of_nat (length data))
              ones (if last_node then ones else 0)].
Definition blake2s_calls (p : params) (last_node : bool) (msg : list byte) : list call :=
  hash_calls (initial p) (key_block (key p) ++ msg) last_node.
Definition blake2sp_calls (dlen : N) (k data : list byte) : list call :=
  flat_map (fun i => hash_calls (initial (leaf_params dlen k i)) (key_block k ++ leaf_input i data)
                                (Nat.eqb i 7)) (seq 0 8)
  ++ hash_calls (initial (root_params dlen k)) (flat_map (leaf_digest dlen k data) (seq 0 8)) true.
(** Two different calls, one in each computation, with the same result. *)
Definition collision (l l' : list call) : Prop :=
  exists c c', In c l /\ In c' l' /\ c <> c' /\ run_call c = run_call c'.
(** For hashes of [d] bytes: the same, or the two last calls are different and their
    results begin with the same [d] bytes. *)
Definition truncated_collision (d : nat) (l l' : list call) : Prop :=
  collision l l' \/
  exists m c m' c', l = m ++ [c] /\ l' = m' ++ [c'] /\ c <> c' /\
    firstn d (words_bytes (run_call c)) = firstn d (words_bytes (run_call c')).

(** ** Text. *)
Definition hex_digit (n : N) : byte :=
  nth (N.to_nat n)
    [x30; x31; x32; x33; x34; x35; x36; x37; x38; x39; x61; x62; x63; x64; x65; x66] x00.
(** Lowercase hexadecimal text. *)
Definition hex (bs : list byte) : list byte :=
  flat_map (fun b => [hex_digit (Byte.to_N b / 16); hex_digit (Byte.to_N b mod 16)]) bs.
