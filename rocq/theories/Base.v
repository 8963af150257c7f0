(** * Base: machine integers, bytes, outcomes, slices.

    Shared vocabulary of the model.  Nothing here is specific to BLAKE2; it
    models the Rust core operations the crate uses. *)
From Coq Require Export Arith NArith List Bool.
From Coq.Strings Require Export Byte.
From Coq Require Import Lia Eqdep_dec.
Export ListNotations.
Local Open Scope N_scope.

(** ** Bounded unsigned integers: Rust's [u8], [u16], [u32], [u64]. *)

Record uint (w : N) : Set := mk_uint { val : N; val_ok : (val <? 2 ^ w) = true }.
Arguments mk_uint {w} _ _.
Arguments val {w} _.

Lemma trunc_ok (w n : N) : (N.land n (N.ones w) <? 2 ^ w) = true.
Proof. rewrite N.land_ones. apply N.ltb_lt, N.mod_lt, N.pow_nonzero; discriminate. Qed.

(** Truncating conversion, keeping the low [w] bits: the Rust cast [x as u32] and friends. *)
Definition of_N (w n : N) : uint w := mk_uint (N.land n (N.ones w)) (trunc_ok w n).

Notation u8 := (uint 8).
Notation u16 := (uint 16).
Notation u32 := (uint 32).
Notation u64 := (uint 64).

(** [u32::wrapping_add]. *)
Definition wrapping_add {w} (a b : uint w) : uint w := of_N w (val a + val b).
(** The [^] operator. *)
Definition uxor {w} (a b : uint w) : uint w := of_N w (N.lxor (val a) (val b)).
(** [u32::rotate_right]; Rust: [(x >> n) | (x << (32 - n))]. *)
Definition rotate_right (a : u32) (n : N) : u32 :=
  of_N 32 (N.lor (N.shiftr (val a) n) (N.shiftl (val a) (32 - n))).
(** The [<<] operator on a type of width [w] (bits shifted out are lost). *)
Definition ushl {w} (a : uint w) (n : N) : uint w := of_N w (N.shiftl (val a) n).
(** The [>>] operator. *)
Definition ushr {w} (a : uint w) (n : N) : uint w := of_N w (N.shiftr (val a) n).
(** A cast between unsigned types ([as]). *)
Definition cast {w} (w' : N) (a : uint w) : uint w' := of_N w' (val a).
(** [!0]: all ones. *)
Definition umax (w : N) : uint w := of_N w (2 ^ w - 1).
Definition uzero (w : N) : uint w := of_N w 0.

(** ** Bytes and little-endian words. *)

Definition byte_of_N (n : N) : byte :=
  match Byte.of_N (n mod 256) with Some b => b | None => x00 end.

(** Byte number [k] (0 = least significant) of a [u32]; the memory
    representation of a word on a little-endian machine, and what
    [byteorder::LittleEndian::write_u32] stores at offset [k]. *)
Definition u32_byte (k : N) (x : u32) : byte := byte_of_N (val x / 2 ^ (8 * k)).

Definition u32_to_bytes (x : u32) : list byte :=
  [u32_byte 0 x; u32_byte 1 x; u32_byte 2 x; u32_byte 3 x].

(** [byteorder::LittleEndian::read_u32] on four bytes. *)
Definition u32_of_bytes (b0 b1 b2 b3 : byte) : u32 :=
  of_N 32 (Byte.to_N b0 + 2 ^ 8 * Byte.to_N b1 + 2 ^ 16 * Byte.to_N b2 + 2 ^ 24 * Byte.to_N b3).

(** ** Outcomes.

    [Panic]: a Rust panic.  [UB]: undefined behaviour.  [Stuck]: the model ran
    out of loop fuel; the theorems show that it never does. *)
Inductive outcome (A : Type) : Type :=
| Ok (a : A)
| Panic
| UB
| Stuck.
Arguments Ok {A} _.
Arguments Panic {A}.
Arguments UB {A}.
Arguments Stuck {A}.

Definition bind {A B} (x : outcome A) (f : A -> outcome B) : outcome B :=
  match x with Ok a => f a | Panic => Panic | UB => UB | Stuck => Stuck end.

Declare Scope outcome_scope.
Delimit Scope outcome_scope with outcome.
Notation "x <- e ;; k" := (bind e (fun x => k))
  (at level 100, e at next level, right associativity) : outcome_scope.
Notation "' p <- e ;; k" := (bind e (fun p => k))
  (at level 100, p pattern, e at next level, right associativity) : outcome_scope.
Notation "'assert!' b ;; k" := (if b then k else Panic)
  (at level 100, b at next level, right associativity) : outcome_scope.
Open Scope outcome_scope.

(** ** Build and platform configuration. *)
Record cfg := mk_cfg {
  arch_x86 : bool;          (* target_arch is x86 or x86_64 *)
  feature_std : bool;       (* Cargo feature "std" *)
  cpu_avx2 : bool;          (* is_x86_feature_detected!("avx2") *)
  cpu_sse41 : bool;         (* the CPU executes SSE4.1 instructions *)
  overflow_checks : bool;   (* -C overflow-checks (on in debug builds) *)
  debug_assertions : bool   (* -C debug-assertions (on in debug builds) *)
}.

(** Every x86 CPU with AVX2 also has SSE4.1 (Intel SDM: AVX2 implies AVX, which
    implies SSE4.2, which implies SSE4.1). *)
Definition cfg_ok (c : cfg) : Prop := cpu_avx2 c = true -> cpu_sse41 c = true.

(** The [+] and [+=] operators on a fixed-width unsigned type: overflow panics
    with overflow checks, wraps without. *)
Definition uadd {w} (c : cfg) (a b : uint w) : outcome (uint w) :=
  if val a + val b <? 2 ^ w then Ok (of_N w (val a + val b))
  else if overflow_checks c then Panic else Ok (of_N w (val a + val b)).

(** [-=] on a fixed-width unsigned type. *)
Definition usub {w} (c : cfg) (a b : uint w) : outcome (uint w) :=
  if val b <=? val a then Ok (of_N w (val a - val b))
  else if overflow_checks c then Panic else Ok (of_N w (2 ^ w + val a - val b)).

(** [usize] subtraction (64 bits).  Lengths and indices are [nat]: they are bounded by
    the size of an object in memory, so additions cannot overflow. *)
Definition nsub (c : cfg) (a b : nat) : outcome nat :=
  if Nat.leb b a then Ok (a - b)%nat
  else if overflow_checks c then Panic else Ok (N.to_nat (2 ^ 64 + N.of_nat a - N.of_nat b)).

(** [debug_assert_eq!] *)
Definition debug_assert (c : cfg) (b : bool) : outcome unit :=
  if debug_assertions c then (if b then Ok tt else Panic) else Ok tt.

(** ** Slices. *)

(** [&xs[lo..hi]] *)
Definition slice {A} (xs : list A) (lo hi : nat) : outcome (list A) :=
  if Nat.leb lo hi && Nat.leb hi (length xs)
  then Ok (firstn (hi - lo) (skipn lo xs)) else Panic.

(** [&xs[lo..]] *)
Definition slice_from {A} (xs : list A) (lo : nat) : outcome (list A) :=
  if Nat.leb lo (length xs) then Ok (skipn lo xs) else Panic.

(** [&xs[..hi]] *)
Definition slice_to {A} (xs : list A) (hi : nat) : outcome (list A) :=
  if Nat.leb hi (length xs) then Ok (firstn hi xs) else Panic.

(** [dst[lo..hi].copy_from_slice(src)] *)
Definition copy_into {A} (dst : list A) (lo hi : nat) (src : list A) : outcome (list A) :=
  if Nat.leb lo hi && Nat.leb hi (length dst) && Nat.eqb (length src) (hi - lo)
  then Ok (firstn lo dst ++ src ++ skipn hi dst) else Panic.

(** [arrayref::array_ref!(xs, off, len)]: panics unless [len] elements are there. *)
Definition array_ref {A} (xs : list A) (off len : nat) : outcome (list A) :=
  slice xs off (off + len).

(** A raw pointer read of [len] bytes at offset [off] of a slice: undefined
    behaviour when it is out of bounds. *)
Definition raw_read {A} (xs : list A) (off len : nat) : outcome (list A) :=
  if Nat.leb (off + len) (length xs) then Ok (firstn len (skipn off xs)) else UB.

(** Array element read and write with an index known to be in bounds (the
    indices are literals or table entries; the default is never used). *)
Definition get {A} (d : A) (xs : list A) (i : nat) : A := nth i xs d.
Fixpoint upd {A} (xs : list A) (i : nat) (x : A) : list A :=
  match xs, i with
  | [], _ => []
  | _ :: t, O => x :: t
  | y :: t, S j => y :: upd t j x
  end.

(** The piece [xs[off .. off+len]] of a fixed-size array, as [array_refs!] cuts it. *)
Definition sub {A} (xs : list A) (off len : nat) : list A := firstn len (skipn off xs).

(** ** Fixed-size arrays and argument groups. *)

(** Eight things: [[u32; 8]] ([StateWords], [AlignedWords8]), an [__m256i] seen as
    eight 32-bit lanes, or the eight per-lane arguments of an 8-way function. *)
Inductive oct (A : Type) : Type := Oct (x0 x1 x2 x3 x4 x5 x6 x7 : A).
Arguments Oct {A} _ _ _ _ _ _ _ _.

Definition oct_list {A} (o : oct A) : list A :=
  match o with Oct a b c d e f g h => [a; b; c; d; e; f; g; h] end.
Definition oct_map {A B} (k : A -> B) (o : oct A) : oct B :=
  match o with Oct a b c d e f g h => Oct (k a) (k b) (k c) (k d) (k e) (k f) (k g) (k h) end.
Definition oct_map2 {A B C} (k : A -> B -> C) (o : oct A) (o' : oct B) : oct C :=
  match o, o' with
  | Oct a b c d e f g h, Oct a' b' c' d' e' f' g' h' =>
      Oct (k a a') (k b b') (k c c') (k d d') (k e e') (k f f') (k g g') (k h h')
  end.
Definition oct_const {A} (a : A) : oct A := Oct a a a a a a a a.
Definition o0 {A} (o : oct A) := match o with Oct a _ _ _ _ _ _ _ => a end.
Definition o1 {A} (o : oct A) := match o with Oct _ a _ _ _ _ _ _ => a end.
Definition o2 {A} (o : oct A) := match o with Oct _ _ a _ _ _ _ _ => a end.
Definition o3 {A} (o : oct A) := match o with Oct _ _ _ a _ _ _ _ => a end.
Definition o4 {A} (o : oct A) := match o with Oct _ _ _ _ a _ _ _ => a end.
Definition o5 {A} (o : oct A) := match o with Oct _ _ _ _ _ a _ _ => a end.
Definition o6 {A} (o : oct A) := match o with Oct _ _ _ _ _ _ a _ => a end.
Definition o7 {A} (o : oct A) := match o with Oct _ _ _ _ _ _ _ a => a end.

(** Four things: an [__m128i] as four 32-bit lanes, or four per-lane arguments. *)
Inductive quad (A : Type) : Type := Quad (x0 x1 x2 x3 : A).
Arguments Quad {A} _ _ _ _.
Definition quad_list {A} (q : quad A) : list A :=
  match q with Quad a b c d => [a; b; c; d] end.
Definition quad_map {A B} (k : A -> B) (q : quad A) : quad B :=
  match q with Quad a b c d => Quad (k a) (k b) (k c) (k d) end.
Definition quad_map2 {A B C} (k : A -> B -> C) (q : quad A) (q' : quad B) : quad C :=
  match q, q' with Quad a b c d, Quad a' b' c' d' => Quad (k a a') (k b b') (k c c') (k d d') end.
Definition q0 {A} (q : quad A) := match q with Quad a _ _ _ => a end.
Definition q1 {A} (q : quad A) := match q with Quad _ a _ _ => a end.
Definition q2 {A} (q : quad A) := match q with Quad _ _ a _ => a end.
Definition q3 {A} (q : quad A) := match q with Quad _ _ _ a => a end.
