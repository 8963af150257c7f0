(** * IntelOps: the instructions on registers as numbers.

    The operation sections of the Intel Intrinsics Guide for the instructions of sse41.rs
    and avx2.rs, written down as they stand there: a register is a number, [x[hi:lo]] is a
    range of its bits, and the result is put together from ranges.  Nothing here is
    imported from the model; [Intrinsics] is related to these operations by C54. *)
From Coq Require Import NArith List Bool.
Import ListNotations.
Local Open Scope N_scope.

(** [x[lo + w - 1 : lo]] *)
Definition fld (x lo w : N) : N := (x / 2 ^ lo) mod 2 ^ w.
(** FOR j := 0 to n - 1: dst[w*j + w - 1 : w*j] := f j, starting from j = [from] *)
Fixpoint put_fields (w : N) (n : nat) (from : N) (f : N -> N) : N :=
  match n with
  | O => 0
  | S n => f from + 2 ^ w * put_fields w n (from + 1) f
  end.
Definition for_fields (w : N) (n : nat) (f : N -> N) : N := put_fields w n 0 f.

(** PADDD: dst[i+31:i] := a[i+31:i] + b[i+31:i] *)
Definition PADDD (n : nat) (a b : N) : N :=
  for_fields 32 n (fun j => let i := 32 * j in (fld a i 32 + fld b i 32) mod 2 ^ 32).
(** PXOR, POR: dst := a XOR b, a OR b *)
Definition PXOR (a b : N) : N := N.lxor a b.
Definition POR (a b : N) : N := N.lor a b.
(** PSRLD: IF imm8[7:0] > 31 THEN 0 ELSE ZeroExtend32(a[i+31:i] >> imm8[7:0]) *)
Definition PSRLD (n : nat) (a imm8 : N) : N :=
  for_fields 32 n (fun j => let i := 32 * j in if 31 <? imm8 then 0 else N.shiftr (fld a i 32) imm8).
(** PSLLD *)
Definition PSLLD (n : nat) (a imm8 : N) : N :=
  for_fields 32 n (fun j => let i := 32 * j in if 31 <? imm8 then 0 else (N.shiftl (fld a i 32) imm8) mod 2 ^ 32).
(** PSHUFB: IF b[i+7] == 1 THEN 0 ELSE index[3:0] := b[i+3:i]; a[index*8+7:index*8] *)
Definition PSHUFB (a b : N) : N :=
  for_fields 8 16 (fun j => let i := 8 * j in
    if fld b (i + 7) 1 =? 1 then 0 else let index := fld b i 4 in fld a (index * 8) 8).
(** VPSHUFB: the same in each 128-bit half; the upper one has
    dst[128+i+7:128+i] := a[128+index*8+7:128+index*8] *)
Definition VPSHUFB (a b : N) : N :=
  for_fields 8 32 (fun j => let i := 8 * j in
    if fld b (i + 7) 1 =? 1 then 0
    else let index := fld b i 4 in
         if j <? 16 then fld a (index * 8) 8 else fld a (128 + index * 8) 8).
(** PSHUFD: DEFINE SELECT4(src, control): control[1:0] selects src[31:0] ... src[127:96] *)
Definition SELECT4 (src control : N) : N := fld src (32 * control) 32.
Definition PSHUFD (a imm8 : N) : N := for_fields 32 4 (fun j => SELECT4 a (fld imm8 (2 * j) 2)).
(** SHUFPS: dst[31:0], dst[63:32] from a, dst[95:64], dst[127:96] from b *)
Definition SHUFPS (a b imm8 : N) : N :=
  for_fields 32 4 (fun j => SELECT4 (if j <? 2 then a else b) (fld imm8 (2 * j) 2)).
(** PBLENDW: IF imm8[j] THEN b[i+15:i] ELSE a[i+15:i] *)
Definition PBLENDW (a b imm8 : N) : N :=
  for_fields 16 8 (fun j => let i := 16 * j in if fld imm8 j 1 =? 1 then fld b i 16 else fld a i 16).
(** PSHUFHW: dst[63:0] := a[63:0]; dst[79:64] := (a >> (imm8[1:0] * 16))[79:64] and so on *)
Definition PSHUFHW (a imm8 : N) : N :=
  fld a 0 64 + 2 ^ 64 * for_fields 16 4 (fun j => fld (N.shiftr a (fld imm8 (2 * j) 2 * 16)) 64 16).
(** PSLLDQ, PSRLDQ: tmp := imm8[7:0]; IF tmp > 15 THEN tmp := 16; dst := a << (tmp*8), a >> (tmp*8) *)
Definition PSLLDQ (a imm8 : N) : N := (N.shiftl a ((if 15 <? imm8 then 16 else imm8) * 8)) mod 2 ^ 128.
Definition PSRLDQ (a imm8 : N) : N := N.shiftr a ((if 15 <? imm8 then 16 else imm8) * 8).
(** PUNPCK*: INTERLEAVE_DWORDS, INTERLEAVE_QWORDS, INTERLEAVE_HIGH_DWORDS, INTERLEAVE_HIGH_QWORDS *)
Definition INTERLEAVE_DWORDS (s1 s2 : N) : N :=
  for_fields 32 4 (fun j => nth (N.to_nat j) [fld s1 0 32; fld s2 0 32; fld s1 32 32; fld s2 32 32] 0).
Definition INTERLEAVE_HIGH_DWORDS (s1 s2 : N) : N :=
  for_fields 32 4 (fun j => nth (N.to_nat j) [fld s1 64 32; fld s2 64 32; fld s1 96 32; fld s2 96 32] 0).
Definition INTERLEAVE_QWORDS (s1 s2 : N) : N := fld s1 0 64 + 2 ^ 64 * fld s2 0 64.
Definition INTERLEAVE_HIGH_QWORDS (s1 s2 : N) : N := fld s1 64 64 + 2 ^ 64 * fld s2 64 64.
(** dst[127:0] := f(a[127:0], b[127:0]); dst[255:128] := f(a[255:128], b[255:128]) *)
Definition halves (f : N -> N -> N) (a b : N) : N :=
  f (fld a 0 128) (fld b 0 128) + 2 ^ 128 * f (fld a 128 128) (fld b 128 128).
(** VPERM2I128: CASE(control[1:0]) a[127:0], a[255:128], b[127:0], b[255:128]; IF control[3] THEN 0 *)
Definition SELECT4_128 (src1 src2 control : N) : N :=
  let tmp := match fld control 0 2 with
             | 0 => fld src1 0 128 | 1 => fld src1 128 128 | 2 => fld src2 0 128 | _ => fld src2 128 128 end in
  if fld control 3 1 =? 1 then 0 else tmp.
Definition VPERM2I128 (a b imm8 : N) : N :=
  SELECT4_128 a b (fld imm8 0 4) + 2 ^ 128 * SELECT4_128 a b (fld imm8 4 4).
(** A load: MEM[mem_addr+127:mem_addr], bytes in little-endian order *)
Definition LOAD (n : nat) (mem : nat -> N) : N := for_fields 8 n (fun j => mem (N.to_nat j)).
