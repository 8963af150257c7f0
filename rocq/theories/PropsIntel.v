(** * Property C54: the vector instructions are the ones of the Intel guide. *)
From Verif Require Import Base Intrinsics IntelOps IntelViews IntelFacts Witness.
Local Open Scope N_scope.

(** Registers are the numbers below 2^128 and 2^256. *)
Theorem C54_registers : (forall a, num128 a < 2 ^ 128) /\ (forall a, num256 a < 2 ^ 256) /\
  (forall a b, num128 a = num128 b -> a = b) /\ (forall a b, num256 a = num256 b -> a = b) /\
  (forall n, n < 2 ^ 128 -> exists a, num128 a = n) /\ (forall n, n < 2 ^ 256 -> exists a, num256 a = n).
Proof. exact registers. Qed.
Print Assumptions C54_registers.
Definition reg (n : N) : m128 := Quad (of_N 32 n) (of_N 32 (N.shiftr n 32)) (of_N 32 (N.shiftr n 64)) (of_N 32 (N.shiftr n 96)).
Example C54_register_example : num128 (reg 0x00112233445566778899aabbccddeeff) = 0x00112233445566778899aabbccddeeff.
Proof. vm_compute. reflexivity. Qed.

(** C54: on all registers and for all immediates, the operations of the model are the ones
    written down in the guide on the bits of the registers. *)
Theorem C54_sse41 : forall a b imm n,
  num128 (_mm_add_epi32 a b) = PADDD 4 (num128 a) (num128 b) /\
  num128 (_mm_xor_si128 a b) = PXOR (num128 a) (num128 b) /\
  num128 (_mm_srli_epi32 a imm) = PSRLD 4 (num128 a) imm /\
  num128 (_mm_slli_epi32 a imm) = PSLLD 4 (num128 a) imm /\
  num128 (_mm_shuffle_epi32 a imm) = PSHUFD (num128 a) imm /\
  num128 (_mm_shuffle_ps a b imm) = SHUFPS (num128 a) (num128 b) imm /\
  num128 (_mm_blend_epi16 a b imm) = PBLENDW (num128 a) (num128 b) imm /\
  num128 (_mm_shufflehi_epi16 a imm) = PSHUFHW (num128 a) imm /\
  num128 (_mm_slli_si128 a n) = PSLLDQ (num128 a) (N.of_nat n) /\
  num128 (_mm_srli_si128 a n) = PSRLDQ (num128 a) (N.of_nat n) /\
  num128 (_mm_unpacklo_epi32 a b) = INTERLEAVE_DWORDS (num128 a) (num128 b) /\
  num128 (_mm_unpackhi_epi32 a b) = INTERLEAVE_HIGH_DWORDS (num128 a) (num128 b) /\
  num128 (_mm_unpacklo_epi64 a b) = INTERLEAVE_QWORDS (num128 a) (num128 b) /\
  num128 (_mm_unpackhi_epi64 a b) = INTERLEAVE_HIGH_QWORDS (num128 a) (num128 b).
Proof. exact sse_instructions. Qed.
Print Assumptions C54_sse41.
Theorem C54_avx2 : forall a b imm,
  num256 (_mm256_add_epi32 a b) = PADDD 8 (num256 a) (num256 b) /\
  num256 (_mm256_xor_si256 a b) = PXOR (num256 a) (num256 b) /\
  num256 (_mm256_or_si256 a b) = POR (num256 a) (num256 b) /\
  num256 (_mm256_srli_epi32 a imm) = PSRLD 8 (num256 a) imm /\
  num256 (_mm256_slli_epi32 a imm) = PSLLD 8 (num256 a) imm /\
  num256 (_mm256_unpacklo_epi32 a b) = halves INTERLEAVE_DWORDS (num256 a) (num256 b) /\
  num256 (_mm256_unpackhi_epi32 a b) = halves INTERLEAVE_HIGH_DWORDS (num256 a) (num256 b) /\
  num256 (_mm256_unpacklo_epi64 a b) = halves INTERLEAVE_QWORDS (num256 a) (num256 b) /\
  num256 (_mm256_unpackhi_epi64 a b) = halves INTERLEAVE_HIGH_QWORDS (num256 a) (num256 b) /\
  (imm < 256 -> num256 (_mm256_permute2x128_si256 a b imm) = VPERM2I128 (num256 a) (num256 b) imm).
Proof. exact avx2_instructions. Qed.
Print Assumptions C54_avx2.
Theorem C54_byte_shuffles : forall a b ctl, Forall (fun d => d < 2 ^ 8) ctl ->
  (length ctl = 16%nat -> num128 (_mm_shuffle_epi8 a ctl) = PSHUFB (num128 a) (digits 8 ctl)) /\
  (length ctl = 32%nat -> num256 (_mm256_shuffle_epi8 b ctl) = VPSHUFB (num256 b) (digits 8 ctl)).
Proof. exact byte_shuffles. Qed.
Print Assumptions C54_byte_shuffles.
Theorem C54_loads : forall bs off,
  ((off + 16 <= length bs)%nat ->
   num128 (_mm_loadu_si128 bs off) = LOAD 16 (fun j => Byte.to_N (nth (off + j) bs x00))) /\
  ((off + 32 <= length bs)%nat ->
   num256 (_mm256_loadu_si256 bs off) = LOAD 32 (fun j => Byte.to_N (nth (off + j) bs x00))).
Proof. exact loads. Qed.
Print Assumptions C54_loads.
Theorem C54_constants : forall a b c d e f g h,
  num128 (_mm_setr_epi32 a b c d) = for_fields 32 4 (fun j => nth (N.to_nat j) [val a; val b; val c; val d] 0) /\
  num128 (_mm_set1_epi32 a) = for_fields 32 4 (fun _ => val a) /\
  num256 (_mm256_set1_epi32 a) = for_fields 32 8 (fun _ => val a) /\
  num256 (_mm256_set_epi32 a b c d e f g h) =
    for_fields 32 8 (fun j => nth (7 - N.to_nat j) [val a; val b; val c; val d; val e; val f; val g; val h] 0).
Proof. exact set_instructions. Qed.
Print Assumptions C54_constants.

Definition ra : m128 := reg 0x00112233445566778899aabbccddeeff.
Definition rb : m128 := reg 0x0123456789abcdeffedcba9876543210.
Example C54_example :
  num128 (_mm_shuffle_epi32 ra 0x1b) = 0xccddeeff8899aabb4455667700112233 /\
  num128 (_mm_blend_epi16 ra rb 0xc3) = 0x01234567445566778899aabb76543210 /\
  num128 (_mm_shufflehi_epi16 ra 0x1b) = 0x66774455223300118899aabbccddeeff /\
  num128 (_mm_unpackhi_epi32 ra rb) = 0x012345670011223389abcdef44556677 /\
  num128 (_mm_slli_si128 ra 3) = 0x33445566778899aabbccddeeff000000 /\
  num256 (_mm256_permute2x128_si256 (join128 ra rb) (join128 rb ra) 0x83) = 0x00112233445566778899aabbccddeeff /\
  num128 (_mm_shuffle_epi8 ra [15; 14; 128; 12; 11; 10; 9; 8; 7; 6; 5; 4; 3; 2; 1; 16]) = 0xffeeddccbbaa99887766554433001100.
Proof. vm_compute. repeat split. Qed.
