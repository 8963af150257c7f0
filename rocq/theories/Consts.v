(** * Consts: constants of lib.rs. *)
From Verif Require Import Base.
Local Open Scope N_scope.

(** lib.rs:30 [OUTBYTES], :32 [KEYBYTES], :34 [SALTBYTES], :36 [PERSONALBYTES], :39 [BLOCKBYTES] *)
Definition OUTBYTES : nat := 32.
Definition KEYBYTES : nat := 32.
Definition SALTBYTES : nat := 8.
Definition PERSONALBYTES : nat := 8.
Definition BLOCKBYTES : nat := 64.

(** lib.rs:41-43 [IV] *)
Definition IV : oct u32 :=
  Oct (of_N 32 0x6A09E667) (of_N 32 0xBB67AE85) (of_N 32 0x3C6EF372) (of_N 32 0xA54FF53A)
      (of_N 32 0x510E527F) (of_N 32 0x9B05688C) (of_N 32 0x1F83D9AB) (of_N 32 0x5BE0CD19).

(** lib.rs:45-58 [SIGMA] (12 rows, of which only the first ten are used).  The
    entries are [u8]s used as array indices after [as usize]; modelled as [nat]. *)
Definition SIGMA : list (list nat) :=
  [[0; 1; 2; 3; 4; 5; 6; 7; 8; 9; 10; 11; 12; 13; 14; 15];
   [14; 10; 4; 8; 9; 15; 13; 6; 1; 12; 0; 2; 11; 7; 5; 3];
   [11; 8; 12; 0; 5; 2; 15; 13; 10; 14; 3; 6; 7; 1; 9; 4];
   [7; 9; 3; 1; 13; 12; 11; 14; 2; 6; 5; 10; 4; 0; 15; 8];
   [9; 0; 5; 7; 2; 4; 10; 15; 14; 1; 11; 12; 6; 8; 3; 13];
   [2; 12; 6; 10; 0; 11; 8; 3; 4; 13; 7; 5; 15; 14; 1; 9];
   [12; 5; 1; 15; 14; 13; 4; 10; 0; 7; 6; 3; 9; 2; 8; 11];
   [13; 11; 7; 14; 12; 1; 3; 9; 5; 0; 15; 4; 8; 6; 2; 10];
   [6; 15; 14; 9; 11; 3; 0; 8; 12; 2; 13; 7; 1; 4; 10; 5];
   [10; 2; 8; 4; 7; 6; 1; 5; 15; 11; 9; 14; 3; 12; 13; 0];
   [0; 1; 2; 3; 4; 5; 6; 7; 8; 9; 10; 11; 12; 13; 14; 15];
   [14; 10; 4; 8; 9; 15; 13; 6; 1; 12; 0; 2; 11; 7; 5; 3]]%nat.

(** [SIGMA[r][k] as usize] *)
Definition sigma (r k : nat) : nat := nth k (nth r SIGMA []) O.

(** lib.rs:137 [StateWords] and lib.rs:141-143 [AlignedWords8] (a 32-byte aligned
    wrapper of the same array; alignment is not modelled). *)
Definition StateWords := oct u32.
Definition AlignedWords8 := oct u32.
(** lib.rs:138 [Block]: an array of 64 bytes; modelled as a byte list, of length 64
    wherever the code has a [Block]. *)
Definition Block := list byte.
