(** * VectorTests: tests/vector_tests.rs.

    The JSON reader is not modelled: a case is what [serde_json] makes of it, four strings. *)
From Coq Require Import NArith List Bool.
From Coq.Strings Require Import Byte.
From Verif Require Import Base Params State Blake2sp TestSuite.
From Verif Require Spec.
Import ListNotations.
Local Open Scope N_scope.

(** Literals. *)
Inductive str := Str (bytes : list byte).
Definition chars (s : str) : list byte := match s with Str l => l end.
Declare Scope text_scope.
Delimit Scope text_scope with text.
String Notation str Str chars : text_scope.
Bind Scope text_scope with str.

(** tests/vector_tests.rs:22-29 [TestCase] *)
Record TestCase := mk_case { t_hash : str; t_in : str; t_key : str; t_out : str }.

(** [hex::decode] (crate hex): pairs of digits of either case; [None] is an error. *)
Definition hex_val (c : byte) : option N :=
  let n := Byte.to_N c in
  if (65 <=? n) && (n <=? 70) then Some (n - 65 + 10)
  else if (97 <=? n) && (n <=? 102) then Some (n - 97 + 10)
  else if (48 <=? n) && (n <=? 57) then Some (n - 48)
  else None.
Fixpoint hex_decode (s : list byte) : option (list byte) :=
  match s with
  | [] => Some []
  | [_] => None
  | a :: b :: s =>
      match hex_val a, hex_val b, hex_decode s with
      | Some x, Some y, Some l => Some (byte_of_N (16 * x + y) :: l)
      | _, _, _ => None
      end
  end.
(** [.unwrap()] *)
Definition unwrap {A} (x : option A) : outcome A := match x with Some a => Ok a | None => Panic end.

(** tests/vector_tests.rs:31-56 [blake2s_vectors] and 58-83 [blake2sp_vectors]: the loop,
    where [kat] is what is done with one case ([TestSuite.kat_blake2s], [kat_blake2sp]). *)
Fixpoint vector_loop (kat : list byte -> list byte -> list byte -> outcome unit) (c : cfg) (name : str)
    (cases : list TestCase) (count : u64) : outcome u64 :=
  match cases with
  | [] => Ok count
  | case :: cases =>
      count <- (if str_eq (chars (t_hash case)) (chars name)
                then input_bytes <- unwrap (hex_decode (chars (t_in case))) ;;
                     key_bytes <- (match chars (t_key case) with
                                   | [] => Ok []
                                   | _ => unwrap (hex_decode (chars (t_key case)))
                                   end) ;;
                     _ <- kat key_bytes input_bytes (chars (t_out case)) ;;
                     uadd c count (of_N 64 1)
                else Ok count) ;;
      vector_loop kat c name cases count
  end.
Definition blake2s_vectors (c : cfg) (cases : list TestCase) : outcome unit :=
  count <- vector_loop (kat_blake2s c) c "blake2s" cases (of_N 64 0) ;;
  assert! (512 =? val count) ;; Ok tt.
Definition blake2sp_vectors (c : cfg) (cases : list TestCase) : outcome unit :=
  count <- vector_loop (kat_blake2sp c) c "blake2sp" cases (of_N 64 0) ;;
  assert! (512 =? val count) ;; Ok tt.

(** ** For the statements *)
Definition named (name : str) (x : TestCase) : bool := str_eq (chars (t_hash x)) (chars name).
(** The strings of the case are hexadecimal, and its output is [spec] of its key and input. *)
Definition case_right (spec : list byte -> list byte -> list byte) (x : TestCase) : Prop :=
  exists key input, hex_decode (chars (t_key x)) = Some key /\ hex_decode (chars (t_in x)) = Some input /\
    (length key <= 32)%nat /\ chars (t_out x) = Spec.hex (spec key input).
(** ASCII letters made lower case. *)
Definition lower (b : byte) : byte :=
  let n := Byte.to_N b in if (65 <=? n) && (n <=? 90) then byte_of_N (n + 32) else b.
(** tests/blake2-kat.json: the fourth case of BLAKE2s with a key, and the third of BLAKE2sp *)
Definition case_a : TestCase := mk_case "blake2s" "000102"
  "000102030405060708090a0b0c0d0e0f101112131415161718191a1b1c1d1e1f"
  "1d220dbe2ee134661fdf6d9e74b41704710556f2f6e5a091b227697445dbea6b".
Definition case_b : TestCase := mk_case "blake2sp" "0001"
  "000102030405060708090a0b0c0d0e0f101112131415161718191a1b1c1d1e1f"
  "67e3097545bad7e852d74d4eb548eca7c219c202a7d088db0efeac0eac304249".
