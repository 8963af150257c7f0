(** * Debug: the [fmt::Debug] implementations. *)
From Verif Require Import Base Consts Params State Many Blake2sp.
From Coq Require Import String Decimal DecimalString DecimalN.
Local Open Scope N_scope.
Local Open Scope string_scope.

(** [{}] of an unsigned integer: decimal without leading zeros. *)
Definition dec (n : N) : string := NilZero.string_of_uint (N.to_uint n).
(** [{}] of a [bool]. *)
Definition dec_bool (b : bool) : string := if b then "true" else "false".

(** lib.rs:451-460 [Debug for State] *)
Definition state_debug (st : State) : string :=
  "State { count: " ++ dec (val (st_count st)) ++ ", hash_length: " ++ dec (val (st_hash_length st))
  ++ ", last_node: " ++ dec_bool (st_last_node st) ++ " }".

(** lib.rs:517-521 [Debug for Hash] *)
Definition hash_debug (h : Hash) : outcome string :=
  x <- to_hex h ;; Ok ("Hash(0x" ++ string_of_list_byte x ++ ")").

(** blake2sp.rs:63-73 [Debug for Params] *)
Definition sp_params_debug (p : SpParams) : string :=
  "Params { hash_length: " ++ dec (val (sp_hash_length p)) ++ ", key_length: "
  ++ dec (val (sp_key_length p)) ++ " }".

(** blake2sp.rs:416-430 [Debug for State] *)
Definition sp_state_debug (c : cfg) (st : SpState) : outcome string :=
  n <- sp_count c st ;;
  Ok ("State { count: " ++ dec (val n) ++ ", root: " ++ state_debug (sp_root st)
      ++ ", leaf0: " ++ state_debug (o0 (sp_leaves st))
      ++ ", leaf1: " ++ state_debug (o1 (sp_leaves st))
      ++ ", leaf2: " ++ state_debug (o2 (sp_leaves st))
      ++ ", leaf3: " ++ state_debug (o3 (sp_leaves st)) ++ " }").
