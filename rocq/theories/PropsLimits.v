(** * Property C63: BLAKE2sp at and beyond 2^64 bytes.

    C21 asks for fewer than 2^64 bytes in all.  Each leaf counts its own bytes, about an
    eighth of them, and leaf 0 has the most: [64 * (n / 512) + min 64 (n mod 512)] of
    [n] bytes. *)
From Verif Require Import Base Params State Blake2sp Machine MachineSpec Clients Terms Witness SpOverflow SpLimits.
From Verif Require Spec.
Local Open Scope N_scope.

(** Without a key, every message hashes to BLAKE2sp in every build, except that a build
    with overflow checks panics from 2^64 bytes in leaf 0 on. *)
Theorem C63_hash : forall c l p pieces, cfg_ok c -> sp_build l = Ok p -> sp_keyval l = [] ->
  let n := N.of_nat (length (concat pieces)) in
  sp_hash_pieces c p pieces =
  if overflow_checks c && (2 ^ 64 <=? 64 * (n / 512) + N.min 64 (n mod 512)) then Panic
  else Ok (Spec.blake2sp (sp_dlen l) [] (concat pieces)).
Proof. exact sp_hash_limit. Qed.
Print Assumptions C63_hash.
(** [State::count] adds up the leaves, so it gives up eight times earlier. *)
Theorem C63_count : forall c l p pieces st, cfg_ok c -> sp_build l = Ok p -> sp_keyval l = [] ->
  (s <- sp_to_state c p ;; sp_feed c s pieces) = Ok st ->
  let n := N.of_nat (length (concat pieces)) in
  if overflow_checks c && (2 ^ 64 <=? n) then sp_count c st = Panic
  else exists m, sp_count c st = Ok m /\ val m = n mod 2 ^ 64.
Proof. exact sp_count_limit. Qed.
Print Assumptions C63_count.
(** In a build with overflow checks: 2^64 zero bytes are absorbed and hash correctly,
    though [count] panics on that state; 2^67 - 449 bytes hash, 2^67 - 448 do not. *)
Example C63_example : exists p, sp_build [SpHashLength 13] = Ok p /\ sp_keyval [SpHashLength 13] = [] /\
  overflow_checks debug_portable = true /\
  (exists n, N.of_nat n = 2 ^ 64 /\ exists st,
    (s <- sp_to_state debug_portable p ;; sp_feed debug_portable s [repeat x00 n]) = Ok st /\
    sp_count debug_portable st = Panic /\
    sp_hash_pieces debug_portable p [repeat x00 n] = Ok (Spec.blake2sp 13 [] (repeat x00 n))) /\
  (exists n, N.of_nat n = 2 ^ 67 - 449 /\
    sp_hash_pieces debug_portable p [repeat x00 n] = Ok (Spec.blake2sp 13 [] (repeat x00 n))) /\
  (exists n, N.of_nat n = 2 ^ 67 - 448 /\ sp_hash_pieces debug_portable p [repeat x00 n] = Panic).
Proof. exact limit_example. Qed.
