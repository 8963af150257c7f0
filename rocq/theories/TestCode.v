(** * TestCode: the reference implementation in the crate's own tests. *)
From Verif Require Import Base Consts Params State Blake2sp.
Local Open Scope N_scope.

(** blake2sp.rs:475-525, the eight leaves: [Blake2sParams::new().fanout(8).max_depth(2)
    .node_offset(i).inner_hash_length(OUTBYTES)], the last one with [.last_node(true)],
    then [.to_state()] *)
Definition ref_leaf (c : cfg) (i : N) (last : list setter) : outcome State :=
  p <- build ([SFanout (of_N 8 8); SMaxDepth (of_N 8 2); SNodeOffset (of_N 64 i);
               SInnerHashLength (N.of_nat OUTBYTES)] ++ last) ;;
  to_state c p.

(** [input.chunks(BLOCKBYTES)]: pieces of 64 bytes, the last one may be shorter *)
Fixpoint chunks_loop (fuel : nat) (input : list byte) : list (list byte) :=
  match fuel, input with
  | S fuel, _ :: _ => firstn BLOCKBYTES input :: chunks_loop fuel (skipn BLOCKBYTES input)
  | _, _ => []
  end.
Definition chunks (input : list byte) : list (list byte) := chunks_loop (length input) input.

(** blake2sp.rs:526-528 [for (i, chunk) in ...enumerate() { leaves[i % 8].update(chunk); }] *)
Fixpoint ref_deal (c : cfg) (i : nat) (leaves : list State) (l : list (list byte)) : outcome (list State) :=
  match l with
  | [] => Ok leaves
  | chunk :: l =>
      match nth_error leaves (i mod 8) with
      | None => Panic
      | Some leaf =>
          leaf <- update c leaf chunk ;;
          ref_deal c (S i) (upd leaves (i mod 8) leaf) l
      end
  end.

(** blake2sp.rs:536-538 [for leaf in &mut leaves { root.update(leaf.finalize().as_bytes()); }] *)
Fixpoint ref_collect (c : cfg) (root : State) (leaves : list State) : outcome State :=
  match leaves with
  | [] => Ok root
  | leaf :: l =>
      ' (_, h) <- finalize c leaf ;;
      bs <- as_bytes h ;;
      root <- update c root bs ;;
      ref_collect c root l
  end.

(** blake2sp.rs:474-540 [blake2sp_reference] *)
Definition blake2sp_reference (c : cfg) (input : list byte) : outcome Hash :=
  leaf0 <- ref_leaf c 0 [] ;;
  leaf1 <- ref_leaf c 1 [] ;;
  leaf2 <- ref_leaf c 2 [] ;;
  leaf3 <- ref_leaf c 3 [] ;;
  leaf4 <- ref_leaf c 4 [] ;;
  leaf5 <- ref_leaf c 5 [] ;;
  leaf6 <- ref_leaf c 6 [] ;;
  leaf7 <- ref_leaf c 7 [SLastNode true] ;;
  leaves <- ref_deal c 0 [leaf0; leaf1; leaf2; leaf3; leaf4; leaf5; leaf6; leaf7] (chunks input) ;;
  p <- build [SFanout (of_N 8 8); SMaxDepth (of_N 8 2); SNodeDepth (of_N 8 1);
              SInnerHashLength (N.of_nat OUTBYTES); SLastNode true] ;;
  root <- to_state c p ;;
  root <- ref_collect c root leaves ;;
  ' (_, h) <- finalize c root ;;
  Ok h.

(** blake2sp.rs:555-572, the body of the loop in [test_buffering].  The test runs it for
    inputs of 1 to 20 blocks of [paint_input] with [k] = 1. *)
Definition test_buffering (c : cfg) (input : list byte) (k : nat) : outcome unit :=
  expected <- blake2sp_reference c input ;;
  found <- blake2sp c input ;;
  b <- hash_eq expected found ;;
  assert! b ;;
  state <- SpState_new c ;;
  first <- slice_to input k ;;
  state <- sp_update c state first ;;
  n <- sp_count c state ;;
  assert! (N.of_nat k =? val n) ;;
  second <- slice_from input k ;;
  state <- sp_update c state second ;;
  n <- sp_count c state ;;
  assert! (val (of_N 64 (N.of_nat (length input))) =? val n) ;;
  found <- sp_finalize c state ;;
  b <- hash_eq expected found ;;
  assert! b ;;
  Ok tt.
