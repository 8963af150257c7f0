(** * Witness: inputs on which the crate does not do what its documentation says. *)
From Verif Require Import Base Consts Params State Many Blake2sp Debug Machine Clients.
From Verif Require Spec.
From Coq Require String.
Local Open Scope N_scope.

Definition release_portable : cfg := mk_cfg false false false false false false.
Definition release_avx2 : cfg := mk_cfg true true true true false false.
Definition debug_portable : cfg := mk_cfg false false false false true true.
Definition debug_avx2 : cfg := mk_cfg true true true true true true.

(** [n] bytes 0, 1, 2, ... *)
Definition ramp (n : nat) : list byte :=
  map (fun i => match Byte.of_N (N.of_nat i mod 256) with Some b => b | None => x00 end) (seq 0 n).
Definition key32 : list byte := ramp 32.

(** A decision for outcomes of byte strings, so that [vm_compute] settles an inequality. *)
Definition same_bytes (x y : outcome (list byte)) : bool :=
  match x, y with
  | Ok a, Ok b => if list_eq_dec Byte.byte_eq_dec a b then true else false
  | Panic, Panic | UB, UB | Stuck, Stuck => true
  | _, _ => false
  end.
Lemma same_bytes_false x y : same_bytes x y = false -> x <> y.
Proof.
  intros H ->. destruct y; cbn [same_bytes] in H; try discriminate.
  destruct (list_eq_dec _ a a); [discriminate|contradiction].
Qed.

(** ** Keyed [hash8_exact] and [hash4_exact] with SIMD *)
Definition keyed_params : list setter := [SKey key32].
Definition eight_ramps : oct (list byte) := oct_const (ramp 64).
Definition four_ramps : quad (list byte) := Quad (ramp 64) (ramp 64) (ramp 64) (ramp 64).
Lemma exact8_wrong :
  exists p, build keyed_params = Ok p /\
    (hs <- hash8_exact release_avx2 p eight_ramps ;; as_bytes (o0 hs)) <>
    (h <- hash_one release_avx2 p (o0 eight_ramps) ;; as_bytes h).
Proof.
  destruct (build keyed_params) as [p| | |] eqn:E; [|vm_compute in E; discriminate..].
  exists p. split; [reflexivity|]. apply same_bytes_false. revert p E.
  intros p E. vm_compute in E. injection E as <-. vm_compute. reflexivity.
Qed.
Lemma exact4_wrong :
  exists p, build keyed_params = Ok p /\
    (hs <- hash4_exact release_avx2 p four_ramps ;; as_bytes (q0 hs)) <>
    (h <- hash_one release_avx2 p (q0 four_ramps) ;; as_bytes h).
Proof.
  destruct (build keyed_params) as [p| | |] eqn:E; [|vm_compute in E; discriminate..].
  exists p. split; [reflexivity|]. apply same_bytes_false. revert p E.
  intros p E. vm_compute in E. injection E as <-. vm_compute. reflexivity.
Qed.

(** ** Keyed BLAKE2sp of long messages *)
Definition sp_keyed_params : list sp_setter := [SpKey key32].
Definition one_piece : list (list byte) := [ramp 961].
Definition two_pieces : list (list byte) := [ramp 960; skipn 960 (ramp 961)].
Lemma sp_keyed_wrong :
  exists p, sp_build sp_keyed_params = Ok p /\
    sp_hash_pieces release_portable p one_piece <> Ok (Spec.blake2sp 32 key32 (concat one_piece)).
Proof.
  destruct (sp_build sp_keyed_params) as [p| | |] eqn:E; [|vm_compute in E; discriminate..].
  exists p. split; [reflexivity|]. apply same_bytes_false.
  vm_compute in E. injection E as <-. vm_compute. reflexivity.
Qed.
Lemma sp_keyed_split :
  exists p, sp_build sp_keyed_params = Ok p /\ concat one_piece = concat two_pieces /\
    sp_hash_pieces release_portable p one_piece <> sp_hash_pieces release_portable p two_pieces.
Proof.
  destruct (sp_build sp_keyed_params) as [p| | |] eqn:E; [|vm_compute in E; discriminate..].
  exists p. split; [reflexivity|]. split; [vm_compute; reflexivity|]. apply same_bytes_false.
  vm_compute in E. injection E as <-. vm_compute. reflexivity.
Qed.
Definition long_message : list (list byte) := [ramp 1025].
Lemma sp_keyed_long :
  exists p, sp_build sp_keyed_params = Ok p /\
    sp_hash_pieces release_portable p long_message <> Ok (Spec.blake2sp 32 key32 (concat long_message)).
Proof.
  destruct (sp_build sp_keyed_params) as [p| | |] eqn:E; [|vm_compute in E; discriminate..].
  exists p. split; [reflexivity|]. apply same_bytes_false.
  vm_compute in E. injection E as <-. vm_compute. reflexivity.
Qed.

(** ** The counter of keyed states, and the Debug text of BLAKE2sp states *)
Lemma count_wrong :
  exists p st, build keyed_params = Ok p /\
    (s <- to_state release_portable p ;; feed release_portable s [ramp 3]) = Ok st /\
    val (count st) <> N.of_nat (length (concat [ramp 3])).
Proof.
  destruct (build keyed_params) as [p| | |] eqn:E; [|vm_compute in E; discriminate..].
  destruct (s <- to_state release_portable p ;; feed release_portable s [ramp 3]) as [st| | |] eqn:F.
  - exists p, st. split; [reflexivity|]. split; [exact F|].
    assert (Hv : (s <- to_state release_portable p ;; st <- feed release_portable s [ramp 3] ;; Ok (val (count st)))
                 = Ok (val (count st))).
    { destruct (to_state release_portable p); cbn [bind] in *; try discriminate. rewrite F. reflexivity. }
    clear F. remember (val (count st)) as v eqn:Q in Hv |- *. clear Q.
    vm_compute in E. injection E as <-. vm_compute in Hv. injection Hv as <-. vm_compute. discriminate.
  - vm_compute in E. injection E as <-. vm_compute in F. discriminate F.
  - vm_compute in E. injection E as <-. vm_compute in F. discriminate F.
  - vm_compute in E. injection E as <-. vm_compute in F. discriminate F.
Qed.

Definition dump_program (pieces : list (list byte)) : list op :=
  SpStateNew :: map (SpUpdate 0) pieces ++ [SpDebug 0].
Definition last_dump (c : cfg) (pieces : list (list byte)) : option obs :=
  nth_error (fst (run c empty_session (dump_program pieces))) (S (length pieces)).
Definition dump_differs (x y : option obs) : bool :=
  match x, y with
  | Some (ODump a), Some (ODump b) => negb (String.eqb a b)
  | _, _ => false
  end.
Lemma dump_differs_true x y : dump_differs x y = true -> x <> y.
Proof.
  intros H <-. destruct x as [[]|]; cbn [dump_differs] in H; try discriminate.
  rewrite String.eqb_refl in H. discriminate.
Qed.
Lemma dump_split : concat one_piece = concat two_pieces /\
  last_dump release_portable one_piece <> last_dump release_portable two_pieces.
Proof. split; [vm_compute; reflexivity|]. apply dump_differs_true. vm_compute. reflexivity. Qed.
