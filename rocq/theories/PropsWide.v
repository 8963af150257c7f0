(** * Property C56: which compressions the functions for eight inputs run. *)
From Verif Require Import Base Params State Many ParamsSpec Clients Views Traced TraceTerms ManyCalls Witness.
From Verif Require Spec.
Local Open Scope N_scope.

(** C56: [hash8] compresses eight blocks at a time up to the last block of the shortest input;
    it also finalizes all eight at once if all end there with a full block, and otherwise
    finishes them one by one. *)
Theorem C56_hash8 : forall c params inputs k r,
  let fns := default_compress_impl c in
  let n l := length (proj l inputs) in
  let block i := Compress (fn_compress fns) (of_N 64 (N.of_nat (64 * S i))) (uzero 32) (uzero 32) in
  let last l := Compress (fn_compress fns) (of_N 64 (N.of_nat (n l))) (umax 32) (flag32 (p_last_node (proj l params))) in
  let wide m lastblock lastnode := Compress8Vectorized (fn_compress8_vectorized fns) (oct_const (of_N 32 (N.of_nat m)))
    (oct_const (of_N 32 (N.of_nat m / 2 ^ 32))) lastblock lastnode in
  (forall l, k <= blocks_done (n l))%nat -> (exists l, blocks_done (n l) = k) ->
  hash8 c params inputs = Ok r ->
  runs (events (hash8_t c params inputs)) =
    Vectorize8 (fn_vectorize8 fns) ::
    map (fun i => wide (64 * S i)%nat (oct_const (uzero 32)) (oct_const (uzero 32))) (seq 0 k) ++
    if forallb (fun l => Nat.eqb (n l) (64 * S k)) lanes
    then [wide (64 * S k)%nat (oct_const (umax 32)) (each (fun l => flag32 (p_last_node (proj l params))));
          Vectorize8 (fn_vectorize8 fns)]
    else Vectorize8 (fn_vectorize8 fns) ::
         flat_map (fun l => map block (seq k (blocks_done (n l) - k)) ++ [last l]) lanes.
Proof. exact hash8_calls. Qed.
Print Assumptions C56_hash8.
(** Either way as many blocks as the definitions of the eight hashes have. *)
Theorem C56_hash8_work : forall c ls params inputs r, (forall l, build (ls l) = Ok (proj l params)) ->
  hash8 c params inputs = Ok r ->
  work (runs (events (hash8_t c params inputs))) =
  list_sum (map (fun l => length (Spec.blake2s_calls (spec_params (ls l)) (spec_last_node (ls l)) (proj l inputs))) lanes).
Proof. exact hash8_work. Qed.
Print Assumptions C56_hash8_work.

(** [update8] on states with any histories: first full buffers, lane by lane; then eight
    blocks at a time, as long as every lane keeps a block back; then what is left, lane by lane. *)
Theorem C56_update8 : forall c ls ps pieces states,
  (forall l, build (ls l) = Ok (ps l)) -> (forall l, (s <- to_state c (ps l) ;; feed c s (pieces l)) = Ok (proj l states)) ->
  let m l := length (Spec.key_block (Spec.key (spec_params (ls l))) ++ concat (pieces l)) in
  let f := fn_compress (default_compress_impl c) in
  let f8 := fn_compress8 (default_compress_impl c) in
  forall inputs w states',
  let n l := length (proj l inputs) in
  let s l := start (m l) (n l) in
  let e l := blocks_done (m l + n l) in
  let block i := Compress f (of_N 64 (N.of_nat (64 * S i))) (uzero 32) (uzero 32) in
  (forall l, w <= e l - s l)%nat -> (exists l, e l - s l = w)%nat ->
  update8 c states inputs = Ok states' ->
  runs (events (update8_t c states inputs)) =
    flat_map (fun l => map block (seq (blocks_done (m l)) (s l - blocks_done (m l)))) lanes ++
    map (fun j => Compress8 f8 (each (fun l => of_N 64 (N.of_nat (64 * (s l + S j))))) (oct_const (uzero 32)) (oct_const (uzero 32)))
      (seq 0 w) ++
    flat_map (fun l => map block (seq (s l + w) (e l - s l - w))) lanes.
Proof. exact update8_calls. Qed.
Print Assumptions C56_update8.
Theorem C56_update8_work : forall c ls ps pieces states,
  (forall l, build (ls l) = Ok (ps l)) -> (forall l, (s <- to_state c (ps l) ;; feed c s (pieces l)) = Ok (proj l states)) ->
  let m l := length (Spec.key_block (Spec.key (spec_params (ls l))) ++ concat (pieces l)) in
  forall inputs states', update8 c states inputs = Ok states' ->
  work (runs (events (update8_t c states inputs))) =
  list_sum (map (fun l => blocks_done (m l + length (proj l inputs)) - blocks_done (m l))%nat lanes).
Proof. exact update8_work. Qed.
Print Assumptions C56_update8_work.
(** [finalize8] is one compression. *)
Theorem C56_finalize8 : forall c ls ps pieces states,
  (forall l, build (ls l) = Ok (ps l)) -> (forall l, (s <- to_state c (ps l) ;; feed c s (pieces l)) = Ok (proj l states)) ->
  let m l := length (Spec.key_block (Spec.key (spec_params (ls l))) ++ concat (pieces l)) in
  let f8 := fn_compress8 (default_compress_impl c) in
  forall r, finalize8 c states = Ok r ->
  runs (events (finalize8_t c states)) =
    [Compress8 f8 (each (fun l => of_N 64 (N.of_nat (m l)))) (oct_const (umax 32)) (each (fun l => flag32 (spec_last_node (ls l))))].
Proof. exact finalize8_calls. Qed.
Print Assumptions C56_finalize8.

(** Blocks per routine. [hash8] of eight inputs of 128 bytes: all at once. Of 130 bytes: the
    last blocks one by one. [update8] of 200 bytes on states with 1 to 8 bytes in the buffer. *)
Example C56_example :
  let weights {A} (x : traced A) := (match result x with Ok _ => true | _ => false end, map weight (runs (events x))) in
  let ps := oct_const Params_default in
  weights (hash8_t debug_avx2 ps (oct_const (ramp 128))) = (true, [0; 8; 8; 0]%nat) /\
  weights (hash8_t debug_avx2 ps (oct_const (ramp 130))) = (true, [0; 8; 8; 0; 1; 1; 1; 1; 1; 1; 1; 1]%nat) /\
  exists states, (forall l, (s <- to_state debug_avx2 Params_default ;; feed debug_avx2 s [ramp (proj l (Oct 1 2 3 4 5 6 7 8)%nat)])
                            = Ok (proj l states)) /\
    weights (update8_t debug_avx2 states (oct_const (ramp 200))) = (true, [1; 1; 1; 1; 1; 1; 1; 1; 8; 8]%nat) /\
    weights (finalize8_t debug_avx2 states) = (true, [8]%nat).
Proof.
  split; [lazy; reflexivity|]. split; [lazy; reflexivity|].
  eexists (Oct _ _ _ _ _ _ _ _). split; [intros []; reflexivity|]. split; lazy; reflexivity.
Qed.
