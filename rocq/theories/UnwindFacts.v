(** * UnwindFacts: the unwinding functions do what the functions of the model do. *)
From Verif Require Import Base Consts Params State Many Blake2sp Debug Views Machine Unwind.
Local Open Scope N_scope.

Lemma forget_andthen {S A B} (x : act S A) (f : A -> act S B) s :
  forget (andthen x f s) = bind (forget (x s)) (fun '(s, a) => forget (f a s)).
Proof. unfold andthen. destruct (x s); reflexivity. Qed.
Lemma forget_eval {S A B} (e : outcome A) (f : A -> act S B) s :
  forget (andthen (eval e) f s) = bind e (fun a => forget (f a s)).
Proof. unfold andthen, eval. destruct e; reflexivity. Qed.
Lemma forget_this {S B} (f : S -> act S B) s : forget (andthen this f s) = forget (f s s).
Proof. reflexivity. Qed.
Lemma forget_assign {S B} g (f : unit -> act S B) s : forget (andthen (assign g) f s) = forget (f tt (g s)).
Proof. reflexivity. Qed.
Lemma forget_within {S T A} get put (x : act S A) (t : T) :
  forget (within get put x t) = bind (forget (x (get t))) (fun '(s, a) => Ok (put t s, a)).
Proof. unfold within. destruct (x (get t)); reflexivity. Qed.
Lemma forget_last {S A} (e : outcome A) (s : S) : forget (eval e s) = bind e (fun a => Ok (s, a)).
Proof. unfold eval. destruct e; reflexivity. Qed.
Lemma bind_ext {A B} (x : outcome A) (f g : A -> outcome B) : (forall a, f a = g a) -> bind x f = bind x g.
Proof. intros H. destruct x; cbn; auto. Qed.
Lemma bind_bind {A B C} (x : outcome A) (f : A -> outcome B) (g : B -> outcome C) :
  bind (bind x f) g = bind x (fun a => bind (f a) g).
Proof. destruct x; reflexivity. Qed.

(** ** [Params] *)
Definition plain {A} (x : outcome A) : outcome (A * unit) := bind x (fun a => Ok (a, tt)).
Lemma forget_setter s p : forget (setter_u s p) = plain (apply_setter p s).
Proof.
  destruct s; cbn [setter_u apply_setter]; try reflexivity;
  unfold hash_length_u, key_u, salt_u, personal_u, max_depth_u, node_offset_u, inner_hash_length_u,
    set_hash_length, set_key, set_salt, set_personal, set_max_depth, set_node_offset, set_inner_hash_length;
  rewrite forget_eval;
  match goal with |- context [if ?b then Ok tt else Panic] => destruct b end; cbn [bind plain]; try reflexivity;
  rewrite !forget_assign, forget_this, forget_eval; unfold plain; rewrite bind_bind; apply bind_ext; reflexivity.
Qed.
Lemma forget_sp_setter s p : forget (sp_setter_u s p) = plain (sp_apply_setter p s).
Proof.
  destruct s; cbn [sp_setter_u sp_apply_setter]; unfold sp_hash_length_u, sp_key_u, sp_set_hash_length, sp_set_key;
  rewrite forget_eval;
  match goal with |- context [if ?b then Ok tt else Panic] => destruct b end; cbn [bind plain]; try reflexivity;
  rewrite !forget_assign, forget_this, forget_eval; unfold plain; rewrite bind_bind; apply bind_ext; reflexivity.
Qed.

(** ** [State] *)
Lemma forget_fill_buf c x st : forget (fill_buf_u c x st) = fill_buf c st x.
Proof.
  unfold fill_buf_u, fill_buf. rewrite forget_this, forget_eval. apply bind_ext; intros room.
  rewrite forget_eval. apply bind_ext; intros src. rewrite forget_eval. apply bind_ext; intros buf.
  rewrite forget_assign, forget_eval. apply bind_ext; intros n. rewrite forget_assign, forget_eval.
  apply bind_ext; intros m. rewrite forget_assign, forget_last. apply bind_ext; intros y. reflexivity.
Qed.
Lemma forget_compress_buffer c x st : forget (compress_buffer_if_possible_u c x st) = compress_buffer_if_possible c st x.
Proof.
  unfold compress_buffer_if_possible_u, compress_buffer_if_possible. rewrite forget_this.
  destruct (0 <? val (st_buflen st)); [|reflexivity].
  rewrite forget_andthen, forget_fill_buf. apply bind_ext. intros (st1, y). destruct y; [reflexivity|].
  rewrite forget_this, forget_eval. apply bind_ext; intros h. reflexivity.
Qed.
Lemma forget_bump c st : forget (bump_count_u c st) = plain (bump_count c st).
Proof.
  unfold bump_count_u, bump_count, plain. rewrite forget_this, forget_eval, bind_bind. apply bind_ext. reflexivity.
Qed.
Lemma forget_update_loop c : forall fuel x st, forget (update_loop_u fuel c x st) = update_loop fuel c st x.
Proof.
  induction fuel as [|fuel IH]; intros x st; [reflexivity|]. cbn [update_loop_u update_loop].
  destruct (Nat.ltb BLOCKBYTES (length x)); [|reflexivity].
  rewrite forget_andthen, forget_bump. unfold plain, bump_count. rewrite !bind_bind. apply bind_ext; intros n.
  cbn [bind]. rewrite forget_eval. apply bind_ext; intros b. rewrite forget_this, forget_eval.
  apply bind_ext; intros h. rewrite forget_assign, forget_eval. apply bind_ext; intros y. apply IH.
Qed.
Lemma forget_update c x st : forget (update_u c x st) = plain (update c st x).
Proof.
  unfold update_u, update, plain. rewrite forget_andthen, forget_compress_buffer, bind_bind. apply bind_ext. intros (st1, y).
  rewrite forget_andthen, forget_update_loop, bind_bind. apply bind_ext. intros (st2, z).
  rewrite forget_andthen, forget_fill_buf, bind_bind. apply bind_ext. intros (st3, w). reflexivity.
Qed.
Lemma forget_write c x st : forget (write_u c x st) = write c st x.
Proof.
  unfold write_u, write. rewrite forget_andthen, forget_update. unfold plain. rewrite bind_bind. apply bind_ext. reflexivity.
Qed.
Lemma forget_finalize c st : forget (finalize_u c st) = finalize c st.
Proof. unfold finalize_u, finalize. rewrite forget_assign, forget_this, forget_eval. apply bind_ext. reflexivity. Qed.

(** ** Eight [State]s *)
Lemma forget_each8 {S A} (f : lane8 -> act S A) o :
  forget (each8 f o) =
  bind (oct_mapM2 (fun l s => forget (f l s)) (Oct L0 L1 L2 L3 L4 L5 L6 L7) o)
       (fun r => Ok (oct_map fst r, oct_map snd r)).
Proof.
  destruct o as [a b c d e g h i]. unfold each8, oct_mapM2. cbn [o0 o1 o2 o3 o4 o5 o6 o7].
  repeat (rewrite forget_andthen, forget_within, bind_bind, bind_bind; cbn [proj o0 o1 o2 o3 o4 o5 o6 o7];
          apply bind_ext; intros [? ?]; cbn [bind put_lane]).
  reflexivity.
Qed.
Lemma forget_bump8 c o :
  forget (each8 (fun _ => bump_count_u c) o) = bind (oct_mapM (bump_count c) o) (fun o => Ok (o, oct_const tt)).
Proof.
  rewrite forget_each8. destruct o as [a b d e f g h i]. unfold oct_mapM2, oct_mapM. cbn [o0 o1 o2 o3 o4 o5 o6 o7].
  rewrite !forget_bump. unfold plain.
  repeat (rewrite !bind_bind; apply bind_ext; intros ?; cbn [bind]). reflexivity.
Qed.
Lemma forget_compress_buffer8 c x o :
  forget (each8 (fun l => compress_buffer_if_possible_u c (proj l x)) o) =
  bind (oct_mapM2 (compress_buffer_if_possible c) o x) (fun si => Ok (oct_map fst si, oct_map snd si)).
Proof.
  rewrite forget_each8. destruct o as [a b d e f g h i]. unfold oct_mapM2. cbn [o0 o1 o2 o3 o4 o5 o6 o7 proj].
  rewrite !forget_compress_buffer. reflexivity.
Qed.
Lemma forget_update_each c x o :
  forget (each8 (fun l => update_u c (proj l x)) o) = bind (oct_mapM2 (update c) o x) (fun o => Ok (o, oct_const tt)).
Proof.
  rewrite forget_each8. destruct o as [a b d e f g h i]. unfold oct_mapM2. cbn [o0 o1 o2 o3 o4 o5 o6 o7 proj].
  rewrite !forget_update. unfold plain.
  repeat (rewrite !bind_bind; apply bind_ext; intros ?; cbn [bind]). reflexivity.
Qed.
Lemma forget_update8_loop c fn : forall fuel x o, forget (update8_loop_u fuel c fn x o) = update8_loop fuel c fn o x.
Proof.
  induction fuel as [|fuel IH]; intros x o; [reflexivity|]. cbn [update8_loop_u update8_loop].
  match goal with |- context [if ?b then _ else _] => destruct b end; [|reflexivity].
  rewrite forget_andthen, forget_bump8, bind_bind. apply bind_ext; intros o1. cbn [bind].
  rewrite forget_eval. apply bind_ext; intros bl. rewrite forget_this, forget_eval. apply bind_ext; intros hs.
  rewrite forget_assign, forget_eval. apply bind_ext; intros y. apply IH.
Qed.
Lemma forget_update8 c x o : forget (update8_u c x o) = plain (update8 c o x).
Proof.
  unfold update8_u, update8, plain. rewrite forget_andthen, forget_compress_buffer8, !bind_bind. apply bind_ext; intros si.
  cbn [bind]. rewrite forget_andthen, forget_update8_loop, bind_bind.
  replace (o0 (oct_map snd si)) with (snd (o0 si)) by (destruct si; reflexivity).
  apply bind_ext. intros (o1, y). rewrite forget_andthen, forget_update_each, bind_bind. apply bind_ext; intros o2. reflexivity.
Qed.
Lemma forget_finalize8 c o : forget (finalize8_u c o) = finalize8 c o.
Proof. unfold finalize8_u, finalize8. rewrite forget_assign, forget_this, forget_eval. apply bind_ext. reflexivity. Qed.

(** ** BLAKE2sp *)
Lemma forget_sp_fill_buf c x st : forget (sp_fill_buf_u c x st) = sp_fill_buf c st x.
Proof.
  unfold sp_fill_buf_u, sp_fill_buf. rewrite forget_this, forget_eval. apply bind_ext; intros room.
  rewrite forget_eval. apply bind_ext; intros src. rewrite forget_eval. apply bind_ext; intros buf.
  rewrite forget_assign, forget_eval. apply bind_ext; intros n. rewrite forget_assign, forget_last.
  apply bind_ext; intros y. reflexivity.
Qed.
Lemma forget_sp_compress8 c x fn o : forget (sp_compress8_u c x fn o) = plain (sp_compress8 c x o fn).
Proof.
  unfold sp_compress8_u, sp_compress8, plain. rewrite forget_this, forget_eval, bind_bind. apply bind_ext; intros ?.
  rewrite forget_eval, bind_bind. apply bind_ext; intros ?. rewrite forget_andthen, forget_bump8, !bind_bind.
  apply bind_ext; intros o1. cbn [bind]. rewrite forget_this, forget_eval, bind_bind. apply bind_ext; intros hs. reflexivity.
Qed.
Lemma forget_leaves c x fn st B (f : unit -> act SpState B) :
  forget (andthen (within sp_leaves sp_set_leaves (sp_compress8_u c x fn)) f st) =
  bind (sp_compress8 c x (sp_leaves st) fn) (fun o => forget (f tt (sp_set_leaves st o))).
Proof.
  rewrite forget_andthen, forget_within, forget_sp_compress8. unfold plain. rewrite !bind_bind. apply bind_ext; intros o.
  reflexivity.
Qed.
Lemma forget_sp_empty_buffer c x st : forget (sp_empty_buffer_u c x st) = sp_empty_buffer c st x.
Proof.
  unfold sp_empty_buffer_u, sp_empty_buffer. rewrite forget_this.
  destruct (0 <? val (sp_buflen st)); [|reflexivity].
  rewrite forget_andthen, forget_sp_fill_buf. apply bind_ext. intros (st1, y). destruct y as [|b0 y0]; [reflexivity|].
  set (y := b0 :: y0). clearbody y.
  rewrite forget_this, forget_eval. apply bind_ext; intros bl. rewrite forget_leaves. apply bind_ext; intros o.
  cbv zeta. rewrite forget_eval. apply bind_ext; intros n. rewrite forget_assign.
  destruct (Nat.ltb (7 * BLOCKBYTES) (length y)).
  - rewrite forget_this, forget_eval. apply bind_ext; intros bl1. rewrite forget_leaves. apply bind_ext; intros o1.
    reflexivity.
  - rewrite forget_this, forget_eval. apply bind_ext; intros l. rewrite forget_eval. apply bind_ext; intros r.
    rewrite forget_eval. apply bind_ext; intros s. rewrite forget_eval. apply bind_ext; intros l1. reflexivity.
Qed.
Lemma forget_sp_update_loop c : forall fuel x st, forget (sp_update_loop_u fuel c x st) = sp_update_loop fuel c st x.
Proof.
  induction fuel as [|fuel IH]; intros x st; [reflexivity|]. cbn [sp_update_loop_u sp_update_loop].
  destruct (Nat.ltb (15 * BLOCKBYTES) (length x)); [|reflexivity].
  rewrite forget_eval. apply bind_ext; intros b. rewrite forget_this, forget_leaves. apply bind_ext; intros o.
  rewrite forget_eval. apply bind_ext; intros y. apply IH.
Qed.
Lemma forget_sp_update c x st : forget (sp_update_u c x st) = plain (sp_update c st x).
Proof.
  unfold sp_update_u, sp_update, plain. rewrite forget_andthen, forget_sp_empty_buffer, bind_bind. apply bind_ext. intros (st1, y).
  rewrite forget_andthen, forget_sp_update_loop, bind_bind. apply bind_ext. intros (st2, z).
  rewrite forget_andthen, forget_sp_fill_buf, bind_bind. apply bind_ext. intros (st3, w).
  rewrite forget_last, bind_bind. apply bind_ext. intros []. reflexivity.
Qed.
Lemma forget_sp_write c x st : forget (sp_write_u c x st) = sp_write c st x.
Proof.
  unfold sp_write_u, sp_write. rewrite forget_andthen, forget_sp_update. unfold plain. rewrite bind_bind. apply bind_ext. reflexivity.
Qed.

(** ** Programs *)
Lemma forget_on_object {S} get put i (x : act S obs) s (y : S -> outcome (S * obs)) :
  (forall a, forget (x a) = y a) ->
  forget (on_object get put i x s) =
  at_obj (get s) i (Ok (s, OInvalid)) (fun a => bind (y a) (fun '(a, r) => Ok (put s (upd (get s) i a), r))).
Proof.
  intros H. unfold on_object, at_obj. destruct (nth_error (get s) i) as [a|]; [|reflexivity].
  rewrite forget_within, H. reflexivity.
Qed.
Lemma forget_on_eight {A} i (x : act (oct State) A) k s :
  forget (on_eight i x k s) =
  match pick8 (s_states s) i with
  | Some sts => if distinct (oct_list i)
                then bind (forget (x sts)) (fun '(sts, a) => forget (k a (with_states s (put8 (s_states s) i sts))))
                else Ok (s, OInvalid)
  | None => Ok (s, OInvalid)
  end.
Proof.
  unfold on_eight. destruct (pick8 (s_states s) i) as [sts|]; [|reflexivity].
  destruct (distinct (oct_list i)); [|reflexivity].
  rewrite forget_andthen, forget_within, bind_bind. apply bind_ext. intros (o, a). reflexivity.
Qed.
Lemma at_obj_ext {A B} (l : list A) i (no : B) f g : (forall a, f a = g a) -> at_obj l i no f = at_obj l i no g.
Proof. intros H. unfold at_obj. destruct (nth_error l i); auto. Qed.

Theorem forget_step c o s : forget (step_u c o s) = step c s o.
Proof.
  destruct o; cbn [step_u]; try (destruct (step c s _) as [[? ?]| | |]; reflexivity); unfold step.
  - rewrite (forget_on_object _ _ _ _ _ (fun p => bind (apply_setter p s0) (fun p => Ok (p, ONone)))).
    + apply at_obj_ext; intros p. rewrite bind_bind. reflexivity.
    + intros p. rewrite forget_andthen, forget_setter. unfold plain. rewrite bind_bind. reflexivity.
  - rewrite (forget_on_object _ _ _ _ _ (fun p => bind (update c p input) (fun p => Ok (p, ONone)))).
    + apply at_obj_ext; intros p. rewrite bind_bind. reflexivity.
    + intros p. rewrite forget_andthen, forget_update. unfold plain. rewrite bind_bind. reflexivity.
  - rewrite (forget_on_object _ _ _ _ _ (fun p => bind (write c p input) (fun '(p, n) => Ok (p, ONumber (N.of_nat n))))).
    + apply at_obj_ext; intros p. rewrite bind_bind. apply bind_ext. intros (a, b). reflexivity.
    + intros p. rewrite forget_andthen, forget_write. apply bind_ext. intros (a, b). reflexivity.
  - unfold at_obj. destruct (nth_error (s_states s) i) as [a|]; [|reflexivity].
    rewrite forget_andthen, forget_within, forget_finalize, bind_bind. apply bind_ext. intros (st, h). cbn [bind].
    rewrite forget_eval. unfold give_hash. apply bind_ext. reflexivity.
  - rewrite forget_on_eight. destruct (pick8 (s_states s) i) as [sts|]; [|reflexivity].
    destruct (distinct (oct_list i)); [|reflexivity]. rewrite forget_update8. unfold plain. rewrite bind_bind. reflexivity.
  - rewrite forget_on_eight. destruct (pick8 (s_states s) i) as [sts|]; [|reflexivity].
    destruct (distinct (oct_list i)); [|reflexivity]. rewrite forget_finalize8. apply bind_ext. intros (o, hs).
    rewrite forget_eval. unfold give_hashes. apply bind_ext. reflexivity.
  - rewrite (forget_on_object _ _ _ _ _ (fun p => bind (sp_apply_setter p s0) (fun p => Ok (p, ONone)))).
    + apply at_obj_ext; intros p. rewrite bind_bind. reflexivity.
    + intros p. rewrite forget_andthen, forget_sp_setter. unfold plain. rewrite bind_bind. reflexivity.
  - rewrite (forget_on_object _ _ _ _ _ (fun p => bind (sp_update c p input) (fun p => Ok (p, ONone)))).
    + apply at_obj_ext; intros p. rewrite bind_bind. reflexivity.
    + intros p. rewrite forget_andthen, forget_sp_update. unfold plain. rewrite bind_bind. reflexivity.
  - rewrite (forget_on_object _ _ _ _ _ (fun p => bind (sp_write c p input) (fun '(p, n) => Ok (p, ONumber (N.of_nat n))))).
    + apply at_obj_ext; intros p. rewrite bind_bind. apply bind_ext. intros (a, b). reflexivity.
    + intros p. rewrite forget_andthen, forget_sp_write. apply bind_ext. intros (a, b). reflexivity.
Qed.
