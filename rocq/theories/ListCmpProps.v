(** * C84: comparing lists of different classes

    Specification: ListSpec.v (histories), ListCmpSpec.v.  Model of the operators: ListCmpModel.v. *)
From Verif Require Import Base ListModel ListRep ListCore ListCore2 ListSpec ListPure ListOps ListOps2 ListRun ListOps3 ListSim ListThm ListThm2 ListCmpModel ListCmpSpec.
Local Open Scope py_scope.

Lemma refuses r k k' s a b g g' : rep k s a g -> rep k' s b g' -> is_instance k' k = false -> method r a b s = Exc TypeError s.
Proof.
  intros H H' Hi. destruct (obj_eq H) as (ob & Hob & Hkb & _). destruct (obj_eq H') as (oc & Hoc & Hkc & _).
  assert (check_cmp a b s = Exc TypeError s) as E.
  { unfold check_cmp. erewrite bind_ok by (by apply get_obj_ok). erewrite bind_ok by (by apply get_obj_ok). by rewrite Hkb, Hkc, Hi. }
  destruct r; cbn [method]; unfold list_eq, list_ne, list_lt, list_le, list_gt, list_ge; by rewrite (bind_exc _ _ _ _ _ E).
Qed.
Lemma operator_mixed r k k' s a b g g' : rep k s a g -> rep k' s b g' -> k <> k' -> operator r a b s = Exc TypeError s.
Proof.
  intros H H' Hk. destruct (obj_eq H) as (ob & Hob & Hkb & _). destruct (obj_eq H') as (oc & Hoc & Hkc & _).
  unfold operator. erewrite bind_ok by (by apply get_obj_ok). erewrite bind_ok by (by apply get_obj_ok). rewrite Hkb, Hkc.
  destruct (is_instance k' k) eqn:Hi; [|by eapply (refuses r k k')].
  rewrite bool_decide_eq_false_2 by done. cbn [andb negb]. eapply (refuses _ k' k); [done..|]. by destruct k, k'.
Qed.

Lemma py_op_none op x y : op <> OpEq -> py_op op x y = None <-> py_lt x y = None.
Proof. destruct op, x, y; cbn; try done; by intros; split. Qed.
Lemma cmp_clash op : op <> OpEq -> forall xs ys c ae, Forall stored xs -> (cmp_pure op c ae xs ys = None <-> clash op xs ys).
Proof.
  intros Hop. induction xs as [|x xs IH]; intros [|y ys] c ae Hst; try (split; [done|]; intros (i & x' & y' & H1 & H2 & _); by destruct i).
  apply Forall_cons in Hst as [Hx Hst]. cbn [cmp_pure]. rewrite py_eq_dec_stored by done.
  assert (forall ae', x = y \/ py_op op x y = Some true -> (cmp_pure op (S c) ae' xs ys = None <-> clash op (x :: xs) (y :: ys))) as Hn.
  { intros ae' Ho. rewrite (IH ys (S c) ae' Hst). split; intros (i & x' & y' & H1 & H2 & H3 & H4 & H5).
    - exists (S i), x', y'. split_and!; [done..|]. intros [|j] a b Hj Ha Hb; [cbn in Ha, Hb; by injection Ha as <-; injection Hb as <-|]. apply (H5 j); [lia|done..].
    - destruct i as [|i].
      + cbn in H1, H2. injection H1 as <-. injection H2 as <-. destruct Ho as [?|Ho]; [done|]. apply (py_op_none op) in H4; [congruence|done].
      + exists i, x', y'. split_and!; [done..|]. intros j a b Hj. apply (H5 (S j)). lia. }
  case_bool_decide as E; [by apply Hn; left|]. destruct (py_op op x y) as [[]|] eqn:Eo; [by apply Hn; right| |].
  - split; [done|]. intros ([|i] & x' & y' & H1 & H2 & H3 & H4 & H5).
    + cbn in H1, H2. injection H1 as <-. injection H2 as <-. apply (py_op_none op) in H4; [congruence|done].
    + destruct (H5 0 x y ltac:(lia) eq_refl eq_refl); congruence.
  - split; [|done]. intros _. exists 0, x, y. split_and!; try done; [by apply (py_op_none op)|]. intros; lia.
Qed.

(** [x r K(ys)] and [K(ys) r x], for each of ==, !=, <, <=, >, >= and a class K other than that
    of [x], raise TypeError and change nothing - also between a LinkedList and its subclasses,
    in both orders. *)
Theorem C84_other_classes r k k' h outs w x xs ys :
  spec_run k [] h = Some (outs, w) -> w !! x = Some (Some xs) -> Forall storable ys -> k' <> k ->
  exists s env o n s1, model_run k conf0 h = Some (outs, (s, env)) /\ env !! x = Some o
   /\ construct (mcls k') ys s = Ok n s1
   /\ operator r o n s1 = Exc TypeError s1 /\ operator r n o s1 = Exc TypeError s1.
Proof.
  intros Hh Hx Hst Hk. destruct (run_rel _ _ _ _ Hh) as ([s env] & Hrun & HR).
  destruct (rel_var_rep _ _ _ _ _ _ HR Hx) as (o & g & Ho & Hr & Hv).
  destruct (wp_elim _ _ _ (construct_spec (mcls k') s ys Hst)) as (n & s1 & Hc & g' & Hr' & Hv' & Hn & Hfr & Hm).
  assert (rep (mcls k) s1 o g) as Hr1 by (eapply rep_frame; [exact Hr|exact Hm|set_solver|set_solver]).
  assert (mcls k <> mcls k') as Hmk by (by destruct k, k').
  exists s, env, o, n, s1. split_and!; [done|done|done|by eapply operator_mixed|by eapply operator_mixed].
Qed.
Print Assumptions C84_other_classes.

(** Between lists of one class the operators are the methods of the left one (C09 and C10 say
    what these answer). *)
Theorem C84_same_class r k h outs w x y xs ys :
  spec_run k [] h = Some (outs, w) -> w !! x = Some (Some xs) -> w !! y = Some (Some ys) ->
  exists s env o o', model_run k conf0 h = Some (outs, (s, env)) /\ env !! x = Some o /\ env !! y = Some o'
   /\ operator r o o' s = method r o o' s.
Proof.
  intros Hh Hx Hy. destruct (run_rel _ _ _ _ Hh) as ([s env] & Hrun & HR).
  destruct (rel_var_rep _ _ _ _ _ _ HR Hx) as (o & g & Ho & Hr & _). destruct (rel_var_rep _ _ _ _ _ _ HR Hy) as (o' & g' & Ho' & Hr' & _).
  exists s, env, o, o'. split_and!; [done|done|done|].
  destruct (obj_eq Hr) as (ob & Hob & Hkb & _). destruct (obj_eq Hr') as (oc & Hoc & Hkc & _).
  unfold operator. erewrite bind_ok by (by apply get_obj_ok). erewrite bind_ok by (by apply get_obj_ok). rewrite Hkb, Hkc.
  rewrite bool_decide_eq_true_2 by done. by rewrite andb_false_r.
Qed.
Print Assumptions C84_same_class.

(** Lists of one class: < raises TypeError exactly when two elements clash before it is decided,
    <=, > and >= likewise; it answers otherwise.  (== and != always answer: C09.) *)
Theorem C84_clash k h outs w x y xs ys :
  spec_run k [] h = Some (outs, w) -> w !! x = Some (Some xs) -> w !! y = Some (Some ys) ->
  exists s env o o', model_run k conf0 h = Some (outs, (s, env)) /\ env !! x = Some o /\ env !! y = Some o'
   /\ forall r op, (r, op) ∈ [(RLt, OpLt); (RLe, OpLe); (RGt, OpGt); (RGe, OpGe)] ->
       (clash op xs ys -> operator r o o' s = Exc TypeError s) /\ (~ clash op xs ys -> exists b, operator r o o' s = Ok b s).
Proof.
  intros Hh Hx Hy. destruct (run_rel _ _ _ _ Hh) as ([s env] & Hrun & HR).
  destruct (rel_var_rep _ _ _ _ _ _ HR Hx) as (o & g & Ho & Hr & Hv). destruct (rel_var_rep _ _ _ _ _ _ HR Hy) as (o' & g' & Ho' & Hr' & Hv').
  exists s, env, o, o'. split_and!; [done|done|done|]. intros r op Hop.
  destruct (obj_eq Hr) as (ob & Hob & Hkb & _). destruct (obj_eq Hr') as (oc & Hoc & Hkc & _).
  assert (operator r o o' s = method r o o' s) as ->.
  { unfold operator. erewrite bind_ok by (by apply get_obj_ok). erewrite bind_ok by (by apply get_obj_ok). rewrite Hkb, Hkc.
    rewrite bool_decide_eq_true_2 by done. by rewrite andb_false_r. }
  assert (op <> OpEq) as Hne by (intros ->; by repeat (apply elem_of_cons in Hop as [[=]|Hop]); apply elem_of_nil in Hop).
  pose proof (compare_ok op _ _ _ _ _ _ Hr Hr') as Hc. pose proof (cmp_clash op Hne xs ys 0 true) as Hi. rewrite Hv, Hv' in Hc.
  specialize (Hi ltac:(rewrite <- Hv; by eapply rep_stored_list)).
  assert (forall A (f : unit -> M st A), (let! u := check_cmp o o' in f u) s = f tt s) as E0.
  { intros. by rewrite (bind_ok _ _ _ _ _ (check_cmp_ok _ _ _ _ _ _ Hr Hr')). }
  assert (forall A (f : lobj -> M st A), (let! u := get_obj o in f u) s = f ob s) as E1 by (intros; by erewrite bind_ok by (by apply get_obj_ok)).
  assert (forall A (f : lobj -> M st A), (let! u := get_obj o' in f u) s = f oc s) as E2 by (intros; by erewrite bind_ok by (by apply get_obj_ok)).
  repeat (apply elem_of_cons in Hop as [[= -> ->]|Hop]); [..|by apply elem_of_nil in Hop];
    cbn [method]; unfold list_lt, list_le, list_gt, list_ge; rewrite E0, ?E1, ?E2; unfold bind; rewrite Hc;
    (destruct (cmp_pure _ _ _ _ _) as [[n e]|] eqn:E; split; intros H; [apply Hi in H; congruence|by eexists|done|exfalso; by apply H, Hi]).
Qed.
Print Assumptions C84_clash.

(** The documentation of LinkedList.__eq__ and the others allows TypeError only for something
    that is not a LinkedList (or for elements that cannot be compared): a DoublyLinkedList is one,
    and its method, called as such, answers; the operator does not. *)
Theorem C84_documented_refuted : exists s,
  (let! a := construct CLL [PInt 1] in let! b := construct CDLL [PInt 1] in list_eq a b) st0 = Ok true s
  /\ (let! a := construct CLL [PInt 1] in let! b := construct CDLL [PInt 1] in operator REq a b) st0 = Exc TypeError s.
Proof. eexists. split; vm_compute; reflexivity. Qed.
Print Assumptions C84_documented_refuted.

(** [1, "a"] and [1, 2] clash; [1, "a"] < [0, 2] is decided before, [1, "a"] > [0, 2] is not. *)
Example C84_clash_example : let a := PStr [97%N] in
  clash OpLt [PInt 1; a] [PInt 1; PInt 2] /\ ~ clash OpLt [PInt 1; a] [PInt 0; PInt 2] /\ clash OpGt [PInt 1; a] [PInt 0; PInt 2].
Proof.
  cbn zeta. split_and!; [apply (cmp_clash OpLt ltac:(done) _ _ 0 true)|rewrite <- (cmp_clash OpLt ltac:(done) _ _ 0 true)|apply (cmp_clash OpGt ltac:(done) _ _ 0 true)];
    first [by repeat constructor|by vm_compute].
Qed.
(** LinkedList([1, 2]) and CircularLinkedList([2]). *)
Example C84_example : exists outs w,
  spec_run Singly [] [LNew [PInt 1; PInt 2]] = Some (outs, w) /\ w !! 0 = Some (Some [PInt 1; PInt 2]) /\ Forall storable [PInt 2] /\ Circular <> Singly
  /\ exists s, (let! a := construct CLL [PInt 1; PInt 2] in let! b := construct CCLL [PInt 2] in operator RLt a b) st0 = Exc TypeError s.
Proof. do 2 eexists. split; [vm_compute; reflexivity|]. split; [reflexivity|]. split; [by repeat constructor|]. split; [done|]. eexists. vm_compute. reflexivity. Qed.
