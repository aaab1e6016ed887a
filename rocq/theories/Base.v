(** * Common infrastructure: Python results, exceptions, values.

    Nothing here models application code except [norm_item] / [validate_item]
    (extra/interface.py and the newline replacement done by every node class). *)
From stdpp Require Export prelude.
From Coq Require Export ZArith Lia.
#[export] Set Default Goal Selector "!".

(** Exception classes the package (or the Python runtime) raises. *)
Inductive exn :=
| TypeError | ValueError | IndexError | AttributeError | AssertionError
| OverflowError | KeyError | UnboundLocalError | NotImplementedError | RecursionError.

(** Outcome of running a Python statement from a state: normal result, an
    exception (with the state at the point of the raise), or running out of the
    fuel given to a pointer-chasing loop. *)
Inductive res (S A : Type) :=
| Ok (a : A) (s : S)
| Exc (e : exn) (s : S)
| Diverge.
Arguments Ok {S A} _ _.
Arguments Exc {S A} _ _.
Arguments Diverge {S A}.

Definition M (S A : Type) := S -> res S A.

Definition ret {S A} (a : A) : M S A := fun s => Ok a s.
Definition raise {S A} (e : exn) : M S A := fun s => Exc e s.
Definition diverge {S A} : M S A := fun _ => Diverge.
Definition bind {S A B} (m : M S A) (k : A -> M S B) : M S B :=
  fun s => match m s with
           | Ok a s' => k a s'
           | Exc e s' => Exc e s'
           | Diverge => Diverge
           end.
Definition get_state {S} : M S S := fun s => Ok s s.
Definition put_state {S} (s : S) : M S unit := fun _ => Ok tt s.
(** Python's [assert]. *)
Definition py_assert {S} (b : bool) : M S unit :=
  if b then ret tt else raise AssertionError.

Declare Scope py_scope.
Delimit Scope py_scope with py.
Notation "'let!' x := m 'in' k" := (bind m (fun x => k))
  (at level 200, x pattern, m at level 100, k at level 200) : py_scope.
Notation "m ;; k" := (bind m (fun _ => k))
  (at level 100, k at level 200, right associativity) : py_scope.

(** Dereferencing a reference that may be [None]: attribute access on [None]
    raises AttributeError. *)
Definition deref {S A} (o : option A) : M S A :=
  match o with Some a => ret a | None => raise AttributeError end.

(** Total-correctness weakest precondition for normal termination. *)
Definition wp {S A} (m : M S A) (Q : A -> S -> Prop) (s : S) : Prop :=
  match m s with Ok a s' => Q a s' | _ => False end.

Lemma wp_ret {S A} (a : A) (Q : A -> S -> Prop) s : Q a s -> wp (ret a) Q s.
Proof. done. Qed.
Lemma wp_bind {S A B} (m : M S A) (k : A -> M S B) Q s :
  wp m (fun a s' => wp (k a) Q s') s -> wp (bind m k) Q s.
Proof. unfold wp, bind. destruct (m s); done. Qed.
Lemma wp_bind_inv {S A B} (m : M S A) (k : A -> M S B) Q s :
  wp (bind m k) Q s -> wp m (fun a s' => wp (k a) Q s') s.
Proof. unfold wp, bind. destruct (m s); done. Qed.
Lemma wp_mono {S A} (m : M S A) (P Q : A -> S -> Prop) s :
  wp m P s -> (forall a s', P a s' -> Q a s') -> wp m Q s.
Proof. unfold wp. destruct (m s); auto. Qed.
Lemma wp_get_state {S} (Q : S -> S -> Prop) s : Q s s -> wp get_state Q s.
Proof. done. Qed.
Lemma wp_put_state {S} (x : S) (Q : unit -> S -> Prop) s : Q tt x -> wp (put_state x) Q s.
Proof. done. Qed.
Lemma wp_deref {S A} (a : A) (Q : A -> S -> Prop) o s :
  o = Some a -> Q a s -> wp (deref o) Q s.
Proof. by intros ->. Qed.
Lemma wp_assert {S} (b : bool) (Q : unit -> S -> Prop) s :
  b = true -> Q tt s -> wp (py_assert b) Q s.
Proof. by intros ->. Qed.
Lemma wp_elim {S A} (m : M S A) Q s :
  wp m Q s -> exists a s', m s = Ok a s' /\ Q a s'.
Proof. unfold wp. destruct (m s) eqn:E; eauto; done. Qed.
Lemma wp_intro {S A} (m : M S A) (Q : A -> S -> Prop) s a s' :
  m s = Ok a s' -> Q a s' -> wp m Q s.
Proof. unfold wp. by intros ->. Qed.
Lemma bind_ok {S A B} (m : M S A) (k : A -> M S B) s a s' :
  m s = Ok a s' -> bind m k s = k a s'.
Proof. unfold bind. by intros ->. Qed.
Lemma bind_exc {S A B} (m : M S A) (k : A -> M S B) s e s' :
  m s = Exc e s' -> bind m k s = Exc e s'.
Proof. unfold bind. by intros ->. Qed.

(** ** Values *)

(** Python [str]: a list of Unicode code points. *)
Notation pystr := (list N).

(** A number as the numeric containers see it: finite (ints and finite floats
    only ever get compared, so [Z] is order-faithful), or an infinity. NaN is
    not modelled. *)
Inductive num := NegInf | Fin (z : Z) | PosInf.
Global Instance num_eq_dec : EqDecision num.
Proof. solve_decision. Defined.

(** Objects a caller can pass where an item is expected.  [PNodeObj d v] is an
    instance of [Node] ([d] = is it a [DoublyNode]) with data [v]; [PExtraObj] is
    any other [Extra] instance with default (identity) equality, e.g. a Stack;
    [POpaque n] is any other object with identity equality and no ordering. *)
Inductive pyval :=
| PNone
| PNum (n : num)
| PStr (s : pystr)
| PNodeObj (doubly : bool) (d : pyval)
| PExtraObj
| POpaque (n : N).
Notation PInt z := (PNum (Fin z)).
Global Instance pyval_eq_dec : EqDecision pyval.
Proof. solve_decision. Defined.

(** [==] between two stored/searched values. Extra objects are only equal to
    themselves and are never stored, so comparing against one is False. *)
Definition py_eq (a b : pyval) : bool :=
  match a, b with
  | PNone, PNone => true
  | PNum x, PNum y => bool_decide (x = y)
  | PStr x, PStr y => bool_decide (x = y)
  | POpaque x, POpaque y => bool_decide (x = y)
  | _, _ => false
  end.

(** Total order on numbers. *)
Definition num_ltb (a b : num) : bool :=
  match a, b with
  | NegInf, NegInf => false
  | NegInf, _ => true
  | Fin x, Fin y => Z.ltb x y
  | Fin _, PosInf => true
  | _, _ => false
  end.
(** Python's [min(a, b)] and [max(a, b)]: the first of two equal arguments. *)
Definition num_min (a b : num) : num := if num_ltb b a then b else a.
Definition num_max (a b : num) : num := if num_ltb a b then b else a.
Definition num_leb (a b : num) : bool := negb (num_ltb b a).

(** Lexicographic order on strings (code points). *)
Fixpoint str_ltb (a b : pystr) : bool :=
  match a, b with
  | [], [] => false
  | [], _ :: _ => true
  | _ :: _, [] => false
  | x :: a', y :: b' =>
      if N.ltb x y then true else if N.ltb y x then false else str_ltb a' b'
  end.

(** [a < b]: TypeError ([None]) unless both are numbers or both strings. *)
Definition py_lt (a b : pyval) : option bool :=
  match a, b with
  | PNum x, PNum y => Some (num_ltb x y)
  | PStr x, PStr y => Some (str_ltb x y)
  | _, _ => None
  end.

(** interface.py:10-33 [Extra._validate_item]: [Some e] is the exception raised. *)
Definition validate_item (v : pyval) : option exn :=
  match v with
  | PNone => Some ValueError
  | PNodeObj _ _ | PExtraObj => Some TypeError
  | _ => None
  end.

(** [item.replace("\n", "\\n")] for [str] items (linked_list.py:37-38, 86-87,
    stack.py:222-223, tree.py:93-94); other items are kept. *)
Definition nl_replace (s : pystr) : pystr :=
  flat_map (fun c => if N.eqb c 10 then [92%N; 110%N] else [c]) s.
Definition norm_item (v : pyval) : pyval :=
  match v with PStr s => PStr (nl_replace s) | _ => v end.

(** What an accepted item looks like once stored. *)
Definition storable (v : pyval) : Prop := validate_item v = None.
Definition stored (v : pyval) : Prop := storable v /\ norm_item v = v.

Lemma nl_replace_idem s : nl_replace (nl_replace s) = nl_replace s.
Proof.
  induction s as [|c s IH]; [done|].
  cbn [nl_replace flat_map]. unfold nl_replace in *. rewrite flat_map_app, IH.
  f_equal. destruct (N.eqb c 10) eqn:E; cbn; [done|]. by rewrite E.
Qed.
Lemma norm_item_idem v : norm_item (norm_item v) = norm_item v.
Proof. destruct v; cbn; try done. by rewrite nl_replace_idem. Qed.
Lemma storable_norm v : storable v -> storable (norm_item v).
Proof. by destruct v. Qed.
Lemma stored_norm v : storable v -> stored (norm_item v).
Proof. split; [by apply storable_norm | apply norm_item_idem]. Qed.
Lemma py_eq_stored a b : storable a -> py_eq a b = true <-> a = b.
Proof.
  destruct a; try done; destruct b; cbn; rewrite ?bool_decide_eq_true; naive_solver.
Qed.
