(** * Iterators over the list classes, resumed one [next] at a time.

    [LinkedList.__iter__] (inherited by DoublyLinkedList and CircularLinkedList) is a
    generator: its body runs piecewise, each [next(it)] from one [yield] to the
    following one, and between two of them the program may call anything on any list.
    ListModel.v models only generators that are consumed in one go; here the suspended
    generator is a value of its own. *)
From Verif Require Import Base ListModel ListSpec ListRun.
Local Open Scope py_scope.

(** A generator object of list [self]: not yet started; suspended at the [yield] of
    linked_list.py:471 with its local variables [counter] and [curr_node]; finished. *)
Inductive gen := GNew (self : oid) | GAt (self : oid) (counter : nat) (curr : loc) | GDone.

(** What [next(it)] gives: a value, StopIteration or another exception. *)
Inductive iout := IVal (v : pyval) | IStop | IExc (e : exn).

(** linked_list.py:470-471: the test of the [while] loop, which reads the present
    [_length], and the [yield]. *)
Definition gen_test (self : oid) (counter : nat) (curr : option loc) : M st (iout * gen) :=
  let! o := get_obj self in
  if Nat.ltb counter (o_len o) then
    let! l := deref curr in
    let! d := get_data l in
    ret (IVal d, GAt self counter l)
  else ret (IStop, GDone).

(** linked_list.py:468-473: one [next].  A started generator resumes behind the
    [yield]: [counter += 1; curr_node = curr_node.get_next()]. *)
Definition gen_next (g : gen) : M st (iout * gen) :=
  match g with
  | GNew self => let! o := get_obj self in gen_test self 0 (o_head o)
  | GAt self counter curr => let! nx := get_next curr in gen_test self (S counter) nx
  | GDone => ret (IStop, GDone)
  end.

(** ** Programs with iterators *)

(** A statement: a call on lists, [it = iter(x)] (the next iterator number), or
    [next(it)]. *)
Inductive stmt := SCall (op : lop) | SIter (x : nat) | SNext (i : nat).
(** What the program observes from one statement. *)
Inductive sout := OCall (r : lout) | OIter | ONext (r : iout).

(** Heap, list variables and iterators. *)
Definition iconf : Type := conf * list gen.
Definition iconf0 : iconf := (conf0, []).

(** An exception that leaves the generator body finishes the generator. *)
Definition step_next (c : conf) (gs : list gen) (i : nat) (g : gen) : option (sout * iconf) :=
  match gen_next g (fst c) with
  | Ok (r, g') s' => Some (ONext r, ((s', snd c), <[i := g']> gs))
  | Exc e s' => Some (ONext (IExc e), ((s', snd c), <[i := GDone]> gs))
  | Diverge => None
  end.
Definition model_istep (k : lclass) (c : iconf) (t : stmt) : option (sout * iconf) :=
  match t with
  | SCall op => '(r, c1) ← model_step k c.1 op; Some (OCall r, (c1, c.2))
  | SIter x => o ← snd c.1 !! x; Some (OIter, (c.1, c.2 ++ [GNew o]))
  | SNext i => g ← c.2 !! i; step_next c.1 c.2 i g
  end.
Fixpoint model_irun (k : lclass) (c : iconf) (ts : list stmt) : option (list sout * iconf) :=
  match ts with
  | [] => Some ([], c)
  | t :: r =>
      '(o, c1) ← model_istep k c t;
      '(os, c2) ← model_irun k c1 r;
      Some (o :: os, c2)
  end.
