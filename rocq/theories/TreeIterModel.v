(** * Iterators over the search trees, resumed one [next] at a time.

    [Tree.__iter__] (tree.py:929-936; the methods of BinaryTree, BST, AVL, SplayTree,
    Treap and RedBlackTree only call it) is a generator: each [next(it)] runs its body
    from one [yield] to the following one, and between two of them the program may call
    anything on the tree. *)
From Verif Require Import Base TreeModel BstModel BalModel.
Local Open Scope py_scope.

(** A generator object: not yet started; suspended at the [yield] of tree.py:934 with
    [node] = [curr], the rest of [current_nodes] still to come, and [next_nodes];
    finished. *)
Inductive tgen := TGNew | TGAt (curr : nat) (rest next : list nat) | TGDone.

(** What [next(it)] gives: a value, StopIteration or another exception. *)
Inductive gout := GVal (x : num) | GStop | GExc (e : exn).

(** binary_tree.py:211-216 get_children. *)
Definition node_children (i : nat) : M tst (list nat) :=
  let! l := get_left i in
  let! r := get_right i in
  ret (option_list l ++ option_list r).
(** tree.py:934: [yield node.get_data()]. *)
Definition tg_yield (curr : nat) (rest next : list nat) : M tst (gout * tgen) :=
  let! d := get_data curr in ret (GVal d, TGAt curr rest next).
(** tree.py:929-936: one [next].  A started generator resumes behind the [yield]: it adds
    the present children to [next_nodes] (935), goes on in the [for] loop (933), or
    replaces [current_nodes] (936) and tests the [while] (931). *)
Definition tg_next (g : tgen) : M tst (gout * tgen) :=
  match g with
  | TGNew =>
      let! e := bst_is_empty in
      if e then ret (GStop, TGDone)
      else
        let! r := get_root in
        let! i := deref r in
        tg_yield i [] []
  | TGAt curr rest next =>
      let! cs := node_children curr in
      match rest with
      | i :: rest' => tg_yield i rest' (next ++ cs)
      | [] =>
          match next ++ cs with
          | i :: rest' => tg_yield i rest' []
          | [] => ret (GStop, TGDone)
          end
      end
  | TGDone => ret (GStop, TGDone)
  end.

(** ** Programs with one tree and any number of iterators over it *)

(** A call on the tree, [it = iter(t)] (the next iterator number), or [next(it)]. *)
Inductive tstmt := XCall (o : top) | XIter | XNext (i : nat).
(** What the program observes from one statement. *)
Inductive tsout := XRes (r : tout) | XNew | XGot (g : gout).

Definition tconf : Type := tst * list tgen.
Definition tconf0 : tconf := (tst0, []).

(** An exception that leaves the generator body finishes the generator. *)
Definition tstep_next (s : tst) (gs : list tgen) (i : nat) (g : tgen) : option (tsout * tconf) :=
  match tg_next g s with
  | Ok (r, g') s' => Some (XGot r, (s', <[i := g']> gs))
  | Exc e s' => Some (XGot (GExc e), (s', <[i := TGDone]> gs))
  | Diverge => None
  end.
Definition model_tstep (c : tcls) (q : tconf) (t : tstmt) : option (tsout * tconf) :=
  match t with
  | XCall o => '(r, s) ← call c o q.1; Some (XRes r, (s, q.2))
  | XIter => Some (XNew, (q.1, q.2 ++ [TGNew]))
  | XNext i => g ← q.2 !! i; tstep_next q.1 q.2 i g
  end.
Fixpoint model_trun (c : tcls) (q : tconf) (ts : list tstmt) : option (list tsout * tconf) :=
  match ts with
  | [] => Some ([], q)
  | t :: r =>
      '(o, q1) ← model_tstep c q t;
      '(os, q2) ← model_trun c q1 r;
      Some (o :: os, q2)
  end.
