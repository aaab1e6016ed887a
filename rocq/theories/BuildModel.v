(** * Model of the constructors BST(iterable), AVL(iterable), SplayTree(iterable),
      Treap(iterable), RedBlackTree(iterable) and SkipList(iterable)

    The iterable is the list of the items it yields.  With each item of a Treap comes the
    priority drawn for it (treap.py:76), with each item of a SkipList the number of heads
    flipped (skip_list.py:911-920).  [random.seed(seed)] (treap.py:248) only determines the
    draws.  Not modelled: [hasattr(iterable, "__iter__")], the test that refuses other
    arguments. *)
From Verif Require Import Base ListModel TreeModel BstModel BalModel SkipModel.
Local Open Scope py_scope.

(** bst.py:358-359 (through avl.py:249, splay_tree.py:105, treap.py:249,
    red_black_tree.py:272): [for item in iterable: self.insert(item)]. *)
Fixpoint insert_all (c : tcls) (items : list (pyval * Z)) : M tst unit :=
  match items with
  | [] => ret tt
  | (item, draw) :: items' => let! _ := tree_insert c item (Drawn draw) in insert_all c items'
  end.
(** bst.py:349-359 __init__: a new tree, or an exception. *)
Definition tree_new (c : tcls) (items : list (pyval * Z)) : res unit tst :=
  match insert_all c items tst0 with
  | Ok _ s => Ok s tt
  | Exc e _ => Exc e tt
  | Diverge => Diverge
  end.

(** skip_list.py:306-307. *)
Fixpoint skip_insert_all (self : nat) (items : list (pyval * nat)) : M kst unit :=
  match items with
  | [] => ret tt
  | (item, heads) :: items' => sl_insert self item heads ;; skip_insert_all self items'
  end.
(** skip_list.py:301-307 __init__: the SkipList and the store it lives in. *)
Definition skip_new (items : list (pyval * nat)) : res unit (nat * kst) :=
  match (let! self := sl_new in skip_insert_all self items ;; ret self) kst0 with
  | Ok self s => Ok (self, s) tt
  | Exc e _ => Exc e tt
  | Diverge => Diverge
  end.
