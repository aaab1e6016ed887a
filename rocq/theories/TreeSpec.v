(** * Vocabulary for the properties of trees.  Uses only the tree types of TreeModel.v. *)
From Coq Require Import Sorted.
From Verif Require Import Base TreeModel.

(** All nodes of a tree (as the subtrees they root), each once. *)
Fixpoint subtrees {A} (t : tree A) : list (tree A) :=
  match t with TNode d cs => TNode d cs :: flat_map subtrees cs end.
(** The data at distance [k] from the root, left to right. *)
Fixpoint level {A} (k : nat) (t : tree A) : list A :=
  match k with
  | 0 => [get_data t]
  | S k' => flat_map (level k') (get_children t)
  end.
(** Nodes without children. *)
Definition childless {A} (t : tree A) : Prop := get_children t = [].
Global Instance childless_dec {A} (t : tree A) : Decision (childless t).
Proof.
  refine (match get_children t as l return get_children t = l -> _ with [] => fun E => left E | _ => fun E => right _ end eq_refl).
  unfold childless. rewrite E. discriminate.
Defined.

(** ** Binary trees *)
Fixpoint bin_nodes {A} (t : bin A) : list (bin A) :=
  match t with Nil => [] | Bin l d r => t :: bin_nodes l ++ bin_nodes r end.
(** A node without children. *)
Definition bin_leaf {A} (t : bin A) : bool := match t with Bin Nil _ Nil => true | _ => false end.
Fixpoint bin_level {A} (k : nat) (t : bin A) {struct t} : list A :=
  match t with
  | Nil => []
  | Bin l d r => match k with 0 => [d] | S k' => bin_level k' l ++ bin_level k' r end
  end.

(** Every level completely filled, [n] levels. *)
Fixpoint filled {A} (n : nat) (t : bin A) : Prop :=
  match n, t with
  | 0, Nil => True
  | S n', Bin l _ r => filled n' l /\ filled n' r
  | _, _ => False
  end.
(** A node with no or two children. *)
Definition zero_or_two {A} (t : bin A) : Prop :=
  match t with
  | Bin Nil _ (Bin _ _ _) | Bin (Bin _ _ _) _ Nil => False
  | _ => True
  end.
(** There is a leaf [k] edges below the root. *)
Inductive leaf_at {A} : bin A -> nat -> Prop :=
| la_here d : leaf_at (Bin Nil d Nil) 0
| la_left l d r k : leaf_at l k -> leaf_at (Bin l d r) (S k)
| la_right l d r k : leaf_at r k -> leaf_at (Bin l d r) (S k).
(** The documented notion of balance (binary_tree.py:713-714): "the difference between
    the depth of any two leaf nodes is less than or equal to one". *)
Definition balanced_doc {A} (t : bin A) : Prop := forall i j, leaf_at t i -> leaf_at t j -> i <= j + 1.
(** Number of levels. *)
Fixpoint nlevels {A} (t : bin A) : nat :=
  match t with Nil => 0 | Bin l _ r => S (Nat.max (nlevels l) (nlevels r)) end.

(** ** Traversal orders, on the paths (false = left, true = right) that lead to nodes *)
Fixpoint at_path {A} (t : bin A) (p : list bool) {struct t} : option A :=
  match t, p with
  | Nil, _ => None
  | Bin _ d _, [] => Some d
  | Bin l d r, b :: p' => if b then at_path r p' else at_path l p'
  end.
Inductive visit := Pre | In | Post.
(** [p] is visited before [q]. *)
Fixpoint before (o : visit) (p q : list bool) : Prop :=
  match p, q with
  | [], [] => False
  | [], b :: _ => match o with Pre => True | In => b = true | Post => False end
  | b :: _, [] => match o with Pre => False | In => b = false | Post => True end
  | a :: p', b :: q' => if bool_decide (a = b) then before o p' q' else a = false
  end.
Definition before_bfs (p q : list bool) : Prop :=
  length p < length q \/ (length p = length q /\ before Pre p q).
(** [l] lists the data of all nodes of [t], each node once, in the order [R]. *)
Definition lists_in_order {A} (R : list bool -> list bool -> Prop) (t : bin A) (l : list A) : Prop :=
  exists ps, Forall2 (fun p d => at_path t p = Some d) ps l /\ StronglySorted R ps /\
    forall p, at_path t p <> None -> p ∈ ps.

(** ** parse: which literals describe which trees *)
Inductive describes : lit -> bin lit -> Prop :=
| ds_atom a : validate_item a = None -> describes (PAtom a) (Bin Nil (PAtom (norm_item a)) Nil)
| ds_leaf v d : datum v d -> describes (PSeq [v]) (Bin Nil d Nil)
| ds_left v d a l : datum v d -> describes a l -> describes (PSeq [v; a]) (Bin l d Nil)
| ds_both v d a l b r : datum v d -> describes a l -> describes b r -> describes (PSeq [v; a; b]) (Bin l d r)
with datum : lit -> lit -> Prop :=
| dt_atom a : validate_item a = None -> datum (PAtom a) (PAtom (norm_item a))
| dt_seq l : datum (PSeq l) (PSeq l).
(** The literal that describes a tree without right-only nodes. *)
Fixpoint unparse (t : bin lit) : lit :=
  match t with
  | Nil => PSeq []
  | Bin Nil d Nil => PSeq [d]
  | Bin l d Nil => PSeq [d; unparse l]
  | Bin l d r => PSeq [d; unparse l; unparse r]
  end.
(** A node that has only a right child. *)
Definition right_only {A} (t : bin A) : Prop := match t with Bin Nil _ (Bin _ _ _) => True | _ => False end.
