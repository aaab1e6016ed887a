(** * Specification of the printed form of a tree

    Nodes are named by their paths: the list of the positions (from 0) to take among the
    children, from the root on.  Uses the tree type of TreeModel.v and, of PrintModel.v,
    only the strings and [join]. *)
From Coq Require Import Sorted.
From Verif Require Import Base TreeModel PrintModel.

Fixpoint node_of {A} (t : tree A) (p : list nat) {struct p} : option (tree A) :=
  match p with
  | [] => Some t
  | i :: p' => match get_children t !! i with Some c => node_of c p' | None => None end
  end.
(** The node at [q ++ [i]] has no younger sibling. *)
Definition youngest {A} (t : tree A) (q : list nat) (i : nat) : bool :=
  match node_of t q with Some n => Nat.eqb (S i) (length (get_children n)) | None => false end.
(** One cell for every ancestor of the node at [q ++ [i]] but the root: a vertical line as
    long as the ancestor has younger siblings, which are still to be printed. *)
Fixpoint cells {A} (t : tree A) (done : list nat) (q : list nat) : pystr :=
  match q with
  | [] => []
  | i :: q' => (if youngest t done i then s_blank else s_bar) ++ cells t (done ++ [i]) q'
  end.
(** The line of the node at path [p]. *)
Definition line_of {A} (show : A -> pystr) (t : tree A) (p : list nat) : pystr :=
  match node_of t p, rev p with
  | None, _ => []
  | Some n, [] => show (get_data n)
  | Some n, i :: rq =>
      cells t [] (rev rq) ++
      (if youngest t (rev rq) i then s_last else s_mid) ++
      (match get_children n with [] => s_end | _ => s_inner end) ++
      show (get_data n)
  end.
(** Preorder: a node before what is below it, and what is below it before its younger
    siblings. *)
Fixpoint path_before (p q : list nat) : Prop :=
  match p, q with
  | [], [] => False
  | [], _ => True
  | _, [] => False
  | i :: p', j :: q' => (i < j)%nat \/ (i = j /\ path_before p' q')
  end.
(** [l] is the list of the lines of all nodes of [t], each once, in preorder. *)
Definition lines_in_preorder {A} (show : A -> pystr) (t : tree A) (l : list pystr) : Prop :=
  exists ps, l = map (line_of show t) ps /\ StronglySorted path_before ps /\ forall p, p ∈ ps <-> node_of t p <> None.

(** [s] cut at the newlines. *)
Fixpoint split_lines (s : pystr) : list pystr :=
  match s with
  | [] => [[]]
  | c :: s' => if N.eqb c 10 then [] :: split_lines s'
               else match split_lines s' with [] => [[c]] | x :: l => (c :: x) :: l end
  end.
Fixpoint tree_map {A B} (f : A -> B) (t : tree A) : tree B :=
  match t with TNode d cs => TNode (f d) (map (tree_map f) cs) end.
Definition one_line (s : pystr) : Prop := (10%N) ∉ s.
(** No text of a node contains a newline. *)
Definition texts_one_line {A} (show : A -> pystr) (t : tree A) : Prop :=
  forall p n, node_of t p = Some n -> one_line (show (get_data n)).
