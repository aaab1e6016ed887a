(** * Specification of the drawings of binary trees *)
From Coq Require Import Sorted.
From Verif Require Import Base TreeModel TreeSpec PrintSpec BstModel BinDrawModel.

(** The text of a node: not empty, no white space, no underscore (as the texts of numbers). *)
Definition clean (s : pystr) : Prop := s <> [] /\ Forall (fun c => is_space c = false /\ c <> c_under) s.
Definition clean_texts {A} (show : A -> pystr) (t : bin A) : Prop :=
  forall n d, d ∈ bin_level n t -> clean (show d).

(** The words of a line: what is left between spaces and underscores. *)
Definition parts (c : N) : bool := N.eqb c c_space || N.eqb c c_under.
Fixpoint words (s : pystr) : list pystr :=
  match s with
  | [] => []
  | c :: s' =>
      if parts c then words s'
      else match s' with
           | [] => [[c]]
           | c' :: _ => if parts c' then [c] :: words s'
                        else match words s' with [] => [[c]] | w :: ws => (c :: w) :: ws end
           end
  end.

(** The nodes from left to right (in order), each with its depth. *)
Fixpoint inorder_depths {A} (t : bin A) (n : nat) : list (nat * A) :=
  match t with Nil => [] | Bin l d r => inorder_depths l (S n) ++ (n, d) :: inorder_depths r (S n) end.
(** The character at a row and column of a page; a space where nothing is printed. *)
Definition char_at (page : list pystr) (row col : nat) : N := default c_space (default [] (page !! row) !! col).
(** [w] stands in that row, starting in that column. *)
Definition written (page : list pystr) (row col : nat) (w : pystr) : Prop :=
  take (length w) (drop col (default [] (page !! row))) = w.

(** The nodes stand on the page from left to right: each is given a column, it is written
    there in row [2 * depth], and each ends before the next in order begins, with at least
    one column between them, whatever their rows. *)
Definition drawn_in_order {A} (show : A -> pystr) (page : list pystr) (t : bin A) : Prop :=
  exists places : list (nat * nat * A),
    map (fun p => (p.1.1, p.2)) places = inorder_depths t 0 /\
    (forall depth col d, (depth, col, d) ∈ places -> written page (2 * depth) col (show d)) /\
    StronglySorted (fun p q => (p.1.2 + length (show p.2) < q.1.2)%nat) places.

(** [pic] is the drawing of [t]: two rows for a level (the last row would be empty); in every
    other row the words are the texts of that level; every node to the right of those before
    it in order. *)
Definition pictures {A} (show : A -> pystr) (t : bin A) (pic : pystr) : Prop :=
  match t with
  | Nil => pic = empty_picture
  | _ => let page := split_lines pic in
         length page = 2 * nlevels t - 1 /\
         (forall n, words (default [] (page !! (2 * n))) = map show (bin_level n t)) /\
         drawn_in_order show page t
  end.

(** The array of a heap as a tree: the children of [i] are [2i+1] and [2i+2]. *)
Fixpoint array_tree (fuel : nat) {A} (h : list A) (i : nat) : bin A :=
  match fuel with
  | 0 => Nil
  | S k => match h !! i with
           | None => Nil
           | Some x => Bin (array_tree k h (2 * i + 1)) x (array_tree k h (2 * i + 2))
           end
  end.
Definition heap_tree {A} (h : list A) : bin A := array_tree (length h) h 0.
