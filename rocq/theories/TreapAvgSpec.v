(** * Treaps with random priorities *)
From Verif Require Import Base TreeModel BstModel BalModel TreeSpec BstSpec.

(** The insertions of the history give no priority: [random.randint(0, 100)] is drawn. *)
Definition default_priorities (os : list top) : Prop :=
  Forall (fun o => match o with TInsert _ (Given _) => False | _ => True end) os.
Definition is_insertion (o : top) : bool := match o with TInsert _ _ => true | _ => false end.
Definition insertions (os : list top) : nat := length (filter (fun o => is_insertion o = true) os).
(** The history [os] when the draws for its insertions come out as [ps]. *)
Fixpoint with_draws (os : list top) (ps : list nat) : list top :=
  match os with
  | [] => []
  | TInsert v p :: os' =>
      match ps with
      | [] => TInsert v p :: os'
      | q :: ps' => TInsert v (Drawn (Z.of_nat q)) :: with_draws os' ps'
      end
  | o :: os' => o :: with_draws os' ps
  end.
(** All ways in which [k] draws from 0, ..., R-1 can come out; [randint(0, 100)] has R = 101. *)
Fixpoint outcomes (R k : nat) : list (list nat) :=
  match k with
  | 0 => [[]]
  | S k' => flat_map (fun p => map (cons p) (outcomes R k')) (seq 0 R)
  end.
Definition draws : nat -> list (list nat) := outcomes 101.
