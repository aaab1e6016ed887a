(** * Orders of insertion (specification of C76) *)
From Verif Require Import Base TreeModel BstModel BalModel TreeSpec BstSpec DepthSpec.

(** The ways to take one element out of a list: the element and the others. *)
Fixpoint picks {A} (l : list A) : list (A * list A) :=
  match l with
  | [] => []
  | x :: l' => (x, l') :: map (fun p => (p.1, x :: p.2)) (picks l')
  end.
Fixpoint orders_n {A} (n : nat) (l : list A) : list (list A) :=
  match n with
  | 0 => [[]]
  | S n' => flat_map (fun p => map (cons p.1) (orders_n n' p.2)) (picks l)
  end.
(** All the orders of the elements of [l]. *)
Definition orders {A} (l : list A) : list (list A) := orders_n (length l) l.

(** [w] is [v], or [x], or between them. *)
Definition within (x v w : num) : bool :=
  (negb (num_ltb w v) && negb (num_ltb x w)) || (negb (num_ltb w x) && negb (num_ltb v w)).
(** In the order [p], [v] comes before all the others that are between [v] and [x]. *)
Definition comes_first (x : num) (p : list num) (v : num) : bool :=
  match List.find (within x v) p with Some w => bool_decide (w = v) | None => false end.

(** [ks] are the numbers of nodes met by the insertions of the values of [p], in this order,
    into a new BST. *)
Definition insertions_meet (p : list num) (ks : list nat) : Prop :=
  length ks = length p /\
  forall i v k, p !! i = Some v -> ks !! i = Some k -> exists rs s t,
    history CBST (inserts (take i p)) = Some (rs, s) /\ shape s = Some t /\ path v (values t) = k.
