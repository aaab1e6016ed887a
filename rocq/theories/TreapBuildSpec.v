(** * The nodes met while a Treap is built from an iterable (specification of C78)

    [random.randint(0, 100)] is drawn for every item (treap.py:76); [draws n] in
    TreapAvgSpec.v lists all outcomes of [n] draws. *)
From Verif Require Import Base TreeModel BstModel BalModel BuildModel TreeSpec BstSpec DepthSpec TreapAvgSpec.

(** The items [vs], the draws for them coming out as [ps]. *)
Definition drawn_items (vs : list num) (ps : list nat) : list (pyval * Z) := zip_with (fun v p => (PNum v, Z.of_nat p)) vs ps.
(** [ks]: the nodes on the way of each item of [vs] to its place in the Treap that the
    constructor builds from the items before it. *)
Definition drawn_building_meets (vs : list num) (ps : list nat) (ks : list nat) : Prop :=
  length ks = length vs /\
  forall i v k, vs !! i = Some v -> ks !! i = Some k -> exists s t,
    tree_new CTreap (drawn_items (take i vs) (take i ps)) = Ok s tt /\ shape s = Some t /\ path v (values t) = k.
(** [total ps]: all of them together, when the draws come out as [ps]. *)
Definition nodes_met (vs : list num) (total : list nat -> nat) : Prop :=
  forall ps, ps ∈ draws (length vs) -> exists ks, drawn_building_meets vs ps ks /\ sum_list ks = total ps.
(** The documented claim: building takes time O(n), here even on average over the draws. *)
Definition linear_building_on_average : Prop :=
  exists a, forall vs total, nodes_met vs total -> let n := length vs in
    sum_list (map total (draws n)) <= a * n * 101 ^ n.
