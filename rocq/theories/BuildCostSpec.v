(** * The nodes met while a search tree is built from an iterable (specification of C78) *)
From Verif Require Import Base TreeModel BstModel BalModel BuildModel TreeSpec BstSpec DepthSpec.

(** [vs] as the items of an iterable (the draws are of no concern except for Treap). *)
Definition items (vs : list num) : list (pyval * Z) := map (fun v => (PNum v, 0%Z)) vs.
(** [ks]: the nodes met by the insertion of each item of [vs], that is, those on the way to
    its place in the tree that the constructor builds from the items before it. *)
Definition building_meets (c : tcls) (vs : list num) (ks : list nat) : Prop :=
  length ks = length vs /\
  forall i v k, vs !! i = Some v -> ks !! i = Some k -> exists s t,
    tree_new c (items (take i vs)) = Ok s tt /\ shape s = Some t /\ path v (values t) = k.
(** The documented claim: building a tree from [n] items takes time O(n). *)
Definition linear_building (c : tcls) : Prop :=
  exists a, forall vs ks, building_meets c vs ks -> sum_list ks <= a * length vs.
