(** * How deep a BST is on average (C76)

    Specification: BstAvgSpec.v; [path] and [values] in DepthSpec.v, where C70_needs says
    that [path x] is the number of nested calls that [x in t] and [t.insert(x)] make.
    Model: BstModel.v, BalModel.v.  Proofs: BstAvgThm.v (counting), BstAvgThm2.v. *)
From Coq Require Import Sorted Factorial.
From iris.proofmode Require Import proofmode.
From Verif Require Import Base NumOrd TreeModel TreeSpec BstModel BalModel BstSpec BstSep BstRules BstZip BstPure BstThm DepthSpec DepthThm4 DepthThm5
  BstAvgSpec TreapAvgSpec TreapAvgThm BstAvgThm BstAvgThm2.

(** [orders vs] lists every order of [vs] exactly once. *)
Theorem C76_orders (vs : list num) : NoDup vs ->
  (forall p, p ∈ orders vs <-> p ≡ₚ vs) /\ NoDup (orders vs) /\ length (orders vs) = fact (length vs).
Proof. intros H. split_and!; [by apply orders_elem|by apply orders_nodup|by apply orders_length]. Qed.
Print Assumptions C76_orders.

(** The nodes on the way to [x] in a BST are exactly the values that were inserted before all
    the other values between them and [x]. *)
Theorem C76_on_the_way p x : NoDup p ->
  exists rs s t, history CBST (inserts p) = Some (rs, s) /\ shape s = Some t /\
    path x (values t) = length (List.filter (comes_first x p) p).
Proof.
  intros H. destruct (built_history p) as (rs & s & t & E1 & E2 & E3). exists rs, s, t. split_and!; [done|done|].
  rewrite E3 path_built // filter_count. done.
Qed.
Print Assumptions C76_on_the_way.

(** Each value is on the way in exactly its share of the orders. *)
Theorem C76_share vs x v : NoDup vs -> v ∈ vs ->
  length (List.filter (within x v) vs) * length (List.filter (fun p => comes_first x p v) (orders vs)) = fact (length vs).
Proof. intros Hnd Hv. rewrite (filter_count _ (orders vs)). by apply firsts_count. Qed.
Print Assumptions C76_share.

(** The average, over all orders of insertion of [n] distinct values, of the number of nodes
    on the way to any [x] is at most [2 log2 n + 2]. *)
Theorem C76_average vs x : NoDup vs ->
  let n := length vs in
  exists nodes : list num -> nat,
    (forall p, p ∈ orders vs -> exists rs s t,
       history CBST (inserts p) = Some (rs, s) /\ shape s = Some t /\ length (inorder t) = n /\ path x (values t) = nodes p) /\
    sum_list (map nodes (orders vs)) <= fact n * (2 * Nat.log2 n + 2).
Proof.
  intros Hnd n. exists (fun p => path x (built p)). split.
  - intros p Hp. apply orders_elem in Hp; [|done]. destruct (built_history p) as (rs & s & t & E1 & E2 & E3).
    exists rs, s, t. split_and!; [done|done| |by rewrite E3]. unfold n. rewrite -(Permutation_length Hp).
    assert (inorder (built p) ≡ₚ p) as HP.
    { apply NoDup_Permutation; [apply inc_nodup, built_inc|by rewrite Hp|]. intros w. apply built_elem. }
    rewrite -(Permutation_length HP) -E3. unfold values. by rewrite inorder_map map_length.
  - replace (2 * Nat.log2 n + 2) with (2 * (Nat.log2 n + 1)) by lia. by apply average_paths.
Qed.
Print Assumptions C76_average.

(** So all the insertions together meet at most [n (2 log2 n + 1)] nodes on average. *)
Theorem C76_building vs : NoDup vs ->
  let n := length vs in
  exists work : list num -> list nat,
    (forall p, p ∈ orders vs -> insertions_meet p (work p)) /\
    sum_list (map (fun p => sum_list (work p)) (orders vs)) <= fact n * (n * (2 * Nat.log2 n + 1)).
Proof. intros Hnd n. exists (walks Nil). split; [intros p _; apply walks_meet|by apply walks_average]. Qed.
Print Assumptions C76_building.

(** No bound of this kind holds for every order: when the values come in increasing order each
    insertion meets all the nodes. *)
Theorem C76_increasing_order p : increasing p ->
  insertions_meet p (seq 0 (length p)) /\ 2 * sum_list (seq 0 (length p)) = length p * (length p - 1) /\
  forall x, Forall (fun y => num_lt y x) p ->
    exists rs s t, history CBST (inserts p) = Some (rs, s) /\ shape s = Some t /\ path x (values t) = length p.
Proof.
  intros H. split_and!; [rewrite -walks_sorted //; apply walks_meet|apply sum_seq|]. intros x Hx.
  destruct (built_history p) as (rs & s & t & E1 & E2 & E3). exists rs, s, t. split_and!; [done|done|]. rewrite E3. by apply built_sorted_path.
Qed.
Print Assumptions C76_increasing_order.

(** The hypotheses are met: three values, six orders, and the way to the place of 4. *)
Example C76_example : NoDup [Fin 1; Fin 3; Fin 5] /\ length (orders [Fin 1; Fin 3; Fin 5]) = 6 /\
  map (fun p => path (Fin 4) (built p)) (orders [Fin 1; Fin 3; Fin 5]) = [3; 3; 2; 2; 3; 2] /\
  increasing [Fin 1; Fin 3; Fin 5].
Proof.
  split_and!; [|done|by vm_compute|repeat constructor]. repeat (constructor; [set_solver|]). constructor.
Qed.
