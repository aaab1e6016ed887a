(** * What a loop over a search tree should give

    Read this file to know what the theorems of TreeIterProps.v say. *)
From Verif Require Import Base TreeModel TreeSpec BstModel BalModel BstSpec TreeIterModel.

(** The values of a tree, level by level, each level from left to right. *)
Definition breadth_first {A} (t : bin A) : list A :=
  concat (map (fun n => bin_level n t) (seq 0 (nlevels t))).
Definition values (t : bin pay) : list num := map p_val (breadth_first t).

(** What iterator [i] gave to the program [ts] that observed [outs]. *)
Fixpoint tseen (i : nat) (ts : list tstmt) (outs : list tsout) : list gout :=
  match ts, outs with
  | XNext j :: ts', XGot r :: outs' => (if Nat.eqb j i then [r] else []) ++ tseen i ts' outs'
  | _ :: ts', _ :: outs' => tseen i ts' outs'
  | _, _ => []
  end.
(** How often the program asks iterator [i]. *)
Fixpoint tasks (i : nat) (ts : list tstmt) : nat :=
  match ts with
  | [] => 0
  | XNext j :: ts' => (if Nat.eqb j i then 1 else 0) + tasks i ts'
  | _ :: ts' => tasks i ts'
  end.
(** The values that the program's insertions added (those that did not warn). *)
Fixpoint inserted (ts : list tstmt) (outs : list tsout) : list num :=
  match ts, outs with
  | XCall (TInsert (PNum x) _) :: ts', XRes (OUnit false) :: outs' => x :: inserted ts' outs'
  | _ :: ts', _ :: outs' => inserted ts' outs'
  | _, _ => []
  end.
(** The program uses only iterators that it has made; [n] is their number before it. *)
Fixpoint made (n : nat) (ts : list tstmt) : Prop :=
  match ts with
  | [] => True
  | XIter :: ts' => made (S n) ts'
  | XNext i :: ts' => i < n /\ made n ts'
  | _ :: ts' => made n ts'
  end.

(** [l] is made of the elements of [a] and those of [b], both in their order. *)
Inductive merge {A} : list A -> list A -> list A -> Prop :=
| merge_nil : merge [] [] []
| merge_l x a b l : merge a b l -> merge (x :: a) b (x :: l)
| merge_r x a b l : merge a b l -> merge a (x :: b) (x :: l).

(** The [n] answers of a loop over exactly [vs]. *)
Definition exact_loop (vs : list num) (n : nat) : list gout :=
  take n (map GVal vs ++ replicate n GStop).
(** Answers of a loop that gives the elements of [old], each once, in this order, and
    between them perhaps some of [new], each at most once; it stops only after all of
    [old], and then for good. *)
Definition loop_with (old new : list num) (rs : list gout) : Prop :=
  exists vs k taken extra,
    rs = map GVal vs ++ replicate k GStop /\ merge taken extra vs /\
    taken `prefix_of` old /\ (0 < k -> taken = old) /\ extra ⊆+ new.

(** Calls that leave the nodes of the tree alone. *)
Definition leaves_nodes (c : tcls) (o : top) : Prop :=
  match o with
  | TInsert _ _ | TRemove _ => False
  | TContains _ => c <> CSplay
  | _ => True
  end.
Definition calls_only (P : top -> Prop) (ts : list tstmt) : Prop :=
  forall o, XCall o ∈ ts -> P o.

(** The calls of a program, their results, and the number of iterators it makes. *)
Definition calls_of (ts : list tstmt) : list top :=
  omap (fun t => match t with XCall o => Some o | _ => None end) ts.
Definition results_of (outs : list tsout) : list tout :=
  omap (fun o => match o with XRes r => Some r | _ => None end) outs.
Fixpoint iters (ts : list tstmt) : nat :=
  match ts with
  | [] => 0
  | XIter :: ts' => S (iters ts')
  | _ :: ts' => iters ts'
  end.
