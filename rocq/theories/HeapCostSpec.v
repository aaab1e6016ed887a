(** * What the calls on a heap cost (C73): specification *)
From Verif Require Import Base NumOrd HeapModel.

(** [limit b n op]: so many comparisons are enough for the call [op] on a heap ([b]: a
    MinHeap) of [n] numbers.  [top]: the call is about the end of the order the heap has at
    its root. *)
Definition at_top (b : bool) (op : hop) : bool :=
  match op with HRemoveMin | HGetMin => b | HRemoveMax | HGetMax => negb b | _ => false end.
Definition limit (b : bool) (n : nat) (op : hop) : nat :=
  match op with
  | HInsert _ => Nat.log2 (n + 1)
  | HRemoveMin | HRemoveMax => if at_top b op then 1 + 2 * Nat.log2 n else n / 2 + n + 2 * Nat.log2 n
  | HRemove _ => n + 2 * Nat.log2 n
  | HGetMin | HGetMax => if at_top b op then 0 else n / 2
  | HContains _ => n
  | HLen | HIsEmpty | HToList | HClear => 0
  end.
(** The calls of a priority queue: insertions and removals at the root. *)
Definition queue_op (b : bool) (op : hop) : bool :=
  match op with HInsert _ => true | HRemoveMin => b | HRemoveMax => negb b | _ => false end.
(** [log2 1 + log2 2 + ... + log2 n]. *)
Fixpoint log_sum (n : nat) : nat := match n with 0 => 0 | S m => Nat.log2 n + log_sum m end.
Definition insertions (ops : list hop) : nat := length (List.filter (fun op => match op with HInsert _ => true | _ => false end) ops).
(** [x] goes before [y] ([b]: in a MinHeap). *)
Definition before (b : bool) (x y : num) : Prop := if b then ~ num_le y x else ~ num_le x y.
(** All comparisons of a history. *)
Definition total (rs : list (hout * nat)) : nat := sum_list (map snd rs).
