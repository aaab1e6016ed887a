(** * What the heaps promise, in terms of the bag of values they hold.

    Shares with HeapModel.v only the call alphabet and the outcomes. *)
From Verif Require Import Base NumOrd HeapModel.

(** [m] is a smallest / largest member. *)
Definition is_min (m : num) (l : list num) : Prop := m ∈ l /\ Forall (num_le m) l.
Definition is_max (m : num) (l : list num) : Prop := m ∈ l /\ Forall (fun x => num_le x m) l.

(** [heap_may bag op r bag']: holding [bag], the ideal heap may answer [op] with [r]
    and hold [bag'] afterwards.  Bags are lists up to permutation. *)
Inductive heap_may (bag : list num) : hop -> hout -> list num -> Prop :=
| hm_insert n bag' : bag' ≡ₚ n :: bag -> heap_may bag (HInsert (PNum n)) (HRet false) bag'
| hm_insert_none bag' : bag' ≡ₚ bag -> heap_may bag (HInsert PNone) (HExc ValueError) bag'
| hm_insert_bad v bag' : (forall n, v <> PNum n) -> v <> PNone -> bag' ≡ₚ bag ->
    heap_may bag (HInsert v) (HExc TypeError) bag'
| hm_remove n bag' : bag ≡ₚ n :: bag' -> heap_may bag (HRemove (PNum n)) (HRet false) bag'
| hm_remove_absent v bag' : (forall n, v = PNum n -> n ∉ bag) -> bag' ≡ₚ bag ->
    heap_may bag (HRemove v) (HRet true) bag'
| hm_remove_min m bag' : is_min m bag -> bag ≡ₚ m :: bag' -> heap_may bag HRemoveMin (HRet false) bag'
| hm_remove_max m bag' : is_max m bag -> bag ≡ₚ m :: bag' -> heap_may bag HRemoveMax (HRet false) bag'
| hm_empty_get op bag' : op ∈ [HRemoveMin; HRemoveMax; HGetMin; HGetMax] -> bag = [] -> bag' = [] ->
    heap_may bag op (HExc IndexError) bag'
| hm_get_min m bag' : is_min m bag -> bag' ≡ₚ bag -> heap_may bag HGetMin (HVal m) bag'
| hm_get_max m bag' : is_max m bag -> bag' ≡ₚ bag -> heap_may bag HGetMax (HVal m) bag'
| hm_contains v r bag' : (r = true <-> exists n, v = PNum n /\ n ∈ bag) -> bag' ≡ₚ bag ->
    heap_may bag (HContains v) (HBool r) bag'
| hm_len bag' : bag' ≡ₚ bag -> heap_may bag HLen (HNat (length bag)) bag'
| hm_is_empty r bag' : (r = true <-> bag = []) -> bag' ≡ₚ bag -> heap_may bag HIsEmpty (HBool r) bag'
| hm_to_list l bag' : l ≡ₚ bag -> bag' ≡ₚ bag -> heap_may bag HToList (HVals l) bag'
| hm_clear bag' : bag' = [] -> heap_may bag HClear (HRet false) bag'.

Inductive heap_answers : list num -> list hop -> list hout -> list num -> Prop :=
| ha_nil bag : heap_answers bag [] [] bag
| ha_cons bag op r bag' ops rs bag'' :
    heap_may bag op r bag' -> heap_answers bag' ops rs bag'' -> heap_answers bag (op :: ops) (r :: rs) bag''.

(** The array [h] is heap-ordered: no element precedes its parent ([b]: min heap). *)
Definition heap_ordered (b : bool) (h : list num) : Prop :=
  forall i x p, 0 < i -> h !! i = Some x -> h !! Nat.div (i - 1) 2 = Some p ->
    if b then num_le p x else num_le x p.

(** Calls that remove nothing but the top of the heap. *)
Definition top_only (b : bool) (op : hop) : Prop :=
  match op with
  | HRemove _ => False
  | HRemoveMin => b = true
  | HRemoveMax => b = false
  | _ => True
  end.

(** The same, with the promise about minima and maxima dropped: get and remove some
    member. *)
Inductive heap_may_weak (bag : list num) : hop -> hout -> list num -> Prop :=
| hw_exact op r bag' : heap_may bag op r bag' -> heap_may_weak bag op r bag'
| hw_get op m bag' : op = HGetMin \/ op = HGetMax -> m ∈ bag -> bag' ≡ₚ bag -> heap_may_weak bag op (HVal m) bag'
| hw_remove op m bag' : op = HRemoveMin \/ op = HRemoveMax -> bag ≡ₚ m :: bag' ->
    heap_may_weak bag op (HRet false) bag'.
Inductive heap_answers_weak : list num -> list hop -> list hout -> list num -> Prop :=
| hwa_nil bag : heap_answers_weak bag [] [] bag
| hwa_cons bag op r bag' ops rs bag'' :
    heap_may_weak bag op r bag' -> heap_answers_weak bag' ops rs bag'' ->
    heap_answers_weak bag (op :: ops) (r :: rs) bag''.

(** [i] is the first position of [x]. *)
Definition first_at (h : list num) (x : num) (i : nat) : Prop :=
  h !! i = Some x /\ forall j, j < i -> h !! j <> Some x.
(** The last element of the array may take place [i]: [i] is the root or the last
    place, or the last element does not precede the parent of place [i]. *)
Definition slot_fits (b : bool) (h : list num) (i : nat) : Prop :=
  i = 0 \/ S i = length h \/
  exists p z, h !! Nat.div (i - 1) 2 = Some p /\ last h = Some z /\ if b then num_le p z else num_le z p.
