(** * Model of extra/trees/{_heap,min_heap,max_heap}.py

    The state is the Python list [self._heap]; values are numbers (NaN excluded).
    [b : bool] is the [is_min_heap] argument, which MinHeap passes as True and
    MaxHeap as False.  A call that warns returns [true].  Not modelled: __repr__. *)
From Verif Require Import Base.
Local Open Scope py_scope.

Notation heap := (list num).

(** [self._heap[i]], [self._heap[i] = x], and swapping two positions. *)
Definition hget (i : nat) : M heap num := fun h =>
  match h !! i with Some x => Ok x h | None => Exc IndexError h end.
Definition hput (i : nat) (x : num) : M heap unit := fun h =>
  if Nat.ltb i (length h) then Ok tt (<[i := x]> h) else Exc IndexError h.
Definition hswap (i j : nat) : M heap unit :=
  let! x := hget i in let! y := hget j in hput i y ;; hput j x.

(** [(b and x > y) or (not b and x < y)] (_heap.py:237-239, 295-296). *)
Definition wrong (b : bool) (x y : num) : bool := if b then num_ltb y x else num_ltb x y.

(** _heap.py:80-82 and interface.py:10-33 _validate_item. *)
Definition heap_item (v : pyval) : exn + num :=
  match v with
  | PNum n => inr n
  | PNone => inl ValueError
  | _ => inl TypeError
  end.

(** _heap.py:233-246. *)
Fixpoint sift_up (fuel : nat) (b : bool) (idx : nat) : M heap unit :=
  match fuel with
  | 0 => diverge
  | S k =>
      if Nat.eqb idx 0 then ret tt
      else
        let parent_idx := Nat.div (idx - 1) 2 in
        let! current := hget idx in
        let! parent := hget parent_idx in
        if wrong b parent current then hswap parent_idx idx ;; sift_up k b parent_idx
        else ret tt
  end.
(** _heap.py:226-246. *)
Definition heap_insert (b : bool) (v : pyval) : M heap unit :=
  match heap_item v with
  | inl e => raise e
  | inr n =>
      let! h := get_state in
      put_state (h ++ [n]) ;;
      sift_up (S (length h)) b (length h)
  end.

(** _heap.py:272-303. *)
Fixpoint sift_down (fuel : nat) (b : bool) (parent_idx last_idx : nat) : M heap unit :=
  match fuel with
  | 0 => diverge
  | S k =>
      if Nat.ltb parent_idx last_idx then
        let! parent := hget parent_idx in
        let l := parent_idx * 2 + 1 in
        let r := parent_idx * 2 + 2 in
        let! child_idx :=
          (if Nat.leb last_idx r then
             if Nat.leb last_idx l then ret None else ret (Some l)
           else
             let! x := hget l in
             let! y := hget r in
             if b then ret (Some (if num_ltb x y then l else r))
             else ret (Some (if num_ltb y x then l else r))) in
        match child_idx with
        | None => ret tt
        | Some c =>
            let! child := hget c in
            if wrong b parent child then hswap parent_idx c ;; sift_down k b c last_idx
            else ret tt
        end
      else ret tt
  end.
(** _heap.py:268-303 __rebalance. *)
Definition rebalance (b : bool) (parent_idx : nat) : M heap unit :=
  let! h := get_state in sift_down (S (length h)) b parent_idx (length h - 1).

(** [list.index] (equal numbers are the same [num]). *)
Fixpoint index_of (x : num) (h : heap) : option nat :=
  match h with
  | [] => None
  | y :: h' => if bool_decide (y = x) then Some 0 else option_map S (index_of x h')
  end.
(** [list.pop()] *)
Definition hpop : M heap unit := fun h =>
  match h with [] => Exc IndexError h | _ => Ok tt (removelast h) end.

(** _heap.py:323-354. *)
Definition heap_remove (b : bool) (v : pyval) : M heap bool :=
  let! h := get_state in
  if Nat.eqb (length h) 0 then ret true
  else match v with
       | PNum x =>
           match index_of x h with
           | None => ret true
           | Some del_idx =>
               let last_idx := length h - 1 in
               hswap last_idx del_idx ;;
               hput last_idx (if b then NegInf else PosInf) ;;
               rebalance b del_idx ;;
               hpop ;;
               ret false
           end
       | _ => ret true
       end.

(** [max(l)] / [min(l)] of a non-empty list (ValueError otherwise). *)
Definition list_extreme (b : bool) (l : list num) : M heap num :=
  match l with
  | [] => raise ValueError
  | x :: l' => ret (fold_left (if b then num_min else num_max) l' x)
  end.
(** [self._heap[0]] and [self._heap[len(self) // 2:]]:
    min_heap.py:197-199, 229-232; max_heap.py:199-202, 232-234. *)
Definition heap_get_top (b : bool) : M heap num :=
  let! h := get_state in if Nat.eqb (length h) 0 then raise IndexError else hget 0.
Definition heap_get_bottom (b : bool) : M heap num :=
  let! h := get_state in
  if Nat.eqb (length h) 0 then raise IndexError
  else list_extreme (negb b) (skipn (Nat.div (length h) 2) h).
Definition heap_get_min (b : bool) : M heap num := if b then heap_get_top b else heap_get_bottom b.
Definition heap_get_max (b : bool) : M heap num := if b then heap_get_bottom b else heap_get_top b.
(** min_heap.py:373, 403; max_heap.py:375, 405. *)
Definition heap_remove_min (b : bool) : M heap bool :=
  let! m := heap_get_min b in heap_remove b (PNum m).
Definition heap_remove_max (b : bool) : M heap bool :=
  let! m := heap_get_max b in heap_remove b (PNum m).

(** _heap.py:204-206. *)
Definition heap_contains (v : pyval) : M heap bool :=
  let! h := get_state in
  if Nat.eqb (length h) 0 then ret false
  else match v with PNum x => ret (bool_decide (x ∈ h)) | _ => ret false end.
(** _heap.py:128, 142, 381 (a caller that does not modify the list), 384-388. *)
Definition heap_len : M heap nat := let! h := get_state in ret (length h).
Definition heap_is_empty : M heap bool := let! h := get_state in ret (Nat.eqb (length h) 0).
Definition heap_to_list : M heap (list num) := get_state.
Definition heap_clear : M heap unit := put_state [].

(** _heap.py:110-115 heapify of an iterable. *)
Fixpoint insert_all (b : bool) (items : list pyval) : M heap unit :=
  match items with
  | [] => ret tt
  | v :: items' => heap_insert b v ;; insert_all b items'
  end.
Definition heapify (b : bool) (items : list pyval) : res heap unit := insert_all b items [].

(** ** Iteration: the array is copied into a binary tree (_heap.py:154-171) which is
    then iterated level by level (tree.py:929-936).  Nodes live in a list and are
    referred to by index. *)
Record hnode := HNode { hn_data : num; hn_left : option nat; hn_right : option nat }.
Notation tmem := (list hnode).

Definition hnew (x : num) : M tmem nat := fun m => Ok (length m) (m ++ [HNode x None None]).
Definition hnode_get (i : nat) : M tmem hnode := fun m =>
  match m !! i with Some n => Ok n m | None => Exc AttributeError m end.
Definition set_left (p c : nat) : M tmem unit :=
  let! n := hnode_get p in fun m => Ok tt (<[p := HNode (hn_data n) (Some c) (hn_right n)]> m).
Definition set_right (p c : nat) : M tmem unit :=
  let! n := hnode_get p in fun m => Ok tt (<[p := HNode (hn_data n) (hn_left n) (Some c)]> m).

(** _heap.py:160-168; [h] is the array. *)
Fixpoint transform_loop (fuel : nat) (h : list num) (q : list nat) (idx : nat) : M tmem unit :=
  match fuel with
  | 0 => diverge
  | S k =>
      if Nat.ltb idx (length h) then
        match q with
        | [] => raise IndexError
        | p :: q' =>
            let! x := deref (h !! idx) in
            let! l := hnew x in
            set_left p l ;;
            if Nat.ltb (S idx) (length h) then
              let! y := deref (h !! S idx) in
              let! r := hnew y in
              set_right p r ;;
              transform_loop k h (q' ++ [l; r]) (S (S idx))
            else transform_loop k h (q' ++ [l]) (S idx)
        end
      else ret tt
  end.
(** _heap.py:154-171: the root of the new tree. *)
Definition transform (h : list num) : M tmem nat :=
  py_assert (negb (Nat.eqb (length h) 0)) ;;
  let! x := deref (h !! 0) in
  let! root := hnew x in
  transform_loop (S (length h)) h [root] 1 ;;
  ret root.

(** binary_tree.py:211-216 get_children; tree.py:933-935: one level. *)
Definition hchildren (n : hnode) : list nat := option_list (hn_left n) ++ option_list (hn_right n).
Fixpoint visit_level (level : list nat) : M tmem (list num * list nat) :=
  match level with
  | [] => ret ([], [])
  | i :: level' =>
      let! n := hnode_get i in
      let! r := visit_level level' in
      ret (hn_data n :: fst r, hchildren n ++ snd r)
  end.
(** tree.py:930-936. *)
Fixpoint iter_levels (fuel : nat) (level : list nat) : M tmem (list num) :=
  match fuel with
  | 0 => diverge
  | S k =>
      if Nat.eqb (length level) 0 then ret []
      else let! r := visit_level level in
           let! rest := iter_levels k (snd r) in
           ret (fst r ++ rest)
  end.
(** _heap.py:367-369: [list(heap)]. *)
Definition heap_iter (h : list num) : res tmem (list num) :=
  (let! root := transform h in iter_levels (S (length h)) [root]) [].

(** ** Histories *)
Inductive hop :=
| HInsert (v : pyval) | HRemove (v : pyval) | HRemoveMin | HRemoveMax | HGetMin | HGetMax
| HContains (v : pyval) | HLen | HIsEmpty | HToList | HClear.
Inductive hout := HRet (warned : bool) | HVal (x : num) | HBool (b : bool) | HNat (n : nat)
| HVals (l : list num) | HExc (e : exn).

Definition heap_call (b : bool) (op : hop) : M heap hout :=
  match op with
  | HInsert v => heap_insert b v ;; ret (HRet false)
  | HRemove v => let! w := heap_remove b v in ret (HRet w)
  | HRemoveMin => let! w := heap_remove_min b in ret (HRet w)
  | HRemoveMax => let! w := heap_remove_max b in ret (HRet w)
  | HGetMin => let! x := heap_get_min b in ret (HVal x)
  | HGetMax => let! x := heap_get_max b in ret (HVal x)
  | HContains v => let! x := heap_contains v in ret (HBool x)
  | HLen => let! x := heap_len in ret (HNat x)
  | HIsEmpty => let! x := heap_is_empty in ret (HBool x)
  | HToList => let! x := heap_to_list in ret (HVals x)
  | HClear => heap_clear ;; ret (HRet false)
  end.
(** A caller that catches every exception and goes on. *)
Fixpoint heap_calls (b : bool) (h : heap) (ops : list hop) : option (list hout * heap) :=
  match ops with
  | [] => Some ([], h)
  | op :: ops' =>
      match heap_call b op h with
      | Ok r h' => match heap_calls b h' ops' with Some (rs, h'') => Some (r :: rs, h'') | None => None end
      | Exc e h' => match heap_calls b h' ops' with Some (rs, h'') => Some (HExc e :: rs, h'') | None => None end
      | Diverge => None
      end
  end.
(** From [MinHeap()] ([b] = true) or [MaxHeap()]. *)
Definition heap_run (b : bool) (ops : list hop) : option (list hout) := option_map fst (heap_calls b [] ops).
