(** * The heaps with their comparisons counted (C73)

    The functions of HeapModel.v again, which return in addition how often two numbers were
    compared: by [<] and [>] in the loops of insert and remove, by [==] in [list.index] and
    [in], by [min] and [max].  C73_same_calls says that nothing else differs. *)
From Verif Require Import Base HeapModel.
Local Open Scope py_scope.

(** _heap.py:233-246: each round compares once (lines 237-239). *)
Fixpoint sift_up_c (fuel : nat) (b : bool) (idx k : nat) : M heap nat :=
  match fuel with
  | 0 => diverge
  | S f =>
      if Nat.eqb idx 0 then ret k
      else
        let parent_idx := Nat.div (idx - 1) 2 in
        let! current := hget idx in
        let! parent := hget parent_idx in
        if wrong b parent current then hswap parent_idx idx ;; sift_up_c f b parent_idx (S k)
        else ret (S k)
  end.
(** _heap.py:226-246. *)
Definition heap_insert_c (b : bool) (v : pyval) : M heap nat :=
  match heap_item v with
  | inl e => raise e
  | inr n =>
      let! h := get_state in
      put_state (h ++ [n]) ;;
      sift_up_c (S (length h)) b (length h) 0
  end.
(** _heap.py:272-303: a round compares the two children, if there are two (lines 284-292),
    and then the parent and a child, if there is one (lines 294-296). *)
Fixpoint sift_down_c (fuel : nat) (b : bool) (parent_idx last_idx k : nat) : M heap nat :=
  match fuel with
  | 0 => diverge
  | S f =>
      if Nat.ltb parent_idx last_idx then
        let! parent := hget parent_idx in
        let l := parent_idx * 2 + 1 in
        let r := parent_idx * 2 + 2 in
        let! child_idx :=
          (if Nat.leb last_idx r then
             if Nat.leb last_idx l then ret None else ret (Some (l, k))
           else
             let! x := hget l in
             let! y := hget r in
             if b then ret (Some (if num_ltb x y then l else r, S k))
             else ret (Some (if num_ltb y x then l else r, S k))) in
        match child_idx with
        | None => ret k
        | Some (c, k') =>
            let! child := hget c in
            if wrong b parent child then hswap parent_idx c ;; sift_down_c f b c last_idx (S k')
            else ret (S k')
        end
      else ret k
  end.
(** _heap.py:268-303 __rebalance. *)
Definition rebalance_c (b : bool) (parent_idx k : nat) : M heap nat :=
  let! h := get_state in sift_down_c (S (length h)) b parent_idx (length h - 1) k.

(** [list.index] and [in]: the elements are compared with [x] up to the first one equal. *)
Fixpoint index_of_c (x : num) (h : heap) (k : nat) : option nat * nat :=
  match h with
  | [] => (None, k)
  | y :: h' =>
      if bool_decide (y = x) then (Some 0, S k)
      else let r := index_of_c x h' (S k) in (option_map S r.1, r.2)
  end.
(** _heap.py:323-354. *)
Definition heap_remove_c (b : bool) (v : pyval) (k : nat) : M heap (bool * nat) :=
  let! h := get_state in
  if Nat.eqb (length h) 0 then ret (true, k)
  else match v with
       | PNum x =>
           match index_of_c x h k with
           | (None, k1) => ret (true, k1)
           | (Some del_idx, k1) =>
               let last_idx := length h - 1 in
               hswap last_idx del_idx ;;
               hput last_idx (if b then NegInf else PosInf) ;;
               let! k2 := rebalance_c b del_idx k1 in
               hpop ;;
               ret (false, k2)
           end
       | _ => ret (true, k)
       end.
(** [max(l)] / [min(l)]: every element but the first is compared once. *)
Definition list_extreme_c (b : bool) (l : list num) : M heap (num * nat) :=
  match l with
  | [] => raise ValueError
  | x :: l' => ret (fold_left (fun a y => ((if b then num_min else num_max) a.1 y, S a.2)) l' (x, 0))
  end.
(** min_heap.py:197-199, 229-232; max_heap.py:199-202, 232-234. *)
Definition heap_get_top_c (b : bool) : M heap (num * nat) :=
  let! h := get_state in
  if Nat.eqb (length h) 0 then raise IndexError else let! x := hget 0 in ret (x, 0).
Definition heap_get_bottom_c (b : bool) : M heap (num * nat) :=
  let! h := get_state in
  if Nat.eqb (length h) 0 then raise IndexError
  else list_extreme_c (negb b) (skipn (Nat.div (length h) 2) h).
Definition heap_get_min_c (b : bool) : M heap (num * nat) := if b then heap_get_top_c b else heap_get_bottom_c b.
Definition heap_get_max_c (b : bool) : M heap (num * nat) := if b then heap_get_bottom_c b else heap_get_top_c b.
(** min_heap.py:373, 403; max_heap.py:375, 405. *)
Definition heap_remove_min_c (b : bool) : M heap (bool * nat) :=
  let! m := heap_get_min_c b in heap_remove_c b (PNum m.1) m.2.
Definition heap_remove_max_c (b : bool) : M heap (bool * nat) :=
  let! m := heap_get_max_c b in heap_remove_c b (PNum m.1) m.2.
(** _heap.py:204-206. *)
Definition heap_contains_c (v : pyval) : M heap (bool * nat) :=
  let! h := get_state in
  if Nat.eqb (length h) 0 then ret (false, 0)
  else match v with
       | PNum x => let r := index_of_c x h 0 in ret (match r.1 with Some _ => true | None => false end, r.2)
       | _ => ret (false, 0)
       end.

(** One call, with its number of comparisons. *)
Definition heap_call_c (b : bool) (op : hop) : M heap (hout * nat) :=
  match op with
  | HInsert v => let! k := heap_insert_c b v in ret (HRet false, k)
  | HRemove v => let! w := heap_remove_c b v 0 in ret (HRet w.1, w.2)
  | HRemoveMin => let! w := heap_remove_min_c b in ret (HRet w.1, w.2)
  | HRemoveMax => let! w := heap_remove_max_c b in ret (HRet w.1, w.2)
  | HGetMin => let! x := heap_get_min_c b in ret (HVal x.1, x.2)
  | HGetMax => let! x := heap_get_max_c b in ret (HVal x.1, x.2)
  | HContains v => let! x := heap_contains_c v in ret (HBool x.1, x.2)
  | HLen => let! x := heap_len in ret (HNat x, 0)
  | HIsEmpty => let! x := heap_is_empty in ret (HBool x, 0)
  | HToList => let! x := heap_to_list in ret (HVals x, 0)
  | HClear => heap_clear ;; ret (HRet false, 0)
  end.
(** A caller that catches every exception and goes on.  What raises does so before it
    compares anything. *)
Fixpoint heap_calls_c (b : bool) (h : heap) (ops : list hop) : option (list (hout * nat) * heap) :=
  match ops with
  | [] => Some ([], h)
  | op :: ops' =>
      match heap_call_c b op h with
      | Ok r h' => match heap_calls_c b h' ops' with Some (rs, h'') => Some (r :: rs, h'') | None => None end
      | Exc e h' => match heap_calls_c b h' ops' with Some (rs, h'') => Some ((HExc e, 0) :: rs, h'') | None => None end
      | Diverge => None
      end
  end.
(** _heap.py:110-115 heapify of an iterable. *)
Fixpoint insert_all_c (b : bool) (items : list pyval) (k : nat) : M heap nat :=
  match items with
  | [] => ret k
  | v :: items' => let! k' := heap_insert_c b v in insert_all_c b items' (k + k')
  end.
Definition heapify_c (b : bool) (items : list pyval) : res heap nat := insert_all_c b items 0 [].
