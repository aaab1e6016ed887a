(** * The calls on BST and AVL that go down and up one branch, with the nodes counted (C83)

    The functions of BstModel.v and BalModel.v again, in a state with a counter
    (WalkModel.v): [tick] for every round of a loop and every call of a recursive function. *)
From Verif Require Import Base TreeModel BstModel BalModel WalkModel.
Local Open Scope py_scope.

(** bst.py:455-458. *)
Fixpoint get_max_node_c (fuel : nat) (i : nat) : M (tst * nat) nat :=
  match fuel with
  | 0 => diverge
  | S k => tick ;;
           let! r := lf (get_right i) in
           match r with None => ret i | Some j => get_max_node_c k j end
  end.
(** bst.py:524-527. *)
Fixpoint get_min_node_c (fuel : nat) (i : nat) : M (tst * nat) nat :=
  match fuel with
  | 0 => diverge
  | S k => tick ;;
           let! l := lf (get_left i) in
           match l with None => ret i | Some j => get_min_node_c k j end
  end.
(** bst.py:489-494, 558-563. *)
Definition bst_get_max_c : M (tst * nat) num :=
  let! r := lf get_root in
  match r with
  | None => raise IndexError
  | Some i => let! n := lf get_fuel in let! j := get_max_node_c n i in lf (get_data j)
  end.
Definition bst_get_min_c : M (tst * nat) num :=
  let! r := lf get_root in
  match r with
  | None => raise IndexError
  | Some i => let! n := lf get_fuel in let! j := get_min_node_c n i in lf (get_data j)
  end.
(** bst.py:612-623. *)
Fixpoint search_c (fuel : nat) (v : num) (i : nat) : M (tst * nat) nat :=
  match fuel with
  | 0 => diverge
  | S k =>
      tick ;;
      let! x := lf (get_data i) in
      if bool_decide (v = x) then ret i
      else if num_ltb v x then
        let! l := lf (get_left i) in
        match l with Some j => search_c k v j | None => ret i end
      else
        let! r := lf (get_right i) in
        match r with Some j => search_c k v j | None => ret i end
  end.
Definition search_root_c (v : num) : M (tst * nat) nat :=
  let! r := lf get_root in
  match r with
  | None => raise AssertionError
  | Some i => let! n := lf get_fuel in search_c n v i
  end.
(** bst.py:657-660. *)
Definition bst_contains_c (v : pyval) : M (tst * nat) bool :=
  let! e := lf bst_is_empty in
  if e then ret false
  else match v with
       | PNum x => let! i := search_root_c x in let! d := lf (get_data i) in ret (bool_decide (d = x))
       | _ => ret false
       end.
(** bst.py:694-713. *)
Fixpoint insert_node_c (fuel : nat) (c : tcls) (i new : nat) : M (tst * nat) (bool * nat) :=
  match fuel with
  | 0 => diverge
  | S k =>
      tick ;;
      let! v := lf (get_data new) in
      let! x := lf (get_data i) in
      if bool_decide (v = x) then ret (true, i)
      else if num_ltb v x then
        let! l := lf (get_left i) in
        match l with
        | Some j => insert_node_c k c j new
        | None => lf (set_left c i (Some new)) ;; lf (add_len 1) ;; ret (false, new)
        end
      else
        let! r := lf (get_right i) in
        match r with
        | Some j => insert_node_c k c j new
        | None => lf (set_right c i (Some new)) ;; lf (add_len 1) ;; ret (false, new)
        end
  end.
(** bst.py:743-744, 766-774. *)
Definition insert_value_c (c : tcls) (v pr : num) : M (tst * nat) (bool * nat) :=
  let! new := lf (new_node v pr) in
  let! r := lf get_root in
  let! i := lf (deref r) in
  let! n := lf get_fuel in
  insert_node_c n c i new.
(** bst.py:806-811. *)
Definition bst_insert_c (v : pyval) : M (tst * nat) bool :=
  let! x := lf (check_number v) in
  let! e := lf bst_is_empty in
  if e then let! i := lf (new_node x (Fin 0)) in lf (set_root (Some i)) ;; lf (add_len 1) ;; ret false
  else let! r := insert_value_c CBST x (Fin 0) in ret (fst r).
(** bst.py:853-862. *)
Definition find_replacement_c (i : nat) : M (tst * nat) (option nat) :=
  let! r := lf (get_right i) in
  match r with
  | Some j => let! n := lf get_fuel in let! k := get_min_node_c n j in ret (Some k)
  | None =>
      let! l := lf (get_left i) in
      match l with
      | Some j => let! n := lf get_fuel in let! k := get_max_node_c n j in ret (Some k)
      | None => ret None
      end
  end.
(** bst.py:887-902. *)
Fixpoint transplant_c (fuel : nat) (c : tcls) (node : nat) (replacement : option nat) : M (tst * nat) unit :=
  match fuel with
  | 0 => diverge
  | S k =>
      tick ;;
      match replacement with
      | None =>
          lf (let! p := get_parent node in
              let! j := deref p in
              let! l := get_left j in
              if bool_decide (l = Some node) then set_left c j None else set_right c j None)
      | Some r =>
          let! leaf := lf (node_is_leaf r) in
          let! new_replacement :=
            lf (if leaf then ret None
                else let! l := get_left r in
                     match l with Some _ => ret l | None => get_right r end) in
          lf (swap c node r) ;;
          transplant_c k c r new_replacement
      end
  end.
(** bst.py:957-979. *)
Definition remove_value_c (c : tcls) (v : num) : M (tst * nat) (bool * option nat) :=
  let! i := search_root_c v in
  let! d := lf (get_data i) in
  if negb (bool_decide (d = v)) then ret (true, Some i)
  else
    let! rep := find_replacement_c i in
    let! parent := lf (match rep with None => get_parent i | Some r => get_parent r end) in
    let! n := lf get_fuel in
    transplant_c (S n) c i rep ;;
    lf (add_len (-1)) ;;
    ret (false, parent).
(** bst.py:1019-1031. *)
Definition remove_with_c (v : pyval) (rest : num -> M (tst * nat) bool) : M (tst * nat) bool :=
  let! r := lf get_root in
  match r with
  | None => ret true
  | Some i =>
      match v with
      | PNum x =>
          let! leaf := lf (node_is_leaf i) in
          let! d := lf (get_data i) in
          if leaf && bool_decide (x = d) then lf (set_root None) ;; lf (add_len (-1)) ;; ret false
          else rest x
      | _ => ret true
      end
  end.
(** bst.py:1019-1033. *)
Definition bst_remove_c (v : pyval) : M (tst * nat) bool :=
  remove_with_c v (fun x => let! r := remove_value_c CBST x in ret (fst r)).
(** avl.py:424-430 and 528-534. *)
Fixpoint avl_up_c (fuel : nat) (p : option nat) : M (tst * nat) unit :=
  match p with
  | None => ret tt
  | Some parent =>
      match fuel with
      | 0 => diverge
      | S k =>
          tick ;;
          let! grand_parent := lf (get_parent parent) in
          lf (fix_height parent) ;;
          let! b := lf (avl_node_is_balanced parent) in
          if b then avl_up_c k grand_parent
          else
            let! m := lf (avl_rebalance parent) in
            lf (attach CAVL grand_parent m) ;;
            avl_up_c k grand_parent
      end
  end.
(** avl.py:475 (bst.py:806-811) with avl.py:421-431 _insert. *)
Definition avl_insert_c (v : pyval) : M (tst * nat) bool :=
  let! x := lf (check_number v) in
  let! e := lf bst_is_empty in
  if e then let! i := lf (new_node x (Fin 0)) in lf (set_root (Some i)) ;; lf (add_len 1) ;; ret false
  else
    let! r := insert_value_c CAVL x (Fin 0) in
    let! p := lf (get_parent (snd r)) in
    let! n := lf get_fuel in
    avl_up_c n p ;;
    ret (fst r).
(** avl.py:571 (bst.py:1019-1033) with avl.py:524-535 _remove. *)
Definition avl_remove_c (v : pyval) : M (tst * nat) bool :=
  remove_with_c v (fun x =>
    let! length_before := lf get_len in
    let! r := remove_value_c CAVL x in
    let! length_after := lf get_len in
    if Z.eqb length_after length_before then ret (fst r)
    else
      let! n := lf get_fuel in
      avl_up_c n (snd r) ;;
      ret (fst r)).
