(** * The calls that scan a linked list, with the nodes they look at counted (C82)

    The functions of ListModel.v again, in a state with a counter (WalkModel.v): [tick] when a
    loop looks at a node. *)
From Verif Require Import Base ListModel WalkModel.
Local Open Scope py_scope.

(** linked_list.py:448-473, 2151-2175. *)
Fixpoint iter_from_c (n : nat) (curr : option loc) : M cst (list pyval) :=
  match n with
  | 0 => ret []
  | S n' => tick ;;
            let! c := lf (deref curr) in
            let! d := lf (get_data c) in
            let! nx := lf (get_next c) in
            let! r := iter_from_c n' nx in
            ret (d :: r)
  end.
Definition to_list_c (self : oid) : M cst (list pyval) :=
  let! o := lf (get_obj self) in iter_from_c (o_len o) (o_head o).
(** linked_list.py:2177-2209. *)
Definition count_c (self : oid) (v : pyval) : M cst nat :=
  let! o := lf (get_obj self) in
  let v' := match v with
            | PNodeObj d x => if implb (is_dll (o_cls o)) d then x else v
            | _ => v end in
  let! vs := to_list_c self in
  ret (length (List.filter (fun x => py_eq x v') vs)).
(** linked_list.py:2211-2239. *)
Definition copy_c (self : oid) : M cst oid :=
  let! o := lf (get_obj self) in
  let! c := lf (create_instance (o_cls o)) in
  if Nat.eqb (o_len o) 0 then ret c
  else let! vs := to_list_c self in lf (insert_all c None vs) ;; ret c.
(** linked_list.py:2120-2149; [add_front_c] counts the nodes passed by add_front. *)
Fixpoint reverse_loop_c (rev : oid) (n : nat) (curr : option loc) : M cst unit :=
  match n with
  | 0 => ret tt
  | S n' => tick ;;
            let! c := lf (deref curr) in
            let! d := lf (get_data c) in
            add_front_c rev d ;;
            let! nx := lf (get_next c) in
            reverse_loop_c rev n' nx
  end.
Definition reverse_c (self : oid) : M cst oid :=
  let! o := lf (get_obj self) in
  let! rev := lf (create_instance (o_cls o)) in
  reverse_loop_c rev (o_len o) (o_head o) ;;
  ret rev.
(** linked_list.py:1660-1715. *)
Fixpoint remove_value_loop_c (self : oid) (v : pyval) (all : bool)
    (n : nat) (found : bool) (prev curr : option loc) : M cst unit :=
  match n with
  | 0 => ret tt
  | S n' =>
      if negb all && found then ret tt
      else
        tick ;;
        let! c := lf (deref curr) in
        let! d := lf (get_data c) in
        if py_eq d v then
          lf (remove_node self prev c) ;;
          let! o := lf (get_obj self) in
          let! curr' := (match prev with
                         | Some p => lf (get_next p)
                         | None => ret (o_head o)
                         end) in
          remove_value_loop_c self v all n' true prev curr'
        else
          let! nx := lf (get_next c) in
          remove_value_loop_c self v all n' found (Some c) nx
  end.
(** linked_list.py:1717-1761. *)
Definition remove_c (self : oid) (v : pyval) (all : option bool) : M cst unit :=
  match all with
  | None => raise TypeError
  | Some b =>
      lf (check_item v) ;;
      let! o := lf (get_obj self) in
      remove_value_loop_c self v b (o_len o) false None (o_head o)
  end.
(** linked_list.py:884-931. *)
Fixpoint search_loop_c (fuel : nat) (v : pyval) (curr : loc) : M cst loc :=
  match fuel with
  | 0 => diverge
  | S f => tick ;;
           let! nx := lf (get_next curr) in
           match nx with
           | None => ret curr
           | Some x => let! d := lf (get_data curr) in
                       if py_eq d v then ret curr else search_loop_c f v x
           end
  end.
(** linked_list.py:933-965. *)
Definition ll_contains_c (self : oid) (v : pyval) : M cst bool :=
  let! o := lf (get_obj self) in
  match v with
  | PNone => ret false
  | _ =>
    if Nat.eqb (o_len o) 0 then ret false
    else
      lf (py_assert (match v with PNodeObj _ _ => false | _ => true end)) ;;
      let! hd := (match o_head o with Some h => ret h | None => raise AssertionError end) in
      let! s := lf get_state in
      let! f := search_loop_c (S (length (s_nodes s))) v hd in
      let! d := lf (get_data f) in
      ret (py_eq d v)
  end.
(** circular_linked_list.py:548-551: the loop ends at the first match.  (ListModel.v reads the
    whole list first.) *)
Fixpoint scan_c (n : nat) (v : pyval) (curr : option loc) : M cst bool :=
  match n with
  | 0 => ret false
  | S n' => tick ;;
            let! c := lf (deref curr) in
            let! d := lf (get_data c) in
            if py_eq d v then ret true
            else let! nx := lf (get_next c) in scan_c n' v nx
  end.
Definition contains_c (self : oid) (v : pyval) : M cst bool :=
  let! o := lf (get_obj self) in
  match o_cls o with CCLL => scan_c (o_len o) v (o_head o) | _ => ll_contains_c self v end.
(** linked_list.py:475-539. *)
Fixpoint compare_loop_c (op : cmpop) (n : nat) (counter : nat) (all_equal : bool)
    (p1 p2 : option loc) : M cst (nat * bool) :=
  match n with
  | 0 => ret (counter, all_equal)
  | S n' =>
      tick ;;
      let! a := lf (deref p1) in
      let! b := lf (deref p2) in
      let! da := lf (get_data a) in
      let! db := lf (get_data b) in
      let next eq :=
        let! na := lf (get_next a) in
        let! nb := lf (get_next b) in
        compare_loop_c op n' (S counter) eq na nb in
      if py_eq da db then next all_equal
      else match py_op op da db with
           | None => raise TypeError
           | Some true => next false
           | Some false => ret (counter, false)
           end
  end.
Definition compare_c (op : cmpop) (self other : oid) : M cst (nat * bool) :=
  let! o := lf (get_obj self) in
  let! oo := lf (get_obj other) in
  compare_loop_c op (Nat.min (o_len o) (o_len oo)) 0 true (o_head o) (o_head oo).
(** linked_list.py:541-635. *)
Definition list_eq_c (self other : oid) : M cst bool :=
  lf (check_cmp self other) ;;
  let! o := lf (get_obj self) in let! oo := lf (get_obj other) in
  if negb (Nat.eqb (o_len o) (o_len oo)) then ret false
  else let! r := compare_c OpEq self other in
       ret (Nat.eqb (fst r) (o_len o) && Nat.eqb (o_len o) (o_len oo)).
Definition list_ne_c (self other : oid) : M cst bool :=
  lf (check_cmp self other) ;;
  let! o := lf (get_obj self) in let! oo := lf (get_obj other) in
  if negb (Nat.eqb (o_len o) (o_len oo)) then ret true
  else let! r := compare_c OpEq self other in
       ret (negb (Nat.eqb (fst r) (o_len o) && Nat.eqb (o_len o) (o_len oo))).
(** linked_list.py:637-698. *)
Definition list_lt_c (self other : oid) : M cst bool :=
  lf (check_cmp self other) ;;
  let! o := lf (get_obj self) in let! oo := lf (get_obj other) in
  let! r := compare_c OpLt self other in
  ret (if snd r then Nat.ltb (o_len o) (o_len oo) else Nat.eqb (fst r) (o_len o)).
(** linked_list.py:700-758. *)
Definition list_le_c (self other : oid) : M cst bool :=
  lf (check_cmp self other) ;;
  let! o := lf (get_obj self) in
  let! r := compare_c OpLe self other in
  ret (Nat.eqb (fst r) (o_len o)).
(** linked_list.py:760-821. *)
Definition list_gt_c (self other : oid) : M cst bool :=
  lf (check_cmp self other) ;;
  let! o := lf (get_obj self) in let! oo := lf (get_obj other) in
  let! r := compare_c OpGt self other in
  ret (if snd r then Nat.ltb (o_len oo) (o_len o) else Nat.eqb (fst r) (o_len o)).
(** linked_list.py:823-881. *)
Definition list_ge_c (self other : oid) : M cst bool :=
  lf (check_cmp self other) ;;
  let! oo := lf (get_obj other) in
  let! r := compare_c OpGe self other in
  ret (Nat.eqb (fst r) (o_len oo)).
