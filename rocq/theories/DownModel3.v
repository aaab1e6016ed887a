(** * RedBlackTree.remove with the nodes counted (C85)

    The functions of BalModel.v again, in a state with a counter (WalkModel.v): [tick] for
    every round of a loop and every call of a recursive function. *)
From Verif Require Import Base TreeModel BstModel BalModel WalkModel DownModel.
Local Open Scope py_scope.

(** red_black_tree.py:634-656. *)
Definition rb_find_replacement_c (i : nat) : M (tst * nat) (option nat) :=
  let! leaf := lf (node_is_leaf i) in
  if leaf then ret None
  else
    let! r := lf (get_right i) in
    let! successor := (match r with
                       | Some j => let! n := lf get_fuel in let! k := get_min_node_c n j in ret (Some k)
                       | None => ret None
                       end) in
    let! l := lf (get_left i) in
    let! predecessor := (match l with
                         | Some j => let! n := lf get_fuel in let! k := get_max_node_c n j in ret (Some k)
                         | None => ret None
                         end) in
    let! cs := lf (color_of successor) in
    let! cp := lf (color_of predecessor) in
    ret (if is_red cs then successor
         else if is_red cp then predecessor
         else match successor with Some _ => successor | None => predecessor end).
(** red_black_tree.py:698-792: the loop. *)
Fixpoint double_black_loop_c (fuel : nat) (parent : nat) (db : option nat) : M (tst * nat) unit :=
  let! root := lf get_root in
  let! cd := lf (color_of db) in
  if negb (bool_decide (db = root)) && negb (is_red cd) then
    match fuel with
    | 0 => diverge
    | S k => tick ;; let! r := lf (double_black_step parent db) in double_black_loop_c k (fst r) (snd r)
    end
  else ret tt.
(** red_black_tree.py:698-794. *)
Definition handle_double_black_c (parent : nat) (db : option nat) : M (tst * nat) unit :=
  let! n := lf get_fuel in
  double_black_loop_c (10 * n) parent db ;;
  let! root := lf get_root in
  let! i := lf (deref root) in
  lf (set_color i Black).
(** red_black_tree.py:844-920. *)
Definition rb_remove_c (v : pyval) : M (tst * nat) bool :=
  remove_with_c v (fun x =>
    let! i := search_root_c x in
    let! d := lf (get_data i) in
    if negb (bool_decide (d = x)) then ret true
    else
      let! rep := rb_find_replacement_c i in
      let! ci := lf (get_color i) in
      let! cr := lf (color_of rep) in
      let! n := lf get_fuel in
      match ci, rep, cr with
      | Red, None, _ | Red, Some _, Red => transplant_c (S n) CRB i rep
      | Red, Some _, Black => raise ValueError
      | Black, None, _ =>
          let! p := lf (get_parent i) in
          transplant_c (S n) CRB i None ;;
          let! parent := lf (deref p) in
          let! l := lf (get_left parent) in
          let! db := lf (match l with None => ret l | Some _ => get_right parent end) in
          handle_double_black_c parent db
      | Black, Some r, Black =>
          let! p := lf (get_parent r) in
          transplant_c (S n) CRB i rep ;;
          let! parent := lf (deref p) in
          let! y := lf (get_data r) in
          let! x' := lf (get_data parent) in
          let! db := lf (if num_ltb y x' then get_left parent else get_right parent) in
          handle_double_black_c parent db
      | Black, Some r, Red =>
          lf (set_color r Black) ;;
          transplant_c (S n) CRB i rep
      end ;;
      lf (add_len (-1)) ;;
      ret false).
