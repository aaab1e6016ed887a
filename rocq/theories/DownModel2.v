(** * Treap and RedBlackTree: the calls that go down and up one branch, with the nodes counted (C85)

    The functions of BalModel.v again, in a state with a counter (WalkModel.v): [tick] for
    every round of a loop and every call of a recursive function. *)
From Verif Require Import Base TreeModel BstModel BalModel WalkModel DownModel.
Local Open Scope py_scope.

(** treap.py:482-493. *)
Fixpoint treap_up_c (fuel : nat) (p : option nat) (new : nat) : M (tst * nat) unit :=
  match p with
  | None => ret tt
  | Some parent =>
      match fuel with
      | 0 => diverge
      | S k =>
          tick ;;
          let! grandparent := lf (get_parent parent) in
          let! pp := lf (get_prio parent) in
          let! pn := lf (get_prio new) in
          if num_ltb pn pp then ret tt
          else
            let! b := lf (is_left_child new) in
            let! m := lf (if b then rotate_right CTreap parent else rotate_left CTreap parent) in
            lf (attach CTreap grandparent m) ;;
            treap_up_c k grandparent m
      end
  end.
(** treap.py:470-493. *)
Definition treap_insert_c (v : pyval) (p : prio) : M (tst * nat) bool :=
  let! x := lf (check_number v) in
  let! pr := lf (check_prio p) in
  let! e := lf bst_is_empty in
  if e then let! i := lf (new_node x pr) in lf (set_root (Some i)) ;; lf (add_len 1) ;; ret false
  else
    let! r := insert_value_c CTreap x pr in
    let! q := lf (get_parent (snd r)) in
    let! n := lf get_fuel in
    treap_up_c n q (snd r) ;;
    ret (fst r).
(** treap.py:558-578. *)
Fixpoint treap_down_c (fuel : nat) (parent : option nat) (removed : nat) : M (tst * nat) (option nat * nat) :=
  let! leaf := lf (node_is_leaf removed) in
  if leaf then ret (parent, removed)
  else
    match fuel with
    | 0 => diverge
    | S k =>
        tick ;;
        let! l := lf (get_left removed) in
        let! r := lf (get_right removed) in
        let! pl := lf (prio_of l) in
        let! pr := lf (prio_of r) in
        if num_ltb pr pl then
          let! m := lf (rotate_right CTreap removed) in
          lf (attach CTreap parent m) ;;
          let! c := lf (get_right m) in
          let! c' := lf (deref c) in
          treap_down_c k (Some m) c'
        else
          let! m := lf (rotate_left CTreap removed) in
          lf (attach CTreap parent m) ;;
          let! c := lf (get_left m) in
          let! c' := lf (deref c) in
          treap_down_c k (Some m) c'
    end.
(** treap.py:533-585. *)
Definition treap_remove_c (v : pyval) : M (tst * nat) bool :=
  remove_with_c v (fun x =>
    let! i := search_root_c x in
    let! d := lf (get_data i) in
    if negb (bool_decide (d = x)) then ret true
    else
      let! p := lf (get_parent i) in
      let! n := lf get_fuel in
      let! pr := treap_down_c n p i in
      let! b := lf (is_left_child (snd pr)) in
      let! q := lf (deref (fst pr)) in
      lf (if b then set_left CTreap q None else set_right CTreap q None) ;;
      lf (add_len (-1)) ;;
      ret false).

(** red_black_tree.py:507-540. *)
Fixpoint recolor_c (fuel : nat) (start : nat) : M (tst * nat) (option nat) :=
  match fuel with
  | 0 => diverge
  | S k =>
      tick ;;
      let! uncle := lf (get_uncle start) in
      let! p := lf (get_parent start) in
      match p with
      | None => ret (Some start)
      | Some parent =>
          let! g := lf (get_parent parent) in
          match g with
          | None => ret (Some parent)
          | Some grandparent =>
              let! cp := lf (get_color parent) in
              if negb (is_red cp) then lf get_root
              else
                let! cu := lf (color_of uncle) in
                match uncle, is_red cu with
                | Some u, true =>
                    lf (set_color parent Black) ;;
                    lf (set_color u Black) ;;
                    lf (set_color grandparent Red) ;;
                    recolor_c k grandparent
                | _, _ =>
                    let! gg := lf (get_parent grandparent) in
                    let! top := lf (recolor_case3 start parent grandparent) in
                    lf (match gg with
                        | Some great =>
                            let! x := get_data great in
                            let! y := get_data top in
                            if num_ltb y x then set_left CRB great (Some top)
                            else set_right CRB great (Some top)
                        | None => ret tt
                        end) ;;
                    recolor_c k top
                end
          end
      end
  end.
(** red_black_tree.py:573-584. *)
Definition rb_insert_c (v : pyval) : M (tst * nat) bool :=
  let! x := lf (check_number v) in
  let! e := lf bst_is_empty in
  if e then
    let! i := lf (new_node x (Fin 0)) in
    lf (set_root (Some i)) ;; lf (set_color i Black) ;; lf (add_len 1) ;; ret false
  else
    let! r := insert_value_c CRB x (Fin 0) in
    let! n := lf get_fuel in
    let! root := recolor_c n (snd r) in
    lf (set_root root) ;;
    let! i := lf (deref root) in
    lf (set_color i Black) ;;
    ret (fst r).
