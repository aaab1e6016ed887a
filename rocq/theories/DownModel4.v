(** * SplayTree: finding, inserting and removing, with the nodes counted (C86)

    The functions of BalModel.v again, in a state with a counter (WalkModel.v): [tick] for
    every call of a recursive function. *)
From Verif Require Import Base TreeModel BstModel BalModel WalkModel DownModel.
Local Open Scope py_scope.

(** splay_tree.py:295-323. *)
Fixpoint splaying_c (fuel : nat) (child : nat) : M (tst * nat) nat :=
  match fuel with
  | 0 => diverge
  | S k =>
      tick ;;
      let! p := lf (get_parent child) in
      match p with
      | None => ret child
      | Some parent =>
          let! g := lf (get_grand_parent child) in
          match g with
          | None => let! b := lf (is_left_child child) in if b then lf (zig child) else lf (zag child)
          | Some _ =>
              let! b1 := lf (is_left_child parent) in
              let! b2 := lf (is_left_child child) in
              let! top := lf (match b1, b2 with
                              | true, true => zig_zig child
                              | true, false => zig_zag child
                              | false, true => zag_zig child
                              | false, false => zag_zag child
                              end) in
              let! q := lf (get_parent top) in
              match q with Some _ => splaying_c k top | None => ret top end
          end
      end
  end.
(** splay_tree.py:336. *)
Definition splay_c (start : nat) : M (tst * nat) unit :=
  let! n := lf get_fuel in
  let! r := splaying_c n start in
  lf (set_root (Some r)).
(** splay_tree.py:393-396. *)
Definition splay_contains_c (v : pyval) : M (tst * nat) bool :=
  let! x := lf (check_number v) in
  let! i := search_root_c x in
  splay_c i ;;
  let! d := lf (get_data i) in
  ret (bool_decide (d = x)).
(** splay_tree.py:444-450. *)
Definition splay_insert_c (v : pyval) : M (tst * nat) bool :=
  let! x := lf (check_number v) in
  let! e := lf bst_is_empty in
  if e then let! i := lf (new_node x (Fin 0)) in lf (set_root (Some i)) ;; lf (add_len 1) ;; ret false
  else
    let! r := insert_value_c CSplay x (Fin 0) in
    splay_c (snd r) ;;
    ret (fst r).
(** splay_tree.py:487-502; [_splay(None)] would fail the assertion of line 294. *)
Definition splay_remove_c (v : pyval) : M (tst * nat) bool :=
  remove_with_c v (fun x =>
    let! r := remove_value_c CSplay x in
    match snd r with
    | Some i => splay_c i ;; ret (fst r)
    | None => raise AssertionError
    end).
