(** * Model of the printed form of SkipList

    extra/lists/skip_list.py:190-213, 310-474.

    [text z] is [str] of the finite number [z] (a parameter).  A Python string is the list of
    its code points; the lists of string pieces that the code joins at the end are modelled by
    the joined strings.  The assertions about the classes of the nodes always hold here (every
    cell is a node) and are left out. *)
From Verif Require Import Base ListModel SkipModel PrintModel DrawModel.
Local Open Scope py_scope.

(** "|", "├", "┤", "-", "∞" *)
Definition c_bar : N := 124%N.
Definition c_lt : N := 9500%N.
Definition c_rt : N := 9508%N.
Definition c_minus : N := 45%N.
Definition c_inf : N := 8734%N.

(** skip_list.py:190-213 SkipNode._represent of a node holding [d] (linked_list.py:123-143 for
    the inherited part).  The nodes hold numbers only (lines 126-134); for anything else the
    result is arbitrary. *)
Definition skip_represent (text : Z -> pystr) (d : pyval) : pystr :=
  if py_eq d (PNum NegInf) then [c_minus; c_inf]
  else if py_eq d (PNum PosInf) then [c_inf]
  else match d with PNum (Fin z) => text z | _ => [] end.

(** [node is not None and zeroth_node.get_data() == node.get_data()] *)
Definition node_is (d : pyval) (node : option loc) : M st bool :=
  match node with
  | None => ret false
  | Some n => let! e := get_data n in ret (py_eq d e)
  end.
(** skip_list.py:311-364 __print_node. *)
Definition skip_print_node (text : Z -> pystr) (node : option loc) (zeroth : loc) (lower : option loc) : M st (pystr * pystr) :=
  let! d := get_data zeroth in
  let item := skip_represent text d in
  let width := length item + 2 in
  let! here := node_is d node in
  if here then
    ret ([c_bar; c_sp] ++ item ++ [c_sp; c_ver; c_right],
         (match lower with None => [c_bl] | Some _ => [c_lt] end) ++ hors width ++
         (match lower with None => [c_br; c_sp] | Some _ => [c_rt; c_sp] end))
  else
    let! below := node_is d lower in
    ret ([c_right] ++ repeat c_right width ++ [c_right; c_right],
         if below then [c_tl] ++ hors width ++ [c_tr; c_sp] else [c_sp] ++ repeat c_sp width ++ [c_sp; c_sp]).
(** skip_list.py:405-421, the loop of __print_level. *)
Fixpoint skip_level_loop (text : Z -> pystr) (fuel : nat) (zeroth curr lower : option loc) (middle bottom : pystr) : M st (pystr * pystr) :=
  match fuel with
  | 0 => diverge
  | S f =>
      match zeroth with
      | None => ret (middle, bottom)
      | Some z =>
          let! part := skip_print_node text curr z lower in
          let! d := get_data z in
          let! here := node_is d curr in
          let! curr' := (match curr with Some c => if here then get_next c else ret curr | None => ret curr end) in
          let! below := node_is d lower in
          let! lower' := (match lower with Some c => if below then get_next c else ret lower | None => ret lower end) in
          let! nx := get_next z in
          skip_level_loop text f nx curr' lower' (middle ++ part.1) (bottom ++ part.2)
      end
  end.
(** [self._level_lists[i]._head] *)
Definition level_head (self : nat) (i : nat) : M kst (option loc) :=
  let! o := level_list self i in
  lift (let! ob := get_obj o in ret (o_head ob)).
(** skip_list.py:366-422 __print_level. *)
Definition skip_print_level (text : Z -> pystr) (self : nat) (level : nat) : M kst pystr :=
  let! n := num_levels self in
  py_assert (Nat.ltb level n) ;;
  let! zeroth := level_head self 0 in
  let! curr := level_head self level in
  let! lower := (match level with 0 => ret None | S l => level_head self l end) in
  let! r := lift (let! fu := get_fuel in skip_level_loop text (S fu) zeroth curr lower [] []) in
  ret (r.1 ++ c_nl :: r.2).
(** skip_list.py:438-447, the loop of __print_top_border. *)
Fixpoint skip_top_loop (text : Z -> pystr) (fuel : nat) (lower curr : option loc) (top : pystr) : M st pystr :=
  match fuel with
  | 0 => diverge
  | S f =>
      match lower with
      | None => ret top
      | Some z =>
          let! d := get_data z in
          let width := length (skip_represent text d) + 2 in
          let! here := node_is d curr in
          let! curr' := (match curr with Some c => if here then get_next c else ret curr | None => ret curr end) in
          let! nx := get_next z in
          skip_top_loop text f nx curr'
            (top ++ if here then [c_tl] ++ hors width ++ [c_tr; c_sp] else [c_sp] ++ repeat c_sp width ++ [c_sp; c_sp])
      end
  end.
(** skip_list.py:424-448 __print_top_border. *)
Definition skip_print_top (text : Z -> pystr) (self : nat) : M kst pystr :=
  let! n := num_levels self in
  let! lower := level_head self 0 in
  let! curr := level_head self (n - 1) in
  lift (let! fu := get_fuel in skip_top_loop text (S fu) lower curr []).
(** skip_list.py:470-473, the levels [n - 1], ..., 0. *)
Fixpoint skip_print_levels (text : Z -> pystr) (self : nat) (n : nat) : M kst (list pystr) :=
  match n with
  | 0 => ret []
  | S l => let! x := skip_print_level text self l in
           let! r := skip_print_levels text self l in
           ret (x :: r)
  end.
(** skip_list.py:450-474 __repr__. *)
Definition sl_repr (text : Z -> pystr) (self : nat) : M kst pystr :=
  let! top := skip_print_top text self in
  let! n := num_levels self in
  let! levels := skip_print_levels text self n in
  ret (join s_newline (top :: levels)).
