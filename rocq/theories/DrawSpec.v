(** * Specification of the printed form of the linear containers

    A picture is drawn from the texts of the elements alone.  Shares with DrawModel.v the
    names of the characters only. *)
From Verif Require Import Base ListSpec DrawModel.

(** A box of three lines around the text [t], with what joins it to its neighbours. *)
Definition boxed_line (before after : pystr) (ts : list pystr) : pystr :=
  flat_map (fun t => before ++ t ++ after) ts.
(** A border as wide as the texts with a space on both sides. *)
Definition border (before after : pystr) (ts : list pystr) : pystr :=
  flat_map (fun t => before ++ repeat c_hor (length t + 2) ++ after) ts.

(** The lines of the picture of a linked list.
<<
   ┌────┐ ┌───┐         ┌────┐ ┌───┐       ┌────┐ ┌───┐
   │ 20 │⟶│ 7 │⟶       ⟷│ 20 │⟷│ 7 │⟷      │ 20 │⟶│ 7 │⟶ ┐
   └────┘ └───┘         └────┘ └───┘       └────┘ └───┘  │
                                              ↑          │
                                              └──────────┘
>> *)
Definition list_picture (k : lclass) (ts : list pystr) : list pystr :=
  match ts with
  | [] => [[c_tl; c_hor]; [c_ver]; [c_bl; c_hor]]
  | t :: _ =>
      let top := border [c_tl] [c_tr; c_sp] ts in
      let mid := boxed_line [c_ver; c_sp] [c_sp; c_ver; c_right] ts in
      let low := border [c_bl] [c_br; c_sp] ts in
      match k with
      | Singly => [top; mid; low]
      | Doubly => [border [c_sp; c_tl] [c_tr] ts ++ [c_sp];
                   boxed_line [c_both; c_ver; c_sp] [c_sp; c_ver] ts ++ [c_both];
                   border [c_sp; c_bl] [c_br] ts ++ [c_sp]]
      | Circular =>
          let a := Nat.div (length t + 4) 2 in
          [top; mid ++ [c_sp; c_tr]; low ++ [c_sp; c_ver];
           repeat c_sp a ++ [c_arrow] ++ repeat c_sp (length mid - a) ++ [c_ver];
           repeat c_sp a ++ [c_bl] ++ repeat c_hor (length mid - a) ++ [c_br]]
      end
  end.

(** The lines of the picture of a stack (the top at the right) and of a queue with arrow
    [d] (the newest element at the left).
<<
   ┌────┬───┬─        ─┬────┬───┬─
   │ 20 │ 7 │         ⟶│ 20 │ 7 │⟶
   └────┴───┴─        ─┴────┴───┴─
>> *)
Definition stack_picture (ts : list pystr) : list pystr :=
  [[c_tl] ++ border [] [c_dn] ts ++ [c_hor];
   [c_ver] ++ boxed_line [c_sp] [c_sp; c_ver] ts ++ [c_sp];
   [c_bl] ++ border [] [c_up] ts ++ [c_hor]].
Definition queue_picture (d : N) (ts : list pystr) : list pystr :=
  [[c_hor; c_dn] ++ border [] [c_dn] ts ++ (if ts then [] else [c_hor]);
   [d; c_ver] ++ boxed_line [c_sp] [c_sp; c_ver] ts ++ (if ts then [] else [d]);
   [c_hor; c_up] ++ border [] [c_up] ts ++ (if ts then [] else [c_hor])].

(** The lines, with a newline between them. *)
Fixpoint joined (ls : list pystr) : pystr :=
  match ls with [] => [] | [l] => l | l :: ls' => l ++ c_nl :: joined ls' end.
