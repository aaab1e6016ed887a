(** * Specification of the printed form of SkipList (C62)

    The picture is drawn from the towers (SkipSpec.v) alone: a column for the start of the
    list and one for every element, each as high as its tower.
<<
   ┌────┐                    ┌────┐
   | -∞ │⟶⟶⟶⟶⟶⟶⟶⟶⟶⟶⟶⟶⟶⟶⟶⟶⟶⟶⟶⟶| 20 │⟶⟶⟶⟶⟶⟶⟶⟶
   ├────┤                    ├────┤ ┌────┐
   | -∞ │⟶⟶⟶⟶⟶⟶⟶⟶⟶⟶⟶⟶⟶⟶⟶⟶⟶⟶⟶⟶| 20 │⟶| 77 │⟶
   ├────┤ ┌───┐ ┌───┐ ┌────┐ ├────┤ ├────┤
   | -∞ │⟶| 2 │⟶| 6 │⟶| 10 │⟶| 20 │⟶| 77 │⟶
   └────┘ └───┘ └───┘ └────┘ └────┘ └────┘
>>
    Shares with the model the names of the characters only. *)
From Verif Require Import Base ListModel SkipModel SkipSpec DrawModel DrawSpec SkipDrawModel.

Definition num_text (text : Z -> pystr) (x : num) : pystr :=
  match x with NegInf => [c_minus; c_inf] | PosInf => [c_inf] | Fin z => text z end.
(** What a column consists of: the text in a box, a border, arrows that pass, or nothing. *)
Definition box (t : pystr) : pystr := [c_bar; c_sp] ++ t ++ [c_sp; c_ver; c_right].
Definition edge (l r : N) (t : pystr) : pystr := [l] ++ repeat c_hor (length t + 2) ++ [r; c_sp].
Definition passing (t : pystr) : pystr := repeat c_right (length t + 5).
Definition nothing (t : pystr) : pystr := repeat c_sp (length t + 5).
(** The column of a tower with [h] heads at level [k], and under it. *)
Definition at_level (k : nat) (c : pystr * nat) : pystr :=
  if Nat.leb k c.2 then box c.1 else passing c.1.
Definition under_level (k : nat) (c : pystr * nat) : pystr :=
  if Nat.leb k c.2 then (if Nat.eqb k 0 then edge c_bl c_br c.1 else edge c_lt c_rt c.1)
  else if Nat.eqb k (S c.2) then edge c_tl c_tr c.1
  else nothing c.1.
(** The columns: the start of the list is as high as the highest tower. *)
Definition columns (text : Z -> pystr) (A : towers) : list (pystr * nat) :=
  ([c_minus; c_inf], theight A - 1) :: map (fun p => (num_text text p.1, p.2)) A.
(** Levels [n - 1], ..., 0, two lines each. *)
Fixpoint level_lines (n : nat) (cs : list (pystr * nat)) : list pystr :=
  match n with
  | 0 => []
  | S k => flat_map (at_level k) cs :: flat_map (under_level k) cs :: level_lines k cs
  end.
(** Over the top level there is what would be under a level above it. *)
Definition skip_picture (text : Z -> pystr) (A : towers) : list pystr :=
  let cs := columns text A in flat_map (under_level (theight A)) cs :: level_lines (theight A) cs.

(** A text that cannot be confused with the drawing. *)
Definition plain_text (t : pystr) : Prop := c_nl ∉ t /\ c_ver ∉ t /\ t <> [c_inf].
(** Such texts, different for different numbers. *)
Definition good_text (text : Z -> pystr) : Prop := (forall z, plain_text (text z)) /\ (forall z z', text z = text z' -> z = z').
(** Decimal notation, what [str] is on integers. *)
Fixpoint digits (d : Decimal.uint) : pystr :=
  match d with
  | Decimal.Nil => []
  | Decimal.D0 d => 48%N :: digits d | Decimal.D1 d => 49%N :: digits d
  | Decimal.D2 d => 50%N :: digits d | Decimal.D3 d => 51%N :: digits d
  | Decimal.D4 d => 52%N :: digits d | Decimal.D5 d => 53%N :: digits d
  | Decimal.D6 d => 54%N :: digits d | Decimal.D7 d => 55%N :: digits d
  | Decimal.D8 d => 56%N :: digits d | Decimal.D9 d => 57%N :: digits d
  end.
Definition str_int (z : Z) : pystr :=
  match Z.to_int z with
  | Decimal.Pos d => digits d
  | Decimal.Neg d => c_minus :: digits d
  end.
