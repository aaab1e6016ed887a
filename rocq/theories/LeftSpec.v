(** * What an empty queue prints: specification

    Used for C58.  An emptied queue goes on drawing the item that left it last; a new or
    cleared one draws none. *)
From Verif Require Import Base ListModel QueueModel QueueSpec DrawModel DrawSpec.

(** The picture of a queue that is empty, but still shows the texts [ts]: the frame is not
    closed at the right. *)
Definition empty_picture (d : N) (ts : list pystr) : list pystr :=
  [[c_hor; c_dn] ++ border [] [c_dn] ts;
   [d; c_ver] ++ boxed_line [c_sp] [c_sp; c_ver] ts;
   [c_hor; c_up] ++ border [] [c_up] ts].
(** The item left over when the contents go from [l] to [l'], [r] being left over before. *)
Definition leaves {A} (cleared : bool) (l : list A) (r : option A) (l' : list A) : option A :=
  match l', l with
  | [], x :: _ => if cleared then None else Some x
  | _, _ => if cleared then None else r
  end.
(** ... and after a history of calls on the ideal object. *)
Fixpoint left_over {O} (step : list pyval -> O -> bout * list pyval) (clears : O -> bool) (l : list pyval) (r : option pyval)
    (ops : list O) : option pyval :=
  match ops with
  | [] => r
  | op :: ops' => left_over step clears (snd (step l op)) (leaves (clears op) l r (snd (step l op))) ops'
  end.
Definition d_clears (op : dop) : bool := match op with DClear => true | _ => false end.
Definition q_clears (op : qop) : bool := match op with QClear => true | _ => false end.
Definition p_clears (op : pop) : bool := match op with PClear => true | _ => false end.
(** The lines drawn for contents [l], left to right, and the item left over [r]. *)
Definition drawn {A} (d : N) (text : A -> pystr) (l : list A) (r : option A) : list pystr :=
  match l with
  | [] => empty_picture d (match r with Some x => [text x] | None => [] end)
  | _ => queue_picture d (map text l)
  end.
(** A history of a priority queue answered step by step, with the contents and the item left
    over at the end. *)
Inductive answered_leaving (step : list (pyval * num) -> pop -> bout -> list (pyval * num) -> Prop)
  : list (pyval * num) -> option (pyval * num) -> list pop -> list bout -> list (pyval * num) -> option (pyval * num) -> Prop :=
| al_nil l r : answered_leaving step l r [] [] l r
| al_cons l r op o l' ops os l'' r'' :
    step l op o l' -> answered_leaving step l' (leaves (p_clears op) l r l') ops os l'' r'' ->
    answered_leaving step l r (op :: ops) (o :: os) l'' r''.
