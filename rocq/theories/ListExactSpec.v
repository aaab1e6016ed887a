(** * Lists exactly as they are where C03 and C04 fail *)
From Verif Require Import Base ListModel ListSpec.

(** A slice with a negative step holds only the last of the elements it should hold. *)
Definition taken_slice (vs : list pyval) (start stop : option Z) (step : Z) : list pyval :=
  if bool_decide (step < 0)%Z
  then match last (py_slice vs start stop step) with Some v => [v] | None => [] end
  else py_slice vs start stop step.
(** One call: a slice of any step other than 0 of a singly or doubly linked list;
    everything else as in [spec_step]. *)
Definition slicing_step (k : lclass) (w : world) (op : lop) : option (lout * world) :=
  match op, k with
  | LGet x (ASlice start stop step), (Singly | Doubly) =>
      vs ← content w x;
      if bool_decide (default 1 step = 0)%Z then Some (RExc ValueError, w)
      else Some (RNew 1, w ++ [Some (taken_slice vs start stop (default 1 step)%Z)])
  | _, _ => spec_step k w op
  end.
Fixpoint slicing_run (k : lclass) (w : world) (ops : list lop) : option (list lout * world) :=
  match ops with
  | [] => Some ([], w)
  | op :: r =>
      '(o, w1) ← slicing_step k w op;
      '(os, w2) ← slicing_run k w1 r;
      Some (o :: os, w2)
  end.

(** One circular list: its elements, and whether it still has the node of an element that
    left (for which only an empty list is asked). *)
Record ring := Ring { elems : list pyval; node_left : bool }.
(** Assigning to an item; all other calls as in [spec_step]. *)
Definition ring_step (r : ring) (op : lop) : option (lout * ring) :=
  match op with
  | LSet 0 i v =>
      match bad_index Circular (length (elems r)) i with
      | Some e => Some (RExc e, r)
      | None =>
          if bool_decide (v = PNone) then Some (RExc AssertionError, r)
          else if bool_decide (elems r = []) && negb (node_left r) then Some (RExc AttributeError, r)
          else match validate_item v with
               | Some e => Some (RExc e, r)
               | None => Some (RUnit, Ring (<[Z.to_nat (the_int i mod Z.of_nat (length (elems r))) := norm_item v]> (elems r)) (node_left r))
               end
      end
  | _ =>
      '(o, w) ← spec_step Circular [Some (elems r)] op;
      vs ← content w 0;
      Some (o, Ring vs (match op with
        | LClear _ => false
        | LRotate _ (Some d) _ => node_left r && bool_decide (d < 0)%Z || negb (bool_decide (elems r = []))
        | _ => node_left r || negb (bool_decide (elems r = []))
        end))
  end.
Fixpoint ring_run (r : ring) (ops : list lop) : option (list lout * ring) :=
  match ops with
  | [] => Some ([], r)
  | op :: ops' =>
      '(o, r1) ← ring_step r op;
      '(os, r2) ← ring_run r1 ops';
      Some (o :: os, r2)
  end.
