(** * What the list classes promise, on plain Coq lists of values.

    A program holds any number of list variables, numbered in the order in which
    the calls created them.  [spec_step k w op] says what call [op] returns and
    how it changes the values of the variables, for list class [k]; [None] means
    the call is outside the property (see the comments at each case).
    Nothing here refers to nodes, links or the heap model. *)
From Verif Require Import Base.

(** The list class: LinkedList, DoublyLinkedList or CircularLinkedList. *)
Inductive lclass := Singly | Doubly | Circular.

(** An index argument as the caller writes it. *)
Inductive idx_arg := AInt (z : Z) | ASlice (start stop step : option Z) | ANotInt.

Inductive lop :=
| LNew (items : list pyval)
| LAddFront (x : nat) (v : pyval)
| LAddEnd (x : nat) (v : pyval)
| LInsert (x : nat) (i : idx_arg) (v : pyval)
| LSet (x : nat) (i : idx_arg) (v : pyval)
| LDel (x : nat) (i : idx_arg)
| LRemoveFront (x : nat)
| LRemoveEnd (x : nat)
| LRemove (x : nat) (v : pyval) (all : option bool)   (* None: flag is not a bool *)
| LClear (x : nat)
| LRotate (x : nat) (d : option Z) (right : bool)      (* in place; None: not an int *)
| LRotated (x : nat) (d : option Z) (right : bool)     (* inplace=False: new variable *)
| LExtend (x y : nat)
| LCopy (x : nat)
| LReverse (x : nat)
| LSplit (x : nat) (i : idx_arg)
| LGet (x : nat) (i : idx_arg)
| LContains (x : nat) (v : pyval)
| LCount (x : nat) (v : pyval)
| LLen (x : nat)
| LIsEmpty (x : nat)
| LToList (x : nat)
| LEq (x y : nat)
| LNe (x y : nat).

(** What the caller observes.  [RNew n]: the call returned [n] new list objects,
    which get the next [n] variable numbers. *)
Inductive lout :=
| RUnit | RVal (v : pyval) | RBool (b : bool) | RNat (n : nat)
| RVals (vs : list pyval) | RNew (n : nat) | RExc (e : exn).

(** Variables: [Some vs] a list object with elements [vs]; [None] a variable the
    property no longer talks about (the argument of a LinkedList /
    DoublyLinkedList [extend], whose nodes are shared afterwards: see C07). *)
Notation world := (list (option (list pyval))).
Definition content (w : world) (x : nat) : option (list pyval) := mjoin (w !! x).
Definition store (w : world) (x : nat) (vs : list pyval) : world := <[x := Some vs]> w.
Definition is_val (v : pyval) : bool :=
  match v with PNodeObj _ _ | PExtraObj => false | _ => true end.

(** Documented index checks of insert / __setitem__ / __delitem__ / split: no
    slices, ints only, no negative numbers, at most [len] (not for circular). *)
Definition bad_index (k : lclass) (len : nat) (i : idx_arg) : option exn :=
  match i with
  | ASlice _ _ _ => Some IndexError
  | ANotInt => Some TypeError
  | AInt z => if bool_decide (z < 0)%Z then Some IndexError
              else match k with
                   | Circular => None
                   | _ => if bool_decide (Z.of_nat len < z)%Z then Some IndexError else None
                   end
  end.
Definition the_int (i : idx_arg) : Z := match i with AInt z => z | _ => 0%Z end.

Definition insert_at (vs : list pyval) (i : nat) (v : pyval) := take i vs ++ v :: drop i vs.
Definition delete_at (vs : list pyval) (i : nat) := take i vs ++ drop (S i) vs.
Fixpoint remove_first (v : pyval) (vs : list pyval) : list pyval :=
  match vs with
  | [] => []
  | x :: r => if bool_decide (x = v) then r else x :: remove_first v r
  end.
Fixpoint remove_every (v : pyval) (vs : list pyval) : list pyval :=
  match vs with
  | [] => []
  | x :: r => if bool_decide (x = v) then remove_every v r else x :: remove_every v r
  end.
Fixpoint occurrences (v : pyval) (vs : list pyval) : nat :=
  match vs with
  | [] => 0
  | x :: r => (if bool_decide (x = v) then 1 else 0) + occurrences v r
  end.
(** One-step rotations, iterated. *)
Definition rot1_left (vs : list pyval) : list pyval :=
  match vs with [] => [] | x :: r => r ++ [x] end.
Definition rot1_right (vs : list pyval) : list pyval := reverse (rot1_left (reverse vs)).
Definition rotated (vs : list pyval) (d : Z) (right : bool) : list pyval :=
  Nat.iter (Z.to_nat d) (if right then rot1_right else rot1_left) vs.

(** Python list slicing with a positive step: the elements whose position is one
    of [start, start+step, ...] below [stop], after clamping. *)
Definition clamp_ix (n : Z) (x : Z) : Z := if bool_decide (x < 0)%Z then Z.max 0 (x + n) else Z.min x n.
Definition slice_pos (vs : list pyval) (start stop : option Z) (step : Z) : list pyval :=
  let n := Z.of_nat (length vs) in
  let a := clamp_ix n (default 0%Z start) in
  let b := clamp_ix n (default n stop) in
  map snd (filter (fun p => a <= Z.of_nat p.1 < b /\ (Z.of_nat p.1 - a) mod step = 0)%Z
                  (imap pair vs)).

Definition spec_step (k : lclass) (w : world) (op : lop) : option (lout * world) :=
  match op with
  | LNew items =>
      match list_find (fun v => validate_item v <> None) items with
      | Some (_, v) => match validate_item v with Some e => Some (RExc e, w) | None => None end
      | None => Some (RNew 1, w ++ [Some (map norm_item items)])
      end
  | LAddFront x v =>
      vs ← content w x;
      match validate_item v with
      | Some e => Some (RExc e, w)
      | None => Some (RUnit, store w x (norm_item v :: vs))
      end
  | LAddEnd x v =>
      vs ← content w x;
      match validate_item v with
      | Some e => Some (RExc e, w)
      | None => Some (RUnit, store w x (vs ++ [norm_item v]))
      end
  | LInsert x i v =>
      vs ← content w x;
      match bad_index k (length vs) i with
      | Some e => Some (RExc e, w)
      | None =>
          match validate_item v with
          | Some e => Some (RExc e, w)
          | None =>
              let z := the_int i in
              let z := match k with Circular => (z mod (Z.of_nat (length vs) + 1))%Z | _ => z end in
              Some (RUnit, store w x (insert_at vs (Z.to_nat z) (norm_item v)))
          end
      end
  | LSet x i v =>
      vs ← content w x;
      match bad_index k (length vs) i with
      | Some e => Some (RExc e, w)
      | None =>
          let n := Z.of_nat (length vs) in
          let z := match k with Circular => (the_int i mod n)%Z | _ => the_int i end in
          match k with
          | Circular =>
              (* excluded: empty list (see C03 refutation) and a None item *)
              if bool_decide (vs = []) || bool_decide (v = PNone) then None
              else match validate_item v with
                   | Some e => Some (RExc e, w)
                   | None => Some (RUnit, store w x (<[Z.to_nat z := norm_item v]> vs))
                   end
          | _ =>
              if bool_decide (z = n) then Some (RExc IndexError, w)
              else match validate_item v with
                   | Some e => Some (RExc e, w)
                   | None => Some (RUnit, store w x (<[Z.to_nat z := norm_item v]> vs))
                   end
          end
      end
  | LDel x i =>
      vs ← content w x;
      match bad_index k (length vs) i with
      | Some e => Some (RExc e, w)
      | None =>
          let n := Z.of_nat (length vs) in
          match k with
          | Circular => Some (RUnit, store w x (delete_at vs (Z.to_nat (the_int i mod n))))
          | _ => if bool_decide (the_int i = n) then Some (RExc IndexError, w)
                 else Some (RUnit, store w x (delete_at vs (Z.to_nat (the_int i))))
          end
      end
  | LRemoveFront x => vs ← content w x; Some (RUnit, store w x (tail vs))
  | LRemoveEnd x => vs ← content w x; Some (RUnit, store w x (removelast vs))
  | LRemove x v all =>
      vs ← content w x;
      match all with
      | None => Some (RExc TypeError, w)
      | Some b =>
          match validate_item v with
          | Some e => Some (RExc e, w)
          | None => Some (RUnit, store w x (if b then remove_every v vs else remove_first v vs))
          end
      end
  | LClear x => _ ← content w x; Some (RUnit, store w x [])
  | LRotate x d rgt =>
      vs ← content w x;
      match d with
      | None => Some (RExc TypeError, w)
      | Some z => if bool_decide (z < 0)%Z then Some (RExc ValueError, w)
                  else Some (RUnit, store w x (rotated vs z rgt))
      end
  | LRotated x d rgt =>
      vs ← content w x;
      match d with
      | None => Some (RExc TypeError, w)
      | Some z => if bool_decide (z < 0)%Z then Some (RExc ValueError, w)
                  else Some (RNew 1, w ++ [Some (rotated vs z rgt)])
      end
  | LExtend x y =>
      xs ← content w x;
      ys ← content w y;
      match k with
      | Circular => if bool_decide (x = y) && negb (bool_decide (xs = [])) then None
                    else Some (RUnit, store w x (xs ++ ys))
      | _ => if bool_decide (ys = []) then Some (RUnit, w)
             else if bool_decide (x = y) then None
             else Some (RUnit, <[y := None]> (store w x (xs ++ ys)))
      end
  | LCopy x => vs ← content w x; Some (RNew 1, w ++ [Some vs])
  | LReverse x => vs ← content w x; Some (RNew 1, w ++ [Some (reverse vs)])
  | LSplit x i =>
      vs ← content w x;
      match bad_index k (length vs) i with
      | Some e => Some (RExc e, w)
      | None =>
          let z := match k with
                   | Circular => (the_int i mod Z.of_nat (length vs))%Z
                   | _ => the_int i end in
          Some (RNew 2, w ++ [Some (take (Z.to_nat z) vs); Some (drop (Z.to_nat z) vs)])
      end
  | LGet x i =>
      vs ← content w x;
      let n := Z.of_nat (length vs) in
      match k, i with
      | Circular, _ =>
          match bad_index k (length vs) i with
          | Some e => Some (RExc e, w)
          | None => match vs !! Z.to_nat (the_int i mod n) with
                    | Some v => Some (RVal v, w)
                    | None => Some (RExc IndexError, w)
                    end
          end
      | _, ANotInt => Some (RExc TypeError, w)
      | _, AInt z =>
          if bool_decide (z < - n \/ n <= z)%Z then Some (RExc IndexError, w)
          else match vs !! Z.to_nat (if bool_decide (z < 0)%Z then z + n else z) with
               | Some v => Some (RVal v, w)
               | None => None
               end
      | _, ASlice start stop step =>
          let st := default 1%Z step in
          if bool_decide (st = 0%Z) then Some (RExc ValueError, w)
          else if bool_decide (st < 0)%Z then None      (* excluded: see C04 *)
          else Some (RNew 1, w ++ [Some (slice_pos vs start stop st)])
      end
  | LContains x v =>
      vs ← content w x;
      if is_val v then Some (RBool (bool_decide (v ∈ vs)), w) else None
  | LCount x v =>
      vs ← content w x;
      if is_val v then Some (RNat (occurrences v vs), w) else None
  | LLen x => vs ← content w x; Some (RNat (length vs), w)
  | LIsEmpty x => vs ← content w x; Some (RBool (bool_decide (vs = [])), w)
  | LToList x => vs ← content w x; Some (RVals vs, w)
  | LEq x y => xs ← content w x; ys ← content w y; Some (RBool (bool_decide (xs = ys)), w)
  | LNe x y => xs ← content w x; ys ← content w y; Some (RBool (negb (bool_decide (xs = ys))), w)
  end.

(** A whole history: the observations, in order, and the final contents. *)
Fixpoint spec_run (k : lclass) (w : world) (ops : list lop) : option (list lout * world) :=
  match ops with
  | [] => Some ([], w)
  | op :: r =>
      '(o, w1) ← spec_step k w op;
      '(os, w2) ← spec_run k w1 r;
      Some (o :: os, w2)
  end.

(** ** Vocabulary of the individual properties *)

(** The calls of C01 on one list (variable 0). Items are arbitrary; the argument of
    [in] / [count] is any value that is not itself an object of the package. *)
Definition single_list_call (op : lop) : Prop :=
  match op with
  | LAddFront 0 _ | LAddEnd 0 _ | LInsert 0 _ _ | LSet 0 _ _ | LDel 0 _ | LRemoveFront 0
  | LRemoveEnd 0 | LRemove 0 _ _ | LClear 0 | LRotate 0 _ _ | LLen 0 | LIsEmpty 0 | LToList 0 => True
  | LGet 0 (AInt _) | LGet 0 ANotInt => True
  | LContains 0 v | LCount 0 v => is_val v = true
  | _ => False
  end.
Definition not_setitem (op : lop) : Prop := match op with LSet _ _ _ => False | _ => True end.

(** Does the call change (or give up) variable [x]? *)
Definition mutates (op : lop) (x : nat) : Prop :=
  match op with
  | LAddFront y _ | LAddEnd y _ | LInsert y _ _ | LSet y _ _ | LDel y _ | LRemoveFront y
  | LRemoveEnd y | LRemove y _ _ | LClear y | LRotate y _ _ => y = x
  | LExtend y z => y = x \/ z = x
  | _ => False
  end.

(** Python's [l[start:stop:step]] for every non-zero step: the elements at the
    indices start, start+step, ... strictly before stop, where absent bounds are the
    ends in the direction of travel, negative bounds count from the end, and bounds
    are cut off at the ends. *)
Definition slice_bound (n step : Z) (x : option Z) (absent : Z) : Z :=
  match x with
  | None => absent
  | Some z => let z := if bool_decide (z < 0)%Z then (z + n)%Z else z in
              if bool_decide (step < 0)%Z then Z.max (-1) (Z.min z (n - 1)) else Z.max 0 (Z.min z n)
  end.
Definition py_slice (vs : list pyval) (start stop : option Z) (step : Z) : list pyval :=
  let n := Z.of_nat (length vs) in
  let a := slice_bound n step start (if bool_decide (step < 0)%Z then n - 1 else 0)%Z in
  let b := slice_bound n step stop (if bool_decide (step < 0)%Z then -1 else n)%Z in
  flat_map (fun j : nat =>
      let i := (a + Z.of_nat j * step)%Z in
      if (if bool_decide (step < 0)%Z then bool_decide (b < i)%Z else bool_decide (i < b)%Z)
      then match vs !! Z.to_nat i with Some v => [v] | None => [] end else [])
    (seq 0 (length vs)).

(** [op] is one of copy / reverse / split on variable [x] holding [vs]; [new] are the
    lists it must return. *)
Definition derives (k : lclass) (op : lop) (x : nat) (vs : list pyval) (new : list (list pyval)) : Prop :=
  match op with
  | LCopy y => y = x /\ new = [vs]
  | LReverse y => y = x /\ new = [rev vs]
  | LSplit y (AInt z) => y = x /\ (0 <= z <= Z.of_nat (length vs))%Z
       /\ (k = Circular -> z = 0%Z \/ (z < Z.of_nat (length vs))%Z)
       /\ new = [firstn (Z.to_nat z) vs; skipn (Z.to_nat z) vs]
  | _ => False
  end.

(** [ws] is [vs] moved cyclically by [d] places to the left (right). *)
Definition shifted_left (vs ws : list pyval) (d : nat) : Prop :=
  length ws = length vs /\
  forall i, i < length vs -> ws !! i = vs !! ((i + d) mod length vs).
Definition shifted_right (vs ws : list pyval) (d : nat) : Prop := shifted_left ws vs d.

Definition is_rotation (right : bool) (vs ws : list pyval) (d : Z) : Prop :=
  if right then shifted_right vs ws (Z.to_nat d) else shifted_left vs ws (Z.to_nat d).

(** Both numbers or both strings, at every common position. *)
Definition comparable (a b : list pyval) : Prop :=
  forall i x y, a !! i = Some x -> b !! i = Some y -> py_lt x y <> None.
(** [a <= b]: [a] is not longer than [b] and nowhere exceeds it. *)
Definition below (a b : list pyval) : Prop :=
  length a <= length b /\ forall i x y, a !! i = Some x -> b !! i = Some y -> py_lt y x = Some false.
