(** * What a Python programmer expects of an iterator over a list.

    The reference is the iterator of Python's own [list]: it remembers a position and
    looks at the list each time it is asked, so it sees the present contents; once it
    has run off the end it stays exhausted. *)
From Verif Require Import Base ListSpec IterModel.

(** [PAt x p]: iterator over list variable [x] that has given [p] items;
    [PEnd]: exhausted. *)
Inductive pyiter := PAt (x : nat) (p : nat) | PEnd.

Definition spec_istep (k : lclass) (w : world) (its : list pyiter) (t : stmt)
    : option (sout * (world * list pyiter)) :=
  match t with
  | SCall op => '(r, w') ← spec_step k w op; Some (OCall r, (w', its))
  | SIter x => _ ← content w x; Some (OIter, (w, its ++ [PAt x 0]))
  | SNext i =>
      it ← its !! i;
      match it with
      | PEnd => Some (ONext IStop, (w, its))
      | PAt x p =>
          vs ← content w x;
          match vs !! p with
          | Some v => Some (ONext (IVal v), (w, <[i := PAt x (S p)]> its))
          | None => Some (ONext IStop, (w, <[i := PEnd]> its))
          end
      end
  end.
Fixpoint spec_irun (k : lclass) (w : world) (its : list pyiter) (ts : list stmt)
    : option (list sout * (world * list pyiter)) :=
  match ts with
  | [] => Some ([], (w, its))
  | t :: r =>
      '(o, (w1, its1)) ← spec_istep k w its t;
      '(os, e) ← spec_irun k w1 its1 r;
      Some (o :: os, e)
  end.

(** How many items at the front of the list [vs] the call [op] certainly leaves where
    they are.  Assigning to an item moves nothing. *)
Definition first_of (v : pyval) (vs : list pyval) : nat :=
  match list_find (fun a => a = v) vs with Some (i, _) => i | None => length vs end.
Definition front_kept (k : lclass) (op : lop) (vs : list pyval) : nat :=
  let n := Z.of_nat (length vs) in
  match op with
  | LAddFront _ _ | LRemoveFront _ | LClear _ | LRotate _ _ _ => 0
  | LInsert _ i _ =>
      Z.to_nat (match k with Circular => (the_int i mod (n + 1))%Z | _ => the_int i end)
  | LDel _ i => Z.to_nat (match k with Circular => (the_int i mod n)%Z | _ => the_int i end)
  | LRemoveEnd _ => length vs - 1
  | LRemove _ v _ => first_of v vs
  | _ => length vs
  end.
(** The call leaves alone everything that the iterators in [T] have already passed. *)
Definition behind (T : nat -> Prop) (k : lclass) (w : world) (its : list pyiter) (op : lop) : Prop :=
  forall i x p vs, T i -> its !! i = Some (PAt x p) -> content w x = Some vs -> mutates op x ->
    p <= front_kept k op vs.
(** All calls of a program do. *)
Fixpoint undisturbed (T : nat -> Prop) (k : lclass) (w : world) (its : list pyiter) (ts : list stmt) : Prop :=
  match ts with
  | [] => True
  | t :: r =>
      match t with SCall op => behind T k w its op | _ => True end
      /\ match spec_istep k w its t with
         | Some (_, (w', its')) => undisturbed T k w' its' r
         | None => True
         end
  end.

(** What the [next(it)] calls on iterator [i] gave, in order. *)
Fixpoint seen (i : nat) (ts : list stmt) (outs : list sout) : list iout :=
  match ts, outs with
  | SNext j :: ts', ONext r :: outs' => if Nat.eqb i j then r :: seen i ts' outs' else seen i ts' outs'
  | _ :: ts', _ :: outs' => seen i ts' outs'
  | _, _ => []
  end.
(** What [n] calls of [next] give when the list holds [vs] all the time. *)
Definition plain_loop (vs : list pyval) (n : nat) : list iout :=
  take n (map IVal vs ++ replicate n IStop).

(** How often the program asks iterator [i]. *)
Fixpoint asks (i : nat) (ts : list stmt) : nat :=
  match ts with
  | [] => 0
  | SNext j :: r => (if Nat.eqb i j then 1 else 0) + asks i r
  | _ :: r => asks i r
  end.
(** What the calls on the lists gave. *)
Fixpoint call_results (outs : list sout) : list lout :=
  match outs with [] => [] | OCall r :: o => r :: call_results o | _ :: o => call_results o end.
(** The program never changes list [x]. *)
Definition only_reads (x : nat) (ts : list stmt) : Prop := forall op, SCall op ∈ ts -> ~ mutates op x.
