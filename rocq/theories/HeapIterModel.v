(** * Iterators over heaps, resumed one [next] at a time.

    [Heap.__iter__] (_heap.py:357-369; MinHeap and MaxHeap only call it) is a generator:
    at its first [next] it copies the heap's array into a binary tree of its own
    (_heap.py:154-171) and from then on runs the generator of that tree
    (tree.py:929-936). *)
From Verif Require Import Base HeapModel.
Local Open Scope py_scope.

(** A generator object: not yet started; suspended at the [yield] of tree.py:934 (and
    that of _heap.py:369) with its own tree, [node] = [curr], the rest of
    [current_nodes] and [next_nodes]; finished. *)
Inductive hgen := HGNew | HGAt (m : tmem) (curr : nat) (rest next : list nat) | HGDone.
(** What [next(it)] gives: a value, StopIteration or another exception. *)
Inductive hgot := HGot (x : num) | HStop | HRaise (e : exn).

(** tree.py:934, _heap.py:369. *)
Definition hg_yield (m : tmem) (i : nat) (rest next : list nat) : hgot * hgen :=
  match m !! i with
  | Some n => (HGot (hn_data n), HGAt m i rest next)
  | None => (HRaise AttributeError, HGDone)
  end.
(** One [next] on a heap with the array [h]: _heap.py:367, then tree.py:929-936.
    [None]: does not return. *)
Definition hg_next (g : hgen) (h : heap) : option (hgot * hgen) :=
  match g with
  | HGNew =>
      match transform h [] with
      | Ok root m => Some (hg_yield m root [] [])
      | Exc e _ => Some (HRaise e, HGDone)
      | Diverge => None
      end
  | HGAt m curr rest next =>
      match m !! curr with
      | None => Some (HRaise AttributeError, HGDone)
      | Some n =>
          match rest with
          | i :: rest' => Some (hg_yield m i rest' (next ++ hchildren n))
          | [] =>
              match next ++ hchildren n with
              | i :: rest' => Some (hg_yield m i rest' [])
              | [] => Some (HStop, HGDone)
              end
          end
      end
  | HGDone => Some (HStop, HGDone)
  end.

(** ** Programs with one heap and any number of iterators over it *)

(** A call on the heap, [it = iter(h)] (the next iterator number), or [next(it)]. *)
Inductive hstmt := YCall (o : hop) | YIter | YNext (i : nat).
Inductive hsout := YRes (r : hout) | YNew | YGot (g : hgot).
Definition hconf : Type := heap * list hgen.
Definition hconf0 : hconf := ([], []).
Definition model_hstep (b : bool) (q : hconf) (t : hstmt) : option (hsout * hconf) :=
  match t with
  | YCall o =>
      match heap_call b o q.1 with
      | Ok r h => Some (YRes r, (h, q.2))
      | Exc e h => Some (YRes (HExc e), (h, q.2))
      | Diverge => None
      end
  | YIter => Some (YNew, (q.1, q.2 ++ [HGNew]))
  | YNext i =>
      g ← q.2 !! i;
      '(r, g') ← hg_next g q.1;
      Some (YGot r, (q.1, <[i := g']> q.2))
  end.
Fixpoint model_hrun (b : bool) (q : hconf) (ts : list hstmt) : option (list hsout * hconf) :=
  match ts with
  | [] => Some ([], q)
  | t :: r =>
      '(o, q1) ← model_hstep b q t;
      '(os, q2) ← model_hrun b q1 r;
      Some (o :: os, q2)
  end.
