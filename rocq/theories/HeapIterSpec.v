(** * What a loop over a heap should give

    Read this file to know what the theorems of HeapIterProps.v say. *)
From Verif Require Import Base HeapModel HeapIterModel.

(** What iterator [i] gave to the program [ts] that observed [outs]; how often the
    program asks it. *)
Fixpoint hseen (i : nat) (ts : list hstmt) (outs : list hsout) : list hgot :=
  match ts, outs with
  | YNext j :: ts', YGot r :: outs' => (if Nat.eqb j i then [r] else []) ++ hseen i ts' outs'
  | _ :: ts', _ :: outs' => hseen i ts' outs'
  | _, _ => []
  end.
Fixpoint hasks (i : nat) (ts : list hstmt) : nat :=
  match ts with
  | [] => 0
  | YNext j :: ts' => (if Nat.eqb j i then 1 else 0) + hasks i ts'
  | _ :: ts' => hasks i ts'
  end.
(** The program uses only iterators that it has made; [n] is their number before it. *)
Fixpoint hmade (n : nat) (ts : list hstmt) : Prop :=
  match ts with
  | [] => True
  | YIter :: ts' => hmade (S n) ts'
  | YNext i :: ts' => i < n /\ hmade n ts'
  | YCall _ :: ts' => hmade n ts'
  end.
(** The calls of a program and their results. *)
Definition hcalls_of (ts : list hstmt) : list hop :=
  omap (fun t => match t with YCall o => Some o | _ => None end) ts.
Definition hresults_of (outs : list hsout) : list hout :=
  omap (fun o => match o with YRes r => Some r | _ => None end) outs.

(** The [n] answers of a loop that began when [to_list()] was [vs]. *)
Definition heap_loop (vs : list num) (n : nat) : list hgot :=
  take n ((match vs with [] => [HRaise AssertionError] | _ => map HGot vs end) ++ replicate n HStop).
