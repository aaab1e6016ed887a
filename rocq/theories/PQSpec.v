(** * The priority queue as it is: a deterministic reference

    Used for C15 and C16.  The queue holds the items with their priorities, newest first, and
    remembers what it takes for the lowest and the highest priority. *)
From Verif Require Import Base ListModel QueueModel QueueSpec.

Record pq := PQ { held : list (pyval * num); low : num; high : num }.
Definition new_pq : pq := PQ [] PosInf NegInf.

(** The first (newest) item of priority [p], with what stands before and after it. *)
Fixpoint first_of (p : num) (l : list (pyval * num)) : option (list (pyval * num) * pyval * list (pyval * num)) :=
  match l with
  | [] => None
  | (v, q) :: l' =>
      if decide (q = p) then Some ([], v, l')
      else match first_of p l' with Some (l1, w, l2) => Some ((v, q) :: l1, w, l2) | None => None end
  end.
(** Taking out an item of priority [p] standing between [l1] and [l2].  If it is the newest of
    at least three, the next one takes over its priority. *)
Definition take_out (p : num) (l1 l2 : list (pyval * num)) : list (pyval * num) :=
  match l1, l2 with
  | [], (w, _) :: ((_ :: _) as l3) => (w, p) :: l3
  | _, _ => l1 ++ l2
  end.
Definition lowest_of (l : list (pyval * num)) : num := foldr num_min PosInf (map snd l).
Definition highest_of (l : list (pyval * num)) : num := foldr num_max NegInf (map snd l).

(** One call.  Enqueueing only widens the remembered range, whatever leaves the queue;
    dequeueing looks for the remembered priority and brings up to date the bound asked for. *)
Definition pq_ref (c : num) (q : pq) (op : pop) : bout * pq :=
  match op with
  | PEnqueue v p =>
      match rejected v with
      | Some e => (BExc e, q)
      | None =>
          match prio_of p with
          | None => (BExc TypeError, q)
          | Some pr => (BRet (is_full c (map fst (held q))) PNone,
                        PQ (pq_push c (norm_item v, pr) (held q)) (num_min (low q) pr) (num_max (high q) pr))
          end
      end
  | PDequeue lowest =>
      match held q with
      | [] => (BRet true PNone, q)
      | _ =>
          let p := if lowest then low q else high q in
          match first_of p (held q) with
          | None => (BExc UnboundLocalError, q)
          | Some (l1, v, l2) =>
              let l := take_out p l1 l2 in
              (BRet false v, PQ l (if lowest then lowest_of l else low q) (if lowest then high q else highest_of l))
          end
      end
  | PTop => match last (map fst (held q)) with None => (BExc IndexError, q) | Some v => (BRet false v, q) end
  | PClear => (BRet false PNone, new_pq)
  | PLen => (BNat (length (held q)), q)
  | PIsEmpty => (BBool (bool_decide (held q = [])), q)
  | PIsFull => (BBool (is_full c (map fst (held q))), q)
  end.
Fixpoint pq_refs (c : num) (q : pq) (ops : list pop) : list bout * pq :=
  match ops with
  | [] => ([], q)
  | op :: ops' => let '(r, q') := pq_ref c q op in let '(rs, q'') := pq_refs c q' ops' in (r :: rs, q'')
  end.
