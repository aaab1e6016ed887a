(** * Heap arrays as Python lists in memory

    HeapModel.v takes the array of a heap for a value.  Here it is an object: [to_list] returns
    the very list the heap works on (_heap.py:381), which the caller may keep and change. *)
From Verif Require Import Base HeapModel.
Local Open Scope py_scope.

(** The list objects, the one that is [self._heap], and the ones the caller holds. *)
Record mem := Mem { arrays : list (list num); own : nat; held : list nat }.
(** _heap.py:62: a new heap. *)
Definition mem0 : mem := Mem [[]] 0 [].

(** What a program does: call the heap, or read, append to or assign to the [i]-th list it got
    from [to_list]. *)
Inductive aop := ACall (op : hop) | ARead (i : nat) | AAppend (i : nat) (x : num) | AAssign (i j : nat) (x : num).

(** A method of the heap works in place on the list [own]; _heap.py:226-354 never rebind [self._heap]. *)
Definition on_own (b : bool) (op : hop) (m : mem) : res mem hout :=
  match arrays m !! own m with
  | None => Exc AttributeError m
  | Some h =>
      match heap_call b op h with
      | Ok r h' => Ok r (Mem (<[own m := h']> (arrays m)) (own m) (held m))
      | Exc e h' => Exc e (Mem (<[own m := h']> (arrays m)) (own m) (held m))
      | Diverge => Diverge
      end
  end.
Definition heap_program_step (b : bool) (op : aop) (m : mem) : res mem hout :=
  match op with
  | ACall HToList => (* _heap.py:381: the list itself *)
      match arrays m !! own m with
      | None => Exc AttributeError m
      | Some h => Ok (HVals h) (Mem (arrays m) (own m) (held m ++ [own m]))
      end
  | ACall HClear => (* _heap.py:388: [self._heap = []], a new list *)
      Ok (HRet false) (Mem (arrays m ++ [[]]) (length (arrays m)) (held m))
  | ACall op => on_own b op m
  | ARead i =>
      match held m !! i ≫= fun a => arrays m !! a with Some l => Ok (HVals l) m | None => Exc IndexError m end
  | AAppend i x =>
      match held m !! i with
      | Some a => Ok (HRet false) (Mem (alter (fun l => l ++ [x]) a (arrays m)) (own m) (held m))
      | None => Exc IndexError m
      end
  | AAssign i j x =>
      match held m !! i with
      | Some a => match arrays m !! a with
                  | Some l => if Nat.ltb j (length l) then Ok (HRet false) (Mem (<[a := <[j := x]> l]> (arrays m)) (own m) (held m))
                              else Exc IndexError m
                  | None => Exc IndexError m
                  end
      | None => Exc IndexError m
      end
  end.
Fixpoint heap_program (b : bool) (m : mem) (p : list aop) : option (list hout * mem) :=
  match p with
  | [] => Some ([], m)
  | op :: p' =>
      match heap_program_step b op m with
      | Ok r m' => match heap_program b m' p' with Some (rs, m'') => Some (r :: rs, m'') | None => None end
      | Exc e m' => match heap_program b m' p' with Some (rs, m'') => Some (HExc e :: rs, m'') | None => None end
      | Diverge => None
      end
  end.
