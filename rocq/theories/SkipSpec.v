(** * What a SkipList should do (C17, C18, C49)

    A SkipList is a finite set of numbers, kept as an increasing list; with each number comes
    the number of heads flipped when it was inserted, which only [get_height] depends on. *)
From Coq Require Import Sorted.
From Verif Require Import Base ListModel SkipModel.

Notation towers := (list (num * nat)).
Definition elems (A : towers) : list num := map fst A.
(** Insertion; a number that is there keeps its tower. *)
Fixpoint tput (x : num) (h : nat) (A : towers) : towers :=
  match A with
  | [] => [(x, h)]
  | (y, k) :: A' => if num_ltb x y then (x, h) :: A else if decide (x = y) then A else (y, k) :: tput x h A'
  end.
Definition tdel (x : num) (A : towers) : towers := filter (fun p => p.1 <> x) A.
Definition theight (A : towers) : nat := S (max_list (map snd A)).

(** The index of an element, or the exception. *)
Definition tindex (i : pyidx) (A : towers) : nat + exn :=
  match i with
  | IInt z => if bool_decide (0 <= z < Z.of_nat (length A))%Z then inl (Z.to_nat z) else inr IndexError
  | ISlice _ _ _ => inr IndexError
  | IOther => inr TypeError
  end.
Definition tnext (o : skop) (A : towers) : towers :=
  match o with
  | KInsert (PNum x) h => tput x h A
  | KRemove (PNum x) => tdel x A
  | KDel i => match tindex i A with inl n => delete n A | inr _ => A end
  | KClear => []
  | _ => A
  end.
Definition tanswer (o : skop) (A : towers) : skout :=
  match o with
  | KInsert (PNum _) _ => KUnit
  | KInsert PNone _ => KExc ValueError
  | KInsert _ _ => KExc TypeError
  | KRemove _ => KUnit
  | KContains (PNum x) => KBool (bool_decide (x ∈ elems A))
  | KContains _ => KBool false
  | KGet i => match tindex i A with
              | inl n => match elems A !! n with Some x => KVal (PNum x) | None => KExc IndexError end
              | inr e => KExc e
              end
  | KDel i => match tindex i A with inl _ => KUnit | inr e => KExc e end
  | KLen => KNat (length A)
  | KIsEmpty => KBool (bool_decide (A = []))
  | KHeight => KNat (theight A)
  | KToList => KVals (map PNum (elems A))
  | KClear => KUnit
  end.
Fixpoint tanswers (os : list skop) (A : towers) : list skout :=
  match os with [] => [] | o :: os' => tanswer o A :: tanswers os' (tnext o A) end.
Fixpoint tafter (os : list skop) (A : towers) : towers :=
  match os with [] => A | o :: os' => tafter os' (tnext o A) end.
(** The history [os] on a new SkipList behaves as the set. *)
Definition behaves_as_sorted_set (os : list skop) : Prop :=
  exists s, khistory os = Some (tanswers os [], s).

(** The call does not mention -inf. *)
Definition avoids_neg_inf (o : skop) : Prop :=
  match o with
  | KInsert v _ | KRemove v | KContains v => v <> PNum NegInf
  | _ => True
  end.
(** The same call with other coin flips. *)
Definition same_call (o o' : skop) : Prop :=
  match o, o' with
  | KInsert v _, KInsert v' _ => v = v'
  | _, _ => o = o'
  end.
(** The results of [os] on the SkipLists [a = SkipList()] (0) and [b = SkipList(a)] (1), where
    [pre] happens on [a] before it is copied. *)
Definition kcopied (pre : list skop) (os : list (nat * skop)) : option (list skout * list skout) :=
  match khistory pre with
  | Some (rs, s) =>
      match sl_copy 0 s with
      | Ok _ s' => match kcalls os s' with Some (rs', _) => Some (rs, rs') | None => None end
      | _ => None
      end
  | None => None
  end.
(** What two independent sets answer. *)
Fixpoint tanswers2 (os : list (nat * skop)) (A B : towers) : list skout :=
  match os with
  | [] => []
  | (0, o) :: os' => tanswer o A :: tanswers2 os' (tnext o A) B
  | (_, o) :: os' => tanswer o B :: tanswers2 os' A (tnext o B)
  end.
