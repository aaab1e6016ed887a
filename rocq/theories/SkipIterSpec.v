(** * What programs over several SkipLists should see (C69)

    Every SkipList is a set of its own (SkipSpec.v), and a loop runs over the elements that
    the set had when the loop asked for its first item. *)
From Verif Require Import Base ListModel IterModel IterSpec SkipModel SkipSpec SkipIterModel.

(** An iterator: over variable [x], nothing asked yet; or what it still has to give. *)
Inductive kit := KtNew (x : nat) | KtHas (rest : list num).
Definition kgive (rest : list num) : iout * kit :=
  match rest with [] => (IStop, KtHas []) | y :: r => (IVal (PNum y), KtHas r) end.
Definition spec_kstep (W : list towers) (its : list kit) (t : kstmt) : option (ksout * (list towers * list kit)) :=
  match t with
  | KsNew => Some (KoNew, (W ++ [[]], its))
  | KsCall x o => A ← W !! x; Some (KoCall (tanswer o A), (<[x := tnext o A]> W, its))
  | KsIter x => _ ← W !! x; Some (KoIter, (W, its ++ [KtNew x]))
  | KsNext i =>
      it ← its !! i;
      rest ← match it with KtNew x => elems <$> W !! x | KtHas r => Some r end;
      Some (KoNext (kgive rest).1, (W, <[i := (kgive rest).2]> its))
  end.
Fixpoint spec_krun (W : list towers) (its : list kit) (ts : list kstmt) : option (list ksout * (list towers * list kit)) :=
  match ts with
  | [] => Some ([], (W, its))
  | t :: r =>
      '(o, (W1, its1)) ← spec_kstep W its t;
      '(os, e) ← spec_krun W1 its1 r;
      Some (o :: os, e)
  end.
Definition stmt_avoids_neg_inf (t : kstmt) : Prop := match t with KsCall _ o => avoids_neg_inf o | _ => True end.
(** What [next] on iterator [i] gave, in order; how often it was asked. *)
Fixpoint kseen (i : nat) (ts : list kstmt) (outs : list ksout) : list iout :=
  match ts, outs with
  | KsNext j :: ts', KoNext r :: outs' => if Nat.eqb i j then r :: kseen i ts' outs' else kseen i ts' outs'
  | _ :: ts', _ :: outs' => kseen i ts' outs'
  | _, _ => []
  end.
Fixpoint kasks (i : nat) (ts : list kstmt) : nat :=
  match ts with
  | [] => 0
  | KsNext j :: r => (if Nat.eqb i j then 1 else 0) + kasks i r
  | _ :: r => kasks i r
  end.
(** The calls on SkipList [x], and what they gave. *)
Fixpoint on_list (x : nat) (ts : list kstmt) : list skop :=
  match ts with
  | [] => []
  | KsCall y o :: r => if Nat.eqb x y then o :: on_list x r else on_list x r
  | _ :: r => on_list x r
  end.
Fixpoint gave (x : nat) (ts : list kstmt) (outs : list ksout) : list skout :=
  match ts, outs with
  | KsCall y _ :: ts', KoCall r :: outs' => if Nat.eqb x y then r :: gave x ts' outs' else gave x ts' outs'
  | _ :: ts', _ :: outs' => gave x ts' outs'
  | _, _ => []
  end.
(** The program names only SkipLists and iterators that it has made: [n] and [m] are how
    many there are. *)
Fixpoint well_named (n m : nat) (ts : list kstmt) : Prop :=
  match ts with
  | [] => True
  | KsNew :: r => well_named (S n) m r
  | KsCall x _ :: r => x < n /\ well_named n m r
  | KsIter x :: r => x < n /\ well_named n (S m) r
  | KsNext i :: r => i < m /\ well_named n m r
  end.
(** How many SkipLists and iterators a program makes. *)
Fixpoint lists_made (ts : list kstmt) : nat :=
  match ts with [] => 0 | KsNew :: r => S (lists_made r) | _ :: r => lists_made r end.
Fixpoint iters_made (ts : list kstmt) : nat :=
  match ts with [] => 0 | KsIter _ :: r => S (iters_made r) | _ :: r => iters_made r end.
