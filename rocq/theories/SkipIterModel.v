(** * Programs over several SkipLists, with iterators resumed one [next] at a time.

    SkipModel.v models [SkipList.__iter__] as consumed in one go.  It is a generator: it runs
    from one [yield] to the following one, and between two of them the program may call
    anything on any SkipList. *)
From Verif Require Import Base ListModel IterModel SkipModel.
Local Open Scope py_scope.

(** A generator of SkipList [self]: not yet started, or inside the loop of
    skip_list.py:563-564, of which only the iterator over the list of line 563 is left. *)
Inductive kgen := KgNew (self : nat) | KgIn (g : gen).
(** skip_list.py:563-564: one [next].  The slice of the lowest level is taken when the body
    starts to run, which is at the first [next]; the iterator over that slice is the one of
    IterModel.v, and when it stops, so does this one. *)
Definition kg_next (g : kgen) : M kst (iout * kgen) :=
  match g with
  | KgNew self =>
      let! o := level_list self 0 in
      let! r := lift (getitem o (ISlice (Some 1%Z) None None)) in
      match r with
      | GList c => let! p := lift (gen_next (GNew c)) in ret (p.1, KgIn p.2)
      | GVal _ => raise TypeError (* not for a slice *)
      end
  | KgIn g => let! p := lift (gen_next g) in ret (p.1, KgIn p.2)
  end.

(** ** Programs *)
(** A statement: [SkipList()], which is kept in the next variable; a call on variable [x];
    [iter(x)], which gets the next iterator number; [next] of an iterator. *)
Inductive kstmt := KsNew | KsCall (x : nat) (o : skop) | KsIter (x : nat) | KsNext (i : nat).
Inductive ksout := KoNew | KoCall (r : skout) | KoIter | KoNext (r : iout).
Definition kconf : Type := kst * list kgen.
Definition kconf0 : kconf := (kst0, []).
(** [None]: there is no such variable or iterator, or the call never ends.  The SkipList
    of variable [x] is the [x]-th one that was made. *)
Definition model_kstep (c : kconf) (t : kstmt) : option (ksout * kconf) :=
  match t with
  | KsNew => match sl_new c.1 with Ok _ s => Some (KoNew, (s, c.2)) | _ => None end
  | KsCall x o =>
      _ ← k_sls c.1 !! x;
      '(r, s) ← kcall x o c.1;
      Some (KoCall r, (s, c.2))
  | KsIter x => _ ← k_sls c.1 !! x; Some (KoIter, (c.1, c.2 ++ [KgNew x]))
  | KsNext i =>
      g ← c.2 !! i;
      match kg_next g c.1 with
      | Ok p s => Some (KoNext p.1, (s, <[i := p.2]> c.2))
      | Exc e s => Some (KoNext (IExc e), (s, <[i := KgIn GDone]> c.2))
      | Diverge => None
      end
  end.
Fixpoint model_krun (c : kconf) (ts : list kstmt) : option (list ksout * kconf) :=
  match ts with
  | [] => Some ([], c)
  | t :: r =>
      '(o, c1) ← model_kstep c t;
      '(os, c2) ← model_krun c1 r;
      Some (o :: os, c2)
  end.
