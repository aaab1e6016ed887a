(** * Running a client program (a history of API calls) on the list model.

    The client holds list variables; [env] maps variable numbers to list objects.
    Each call of the history is the corresponding method of ListModel.v. *)
From Verif Require Import Base ListModel ListSpec.
Local Open Scope py_scope.

Definition mcls (k : lclass) : lcls :=
  match k with Singly => CLL | Doubly => CDLL | Circular => CCLL end.
Definition mix (i : idx_arg) : pyidx :=
  match i with AInt z => IInt z | ASlice a b c => ISlice a b c | ANotInt => IOther end.

(** Heap and variables of the running program. *)
Definition conf : Type := st * list oid.
Definition conf0 : conf := (st0, []).

(** Run one method; [f] turns its result into the observation and the new objects
    bound to the next variables.  [None]: the call does not return. *)
Definition call {A} (m : M st A) (c : conf) (f : A -> lout * list oid) : option (lout * conf) :=
  match m (fst c) with
  | Ok a s' => Some (fst (f a), (s', snd c ++ snd (f a)))
  | Exc e s' => Some (RExc e, (s', snd c))
  | Diverge => None
  end.

Definition obs_unit (_ : unit) : lout * list oid := (RUnit, []).
Definition obs_bool (b : bool) : lout * list oid := (RBool b, []).
Definition obs_nat (n : nat) : lout * list oid := (RNat n, []).
Definition obs_new (o : oid) : lout * list oid := (RNew 1, [o]).
Definition obs_new2 (p : oid * oid) : lout * list oid := (RNew 2, [fst p; snd p]).
Definition obs_get (g : gres) : lout * list oid :=
  match g with GVal v => (RVal v, []) | GList o => (RNew 1, [o]) end.

Definition model_step (k : lclass) (c : conf) (op : lop) : option (lout * conf) :=
  let var x := snd c !! x in
  match op with
  | LNew items => call (construct (mcls k) items) c obs_new
  | LAddFront x v => o ← var x; call (add_front o v) c obs_unit
  | LAddEnd x v => o ← var x; call (add_end o v) c obs_unit
  | LInsert x i v => o ← var x; call (insert o (mix i) v) c obs_unit
  | LSet x i v => o ← var x; call (setitem o (mix i) v) c obs_unit
  | LDel x i => o ← var x; call (delitem o (mix i)) c obs_unit
  | LRemoveFront x => o ← var x; call (remove_front o) c obs_unit
  | LRemoveEnd x => o ← var x; call (remove_end o) c obs_unit
  | LRemove x v all => o ← var x; call (remove o v all) c obs_unit
  | LClear x => o ← var x; call (clear o) c obs_unit
  | LRotate x d r => o ← var x; call (rotate_inplace o d r) c obs_unit
  | LRotated x d r => o ← var x; call (rotate_new o d r) c obs_new
  | LExtend x y => o ← var x; o' ← var y; call (extend o o') c obs_unit
  | LCopy x => o ← var x; call (copy o) c obs_new
  | LReverse x => o ← var x; call (reverse o) c obs_new
  | LSplit x i => o ← var x; call (split o (mix i)) c obs_new2
  | LGet x i => o ← var x; call (getitem o (mix i)) c obs_get
  | LContains x v => o ← var x; call (contains o v) c obs_bool
  | LCount x v => o ← var x; call (count o v) c obs_nat
  | LLen x => o ← var x; call (ll_len o) c obs_nat
  | LIsEmpty x => o ← var x; call (ll_is_empty o) c obs_bool
  | LToList x => o ← var x; call (to_list o) c (fun vs => (RVals vs, []))
  | LEq x y => o ← var x; o' ← var y; call (list_eq o o') c obs_bool
  | LNe x y => o ← var x; o' ← var y; call (list_ne o o') c obs_bool
  end.

Fixpoint model_run (k : lclass) (c : conf) (ops : list lop) : option (list lout * conf) :=
  match ops with
  | [] => Some ([], c)
  | op :: r =>
      '(o, c1) ← model_step k c op;
      '(os, c2) ← model_run k c1 r;
      Some (o :: os, c2)
  end.

(** The nodes met by following [f] at most [n] times from [p]. *)
Fixpoint follow (f : cell -> option loc) (h : list cell) (n : nat) (p : option loc) : list loc :=
  match n, p with
  | S n', Some l => l :: match h !! l with Some c => follow f h n' (f c) | None => [] end
  | _, _ => []
  end.
Definition data_at (h : list cell) (l : loc) : pyval :=
  match h !! l with Some c => c_data c | None => PNone end.
