(** * Model of extra/lists/skip_list.py

    A SkipList is built from nodes with a [_down] reference and from LinkedList objects: both
    are those of ListModel.v (the nodes here are SkipNodes, their [c_down] is used).  The
    Python list [_level_lists] is an object of its own, since SkipList(other) shares it.
    Printing is in SkipDrawModel.v. *)
From Verif Require Import Base ListModel.
Local Open Scope py_scope.

(** skip_list.py:290-307.  [k_lls]: the Python lists of LinkedLists; [k_sls]: the SkipLists,
    as a reference to their [_level_lists] and their [_num_levels]. *)
Record kst := KSt { k_st : st; k_lls : list (list oid); k_sls : list (nat * nat) }.
Definition kst0 : kst := KSt st0 [] [].

(** Code that only touches nodes and LinkedLists. *)
Definition lift {A} (m : M st A) : M kst A := fun s =>
  match m (k_st s) with
  | Ok a s' => Ok a (KSt s' (k_lls s) (k_sls s))
  | Exc e s' => Exc e (KSt s' (k_lls s) (k_sls s))
  | Diverge => Diverge
  end.
Definition get_sl (self : nat) : M kst (nat * nat) := fun s =>
  match k_sls s !! self with Some p => Ok p s | None => Exc AttributeError s end.
Definition put_sl (self : nat) (p : nat * nat) : M kst unit := fun s =>
  Ok tt (KSt (k_st s) (k_lls s) (<[self := p]> (k_sls s))).
Definition get_lls (r : nat) : M kst (list oid) := fun s =>
  match k_lls s !! r with Some l => Ok l s | None => Exc AttributeError s end.
Definition put_lls (r : nat) (l : list oid) : M kst unit := fun s =>
  Ok tt (KSt (k_st s) (<[r := l]> (k_lls s)) (k_sls s)).
Definition new_lls (l : list oid) : M kst nat := fun s =>
  Ok (length (k_lls s)) (KSt (k_st s) (k_lls s ++ [l]) (k_sls s)).
(** Bound on the steps of the pointer-chasing loops: the number of nodes. *)
Definition get_fuel : M st nat := fun s => Ok (S (length (s_nodes s))) s.

Definition num_levels (self : nat) : M kst nat := let! p := get_sl self in ret p.2.
(** [self._level_lists[i]] for a natural number [i]. *)
Definition level_list (self : nat) (i : nat) : M kst oid :=
  let! p := get_sl self in
  let! l := get_lls p.1 in
  match l !! i with Some o => ret o | None => raise IndexError end.

(** skip_list.py:114-134 SkipNode(item). *)
Definition new_skip_node (v : pyval) : M st loc :=
  match v with
  | PNum x => alloc_cell (Cell false (PNum x) None None (Fin 0) None)
  | _ => raise (match v with PNone => ValueError | _ => TypeError end)
  end.
(** skip_list.py:136-164 get_down / set_down. *)
Definition get_down (l : loc) : M st (option loc) := let! c := get_cell l in ret (c_down c).
Definition set_down (l : loc) (d : option loc) : M st unit :=
  match d with
  | Some x => let! c := get_cell l in put_cell l (upd_down c (Some x))
  | None => raise TypeError
  end.

(** [a <= b] on the data of nodes. *)
Definition py_leb (a b : pyval) : M st bool :=
  match a, b with PNum x, PNum y => ret (num_leb x y) | _, _ => raise TypeError end.
(** skip_list.py:74-106 search_sorted. *)
Fixpoint search_sorted (fuel : nat) (prev : option loc) (curr : loc) (v : pyval) : M st (option loc * loc) :=
  match fuel with
  | 0 => diverge
  | S f =>
      let! nx := get_next curr in
      match nx with
      | None => ret (prev, curr)
      | Some n =>
          let! d := get_data n in
          let! le := py_leb d v in
          if le then search_sorted f (Some curr) n v else ret (prev, curr)
      end
  end.
(** skip_list.py:702-712, the loop of [_search] from [start]; [n] is [_num_levels]. *)
Fixpoint search_loop (fuel : nat) (n : nat) (prev : option loc) (start : loc) (v : pyval) (acc : list loc) : M st (option loc * loc * list loc) :=
  match fuel with
  | 0 => diverge
  | S f =>
      let! fu := get_fuel in
      let! down := get_down start in
      match down with
      | None =>
          let! r := search_sorted fu prev start v in
          py_assert (Nat.eqb (length acc) (n - 1)) ;;
          ret (r.1, r.2, rev acc)
      | Some _ =>
          let! r := search_sorted fu prev start v in
          let! d := get_data r.2 in
          if py_eq d v then ret (r.1, r.2, acc)
          else
            let! start' := get_down r.2 in
            let! prev' := (match r.1 with Some p => get_down p | None => ret None end) in
            let! start'' := deref start' in
            search_loop f n prev' start'' v (acc ++ [r.2])
      end
  end.
(** skip_list.py:645-712 _search. *)
Definition search (self : nat) (v : pyval) : M kst (option loc * loc * list loc) :=
  let! n := num_levels self in
  let! top := level_list self (n - 1) in
  lift (let! o := get_obj top in
        let! start := deref (o_head o) in
        let! fu := get_fuel in
        search_loop fu n None start v []).

(** skip_list.py:567-586 _validate_item. *)
Definition check_num (v : pyval) : M kst num :=
  match v with PNum x => ret x | PNone => raise ValueError | _ => raise TypeError end.

(** skip_list.py:714-750 __contains__. *)
Definition sl_contains (self : nat) (v : pyval) : M kst bool :=
  match v with
  | PNum _ =>
      let! r := search self v in
      let! d := lift (get_data r.1.2) in
      ret (py_eq d v)
  | _ => ret false
  end.

(** skip_list.py:292-295 and 302-305: a LinkedList holding -inf only. *)
Definition new_level : M st oid :=
  let! ll := create_instance CLL in
  let! nd := new_skip_node (PNum NegInf) in
  let! o := get_obj ll in
  insert_node ll (o_head o) nd ;;
  ret ll.
(** skip_list.py:806-826 _add_extra_level. *)
Definition add_extra_level (self : nat) : M kst oid :=
  let! n := num_levels self in
  let! top := level_list self (n - 1) in
  let! ll := lift new_level in
  lift (let! o := get_obj ll in
        let! h := deref (o_head o) in
        let! t := get_obj top in
        set_down h (o_head t)) ;;
  let! p := get_sl self in
  let! l := get_lls p.1 in
  put_lls p.1 (l ++ [ll]) ;;
  put_sl self (p.1, S p.2) ;;
  ret ll.
(** skip_list.py:828-859 _promote. *)
Definition promote (self : nat) (upper_prev : loc) (curr : loc) (level : nat) : M kst loc :=
  let! n := num_levels self in
  py_assert (Nat.ltb level n) ;;
  let! nd := lift (let! d := get_data curr in new_skip_node d) in
  let! up := level_list self (S level) in
  lift (let! u := insert_node up (Some upper_prev) nd in
        set_down u (Some curr) ;;
        ret u).
(** skip_list.py:911-920.  The loop flips a coin before each round and stops at the first
    tail: [heads] is the number of heads before it. *)
Fixpoint promote_loop (self : nat) (heads : nat) (last : list loc) (curr : loc) (level : nat) : M kst unit :=
  match heads with
  | 0 => ret tt
  | S h =>
      let! n := num_levels self in
      let! up := (if Nat.leb (n - 1) level then
                    let! ll := add_extra_level self in
                    lift (let! o := get_obj ll in deref (o_head o))
                  else match last !! level with Some x => ret x | None => raise IndexError end) in
      let! curr' := promote self up curr level in
      promote_loop self h last curr' (S level)
  end.
(** skip_list.py:861-920 insert. *)
Definition sl_insert (self : nat) (v : pyval) (heads : nat) : M kst unit :=
  let! x := check_num v in
  let! r := search self v in
  let! d := lift (get_data r.1.2) in
  if py_eq d v then ret tt
  else
    let! nd := lift (new_skip_node v) in
    let! l0 := level_list self 0 in
    let! curr := lift (insert_node l0 (Some r.1.2) nd) in
    promote_loop self heads r.2 curr 0.

(** skip_list.py:923-945 _remove_level. *)
Definition remove_level (self : nat) (level : nat) : M kst unit :=
  let! p := get_sl self in
  py_assert (Nat.leb 1 level && Nat.ltb level p.2) ;;
  let! l := get_lls p.1 in
  put_lls p.1 (take level l ++ drop (S level) l) ;;
  put_sl self (p.1, p.2 - 1).
(** skip_list.py:1001-1004: walk until the next node holds [d]. *)
Fixpoint catch_up (fuel : nat) (prev : loc) (d : pyval) : M st loc :=
  match fuel with
  | 0 => diverge
  | S f =>
      let! nx := get_next prev in
      let! n := deref nx in
      let! d' := get_data n in
      if py_eq d' d then ret prev else catch_up f n d
  end.
(** skip_list.py:990-1004, from level [k - 1] down. *)
Fixpoint remove_loop (self : nat) (k : nat) (prev found : option loc) : M kst unit :=
  match k with
  | 0 => ret tt
  | S level =>
      let! o := level_list self level in
      let! fnd := (match found with Some f => ret f | None => raise AssertionError end) in
      lift (remove_node o prev fnd) ;;
      let! n := lift (ll_len o) in
      (if negb (Nat.eqb level 0) && Nat.eqb n 1 then remove_level self level else ret tt) ;;
      let! found' := lift (get_down fnd) in
      let! prev' := (match prev, found' with
                     | Some p, Some f =>
                         lift (let! pd := get_down p in
                               let! pd' := deref pd in
                               let! d := get_data f in
                               let! fu := get_fuel in
                               let! q := catch_up fu pd' d in
                               ret (Some q))
                     | _, _ => ret prev
                     end) in
      remove_loop self level prev' found'
  end.
(** skip_list.py:947-1004 remove. *)
Definition sl_remove (self : nat) (v : pyval) : M kst unit :=
  match v with
  | PNum _ =>
      let! r := search self v in
      let! d := lift (get_data r.1.2) in
      if py_eq d v then
        let! n := num_levels self in
        remove_loop self (n - length r.2) r.1.1 (Some r.1.2)
      else ret tt
  | _ => ret tt
  end.

(** skip_list.py:477-519 __len__, is_empty. *)
Definition sl_len (self : nat) : M kst nat :=
  let! o := level_list self 0 in
  let! n := lift (ll_len o) in
  ret (n - 1).
(** skip_list.py:588-643 _validate_index, with the default arguments. *)
Definition sl_check_index (self : nat) (idx : pyidx) : M kst nat :=
  match idx with
  | ISlice _ _ _ => raise IndexError
  | IOther => raise TypeError
  | IInt z =>
      if Z.leb z (-1) then raise IndexError
      else
        let! n := sl_len self in
        if Z.ltb z (- Z.of_nat n) || Z.leb (Z.of_nat n) z then raise IndexError
        else ret (Z.to_nat z)
  end.
(** skip_list.py:752-803 __getitem__. *)
Definition sl_getitem (self : nat) (idx : pyidx) : M kst pyval :=
  let! i := sl_check_index self idx in
  let! o := level_list self 0 in
  let! g := lift (getitem o (IInt (Z.of_nat i + 1))) in
  match g with GVal v => ret v | GList _ => raise TypeError (* not for an integer index *) end.
(** skip_list.py:1006-1056 __delitem__. *)
Definition sl_delitem (self : nat) (idx : pyidx) : M kst unit :=
  let! i := sl_check_index self idx in
  let! o := level_list self 0 in
  let! d := lift (let! pc := get_node o (S i) in
                  let! n := deref pc.2 in
                  get_data n) in
  sl_remove self d.
(** skip_list.py:543-564 __iter__, 1085-1114 to_list. *)
Definition sl_to_list (self : nat) : M kst (list pyval) :=
  let! o := level_list self 0 in
  let! g := lift (getitem o (ISlice (Some 1%Z) None None)) in
  match g with GList c => lift (to_list c) | GVal _ => raise TypeError (* not for a slice *) end.

(** skip_list.py:230-307 __init__(): [self] gets a new list of levels. *)
Definition sl_init (self : nat) : M kst unit :=
  let! ll := lift new_level in
  let! r := new_lls [ll] in
  put_sl self (r, 1).
Definition alloc_sl : M kst nat := fun s =>
  Ok (length (k_sls s)) (KSt (k_st s) (k_lls s) (k_sls s ++ [(0, 0)])).
(** SkipList() *)
Definition sl_new : M kst nat := let! self := alloc_sl in sl_init self ;; ret self.
(** skip_list.py:298-300, SkipList(other): both now refer to the same Python list. *)
Definition sl_copy (other : nat) : M kst nat :=
  let! self := alloc_sl in
  let! p := get_sl other in
  put_sl self p ;;
  ret self.
(** skip_list.py:1058-1082 clear. *)
Definition sl_clear (self : nat) : M kst unit := sl_init self.

(** ** Histories of calls on SkipLists held in variables 0, 1, ... *)
Inductive skop :=
| KInsert (v : pyval) (heads : nat)
| KRemove (v : pyval)
| KContains (v : pyval)
| KGet (i : pyidx)
| KDel (i : pyidx)
| KLen
| KIsEmpty
| KHeight
| KToList
| KClear.
Inductive skout :=
| KUnit
| KBool (b : bool)
| KNat (n : nat)
| KVal (v : pyval)
| KVals (vs : list pyval)
| KExc (e : exn).
Definition kexec (self : nat) (o : skop) : M kst skout :=
  match o with
  | KInsert v h => sl_insert self v h ;; ret KUnit
  | KRemove v => sl_remove self v ;; ret KUnit
  | KContains v => let! b := sl_contains self v in ret (KBool b)
  | KGet i => let! v := sl_getitem self i in ret (KVal v)
  | KDel i => sl_delitem self i ;; ret KUnit
  | KLen => let! n := sl_len self in ret (KNat n)
  | KIsEmpty => let! n := sl_len self in ret (KBool (Nat.eqb n 0))
  | KHeight => let! n := num_levels self in ret (KNat n)
  | KToList => let! vs := sl_to_list self in ret (KVals vs)
  | KClear => sl_clear self ;; ret KUnit
  end.
(** A call as its caller sees it: an exception is an outcome, and the object lives on. *)
Definition kcall (self : nat) (o : skop) (s : kst) : option (skout * kst) :=
  match kexec self o s with
  | Ok r s' => Some (r, s')
  | Exc e s' => Some (KExc e, s')
  | Diverge => None
  end.
Fixpoint kcalls (os : list (nat * skop)) (s : kst) : option (list skout * kst) :=
  match os with
  | [] => Some ([], s)
  | o :: os' =>
      match kcall o.1 o.2 s with
      | Some (r, s1) =>
          match kcalls os' s1 with
          | Some (rs, s2) => Some (r :: rs, s2)
          | None => None
          end
      | None => None
      end
  end.
(** The results of a history on a new SkipList. *)
Definition khistory (os : list skop) : option (list skout * kst) :=
  match sl_new kst0 with
  | Ok self s => kcalls (map (pair self) os) s
  | _ => None
  end.
