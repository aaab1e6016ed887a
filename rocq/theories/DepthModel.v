(** * The search trees under Python's recursion limit

    The recursive methods of bst.py with a bound [L] on the number of nested activations,
    and the public methods that call them.  [L] is what is left of the interpreter's
    recursion limit when the public method is called, less the (constant) number of
    non-recursive calls around and below the recursion; it may differ from call to call,
    because the program may call from different depths.  An activation that does not fit
    raises RecursionError before it has done anything: the first thing each of them calls
    ([get_data] or [is_leaf], two frames) is also the deepest.  The last activation of
    [_transplant] (no replacement) needs one frame less than the others, and always fits.
    Simplifications: a node that was created and never linked is dropped at once when the
    exception leaves [insert]; [__splaying] and [__recolor], whose nesting is at most half
    of that of the search before them, and the read-only methods other than [traverse] are
    not bounded; nor are the frames of [warnings.warn]. *)
From Verif Require Import Base TreeModel BstModel BalModel.
Local Open Scope py_scope.

(** bst.py:455-458. *)
Fixpoint get_max_node_l (L : nat) (i : nat) : M tst nat :=
  match L with
  | 0 => raise RecursionError
  | S k => let! r := get_right i in
           match r with None => ret i | Some j => get_max_node_l k j end
  end.
(** bst.py:524-527. *)
Fixpoint get_min_node_l (L : nat) (i : nat) : M tst nat :=
  match L with
  | 0 => raise RecursionError
  | S k => let! l := get_left i in
           match l with None => ret i | Some j => get_min_node_l k j end
  end.
(** bst.py:489-494, 558-563. *)
Definition get_max_l (L : nat) : M tst num :=
  let! r := get_root in
  match r with
  | None => raise IndexError
  | Some i => let! j := get_max_node_l L i in get_data j
  end.
Definition get_min_l (L : nat) : M tst num :=
  let! r := get_root in
  match r with
  | None => raise IndexError
  | Some i => let! j := get_min_node_l L i in get_data j
  end.

(** bst.py:612-623. *)
Fixpoint search_l (L : nat) (v : num) (i : nat) : M tst nat :=
  match L with
  | 0 => raise RecursionError
  | S k =>
      let! x := get_data i in
      if bool_decide (v = x) then ret i
      else if num_ltb v x then
        let! l := get_left i in
        match l with Some j => search_l k v j | None => ret i end
      else
        let! r := get_right i in
        match r with Some j => search_l k v j | None => ret i end
  end.
(** [self._search(v, self._root)]. *)
Definition search_root_l (L : nat) (v : num) : M tst nat :=
  let! r := get_root in
  match r with
  | None => raise AssertionError
  | Some i => search_l L v i
  end.
(** bst.py:657-660; splay_tree.py:393-396. *)
Definition contains_l (L : nat) (c : tcls) (v : pyval) : M tst bool :=
  match c with
  | CSplay =>
      let! x := check_number v in
      let! i := search_root_l L x in
      splay i ;;
      let! d := get_data i in
      ret (bool_decide (d = x))
  | _ =>
      let! e := bst_is_empty in
      if e then ret false
      else match v with
           | PNum x => let! i := search_root_l L x in let! d := get_data i in ret (bool_decide (d = x))
           | _ => ret false
           end
  end.

(** bst.py:694-713. *)
Fixpoint insert_node_l (L : nat) (c : tcls) (i new : nat) : M tst (bool * nat) :=
  match L with
  | 0 => raise RecursionError
  | S k =>
      let! v := get_data new in
      let! x := get_data i in
      if bool_decide (v = x) then ret (true, i)
      else if num_ltb v x then
        let! l := get_left i in
        match l with
        | Some j => insert_node_l k c j new
        | None => set_left c i (Some new) ;; add_len 1 ;; ret (false, new)
        end
      else
        let! r := get_right i in
        match r with
        | Some j => insert_node_l k c j new
        | None => set_right c i (Some new) ;; add_len 1 ;; ret (false, new)
        end
  end.
(** The node [new] created last is dropped when [m] is left by RecursionError. *)
Definition or_drop {A} (new : nat) (m : M tst A) : M tst A := fun s =>
  match m s with
  | Exc RecursionError s' => Exc RecursionError (TSt (take new (t_nodes s')) (t_root s') (t_len s'))
  | r => r
  end.
(** bst.py:743-744, 766-774. *)
Definition insert_value_l (L : nat) (c : tcls) (v pr : num) : M tst (bool * nat) :=
  let! new := new_node v pr in
  let! r := get_root in
  let! i := deref r in
  or_drop new (insert_node_l L c i new).
(** bst.py:806-811; avl.py:421-431; splay_tree.py:444-450; treap.py:470-493;
    red_black_tree.py:573-584. *)
Definition insert_l (L : nat) (c : tcls) (v : pyval) (p : prio) : M tst bool :=
  let! x := check_number v in
  let! pr := (match c with CTreap => check_prio p | _ => ret (Fin 0) end) in
  let! e := bst_is_empty in
  if e then
    let! i := new_node x pr in
    set_root (Some i) ;;
    (match c with CRB => set_color i Black | _ => ret tt end) ;;
    add_len 1 ;;
    ret false
  else
    let! r := insert_value_l L c x pr in
    match c with
    | CBST => ret (fst r)
    | CAVL =>
        let! p := get_parent (snd r) in
        let! n := get_fuel in
        avl_up n p ;;
        ret (fst r)
    | CSplay => splay (snd r) ;; ret (fst r)
    | CTreap =>
        let! q := get_parent (snd r) in
        let! n := get_fuel in
        treap_up n q (snd r) ;;
        ret (fst r)
    | CRB =>
        let! n := get_fuel in
        let! root := recolor n (snd r) in
        set_root root ;;
        let! i := deref root in
        set_color i Black ;;
        ret (fst r)
    end.

(** bst.py:853-862. *)
Definition find_replacement_l (L : nat) (i : nat) : M tst (option nat) :=
  let! r := get_right i in
  match r with
  | Some j => let! k := get_min_node_l L j in ret (Some k)
  | None =>
      let! l := get_left i in
      match l with
      | Some j => let! k := get_max_node_l L j in ret (Some k)
      | None => ret None
      end
  end.
(** bst.py:887-902. *)
Fixpoint transplant_l (L : nat) (c : tcls) (node : nat) (replacement : option nat) : M tst unit :=
  match replacement with
  | None =>
      let! p := get_parent node in
      let! j := deref p in
      let! l := get_left j in
      if bool_decide (l = Some node) then set_left c j None else set_right c j None
  | Some r =>
      match L with
      | 0 => raise RecursionError
      | S k =>
          let! leaf := node_is_leaf r in
          let! new_replacement :=
            (if leaf then ret None
             else let! l := get_left r in
                  match l with Some _ => ret l | None => get_right r end) in
          swap c node r ;;
          transplant_l k c r new_replacement
      end
  end.
(** bst.py:957-979. *)
Definition remove_value_l (L : nat) (c : tcls) (v : num) : M tst (bool * option nat) :=
  let! i := search_root_l L v in
  let! d := get_data i in
  if negb (bool_decide (d = v)) then ret (true, Some i)
  else
    let! rep := find_replacement_l L i in
    let! parent := (match rep with None => get_parent i | Some r => get_parent r end) in
    transplant_l L c i rep ;;
    add_len (-1) ;;
    ret (false, parent).
(** red_black_tree.py:634-656. *)
Definition rb_find_replacement_l (L : nat) (i : nat) : M tst (option nat) :=
  let! leaf := node_is_leaf i in
  if leaf then ret None
  else
    let! r := get_right i in
    let! successor := (match r with
                       | Some j => let! k := get_min_node_l L j in ret (Some k)
                       | None => ret None
                       end) in
    let! l := get_left i in
    let! predecessor := (match l with
                         | Some j => let! k := get_max_node_l L j in ret (Some k)
                         | None => ret None
                         end) in
    let! cs := color_of successor in
    let! cp := color_of predecessor in
    ret (if is_red cs then successor
         else if is_red cp then predecessor
         else match successor with Some _ => successor | None => predecessor end).
(** bst.py:1019-1033; avl.py:524-535; splay_tree.py:487-502; treap.py:533-585;
    red_black_tree.py:844-920. *)
Definition remove_l (L : nat) (c : tcls) (v : pyval) : M tst bool :=
  match c with
  | CBST => remove_with v (fun x => let! r := remove_value_l L CBST x in ret (fst r))
  | CAVL =>
      remove_with v (fun x =>
        let! length_before := get_len in
        let! r := remove_value_l L CAVL x in
        let! length_after := get_len in
        if Z.eqb length_after length_before then ret (fst r)
        else
          let! n := get_fuel in
          avl_up n (snd r) ;;
          ret (fst r))
  | CSplay =>
      remove_with v (fun x =>
        let! r := remove_value_l L CSplay x in
        match snd r with
        | Some i => splay i ;; ret (fst r)
        | None => raise AssertionError
        end)
  | CTreap =>
      remove_with v (fun x =>
        let! i := search_root_l L x in
        let! d := get_data i in
        if negb (bool_decide (d = x)) then ret true
        else
          let! p := get_parent i in
          let! n := get_fuel in
          let! pr := treap_down n p i in
          let! b := is_left_child (snd pr) in
          let! q := deref (fst pr) in
          (if b then set_left CTreap q None else set_right CTreap q None) ;;
          add_len (-1) ;;
          ret false)
  | CRB =>
      remove_with v (fun x =>
        let! i := search_root_l L x in
        let! d := get_data i in
        if negb (bool_decide (d = x)) then ret true
        else
          let! rep := rb_find_replacement_l L i in
          let! ci := get_color i in
          let! cr := color_of rep in
          match ci, rep, cr with
          | Red, None, _ | Red, Some _, Red => transplant_l L CRB i rep
          | Red, Some _, Black => raise ValueError
          | Black, None, _ =>
              let! p := get_parent i in
              transplant_l L CRB i None ;;
              let! parent := deref p in
              let! l := get_left parent in
              let! db := (match l with None => ret l | Some _ => get_right parent end) in
              handle_double_black parent db
          | Black, Some r, Black =>
              let! p := get_parent r in
              transplant_l L CRB i rep ;;
              let! parent := deref p in
              let! y := get_data r in
              let! x' := get_data parent in
              let! db := (if num_ltb y x' then get_left parent else get_right parent) in
              handle_double_black parent db
          | Black, Some r, Red =>
              set_color r Black ;;
              transplant_l L CRB i rep
          end ;;
          add_len (-1) ;;
          ret false)
  end.

(** binary_tree.py:958-969, 1030-1041, 1069-1080: [None] is a RecursionError. *)
Fixpoint preorder_l {A} (L : nat) (t : bin A) : option (list A) :=
  match t, L with
  | Nil, _ => Some []
  | Bin _ _ _, 0 => None
  | Bin l d r, S k =>
      match preorder_l k l, preorder_l k r with
      | Some x, Some y => Some ([d] ++ x ++ y)
      | _, _ => None
      end
  end.
Fixpoint postorder_l {A} (L : nat) (t : bin A) : option (list A) :=
  match t, L with
  | Nil, _ => Some []
  | Bin _ _ _, 0 => None
  | Bin l d r, S k =>
      match postorder_l k l, postorder_l k r with
      | Some x, Some y => Some (x ++ y ++ [d])
      | _, _ => None
      end
  end.
Fixpoint inorder_l {A} (L : nat) (t : bin A) : option (list A) :=
  match t, L with
  | Nil, _ => Some []
  | Bin _ _ _, 0 => None
  | Bin l d r, S k =>
      match inorder_l k l, inorder_l k r with
      | Some x, Some y => Some (x ++ [d] ++ y)
      | _, _ => None
      end
  end.
(** binary_tree.py:1190-1209; the breadth-first traversal is a loop. *)
Definition or_deep {A} (r : option (list A)) : exn + option (list A) :=
  match r with Some l => inr (Some l) | None => inl RecursionError end.
Definition traverse_l {A} (L : nat) (t : bin A) (method : pyval) : exn + option (list A) :=
  match method with
  | PStr m =>
      let m := lower m in
      if bool_decide (m = s_inorder) then or_deep (inorder_l L t)
      else if bool_decide (m = s_postorder) then or_deep (postorder_l L t)
      else if bool_decide (m = s_preorder) || bool_decide (m = s_depth_first) then or_deep (preorder_l L t)
      else if bool_decide (m = s_breadth_first) then inr (breadth_first_traverse t)
      else inl ValueError
  | _ => inl TypeError
  end.

(** A call with [L] activations to spend, and histories of such calls. *)
Definition exec_l (c : tcls) (L : nat) (o : top) : M tst tout :=
  match o with
  | TInsert v p => let! w := insert_l L c v p in ret (OUnit w)
  | TRemove v => let! w := remove_l L c v in ret (OUnit w)
  | TContains v => let! b := contains_l L c v in ret (OBool b)
  | TGetMin => let! x := get_min_l L in ret (OVal x)
  | TGetMax => let! x := get_max_l L in ret (OVal x)
  | TTraverse m =>
      let! t := tree_vals in
      match traverse_l L t m with
      | inl e => raise e
      | inr (Some l) => ret (OVals l)
      | inr None => diverge
      end
  | _ => exec c o
  end.
Definition call_l (c : tcls) (Lo : nat * top) (s : tst) : option (tout * tst) :=
  match exec_l c (fst Lo) (snd Lo) s with
  | Ok r s' => Some (r, s')
  | Exc e s' => Some (ORaise e, s')
  | Diverge => None
  end.
Fixpoint calls_l (c : tcls) (os : list (nat * top)) (s : tst) : option (list tout * tst) :=
  match os with
  | [] => Some ([], s)
  | o :: os' =>
      match call_l c o s with
      | Some (r, s1) =>
          match calls_l c os' s1 with
          | Some (rs, s2) => Some (r :: rs, s2)
          | None => None
          end
      | None => None
      end
  end.
Definition history_l (c : tcls) (os : list (nat * top)) : option (list tout * tst) := calls_l c os tst0.
