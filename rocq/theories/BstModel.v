(** * Heap model of extra/trees/bst.py and of the node classes of its subclasses

    Nodes live in [t_nodes]; a reference is an index.  The object fields [_root] and
    [_length] are [t_root] and [t_len].  Virtual dispatch on the class of the tree (and of
    its nodes) is a [match] on [tcls].  Values are numbers (NaN excluded).  Functions that
    may warn return [true] when they do.  Every node created by a tree has the class of
    the tree, so the [isinstance] assertions hold and are omitted.
    Not modelled: __repr__ and the printing helpers. *)
From Verif Require Import Base TreeModel.
Local Open Scope py_scope.

Inductive tcls := CBST | CAVL | CSplay | CTreap | CRB.
Inductive color := Black | Red.
Global Instance color_eq_dec : EqDecision color.
Proof. solve_decision. Defined.

(** What a node stores besides its links: [_data]; [_height] (AVLNode), [_priority]
    (TreapNode) and [_color] (RedBlackNode) are only meaningful in those classes. *)
Record pay := Pay { p_val : num; p_height : nat; p_prio : num; p_color : color }.
(** bst.py:120-123 BSTNode, binary_tree.py:132-134. *)
Record cell := Cell { c_pay : pay; c_left : option nat; c_right : option nat; c_parent : option nat }.
Record tst := TSt { t_nodes : list cell; t_root : option nat; t_len : Z }.

Definition with_left (p : option nat) (c : cell) := Cell (c_pay c) p (c_right c) (c_parent c).
Definition with_right (p : option nat) (c : cell) := Cell (c_pay c) (c_left c) p (c_parent c).
Definition with_parent (p : option nat) (c : cell) := Cell (c_pay c) (c_left c) (c_right c) p.
Definition with_pay (x : pay) (c : cell) := Cell x (c_left c) (c_right c) (c_parent c).
Definition pay_height (h : nat) (x : pay) := Pay (p_val x) h (p_prio x) (p_color x).
Definition pay_color (k : color) (x : pay) := Pay (p_val x) (p_height x) (p_prio x) k.
Definition pay_val (v : num) (x : pay) := Pay v (p_height x) (p_prio x) (p_color x).

(** Reading and writing a node, allocating one, and the fields of the tree object. *)
Definition rd (i : nat) : M tst cell := fun s =>
  match t_nodes s !! i with Some c => Ok c s | None => Exc AttributeError s end.
Definition wr (i : nat) (f : cell -> cell) : M tst unit := fun s =>
  match t_nodes s !! i with
  | Some c => Ok tt (TSt (<[i := f c]> (t_nodes s)) (t_root s) (t_len s))
  | None => Exc AttributeError s
  end.
Definition alloc (c : cell) : M tst nat := fun s =>
  Ok (length (t_nodes s)) (TSt (t_nodes s ++ [c]) (t_root s) (t_len s)).
Definition get_root : M tst (option nat) := fun s => Ok (t_root s) s.
Definition set_root (p : option nat) : M tst unit := fun s => Ok tt (TSt (t_nodes s) p (t_len s)).
Definition get_len : M tst Z := fun s => Ok (t_len s) s.
Definition add_len (d : Z) : M tst unit := fun s => Ok tt (TSt (t_nodes s) (t_root s) (t_len s + d)).
(** An upper bound for the number of steps of a loop over the nodes. *)
Definition get_fuel : M tst nat := fun s => Ok (S (length (t_nodes s))) s.

(** binary_tree.py:151, 171, 191; bst.py:136. *)
Definition get_data (i : nat) : M tst num := let! c := rd i in ret (p_val (c_pay c)).
Definition get_left (i : nat) : M tst (option nat) := let! c := rd i in ret (c_left c).
Definition get_right (i : nat) : M tst (option nat) := let! c := rd i in ret (c_right c).
Definition get_parent (i : nat) : M tst (option nat) := let! c := rd i in ret (c_parent c).
(** bst.py:149. *)
Definition get_grand_parent (i : nat) : M tst (option nat) :=
  let! p := get_parent i in
  match p with Some j => get_parent j | None => ret None end.
(** bst.py:266: [self._parent.get_data() > self.get_data()]. *)
Definition is_left_child (i : nat) : M tst bool :=
  let! p := get_parent i in
  let! j := deref p in
  let! x := get_data j in
  let! y := get_data i in
  ret (num_ltb y x).
(** bst.py:162-172. *)
Definition get_uncle (i : nat) : M tst (option nat) :=
  let! p := get_parent i in
  match p with
  | None => ret None
  | Some j =>
      let! g := get_parent j in
      match g with
      | None => ret None
      | Some k => let! b := is_left_child j in if b then get_right k else get_left k
      end
  end.
(** bst.py:186-193. *)
Definition get_sibling (i : nat) : M tst (option nat) :=
  let! p := get_parent i in
  match p with
  | None => ret None
  | Some j => let! b := is_left_child i in if b then get_right j else get_left j
  end.
(** binary_tree.py:315, 211-216. *)
Definition node_is_leaf (i : nat) : M tst bool :=
  let! l := get_left i in
  let! r := get_right i in
  ret match l, r with None, None => true | _, _ => false end.

(** avl.py:87, 98-101, 112-115 (cached heights). *)
Definition get_height (i : nat) : M tst nat := let! c := rd i in ret (p_height (c_pay c)).
Definition height_of (p : option nat) : M tst nat :=
  match p with Some j => let! h := get_height j in ret (1 + h) | None => ret 0 end.
(** avl.py:128. *)
Definition get_children_heights (i : nat) : M tst (nat * nat) :=
  let! l := get_left i in
  let! hl := height_of l in
  let! r := get_right i in
  let! hr := height_of r in
  ret (hl, hr).
(** avl.py:146-150 (the argument is always a non-negative int). *)
Definition set_height (i : nat) (h : nat) : M tst unit := wr i (fun c => with_pay (pay_height h (c_pay c)) c).
(** avl.py:58, 76, 426: [max(self.get_children_heights())]. *)
Definition fix_height (i : nat) : M tst unit :=
  let! hs := get_children_heights i in set_height i (Nat.max (fst hs) (snd hs)).

(** bst.py:254. *)
Definition set_parent (i : nat) (p : option nat) : M tst unit := wr i (with_parent p).
(** bst.py:211-213, 232-234; avl.py:57-58, 75-76. *)
Definition set_left (c : tcls) (i : nat) (p : option nat) : M tst unit :=
  wr i (with_left p) ;;
  match p with Some j => set_parent j (Some i) | None => ret tt end ;;
  match c with CAVL => fix_height i | _ => ret tt end.
Definition set_right (c : tcls) (i : nat) (p : option nat) : M tst unit :=
  wr i (with_right p) ;;
  match p with Some j => set_parent j (Some i) | None => ret tt end ;;
  match c with CAVL => fix_height i | _ => ret tt end.
(** tree.py:307; red_black_tree.py:202-203 also exchanges the colours. *)
Definition swap (c : tcls) (i j : nat) : M tst unit :=
  let! x := rd i in
  let! y := rd j in
  let px := c_pay x in let py := c_pay y in
  wr i (fun z => with_pay (pay_val (p_val py) (c_pay z)) z) ;;
  wr j (fun z => with_pay (pay_val (p_val px) (c_pay z)) z) ;;
  match c with
  | CRB =>
      wr i (fun z => with_pay (pay_color (p_color py) (c_pay z)) z) ;;
      wr j (fun z => with_pay (pay_color (p_color px) (c_pay z)) z)
  | _ => ret tt
  end.

(** [self._basic_node(value)] (bst.py:120-123, avl.py:41, red_black_tree.py:84;
    for TreapNode with the given priority: treap.py:75-79). *)
Definition new_node (v pr : num) : M tst nat := alloc (Cell (Pay v 0 pr Red) None None None).
(** interface.py:10-33 and bst.py:379-381 _validate_item. *)
Definition check_number (v : pyval) : M tst num :=
  match v with PNum n => ret n | PNone => raise ValueError | _ => raise TypeError end.

(** bst.py:404, 426. *)
Definition bst_len : M tst Z := get_len.
Definition bst_is_empty : M tst bool := let! r := get_root in ret match r with None => true | Some _ => false end.

(** bst.py:455-458. *)
Fixpoint get_max_node (fuel : nat) (i : nat) : M tst nat :=
  match fuel with
  | 0 => diverge
  | S k => let! r := get_right i in
           match r with None => ret i | Some j => get_max_node k j end
  end.
(** bst.py:524-527. *)
Fixpoint get_min_node (fuel : nat) (i : nat) : M tst nat :=
  match fuel with
  | 0 => diverge
  | S k => let! l := get_left i in
           match l with None => ret i | Some j => get_min_node k j end
  end.
(** bst.py:489-494, 558-563. *)
Definition bst_get_max : M tst num :=
  let! r := get_root in
  match r with
  | None => raise IndexError
  | Some i => let! n := get_fuel in let! j := get_max_node n i in get_data j
  end.
Definition bst_get_min : M tst num :=
  let! r := get_root in
  match r with
  | None => raise IndexError
  | Some i => let! n := get_fuel in let! j := get_min_node n i in get_data j
  end.

(** bst.py:612-623. *)
Fixpoint search (fuel : nat) (v : num) (i : nat) : M tst nat :=
  match fuel with
  | 0 => diverge
  | S k =>
      let! x := get_data i in
      if bool_decide (v = x) then ret i
      else if num_ltb v x then
        let! l := get_left i in
        match l with Some j => search k v j | None => ret i end
      else
        let! r := get_right i in
        match r with Some j => search k v j | None => ret i end
  end.
(** [self._search(v, self._root)]; on an empty tree the first assertion (bst.py:609) fails. *)
Definition search_root (v : num) : M tst nat :=
  let! r := get_root in
  match r with
  | None => raise AssertionError
  | Some i => let! n := get_fuel in search n v i
  end.
(** bst.py:657-660. *)
Definition bst_contains (v : pyval) : M tst bool :=
  let! e := bst_is_empty in
  if e then ret false
  else match v with
       | PNum x => let! i := search_root x in let! d := get_data i in ret (bool_decide (d = x))
       | _ => ret false
       end.

(** bst.py:694-713: the node returned, and whether it warned. *)
Fixpoint insert_node (fuel : nat) (c : tcls) (i new : nat) : M tst (bool * nat) :=
  match fuel with
  | 0 => diverge
  | S k =>
      let! v := get_data new in
      let! x := get_data i in
      if bool_decide (v = x) then ret (true, i)
      else if num_ltb v x then
        let! l := get_left i in
        match l with
        | Some j => insert_node k c j new
        | None => set_left c i (Some new) ;; add_len 1 ;; ret (false, new)
        end
      else
        let! r := get_right i in
        match r with
        | Some j => insert_node k c j new
        | None => set_right c i (Some new) ;; add_len 1 ;; ret (false, new)
        end
  end.
(** bst.py:743-744, 766-774 ([insert] passes a number, so the last branch). *)
Definition insert_value (c : tcls) (v pr : num) : M tst (bool * nat) :=
  let! new := new_node v pr in
  let! r := get_root in
  let! i := deref r in
  let! n := get_fuel in
  insert_node n c i new.
(** bst.py:806-811. *)
Definition bst_insert (v : pyval) : M tst bool :=
  let! x := check_number v in
  let! e := bst_is_empty in
  if e then let! i := new_node x (Fin 0) in set_root (Some i) ;; add_len 1 ;; ret false
  else let! r := insert_value CBST x (Fin 0) in ret (fst r).

(** bst.py:853-862. *)
Definition find_replacement (i : nat) : M tst (option nat) :=
  let! r := get_right i in
  match r with
  | Some j => let! n := get_fuel in let! k := get_min_node n j in ret (Some k)
  | None =>
      let! l := get_left i in
      match l with
      | Some j => let! n := get_fuel in let! k := get_max_node n j in ret (Some k)
      | None => ret None
      end
  end.
(** bst.py:887-902. *)
Fixpoint transplant (fuel : nat) (c : tcls) (node : nat) (replacement : option nat) : M tst unit :=
  match fuel with
  | 0 => diverge
  | S k =>
      match replacement with
      | None =>
          let! p := get_parent node in
          let! j := deref p in
          let! l := get_left j in
          if bool_decide (l = Some node) then set_left c j None else set_right c j None
      | Some r =>
          let! leaf := node_is_leaf r in
          let! new_replacement :=
            (if leaf then ret None
             else let! l := get_left r in
                  match l with Some _ => ret l | None => get_right r end) in
          swap c node r ;;
          transplant k c r new_replacement
      end
  end.
(** bst.py:957-979: whether it warned, and the last accessed node. *)
Definition remove_value (c : tcls) (v : num) : M tst (bool * option nat) :=
  let! i := search_root v in
  let! d := get_data i in
  if negb (bool_decide (d = v)) then ret (true, Some i)
  else
    let! rep := find_replacement i in
    let! parent := (match rep with None => get_parent i | Some r => get_parent r end) in
    let! n := get_fuel in
    transplant (S n) c i rep ;;
    add_len (-1) ;;
    ret (false, parent).
(** The guards shared by the [remove] methods: bst.py:1019-1031, splay_tree.py:487-499,
    treap.py:533-545, red_black_tree.py:844-856; [rest] is what follows. *)
Definition remove_with (v : pyval) (rest : num -> M tst bool) : M tst bool :=
  let! r := get_root in
  match r with
  | None => ret true
  | Some i =>
      match v with
      | PNum x =>
          let! leaf := node_is_leaf i in
          let! d := get_data i in
          if leaf && bool_decide (x = d) then set_root None ;; add_len (-1) ;; ret false
          else rest x
      | _ => ret true
      end
  end.
(** bst.py:1019-1033. *)
Definition bst_remove (v : pyval) : M tst bool :=
  remove_with v (fun x => let! r := remove_value CBST x in ret (fst r)).
(** tree.py:1179 (through bst.py:1056): __init__ again. *)
Definition bst_clear : M tst unit := fun s => Ok tt (TSt (t_nodes s) None 0).

(** ** Rotations *)
(** bst.py:1096-1100. *)
Definition rotate_left (c : tcls) (start : nat) : M tst nat :=
  let! m := get_right start in
  let! middle := deref m in
  let! p := get_parent start in
  set_parent middle p ;;
  let! ml := get_left middle in
  set_right c start ml ;;
  set_left c middle (Some start) ;;
  ret middle.
(** bst.py:1139-1143. *)
Definition rotate_right (c : tcls) (start : nat) : M tst nat :=
  let! m := get_left start in
  let! middle := deref m in
  let! p := get_parent start in
  set_parent middle p ;;
  let! mr := get_right middle in
  set_left c start mr ;;
  set_right c middle (Some start) ;;
  ret middle.
(** bst.py:1183-1189. *)
Definition rotate_left_right (c : tcls) (start : nat) : M tst nat :=
  let! l := get_left start in
  let! lft := deref l in
  let! m := get_right lft in
  let! middle := deref m in
  let! p := get_parent start in
  set_parent middle p ;;
  let! l1 := get_left start in
  let! lft1 := deref l1 in
  let! ml := get_left middle in
  set_right c lft1 ml ;;
  let! l2 := get_left start in
  set_left c middle l2 ;;
  let! mr := get_right middle in
  set_left c start mr ;;
  set_right c middle (Some start) ;;
  ret middle.
(** bst.py:1229-1235. *)
Definition rotate_right_left (c : tcls) (start : nat) : M tst nat :=
  let! r := get_right start in
  let! rgt := deref r in
  let! m := get_left rgt in
  let! middle := deref m in
  let! p := get_parent start in
  set_parent middle p ;;
  let! r1 := get_right start in
  let! rgt1 := deref r1 in
  let! mr := get_right middle in
  set_left c rgt1 mr ;;
  let! r2 := get_right start in
  set_right c middle r2 ;;
  let! ml := get_left middle in
  set_right c start ml ;;
  set_left c middle (Some start) ;;
  ret middle.
(** bst.py:1259-1265. *)
Definition attach (c : tcls) (parent : option nat) (child : nat) : M tst unit :=
  match parent with
  | None => set_root (Some child)
  | Some p =>
      let! x := get_data p in
      let! y := get_data child in
      if num_ltb y x then set_left c p (Some child) else set_right c p (Some child)
  end.

(** ** Reading *)
(** The tree reached from [_root] through the child references: what the methods
    inherited from BinaryTree (modelled in TreeModel.v) run on. *)
Fixpoint snapshot (fuel : nat) (p : option nat) : M tst (bin pay) :=
  match p with
  | None => ret Nil
  | Some i =>
      match fuel with
      | 0 => diverge
      | S k =>
          let! c := rd i in
          let! l := snapshot k (c_left c) in
          let! r := snapshot k (c_right c) in
          ret (Bin l (c_pay c) r)
      end
  end.
Definition tree_pays : M tst (bin pay) :=
  let! r := get_root in let! n := get_fuel in snapshot n r.
Fixpoint bin_map {A B} (f : A -> B) (t : bin A) : bin B :=
  match t with Nil => Nil | Bin l x r => Bin (bin_map f l) (f x) (bin_map f r) end.
(** The values in the nodes. *)
Definition tree_vals : M tst (bin num) := let! t := tree_pays in ret (bin_map p_val t).

(** [BST()] etc. *)
Definition tst0 : tst := TSt [] None 0.
