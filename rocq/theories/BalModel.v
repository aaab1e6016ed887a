(** * Heap model of extra/trees/avl.py, splay_tree.py, treap.py and red_black_tree.py,
      and histories of calls on the five search trees

    The nodes, [BST]'s own methods and the rotations are in BstModel.v.  Methods not
    mentioned here only call the method of the same name of the superclass.  A private
    [random.randint(0, 100)] (treap.py:76) is an argument of the call, see [prio].
    Not modelled: __repr__, _represent, set_priority, _get_unbalanced_node (never called). *)
From Verif Require Import Base TreeModel BstModel.
Local Open Scope py_scope.

(** ** AVL (avl.py) *)
(** avl.py:165-166. *)
Definition avl_node_is_balanced (i : nat) : M tst bool :=
  let! hs := get_children_heights i in
  ret (Nat.leb (snd hs) (fst hs + 1) && Nat.leb (fst hs) (snd hs + 1)).
(** avl.py:742-771 _rebalance. *)
Definition avl_rebalance (grand_parent : nat) : M tst nat :=
  let! hs := get_children_heights grand_parent in
  let! p := (if Nat.ltb (snd hs) (fst hs) then get_left grand_parent else get_right grand_parent) in
  let! parent := deref p in
  let! hs' := get_children_heights parent in
  let! nd := (if Nat.ltb (snd hs') (fst hs') then get_left parent else get_right parent) in
  let! b1 := is_left_child parent in
  let! node := deref nd in
  let! b2 := is_left_child node in
  match b1, b2 with
  | true, true => rotate_right CAVL grand_parent
  | true, false => rotate_left_right CAVL grand_parent
  | false, true => rotate_right_left CAVL grand_parent
  | false, false => rotate_left CAVL grand_parent
  end.
(** avl.py:424-430 and 528-534: the loop towards the root. *)
Fixpoint avl_up (fuel : nat) (p : option nat) : M tst unit :=
  match p with
  | None => ret tt
  | Some parent =>
      match fuel with
      | 0 => diverge
      | S k =>
          let! grand_parent := get_parent parent in
          fix_height parent ;;
          let! b := avl_node_is_balanced parent in
          if b then avl_up k grand_parent
          else
            let! m := avl_rebalance parent in
            attach CAVL grand_parent m ;;
            avl_up k grand_parent
      end
  end.
(** avl.py:475 (bst.py:806-811) with avl.py:421-431 _insert. *)
Definition avl_insert (v : pyval) : M tst bool :=
  let! x := check_number v in
  let! e := bst_is_empty in
  if e then let! i := new_node x (Fin 0) in set_root (Some i) ;; add_len 1 ;; ret false
  else
    let! r := insert_value CAVL x (Fin 0) in
    let! p := get_parent (snd r) in
    let! n := get_fuel in
    avl_up n p ;;
    ret (fst r).
(** avl.py:571 (bst.py:1019-1033) with avl.py:524-535 _remove. *)
Definition avl_remove (v : pyval) : M tst bool :=
  remove_with v (fun x =>
    let! length_before := get_len in
    let! r := remove_value CAVL x in
    let! length_after := get_len in
    if Z.eqb length_after length_before then ret (fst r)
    else
      let! n := get_fuel in
      avl_up n (snd r) ;;
      ret (fst r)).

(** ** SplayTree (splay_tree.py) *)
(** splay_tree.py:218-228. *)
Definition zig_zig (child : nat) : M tst nat :=
  let! p := get_parent child in
  let! parent := deref p in
  let! g := get_grand_parent child in
  let! grand_parent := deref g in
  let! gg := get_parent grand_parent in
  set_parent child gg ;;
  let! pr := get_right parent in
  set_left CSplay grand_parent pr ;;
  set_right CSplay parent (Some grand_parent) ;;
  let! cr := get_right child in
  set_left CSplay parent cr ;;
  set_right CSplay child (Some parent) ;;
  ret child.
(** splay_tree.py:233-243. *)
Definition zag_zag (child : nat) : M tst nat :=
  let! p := get_parent child in
  let! parent := deref p in
  let! g := get_grand_parent child in
  let! grand_parent := deref g in
  let! gg := get_parent grand_parent in
  set_parent child gg ;;
  let! pl := get_left parent in
  set_right CSplay grand_parent pl ;;
  set_left CSplay parent (Some grand_parent) ;;
  let! cl := get_left child in
  set_right CSplay parent cl ;;
  set_left CSplay child (Some parent) ;;
  ret child.
(** splay_tree.py:248-257. *)
Definition zig_zag (child : nat) : M tst nat :=
  let! p := get_parent child in
  let! parent := deref p in
  let! g := get_grand_parent child in
  let! grand_parent := deref g in
  let! gg := get_parent grand_parent in
  set_parent child gg ;;
  let! cr := get_right child in
  set_left CSplay grand_parent cr ;;
  let! cl := get_left child in
  set_right CSplay parent cl ;;
  set_right CSplay child (Some grand_parent) ;;
  set_left CSplay child (Some parent) ;;
  ret child.
(** splay_tree.py:262-271. *)
Definition zag_zig (child : nat) : M tst nat :=
  let! p := get_parent child in
  let! parent := deref p in
  let! g := get_grand_parent child in
  let! grand_parent := deref g in
  let! gg := get_parent grand_parent in
  set_parent child gg ;;
  let! cl := get_left child in
  set_right CSplay grand_parent cl ;;
  let! cr := get_right child in
  set_left CSplay parent cr ;;
  set_left CSplay child (Some grand_parent) ;;
  set_right CSplay child (Some parent) ;;
  ret child.
(** splay_tree.py:276-281. *)
Definition zig (child : nat) : M tst nat :=
  let! p := get_parent child in
  let! parent := deref p in
  let! g := get_parent parent in
  set_parent child g ;;
  let! cr := get_right child in
  set_left CSplay parent cr ;;
  set_right CSplay child (Some parent) ;;
  ret child.
(** splay_tree.py:286-291. *)
Definition zag (child : nat) : M tst nat :=
  let! p := get_parent child in
  let! parent := deref p in
  let! g := get_parent parent in
  set_parent child g ;;
  let! cl := get_left child in
  set_right CSplay parent cl ;;
  set_left CSplay child (Some parent) ;;
  ret child.
(** splay_tree.py:295-323. *)
Fixpoint splaying (fuel : nat) (child : nat) : M tst nat :=
  match fuel with
  | 0 => diverge
  | S k =>
      let! p := get_parent child in
      match p with
      | None => ret child
      | Some parent =>
          let! g := get_grand_parent child in
          match g with
          | None => let! b := is_left_child child in if b then zig child else zag child
          | Some _ =>
              let! b1 := is_left_child parent in
              let! b2 := is_left_child child in
              let! top := (match b1, b2 with
                           | true, true => zig_zig child
                           | true, false => zig_zag child
                           | false, true => zag_zig child
                           | false, false => zag_zag child
                           end) in
              let! q := get_parent top in
              match q with Some _ => splaying k top | None => ret top end
          end
      end
  end.
(** splay_tree.py:336. *)
Definition splay (start : nat) : M tst unit :=
  let! n := get_fuel in
  let! r := splaying n start in
  set_root (Some r).
(** splay_tree.py:393-396. *)
Definition splay_contains (v : pyval) : M tst bool :=
  let! x := check_number v in
  let! i := search_root x in
  splay i ;;
  let! d := get_data i in
  ret (bool_decide (d = x)).
(** splay_tree.py:444-450. *)
Definition splay_insert (v : pyval) : M tst bool :=
  let! x := check_number v in
  let! e := bst_is_empty in
  if e then let! i := new_node x (Fin 0) in set_root (Some i) ;; add_len 1 ;; ret false
  else
    let! r := insert_value CSplay x (Fin 0) in
    splay (snd r) ;;
    ret (fst r).
(** splay_tree.py:487-502; [_splay(None)] would fail the assertion of line 294. *)
Definition splay_remove (v : pyval) : M tst bool :=
  remove_with v (fun x =>
    let! r := remove_value CSplay x in
    match snd r with
    | Some i => splay i ;; ret (fst r)
    | None => raise AssertionError
    end).

(** ** Treap (treap.py) *)
(** The priority argument of [insert]: given by the caller, or absent, in which case
    treap.py:76 draws an integer from 0 to 100. *)
Inductive prio := Drawn (d : Z) | Given (v : pyval).
(** treap.py:413-414, 75-79.  None is the default argument, hence a [Drawn]; [Given PNone]
    is read as [Drawn 0]. *)
Definition check_prio (p : prio) : M tst num :=
  match p with
  | Drawn d => ret (Fin d)
  | Given PNone => ret (Fin 0)
  | Given (PNum x) => ret x
  | Given _ => raise TypeError
  end.
(** treap.py:90. *)
Definition get_prio (i : nat) : M tst num := let! c := rd i in ret (p_prio (c_pay c)).
(** treap.py:482-493. *)
Fixpoint treap_up (fuel : nat) (p : option nat) (new : nat) : M tst unit :=
  match p with
  | None => ret tt
  | Some parent =>
      match fuel with
      | 0 => diverge
      | S k =>
          let! grandparent := get_parent parent in
          let! pp := get_prio parent in
          let! pn := get_prio new in
          if num_ltb pn pp then ret tt
          else
            let! b := is_left_child new in
            let! m := (if b then rotate_right CTreap parent else rotate_left CTreap parent) in
            attach CTreap grandparent m ;;
            treap_up k grandparent m
      end
  end.
(** treap.py:470-493. *)
Definition treap_insert (v : pyval) (p : prio) : M tst bool :=
  let! x := check_number v in
  let! pr := check_prio p in
  let! e := bst_is_empty in
  if e then let! i := new_node x pr in set_root (Some i) ;; add_len 1 ;; ret false
  else
    let! r := insert_value CTreap x pr in
    let! q := get_parent (snd r) in
    let! n := get_fuel in
    treap_up n q (snd r) ;;
    ret (fst r).
(** treap.py:562-567. *)
Definition prio_of (p : option nat) : M tst num :=
  match p with Some i => get_prio i | None => ret (Fin (-1)) end.
(** treap.py:558-578: the final [parent] and [removed_node]. *)
Fixpoint treap_down (fuel : nat) (parent : option nat) (removed : nat) : M tst (option nat * nat) :=
  let! leaf := node_is_leaf removed in
  if leaf then ret (parent, removed)
  else
    match fuel with
    | 0 => diverge
    | S k =>
        let! l := get_left removed in
        let! r := get_right removed in
        let! pl := prio_of l in
        let! pr := prio_of r in
        if num_ltb pr pl then
          let! m := rotate_right CTreap removed in
          attach CTreap parent m ;;
          let! c := get_right m in
          let! c' := deref c in
          treap_down k (Some m) c'
        else
          let! m := rotate_left CTreap removed in
          attach CTreap parent m ;;
          let! c := get_left m in
          let! c' := deref c in
          treap_down k (Some m) c'
    end.
(** treap.py:533-585. *)
Definition treap_remove (v : pyval) : M tst bool :=
  remove_with v (fun x =>
    let! i := search_root x in
    let! d := get_data i in
    if negb (bool_decide (d = x)) then ret true
    else
      let! p := get_parent i in
      let! n := get_fuel in
      let! pr := treap_down n p i in
      let! b := is_left_child (snd pr) in
      let! q := deref (fst pr) in
      (if b then set_left CTreap q None else set_right CTreap q None) ;;
      add_len (-1) ;;
      ret false).

(** ** RedBlackTree (red_black_tree.py) *)
(** red_black_tree.py:95, 111-113. *)
Definition get_color (i : nat) : M tst color := let! c := rd i in ret (p_color (c_pay c)).
Definition set_color (i : nat) (k : color) : M tst unit := wr i (fun c => with_pay (pay_color k (c_pay c)) c).
Definition is_red (k : color) : bool := match k with Red => true | Black => false end.
(** [node.get_color() if node else Color.BLACK]. *)
Definition color_of (p : option nat) : M tst color :=
  match p with Some i => get_color i | None => ret Black end.
(** red_black_tree.py:447-478, called with a parent and a grandparent. *)
Definition recolor_case3 (start parent grandparent : nat) : M tst nat :=
  let! b1 := is_left_child parent in
  let! b2 := is_left_child start in
  match b1, b2 with
  | true, true =>
      set_color grandparent Red ;; set_color parent Black ;; rotate_right CRB grandparent
  | true, false =>
      let! p := rotate_left CRB parent in
      set_left CRB grandparent (Some p) ;;
      set_color grandparent Red ;;
      let! g := rotate_right CRB grandparent in
      set_color g Black ;;
      ret g
  | false, true =>
      let! p := rotate_right CRB parent in
      set_right CRB grandparent (Some p) ;;
      set_color grandparent Red ;;
      let! g := rotate_left CRB grandparent in
      set_color g Black ;;
      ret g
  | false, false =>
      set_color grandparent Red ;; set_color parent Black ;; rotate_left CRB grandparent
  end.
(** red_black_tree.py:507-540. *)
Fixpoint recolor (fuel : nat) (start : nat) : M tst (option nat) :=
  match fuel with
  | 0 => diverge
  | S k =>
      let! uncle := get_uncle start in
      let! p := get_parent start in
      match p with
      | None => ret (Some start)
      | Some parent =>
          let! g := get_parent parent in
          match g with
          | None => ret (Some parent)
          | Some grandparent =>
              let! cp := get_color parent in
              if negb (is_red cp) then get_root
              else
                let! cu := color_of uncle in
                match uncle, is_red cu with
                | Some u, true =>
                    set_color parent Black ;;
                    set_color u Black ;;
                    set_color grandparent Red ;;
                    recolor k grandparent
                | _, _ =>
                    let! gg := get_parent grandparent in
                    let! top := recolor_case3 start parent grandparent in
                    match gg with
                    | Some great =>
                        let! x := get_data great in
                        let! y := get_data top in
                        if num_ltb y x then set_left CRB great (Some top)
                        else set_right CRB great (Some top)
                    | None => ret tt
                    end ;;
                    recolor k top
                end
          end
      end
  end.
(** red_black_tree.py:573-584. *)
Definition rb_insert (v : pyval) : M tst bool :=
  let! x := check_number v in
  let! e := bst_is_empty in
  if e then
    let! i := new_node x (Fin 0) in
    set_root (Some i) ;; set_color i Black ;; add_len 1 ;; ret false
  else
    let! r := insert_value CRB x (Fin 0) in
    let! n := get_fuel in
    let! root := recolor n (snd r) in
    set_root root ;;
    let! i := deref root in
    set_color i Black ;;
    ret (fst r).
(** red_black_tree.py:634-656. *)
Definition rb_find_replacement (i : nat) : M tst (option nat) :=
  let! leaf := node_is_leaf i in
  if leaf then ret None
  else
    let! r := get_right i in
    let! successor := (match r with
                       | Some j => let! n := get_fuel in let! k := get_min_node n j in ret (Some k)
                       | None => ret None
                       end) in
    let! l := get_left i in
    let! predecessor := (match l with
                         | Some j => let! n := get_fuel in let! k := get_max_node n j in ret (Some k)
                         | None => ret None
                         end) in
    let! cs := color_of successor in
    let! cp := color_of predecessor in
    ret (if is_red cs then successor
         else if is_red cp then predecessor
         else match successor with Some _ => successor | None => predecessor end).
(** One turn of red_black_tree.py:702-792: the new [parent] and [double_black_node].
    [near] / [far] children and the two rotations are mirrored when the double black node
    is on the right, except for the test of line 772-773, which reads [s_right_color]
    twice. *)
Definition double_black_step (parent : nat) (db : option nat) : M tst (nat * option nat) :=
  let! pl := get_left parent in
  if bool_decide (db = pl) then
    let! s := get_right parent in
    let! cs := color_of s in
    let! ps := (if is_red cs then
                  let! sibling := deref s in
                  set_color sibling Black ;;
                  set_color parent Red ;;
                  let! grandparent := get_parent parent in
                  let! p1 := rotate_left CRB parent in
                  attach CRB grandparent p1 ;;
                  let! p2 := get_left p1 in
                  let! p3 := deref p2 in
                  let! s1 := get_right p3 in
                  ret (p3, s1)
                else ret (parent, s)) in
    let parent := fst ps in
    let! sibling := deref (snd ps) in
    let! sl := get_left sibling in
    let! sr := get_right sibling in
    let! cl := color_of sl in
    let! cr := color_of sr in
    if negb (is_red cl) && negb (is_red cr) then
      set_color sibling Red ;;
      ret (parent, Some parent)
    else
      let! sibling := (if negb (is_red cr) then
                         let! sl' := deref sl in
                         set_color sl' Black ;;
                         set_color sibling Red ;;
                         let! s1 := rotate_right CRB sibling in
                         attach CRB (Some parent) s1 ;;
                         let! s2 := get_right parent in
                         deref s2
                       else ret sibling) in
      let! cp := get_color parent in
      set_color sibling cp ;;
      set_color parent Black ;;
      let! sr := get_right sibling in
      let! sr' := deref sr in
      set_color sr' Black ;;
      let! grandparent := get_parent parent in
      let! p1 := rotate_left CRB parent in
      attach CRB grandparent p1 ;;
      let! root := get_root in
      ret (p1, root)
  else
    let! s := get_left parent in
    let! cs := color_of s in
    let! ps := (if is_red cs then
                  let! sibling := deref s in
                  set_color sibling Black ;;
                  set_color parent Red ;;
                  let! grandparent := get_parent parent in
                  let! p1 := rotate_right CRB parent in
                  attach CRB grandparent p1 ;;
                  let! p2 := get_right p1 in
                  let! p3 := deref p2 in
                  let! s1 := get_left p3 in
                  ret (p3, s1)
                else ret (parent, s)) in
    let parent := fst ps in
    let! sibling := deref (snd ps) in
    let! sl := get_left sibling in
    let! sr := get_right sibling in
    let! cl := color_of sl in
    let! cr := color_of sr in
    if negb (is_red cr) && negb (is_red cr) then
      set_color sibling Red ;;
      ret (parent, Some parent)
    else
      let! sibling := (if negb (is_red cl) then
                         let! sr' := deref sr in
                         set_color sr' Black ;;
                         set_color sibling Red ;;
                         let! s1 := rotate_left CRB sibling in
                         attach CRB (Some parent) s1 ;;
                         let! s2 := get_left parent in
                         deref s2
                       else ret sibling) in
      let! cp := get_color parent in
      set_color sibling cp ;;
      set_color parent Black ;;
      let! sl := get_left sibling in
      let! sl' := deref sl in
      set_color sl' Black ;;
      let! grandparent := get_parent parent in
      let! p1 := rotate_right CRB parent in
      attach CRB grandparent p1 ;;
      let! root := get_root in
      ret (p1, root).
(** red_black_tree.py:698-792: the loop. *)
Fixpoint double_black_loop (fuel : nat) (parent : nat) (db : option nat) : M tst unit :=
  let! root := get_root in
  let! cd := color_of db in
  if negb (bool_decide (db = root)) && negb (is_red cd) then
    match fuel with
    | 0 => diverge
    | S k => let! r := double_black_step parent db in double_black_loop k (fst r) (snd r)
    end
  else ret tt.
(** red_black_tree.py:698-794. *)
Definition handle_double_black (parent : nat) (db : option nat) : M tst unit :=
  let! n := get_fuel in
  double_black_loop (10 * n) parent db ;;
  let! root := get_root in
  let! i := deref root in
  set_color i Black.
(** red_black_tree.py:844-920. *)
Definition rb_remove (v : pyval) : M tst bool :=
  remove_with v (fun x =>
    let! i := search_root x in
    let! d := get_data i in
    if negb (bool_decide (d = x)) then ret true
    else
      let! rep := rb_find_replacement i in
      let! ci := get_color i in
      let! cr := color_of rep in
      let! n := get_fuel in
      match ci, rep, cr with
      | Red, None, _ | Red, Some _, Red => transplant (S n) CRB i rep
      | Red, Some _, Black => raise ValueError
      | Black, None, _ =>
          let! p := get_parent i in
          transplant (S n) CRB i None ;;
          let! parent := deref p in
          let! l := get_left parent in
          let! db := (match l with None => ret l | Some _ => get_right parent end) in
          handle_double_black parent db
      | Black, Some r, Black =>
          let! p := get_parent r in
          transplant (S n) CRB i rep ;;
          let! parent := deref p in
          let! y := get_data r in
          let! x' := get_data parent in
          let! db := (if num_ltb y x' then get_left parent else get_right parent) in
          handle_double_black parent db
      | Black, Some r, Red =>
          set_color r Black ;;
          transplant (S n) CRB i rep
      end ;;
      add_len (-1) ;;
      ret false).
(** red_black_tree.py:973-980. *)
Fixpoint black_loop (fuel : nat) (p : option nat) (acc : nat) : M tst nat :=
  match p with
  | None => ret (acc + 1)
  | Some i =>
      match fuel with
      | 0 => diverge
      | S k =>
          let! c := get_color i in
          let! l := get_left i in
          black_loop k l (if is_red c then acc else acc + 1)
      end
  end.
Definition rb_black_height : M tst nat :=
  let! r := get_root in
  let! i := deref r in
  let! l := get_left i in
  let! n := get_fuel in
  black_loop n l 0.

(** ** Histories of calls *)
(** [TRead] stands for the read-only methods inherited from BinaryTree, whose results are
    functions of the tree of values (TreeModel.v). *)
Inductive top :=
| TInsert (v : pyval) (p : prio)   (* [p] is only used by Treap *)
| TRemove (v : pyval)
| TContains (v : pyval)
| TLen
| TIsEmpty
| TGetMin
| TGetMax
| TTraverse (m : pyval)
| TLevels
| THeight
| TLeaves
| TIsBalanced
| TIsPerfect
| TIsStrict
| TClear.
(** Results: [OUnit w] is a return without a value, [w] tells whether it warned. *)
Inductive tout :=
| OUnit (w : bool)
| OBool (b : bool)
| OWarnBool (w b : bool)   (* a boolean [b], with or without a warning [w] *)
| OInt (z : Z)
| OVal (x : num)
| OVals (l : list num)
| OLevels (l : list (list num))
| ORaise (e : exn).

Definition tree_insert (c : tcls) (v : pyval) (p : prio) : M tst bool :=
  match c with
  | CBST => bst_insert v
  | CAVL => avl_insert v
  | CSplay => splay_insert v
  | CTreap => treap_insert v p
  | CRB => rb_insert v
  end.
Definition tree_remove (c : tcls) (v : pyval) : M tst bool :=
  match c with
  | CBST => bst_remove v
  | CAVL => avl_remove v
  | CSplay => splay_remove v
  | CTreap => treap_remove v
  | CRB => rb_remove v
  end.
Definition tree_contains (c : tcls) (v : pyval) : M tst bool :=
  match c with CSplay => splay_contains v | _ => bst_contains v end.
(** tree.py:709-711, avl.py:615. *)
Definition get_tree_height (c : tcls) : M tst Z :=
  match c with
  | CAVL => let! r := get_root in
            match r with Some i => let! h := get_height i in ret (Z.of_nat h) | None => ret 0%Z end
  | _ => let! t := tree_vals in ret (Z.of_nat (tree_height (view t)))
  end.
(** binary_tree.py:739-755, avl.py:802-804: whether it warned, and the answer. *)
Definition get_is_balanced (c : tcls) : M tst (bool * bool) :=
  match c with
  | CAVL => let! r := get_root in
            match r with
            | Some i => let! b := avl_node_is_balanced i in ret (false, b)
            | None => ret (true, true)
            end
  | _ => let! t := tree_vals in ret (bin_is_balanced t)
  end.
Definition exec (c : tcls) (o : top) : M tst tout :=
  match o with
  | TInsert v p => let! w := tree_insert c v p in ret (OUnit w)
  | TRemove v => let! w := tree_remove c v in ret (OUnit w)
  | TContains v => let! b := tree_contains c v in ret (OBool b)
  | TLen => let! n := bst_len in ret (OInt n)
  | TIsEmpty => let! b := bst_is_empty in ret (OBool b)
  | TGetMin => let! x := bst_get_min in ret (OVal x)
  | TGetMax => let! x := bst_get_max in ret (OVal x)
  | TTraverse m =>
      let! t := tree_vals in
      match traverse t m with
      | inl e => raise e
      | inr (Some l) => ret (OVals l)
      | inr None => diverge
      end
  | TLevels =>
      let! t := tree_vals in
      match tree_levels (view t) with
      | Ok l _ => ret (OLevels l)
      | Exc e _ => raise e
      | Diverge => diverge
      end
  | THeight => let! z := get_tree_height c in ret (OInt z)
  | TLeaves => let! t := tree_vals in ret (OInt (Z.of_nat (tree_leaves (view t))))
  | TIsBalanced => let! b := get_is_balanced c in ret (OWarnBool (fst b) (snd b))
  | TIsPerfect =>
      let! t := tree_vals in
      match bin_is_perfect t with Some b => ret (OWarnBool (fst b) (snd b)) | None => diverge end
  | TIsStrict => let! t := tree_vals in ret (let b := bin_is_strict t in OWarnBool (fst b) (snd b))
  | TClear => bst_clear ;; ret (OUnit false)
  end.
(** A call as its caller sees it: an exception is an outcome, and the object lives on. *)
Definition call (c : tcls) (o : top) (s : tst) : option (tout * tst) :=
  match exec c o s with
  | Ok r s' => Some (r, s')
  | Exc e s' => Some (ORaise e, s')
  | Diverge => None
  end.
Fixpoint calls (c : tcls) (os : list top) (s : tst) : option (list tout * tst) :=
  match os with
  | [] => Some ([], s)
  | o :: os' =>
      match call c o s with
      | Some (r, s1) =>
          match calls c os' s1 with
          | Some (rs, s2) => Some (r :: rs, s2)
          | None => None
          end
      | None => None
      end
  end.
(** The results of a history on a new tree. *)
Definition history (c : tcls) (os : list top) : option (list tout * tst) := calls c os tst0.
(** The tree of nodes after a history (for statements about its shape). *)
Definition shape (s : tst) : option (bin pay) :=
  match tree_pays s with Ok t _ => Some t | _ => None end.
