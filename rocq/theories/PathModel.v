(** * Model of Tree.from_path (extra/trees/tree.py:332-411)

    The file system is a finite tree of files and directories; a directory lists its entries
    in the order [os.listdir] gives them.  Simplifications: no links (symbolic or not), no
    permissions, nothing changes the file system during the call, and the system is POSIX.
    [os.path.exists], [isdir] and [os.listdir] ask the file system ([resolve]);
    [os.path.abspath], [split] and [join] are the string functions of posixpath. *)
From Verif Require Import Base TreeModel PrintModel.
Local Open Scope N_scope.

(** ** The file system *)
Inductive fs := File | Dir (entries : list (pystr * fs)).
Definition slash : N := 47.
Definition s_dot : pystr := [46].
Definition s_dotdot : pystr := [46; 46].
Fixpoint entry (name : pystr) (es : list (pystr * fs)) : option fs :=
  match es with
  | [] => None
  | (n, x) :: es' => if bool_decide (n = name) then Some x else entry name es'
  end.
(** [s.split("/")] *)
Fixpoint split_slash (s : pystr) : list pystr :=
  match s with
  | [] => [[]]
  | c :: s' => if N.eqb c slash then [] :: split_slash s'
               else match split_slash s' with [] => [[c]] | x :: l => (c :: x) :: l end
  end.
(** How the system follows a path: [above] are the directories passed on the way from the
    root, nearest first, with the names by which they were left; ".." at the root stays
    there.  The answer: the names leading from the root to the node, and the node. *)
Fixpoint walk (above : list (pystr * fs)) (cur : fs) (comps : list pystr) : option (list pystr * fs) :=
  match comps with
  | [] => Some (rev (map fst above), cur)
  | comp :: comps' =>
      match cur with
      | File => None
      | Dir es =>
          if bool_decide (comp = []) || bool_decide (comp = s_dot) then walk above cur comps'
          else if bool_decide (comp = s_dotdot) then
            match above with
            | [] => walk [] cur comps'
            | (_, up) :: above' => walk above' up comps'
            end
          else match entry comp es with
               | Some x => walk ((comp, cur) :: above) x comps'
               | None => None
               end
      end
  end.
(** [cwd]: the names leading from the root to the current directory.  The empty path names
    nothing. *)
Definition resolve (root : fs) (cwd : list pystr) (path : pystr) : option (list pystr * fs) :=
  match path with
  | [] => None
  | c :: _ => walk [] root (if N.eqb c slash then split_slash path else cwd ++ split_slash path)
  end.

(** ** posixpath *)
Definition starts_with_slash (s : pystr) : bool := match s with c :: _ => N.eqb c slash | [] => false end.
Definition ends_with_slash (s : pystr) : bool := starts_with_slash (rev s).
(** posixpath.join(a, b) *)
Definition path_join (a b : pystr) : pystr :=
  if starts_with_slash b then b
  else if bool_decide (a = []) || ends_with_slash a then a ++ b
  else a ++ [slash] ++ b.
(** The loop of posixpath.normpath for a path that starts with "/" ([new_comps] reversed). *)
Fixpoint norm_comps (new_comps : list pystr) (comps : list pystr) : list pystr :=
  match comps with
  | [] => rev new_comps
  | comp :: comps' =>
      if bool_decide (comp = []) || bool_decide (comp = s_dot) then norm_comps new_comps comps'
      else if negb (bool_decide (comp = s_dotdot)) || bool_decide (head new_comps = Some s_dotdot)
      then norm_comps (comp :: new_comps) comps'
      else norm_comps (tail new_comps) comps'
  end.
Definition initial_slashes (s : pystr) : nat :=
  match s with
  | a :: b :: c :: _ => if N.eqb b slash && negb (N.eqb c slash) then 2 else 1
  | [a; b] => if N.eqb b slash then 2 else 1
  | _ => 1
  end.
Definition normpath (path : pystr) : pystr :=
  repeat slash (initial_slashes path) ++ join [slash] (norm_comps [] (split_slash path)).
(** os.getcwd() *)
Definition getcwd (cwd : list pystr) : pystr := [slash] ++ join [slash] cwd.
(** posixpath.abspath(path); both cases end in [normpath] of a path that starts with "/". *)
Definition abspath (cwd : list pystr) (path : pystr) : pystr :=
  normpath (if starts_with_slash path then path else path_join (getcwd cwd) path).
(** [s[:s.rfind("/") + 1]] and the rest, on the reversed string. *)
Fixpoint cut_last (r : pystr) (tail : pystr) : pystr * pystr :=
  match r with
  | [] => ([], tail)
  | c :: r' => if N.eqb c slash then (rev r, tail) else cut_last r' (c :: tail)
  end.
(** [s.rstrip("/")], on the reversed string. *)
Fixpoint strip_rev (r : pystr) : pystr :=
  match r with c :: r' => if N.eqb c slash then strip_rev r' else r | [] => [] end.
(** posixpath.split(p) *)
Definition path_split (p : pystr) : pystr * pystr :=
  let '(hd, tl) := cut_last (rev p) [] in
  if bool_decide (hd = []) || bool_decide (hd = repeat slash (length hd)) then (hd, tl)
  else (rev (strip_rev (rev hd)), tl).

(** ** extra/trees/tree.py *)
(** [sorted] on strings. *)
Fixpoint insert_str (x : pystr) (l : list pystr) : list pystr :=
  match l with
  | [] => [x]
  | y :: l' => if str_ltb x y then x :: y :: l' else y :: insert_str x l'
  end.
Definition sorted_str (l : list pystr) : list pystr := fold_left (fun acc x => insert_str x acc) l [].
(** tree.py:356-364 (the assertions hold: both arguments are strings).  [fuel] bounds the
    depth of the recursion; [None]: it was not enough. *)
Fixpoint form_tree (fuel : nat) (root : fs) (cwd : list pystr) (parent_abs_path curr_folder : pystr) : option (tree pystr) :=
  match fuel with
  | O => None
  | S fuel' =>
      let abs_path := path_join parent_abs_path curr_folder in
      match resolve root cwd abs_path with
      | Some (_, Dir es) =>
          match mapM (form_tree fuel' root cwd abs_path) (sorted_str (map fst es)) with
          | Some cs => Some (TNode (node_text curr_folder) cs)
          | None => None
          end
      | _ => Some (TNode (node_text curr_folder) [])
      end
  end.
Fixpoint fs_depth (x : fs) : nat :=
  match x with
  | File => 1
  | Dir es => S (fold_right Nat.max 0%nat (map (fun e => fs_depth (snd e)) es))
  end.
(** tree.py:402-411. *)
Definition from_path (root : fs) (cwd : list pystr) (path : pyval) : exn + option (tree pystr) :=
  match path with
  | PStr p =>
      match resolve root cwd p with
      | None => inl ValueError
      | Some _ =>
          let '(parent, folder) := path_split (abspath cwd p) in
          inr (form_tree (fs_depth root) root cwd parent folder)
      end
  | _ => inl TypeError
  end.
