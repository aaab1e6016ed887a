(** * Specification of Tree.from_path: the tree mirrors the directory

    Uses, of PathModel.v, the file system ([fs], [resolve]) only. *)
From Coq Require Import Sorted.
From Verif Require Import Base TreeModel PrintModel PathModel SuffixSpec.

(** Names the system allows in a directory. *)
Definition proper_name (n : pystr) : Prop := n <> [] /\ slash ∉ n /\ n <> s_dot /\ n <> s_dotdot.
(** Every directory holds proper, pairwise different names. *)
Inductive proper : fs -> Prop :=
| proper_file : proper File
| proper_dir es : NoDup (map fst es) -> Forall (fun e => proper_name (fst e) /\ proper (snd e)) es -> proper (Dir es).
(** The node that the names lead to. *)
Fixpoint reach (x : fs) (names : list pystr) : option fs :=
  match names with
  | [] => Some x
  | n :: names' => match x with Dir es => match entry n es with Some y => reach y names' | None => None end | File => None end
  end.
Definition is_dir (x : fs) : Prop := exists es, x = Dir es.

(** [t] is a picture of the node [x] called [name]: a file is a leaf, a directory has one
    child for each entry, ordered by name. *)
Inductive mirrors : pystr -> fs -> tree pystr -> Prop :=
| m_file name : mirrors name File (TNode (node_text name) [])
| m_dir name es es' cs :
    es' ≡ₚ es -> StronglySorted (fun a b => lex_lt (fst a) (fst b)) es' ->
    Forall2 (fun e t => mirrors (fst e) (snd e) t) es' cs ->
    mirrors name (Dir es) (TNode (node_text name) cs).
(** Number of files and directories. *)
Fixpoint fs_count (x : fs) : nat :=
  match x with
  | File => 1
  | Dir es => S (sum_list (map (fun e => fs_count (snd e)) es))
  end.
