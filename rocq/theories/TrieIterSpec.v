(** * What a loop over a trie should give

    Read this file to know what the theorems of TrieIterProps.v say. *)
From Coq Require Import Sorting.Sorted.
From stdpp Require Import gmap.
From Verif Require Import Base TrieModel TrieSpec TrieIterModel.

(** What iterator [i] gave to the program [ts] that observed [outs]; how often the
    program asks it. *)
Fixpoint zseen (i : nat) (ts : list zstmt) (outs : list zsout) : list zgot :=
  match ts, outs with
  | ZNext j :: ts', ZGot r :: outs' => (if Nat.eqb j i then [r] else []) ++ zseen i ts' outs'
  | _ :: ts', _ :: outs' => zseen i ts' outs'
  | _, _ => []
  end.
Fixpoint zasks (i : nat) (ts : list zstmt) : nat :=
  match ts with
  | [] => 0
  | ZNext j :: ts' => (if Nat.eqb j i then 1 else 0) + zasks i ts'
  | _ :: ts' => zasks i ts'
  end.
(** The program uses only iterators that it has made; [n] is their number before it. *)
Fixpoint zmade (n : nat) (ts : list zstmt) : Prop :=
  match ts with
  | [] => True
  | ZIter :: ts' => zmade (S n) ts'
  | ZNext i :: ts' => i < n /\ zmade n ts'
  | _ :: ts' => zmade n ts'
  end.
(** The program without its iterators and what it then observes. *)
Definition without_iterators (ts : list zstmt) : list zstmt :=
  omap (fun t => match t with ZIter | ZNext _ => None | _ => Some t end) ts.
Definition without_answers (outs : list zsout) : list zsout :=
  omap (fun o => match o with ZNew | ZGot _ => None | _ => Some o end) outs.
(** The insertions, removals and clears of a program. *)
Definition updates (ts : list zstmt) : list trie_op :=
  omap (fun t => match t with ZCall o => Some o | _ => None end) ts.
(** The words in the trie after the program [ts], starting with an empty one (C39). *)
Definition words_after (ts : list zstmt) : words := trie_words (updates ts) ∅.

(** The [n] answers of a loop over exactly [vs]. *)
Definition exact_loop (vs : list pystr) (n : nat) : list zgot :=
  take n (map ZVal vs ++ replicate n ZStop).
(** Calls that keep the nodes: everything but insertions and removals. *)
Definition only_looks (ts : list zstmt) : Prop :=
  forall v, ZCall (TInsert v) ∉ ts /\ ZCall (TRemove v) ∉ ts.
(** The last character of a path, as a string. *)
Definition end_of (q : word) : pystr := option_list (last q).
(** Answers of a loop over the letters at the ends of the paths [qs]: shorter paths
    first, each path once. *)
Definition loops_over (qs : list word) (stops : nat) (rs : list zgot) : Prop :=
  rs = map ZVal (map end_of qs) ++ replicate stops ZStop /\ NoDup qs /\ Sorted le (map length qs).
