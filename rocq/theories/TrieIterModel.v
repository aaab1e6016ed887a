(** * Iterators over tries, resumed one [next] at a time.

    [Trie.__iter__] (trie.py:444-451; RadixTrie.__iter__, radix_trie.py:297, only calls it)
    is a generator: each [next(it)] runs its body from one [yield] to the following one,
    and between two of them the program may call anything on the trie. *)
From stdpp Require Import gmap.
From Verif Require Import Base TrieModel TrieSpec.
Local Open Scope py_scope.

(** A generator object: not yet started; suspended at the [yield] of trie.py:449 with
    [node] = [curr], the rest of [current_nodes] still to come, and [next_nodes];
    finished. *)
Inductive zgen := ZGNew | ZGAt (curr : nat) (rest next : list nat) | ZGDone.
(** What [next(it)] gives: a string, StopIteration or another exception. *)
Inductive zgot := ZVal (w : pystr) | ZStop | ZRaise (e : exn).

(** TrieNode.get_children, trie.py:66. *)
Definition zchildren (i : nat) : M ts (list nat) := let! n := rd i in ret (map snd (n_children n)).
(** trie.py:449: [yield node.get_data()]. *)
Definition zg_yield (i : nat) (rest next : list nat) : M ts (zgot * zgen) :=
  let! n := rd i in ret (ZVal (n_data n), ZGAt i rest next).
(** trie.py:446, 451, then 447-449: a new [current_nodes]. *)
Definition zg_level (nodes : list nat) : M ts (zgot * zgen) :=
  match nodes with
  | i :: rest => zg_yield i rest []
  | [] => ret (ZStop, ZGDone)
  end.
(** trie.py:444-451: one [next].  A started generator resumes behind the [yield]: it adds
    the present children to [next_nodes] (450), goes on in the [for] loop (449), or
    replaces [current_nodes] (451) and tests the [while] (447). *)
Definition zg_next (g : zgen) : M ts (zgot * zgen) :=
  match g with
  | ZGNew =>
      let! e := trie_is_empty in
      if e then ret (ZStop, ZGDone)
      else
        let! s := get_state in
        let! cs := zchildren (t_root s) in
        zg_level cs
  | ZGAt curr rest next =>
      let! cs := zchildren curr in
      match rest with
      | i :: rest' => zg_yield i rest' (next ++ cs)
      | [] => zg_level (next ++ cs)
      end
  | ZGDone => ret (ZStop, ZGDone)
  end.

(** ** Programs with one trie and any number of iterators over it *)

(** Calls that only look: [v in t], has_prefix, auto_complete, len, to_list. *)
Inductive trie_look := LContains (v : pyval) | LPrefix (v : pyval) | LComplete (v : pyval) | LLen | LList.
Inductive answer := ABool (b : bool) | ANum (n : Z) | AStrs (l : list pystr).
(** trie.py:579, 621, 814, 269, 481; radix_trie.py:365, 402, 590, 135, 325. *)
Definition look_call (c : trie_cls) (l : trie_look) : M ts answer :=
  match l with
  | LContains v => let! b := trie_contains v in ret (ABool b)
  | LPrefix v => let! b := trie_has_prefix v in ret (ABool b)
  | LComplete v => let! o := auto_complete_call c v in ret (AStrs o)
  | LLen => let! n := trie_len in ret (ANum n)
  | LList => let! o := trie_to_list in ret (AStrs o)
  end.

(** A call that changes the trie, one that only looks, [it = iter(t)] (the next iterator
    number), or [next(it)]. *)
Inductive zstmt := ZCall (o : trie_op) | ZLook (l : trie_look) | ZIter | ZNext (i : nat).
(** What the program observes from one statement: an exception or none; an answer or an
    exception; nothing; what the iterator gave. *)
Inductive zsout := ZDid (e : option exn) | ZSaw (a : answer + exn) | ZNew | ZGot (g : zgot).

Definition zconf : Type := ts * list zgen.
Definition zconf0 : zconf := (trie_new, []).
(** An exception that leaves the generator body finishes the generator. *)
Definition model_zstep (c : trie_cls) (q : zconf) (t : zstmt) : option (zsout * zconf) :=
  match t with
  | ZCall o =>
      match trie_call c o q.1 with
      | Ok _ s => Some (ZDid None, (s, q.2))
      | Exc e s => Some (ZDid (Some e), (s, q.2))
      | Diverge => None
      end
  | ZLook l =>
      match look_call c l q.1 with
      | Ok a s => Some (ZSaw (inl a), (s, q.2))
      | Exc e s => Some (ZSaw (inr e), (s, q.2))
      | Diverge => None
      end
  | ZIter => Some (ZNew, (q.1, q.2 ++ [ZGNew]))
  | ZNext i =>
      g ← q.2 !! i;
      match zg_next g q.1 with
      | Ok (r, g') s => Some (ZGot r, (s, <[i := g']> q.2))
      | Exc e s => Some (ZGot (ZRaise e), (s, <[i := ZGDone]> q.2))
      | Diverge => None
      end
  end.
Fixpoint model_zrun (c : trie_cls) (q : zconf) (ts : list zstmt) : option (list zsout * zconf) :=
  match ts with
  | [] => Some ([], q)
  | t :: r =>
      '(o, q1) ← model_zstep c q t;
      '(os, q2) ← model_zrun c q1 r;
      Some (o :: os, q2)
  end.
