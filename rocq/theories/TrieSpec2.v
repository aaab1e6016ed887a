(** * Specification of the shape of tries, in terms of words only *)
From stdpp Require Import gmap.
From Verif Require Import Base TrieSpec.

(** Exactly [n] words satisfy [P]. *)
Definition counts (P : word -> Prop) (n : nat) : Prop :=
  exists o : list word, NoDup o /\ (forall w, w ∈ o <-> P w) /\ length o = n.
(** A stored word that is not a prefix of another one. *)
Definition begins_no_other (W : words) (w : word) : Prop := w ∈ W /\ forall v, v ∈ W -> w `prefix_of` v -> v = w.
(** The length of the longest word (0 if there is none). *)
Definition longest (W : words) (n : nat) : Prop :=
  (W = ∅ /\ n = 0) \/ ((exists w, w ∈ W /\ length w = n) /\ forall w, w ∈ W -> length w <= n).
(** Two words agree up to [p] and part there. *)
Definition parting_point (W : words) (p : word) : Prop :=
  p <> [] /\ exists x y u v, x <> y /\ p ++ x :: u ∈ W /\ p ++ y :: v ∈ W.
(** [pss] are the words spelled from the root to the nodes whose data is [ls], level by
    level: each extends, by its data, the empty word or a word of the level above. *)
Definition spells (pss : list (list word)) (ls : list (list word)) : Prop :=
  length pss = length ls /\
  forall d ps l, pss !! d = Some ps -> ls !! d = Some l ->
    Forall2 (fun p x => x <> [] /\ exists q, p = q ++ x /\
      match d with 0 => q = [] | S d' => exists qs, pss !! d' = Some qs /\ q ∈ qs end) ps l.
(** Histories without removals. *)
Definition no_trie_removals (h : list trie_op) : Prop :=
  Forall (fun o => match o with TRemove _ => False | _ => True end) h.
