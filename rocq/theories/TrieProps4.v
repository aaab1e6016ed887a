(** * C39, C41, C42: arguments that are not strings *)
From Verif Require Import Base TrieModel TrieSpec TrieThm TrieProps RadixProps SuffixModel.

(** In every state of a Trie or RadixTrie: what is not a string is not in the trie, is a prefix
    of nothing, and removing it warns ([Ok true]); inserting it and completing it raise ValueError
    for None and TypeError otherwise; nothing changes. *)
Theorem C39_not_strings (s : ts) v : (forall w, v <> PStr w) ->
  let e := match v with PNone => ValueError | _ => TypeError end in
  trie_contains v s = Ok false s /\ trie_has_prefix v s = Ok false s /\ trie_remove v s = Ok true s
  /\ trie_insert v s = Exc e s /\ radix_insert v s = Exc e s
  /\ trie_auto_complete v s = Exc e s /\ radix_auto_complete v s = Exc e s.
Proof. intros H. destruct v as [| |w| | |]; try (by split_and!). by destruct (H w). Qed.
Print Assumptions C39_not_strings.
(** Blank strings cannot be inserted either; the empty string is removed without effect. *)
Theorem C39_blank (s : ts) w : blank w = true ->
  trie_insert (PStr w) s = Exc ValueError s /\ radix_insert (PStr w) s = Exc ValueError s
  /\ trie_remove (PStr []) s = Ok false s.
Proof. intros H. unfold trie_insert, radix_insert, bind. cbn. by rewrite H. Qed.
Print Assumptions C39_blank.
Theorem C42_not_strings f v : (forall w, v <> PStr w) ->
  has_substring f v = Ok false (f_rt f) /\ count_occurrences f v = Ok 0 (f_rt f).
Proof. intros H. split; [by apply C39_not_strings|]. destruct v as [| |w| | |]; try done. by destruct (H w). Qed.
Print Assumptions C42_not_strings.
Example C39_not_strings_example : (forall w, PInt 3 <> PStr w) /\ blank [32; 9]%N = true.
Proof. done. Qed.
