(** * Specification of tries: a finite set of words

    Words are lists of code points.  Nothing here refers to nodes. *)
From stdpp Require Import gmap.
From Verif Require Import Base TrieModel.

Notation word := (list N).
Notation words := (gset (list N)).

(** [p] is a prefix of a stored word, or empty. *)
Definition is_prefix (S : words) (p : word) : Prop :=
  p = [] \/ exists w, w ∈ S /\ p `prefix_of` w.

(** The non-empty prefixes of one word; of all the words of a set. *)
Definition prefixes_of (w : word) : list word := (fun n => take (S n) w) <$> seq 0 (length w).
Definition prefixes (S : words) : words := list_to_set (elements S ≫= prefixes_of).
Lemma elem_of_prefixes S p :
  p ∈ prefixes S <-> p <> [] /\ exists w, w ∈ S /\ p `prefix_of` w.
Proof.
  unfold prefixes. rewrite elem_of_list_to_set, elem_of_list_bind. unfold prefixes_of. split.
  - intros (w & (n & -> & Hn%elem_of_seq)%elem_of_list_fmap & Hw%elem_of_elements). split.
    + destruct w; cbn in *; [lia|done].
    + exists w. split; [done|]. exists (drop (Datatypes.S n) w). by rewrite take_drop.
  - intros (Hp & w & Hw & t & ->). exists (p ++ t). rewrite elem_of_elements. split; [|done].
    apply elem_of_list_fmap. destruct p as [|x p]; [done|]. exists (length p). split.
    + cbn. by rewrite take_app.
    + apply elem_of_seq. cbn. rewrite app_length. lia.
Qed.

(** Calls that change a trie. *)
Inductive trie_op := TInsert (v : pyval) | TRemove (v : pyval) | TClear.
(** The two classes. *)
Inductive trie_cls := CTrie | CRadix.

(** What a call runs. *)
Definition trie_call (c : trie_cls) (o : trie_op) : M ts unit :=
  match o with
  | TInsert v => match c with CTrie => trie_insert v | CRadix => radix_insert v end
  | TRemove v => bind (trie_remove v) (fun _ => ret tt)
  | TClear => trie_clear
  end.
Definition auto_complete_call (c : trie_cls) (v : pyval) : M ts (list pystr) :=
  match c with CTrie => trie_auto_complete v | CRadix => radix_auto_complete v end.

(** The state after a call, whether it returned or raised ([None]: it did not end). *)
Definition after {A} (r : res ts A) : option ts :=
  match r with Ok _ s => Some s | Exc _ s => Some s | Diverge => None end.
(** A history: each call is made on whatever the previous ones left behind. *)
Fixpoint trie_run (c : trie_cls) (h : list trie_op) (s : ts) : option ts :=
  match h with
  | [] => Some s
  | o :: h' => match after (trie_call c o s) with Some s' => trie_run c h' s' | None => None end
  end.

(** The set a history should leave. *)
Definition set_step (S : words) (o : trie_op) : words :=
  match o with
  | TInsert (PStr w) => if blank w then S else {[w]} ∪ S
  | TRemove (PStr w) => S ∖ {[w]}
  | TClear => ∅
  | _ => S
  end.
Definition set_run (h : list trie_op) (S : words) : words := fold_left set_step h S.

(** Arguments without the character ["}"]. *)
Definition no_brace (w : word) : Prop := 125%N ∉ w.
Definition op_no_brace (o : trie_op) : Prop :=
  match o with TInsert (PStr w) | TRemove (PStr w) => no_brace w | _ => True end.

(** The strings on which a Trie goes wrong: after the longest stored prefix [q] comes a
    ["}"].  [ends_bad]: the string stops right there. *)
Definition bad (W : words) (w : word) : Prop :=
  exists q r, w = q ++ 125%N :: r /\ is_prefix W q /\ ~ is_prefix W (q ++ [125%N]).
Definition ends_bad (W : words) (w : word) : Prop :=
  exists q, w = q ++ [125%N] /\ is_prefix W q /\ ~ is_prefix W w.
Definition is_prefix_b (W : words) (p : word) : bool := bool_decide (p = [] \/ p ∈ prefixes W).
Definition bad_b (W : words) (w : word) : bool :=
  existsb (fun n => bool_decide (w !! n = Some 125%N) && is_prefix_b W (take n w)
                    && negb (is_prefix_b W (take (S n) w))) (seq 0 (length w)).
Lemma is_prefix_b_spec W p : is_prefix_b W p = true <-> is_prefix W p.
Proof.
  unfold is_prefix_b. rewrite bool_decide_eq_true, elem_of_prefixes. unfold is_prefix.
  destruct (decide (p = [])) as [->|]; naive_solver.
Qed.
Lemma bad_b_spec W w : bad_b W w = true <-> bad W w.
Proof.
  unfold bad_b, bad. rewrite existsb_exists. split.
  - intros (n & Hn & H). rewrite !andb_true_iff, negb_true_iff in H. destruct H as ((H1 & H2) & H3).
    apply bool_decide_eq_true in H1. apply is_prefix_b_spec in H2.
    assert (take (S n) w = take n w ++ [125%N]) as E by (by apply take_S_r).
    exists (take n w), (drop (S n) w). split; [|split; [done|]].
    + symmetry. by apply take_drop_middle.
    + rewrite <- E, <- is_prefix_b_spec, H3. done.
  - intros (q & r & -> & Hq & Hno). exists (length q). split.
    + apply in_seq. rewrite app_length. cbn. lia.
    + assert (take (S (length q)) (q ++ 125%N :: r) = q ++ [125%N]) as E.
      { change (125%N :: r) with ([125%N] ++ r). rewrite (assoc (++)).
        replace (S (length q)) with (length (q ++ [125%N])) by (rewrite app_length; cbn; lia). by rewrite take_app. }
      rewrite E, take_app, list_lookup_middle by done.
      rewrite bool_decide_eq_true_2 by done. rewrite (proj2 (is_prefix_b_spec _ _) Hq).
      destruct (is_prefix_b W (q ++ [125%N])) eqn:E'; [|done]. by apply is_prefix_b_spec in E'.
Qed.
(** The set a history leaves in a Trie: bad strings are not inserted. *)
Definition trie_step (W : words) (o : trie_op) : words :=
  match o with
  | TInsert (PStr w) => if blank w || bad_b W w then W else {[w]} ∪ W
  | TRemove (PStr w) => W ∖ {[w]}
  | TClear => ∅
  | _ => W
  end.
Definition trie_words (h : list trie_op) (W : words) : words := fold_left trie_step h W.
Lemma no_brace_not_bad W w : no_brace w -> ~ bad W w.
Proof. intros H (q & r & -> & _). apply H. apply elem_of_app. right. left. Qed.
Lemma trie_words_set h W : Forall op_no_brace h -> trie_words h W = set_run h W.
Proof.
  unfold trie_words, set_run. revert W. induction h as [|o h IH]; intros W; [done|].
  intros [Ho Hh]%Forall_cons. cbn. rewrite IH by done. f_equal.
  destruct o as [[]|[]|]; try done. cbn in Ho |- *.
  destruct (bad_b W s) eqn:E; [|by rewrite orb_false_r]. apply bad_b_spec in E. by destruct (no_brace_not_bad W s).
Qed.
