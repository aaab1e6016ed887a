(** * C42, C43 and C45 exactly *)
From Coq Require Import Sorted.
From stdpp Require Import gmap.
From Verif Require Import Base TrieModel SuffixModel SuffixSpec SuffixDeepSpec SuffixFindSpec SuffixThm SuffixThm2 SuffixThm4 SuffixThm5 SuffixThm6 SuffixProps.

(** For every word that can be stored and every pattern.  A pattern in which the search is [lost]: one
    that ends there is reported as found and cannot be counted, the others raise.  Any other pattern
    is found where it begins a marked suffix, and counted there unless it is empty. *)
Theorem C42_exact w : w <> [] -> no_closing_brace w -> let u := without_dollar w in
  exists f, suffix_new (PStr w) = Ok f tt /\ forall p,
  (forall r, lost u p r ->
     has_substring f (PStr p) = match r with [] => Ok true (f_rt f) | _ => Exc AttributeError (f_rt f) end /\
     count_occurrences f (PStr p) = match r with [] => Exc AssertionError (f_rt f) | _ => Exc AttributeError (f_rt f) end) /\
  ((~ exists r, lost u p r) ->
     (exists b, has_substring f (PStr p) = Ok b (f_rt f) /\ (b = true <-> p = [] \/ exists i, found_at u p i)) /\
     (exists l, NoDup l /\ (forall i, i ∈ l <-> found_at u p i) /\
        count_occurrences f (PStr p) = Ok (if bool_decide (p = []) then 0 else length l) (f_rt f))).
Proof.
  intros Hw Hb u. destruct (suffix_new_ok w Hw Hb) as (f & L & E & I). exists f. split; [done|].
  apply (find_exact f _ L I). intros H. apply Hb. by apply elem_of_list_filter in H as [_ ?].
Qed.
Print Assumptions C42_exact.
(** So in a word without "$" the answer to has_substring(p), p without "}", is right unless p contains
    "$" and yet begins a marked suffix. *)
Theorem C42_right_iff w f p b : w <> [] -> no_dollar w -> no_closing_brace p ->
  suffix_new (PStr w) = Ok f tt -> has_substring f (PStr p) = Ok b (f_rt f) ->
  ((b = true <-> substring w p) <-> ~ (36%N ∈ p /\ exists i, found_at w p i)).
Proof.
  intros Hw Hd Hp E Eb. assert (no_closing_brace w) as Hb.
  { destruct (decide (no_closing_brace w)) as [|Hb]; [done|]. exfalso. by rewrite (suffix_new_brace w Hb) in E. }
  destruct (C42_exact w Hw Hb) as (f' & E' & H). rewrite E in E'. injection E' as <-. rewrite (without_dollar_id w Hd) in H.
  destruct (H p) as [_ H2]. destruct H2 as [(b' & Eb' & Hb') _].
  { intros (r & q & -> & _). apply Hp. set_solver. }
  rewrite Eb in Eb'. injection Eb' as <-. rewrite Hb'.
  assert (no_dollar p -> forall i, found_at w p i <-> occurs_at w p i) as Hpat.
  { intros Hdp i. rewrite occurs_at_drop. unfold found_at. change (marked w i) with (label w i). by rewrite label_pattern. }
  split.
  - intros Hiff [Hin (i & Hi)]. destruct (proj1 Hiff) as (j & Hj); [right; by exists i|].
    apply occurs_at_drop in Hj as [_ [t Ht]]. apply Hd. rewrite <- (take_drop j w), Ht. set_solver.
  - intros Hno. destruct (decide (no_dollar p)) as [Hdp|Hdp].
    + unfold substring. setoid_rewrite (Hpat Hdp). split; [|by right]. intros [->|?]; [|done].
      exists 0. apply occurs_at_drop. split; [lia|]. apply prefix_nil.
    + assert (36%N ∈ p) as Hin. { destruct (decide (36%N ∈ p)); done. }
      split.
      * intros [->|Hi]; [by apply elem_of_nil in Hin|]. by destruct Hno.
      * intros (j & Hj). exfalso. apply occurs_at_drop in Hj as [_ [t Ht]]. apply Hd. rewrite <- (take_drop j w), Ht. set_solver.
Qed.
Print Assumptions C42_right_iff.
(** "banana": "na$" is found; the search for "an}" is not lost and fails, as no suffix parts at "an";
    "ana}" is reported as found, "ana}a" raises. *)
Example C42_exact_example : BANANA <> [] /\ no_dollar BANANA /\ no_closing_brace BANANA /\
  found_at BANANA [110; 97; 36]%N 4 /\ lost BANANA [97; 110; 97; 125; 97]%N [97]%N /\
  has_substring (made BANANA) (PStr [110; 97; 36]%N) = Ok true (f_rt (made BANANA)) /\
  has_substring (made BANANA) (PStr [97; 110; 125]%N) = Ok false (f_rt (made BANANA)) /\
  has_substring (made BANANA) (PStr [97; 110; 97; 125]%N) = Ok true (f_rt (made BANANA)) /\
  count_occurrences (made BANANA) (PStr [97; 110; 97; 125; 97]%N) = Exc AttributeError (f_rt (made BANANA)).
Proof.
  split; [done|]. split; [apply (bool_decide_unpack _); by vm_compute|]. split; [apply (bool_decide_unpack _); by vm_compute|].
  split; [split; [cbn; lia|by exists [32; 10230; 32; 52]%N]|].
  split. { exists [97; 110; 97]%N. split; [done|]. right. left. exists 1, 3. split; [done|]. do 2 (split; [cbn; lia|]).
    exact (get_lcp_is_lcp (drop 1 BANANA) (drop 3 BANANA)). }
  by vm_compute.
Qed.

(** ** C43: for every word that can be stored, to_suffix_array lists the positions in the order of their
    suffixes, the empty one read as "$". *)
Theorem C43_exact w : w <> [] -> no_closing_brace w -> let u := without_dollar w in
  exists f, suffix_new (PStr w) = Ok f tt /\ to_suffix_array f ≡ₚ seq 0 (S (length u)) /\
    StronglySorted (fun i j => lex_lt (sort_key u i) (sort_key u j)) (to_suffix_array f).
Proof.
  intros Hw Hb u. destruct (suffix_new_ok w Hw Hb) as (f & L & E & I). exists f. split; [done|].
  exact (suffix_array_exact _ _ _ I).
Qed.
Print Assumptions C43_exact.
(** "b a": the empty suffix comes after " a". *)
Example C43_exact_example : to_suffix_array (made [98; 32; 97]%N) = [1; 3; 2; 0] /\
  lex_lt (sort_key [98; 32; 97]%N 1) (sort_key [98; 32; 97]%N 3).
Proof. split; [by vm_compute|]. right. exists [], 32%N, 36%N, [97]%N, []. done. Qed.

(** ** C45: get_lowest_common_ancestor for all arguments: two different positions give the longest common
    prefix of their suffixes; a position with itself gives the longest beginning of its suffix that occurs
    elsewhere too; the length of the word is accepted as the second position only. *)
Theorem C45_exact w : w <> [] -> no_closing_brace w -> let u := without_dollar w in
  exists f, suffix_new (PStr w) = Ok f tt /\
  (forall i j, i < length u -> j <= length u ->
     exists c, lowest_common_ancestor f (PInt (Z.of_nat i)) (PInt (Z.of_nat j)) = Ok c (f_rt f) /\
    (if bool_decide (i = j) then longest_repeated_beginning u i c else longest_common_prefix (drop i u) (drop j u) c)) /\
  (forall i j, ~ (0 <= i < Z.of_nat (length u) /\ 0 <= j <= Z.of_nat (length u))%Z ->
     lowest_common_ancestor f (PInt i) (PInt j) = Exc ValueError (f_rt f)) /\
  (forall a b, (forall i j, (a, b) <> (PInt i, PInt j)) -> lowest_common_ancestor f a b = Exc TypeError (f_rt f)).
Proof.
  intros Hw Hb u. destruct (suffix_new_ok w Hw Hb) as (f & L & E & I). exists f. split; [done|]. split; [|split].
  - intros i j Hi Hj. destruct (bool_decide_reflect (i = j)) as [<-|Hij]; [by apply (lca_self f _ L)|by apply (lca_ok f _ L I)].
  - intros i j H. apply (C45_rejected_partial w f E). unfold u in H. lia.
  - intros a b H. unfold lowest_common_ancestor. destruct a as [|[]| | | |]; try done. destruct b as [|[]| | | |]; try done. by destruct (H z z0).
Qed.
Print Assumptions C45_exact.
(** "banana": the longest beginning of "ana" (at 3) found elsewhere is "ana", of "banana" it is "". *)
Example C45_exact_example :
  lowest_common_ancestor (made BANANA) (PInt 3) (PInt 3) = Ok [97; 110; 97]%N (f_rt (made BANANA)) /\
  lowest_common_ancestor (made BANANA) (PInt 0) (PInt 0) = Ok [] (f_rt (made BANANA)) /\
  lowest_common_ancestor (made BANANA) (PInt 6) (PInt 0) = Exc ValueError (f_rt (made BANANA)).
Proof. by vm_compute. Qed.
