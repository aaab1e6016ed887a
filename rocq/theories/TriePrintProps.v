(** * C60, C61: the printed form of tries, radix tries and suffix tries.  Vocabulary:
    PrintSpec.v, TriePrintSpec.v. *)
From stdpp Require Import gmap.
From Verif Require Import Base TreeModel PrintModel PrintSpec PrintProps TrieModel TrieRep TrieSpec TrieSpec2 TrieThm TrieThm2 TrieThm3 TrieThm4 TrieProps TrieProps2
  SuffixModel SuffixSpec SuffixThm SuffixThm2 SuffixProps TriePrintModel TriePrintSpec TriePrintThm TriePrintThm2.

(** ** C60: Trie and RadixTrie *)
(** The drawing [text] of the words [W]: "--" if there are none; otherwise the lines, in
    preorder, of a tree whose root is "ROOT" and whose marked nodes ("✓") spell exactly the
    words; all leaves are marked, and no two siblings begin with the same character. *)
Definition draws (W : words) (text : pystr) (T : tree (word * bool)) : Prop :=
  exists lines, text = join s_newline lines /\ lines_in_preorder trie_text T lines /\
    get_data T = (root_text, false) /\ (forall w, holds T w <-> w ∈ W) /\ (forall w, leads T w -> w ∈ W) /\ forks T.
Lemma draws_ok s L W : trep s L W -> W <> ∅ -> exists text T, trie_repr s = Ok text s /\ draws W text T /\
  exists n, shows s L [] n T /\ text = tree_repr trie_text (Some T).
Proof.
  intros HT HW. destruct (trie_repr_ok s L W HT HW) as (T & n & E & Hn & Hd & HS). exists (tree_repr trie_text (Some T)), T. split; [done|].
  split; [|by exists n]. destruct (C54_lines_in_preorder _ trie_text T) as (l & El & Hl & _). exists l. split_and!; try done.
  - rewrite Hd, (x_flag _ _ _ _ HT _ _ _ (r_root _ _ (x_rep _ _ _ _ HT)) Hn). rewrite bool_decide_eq_false_2; [done|apply (x_nil _ _ _ _ HT)].
  - by eapply shows_holds.
  - by eapply shows_leads.
  - by destruct HS as (_ & _ & _ & _ & ?).
Qed.
(** After any history, with [W] the words for which [w in trie] is True; in a Trie every
    node below the root holds one character. *)
Theorem C60_trie_drawing (h : list trie_op) : exists s W, trie_run CTrie h trie_new = Some s /\
  (forall w, trie_contains (PStr w) s = Ok true s <-> w ∈ W) /\
  (W = ∅ -> trie_repr s = Ok s_dashes s) /\
  (W <> ∅ -> exists text T, trie_repr s = Ok text s /\ draws W text T /\
     forall i p n, node_of T (i :: p) = Some n -> length (fst (get_data n)) = 1).
Proof.
  destruct trep_new as [T0 Hs0]. destruct (trie_run_ok h _ _ _ T0 Hs0) as (s & L & E & T & Hs). exists s, (trie_words h ∅).
  split; [done|]. split; [intros w; by eapply contains_iff|]. split; [by eapply trie_repr_empty|].
  intros HW. destruct (draws_ok s L _ T HW) as (text & t & E' & HD & n & HS & _). exists text, t. split; [done|]. split; [done|].
  apply (shows_below s L n t (fun d => length (fst d) = 1) HS). intros j q m Hj Hq Hm. by eapply (Hs j q m).
Qed.
Print Assumptions C60_trie_drawing.
Theorem C60_radix_drawing (h : list trie_op) : exists s W, trie_run CRadix h trie_new = Some s /\
  (forall w, trie_contains (PStr w) s = Ok true s <-> w ∈ W) /\
  (W = ∅ -> trie_repr s = Ok s_dashes s) /\
  (W <> ∅ -> exists text T, trie_repr s = Ok text s /\ draws W text T).
Proof.
  destruct trep_new as [T0 _]. destruct (radix_run_any h _ _ _ T0) as (s & L & W & E & T). exists s, W.
  split; [done|]. split; [intros w; by eapply contains_iff|]. split; [by eapply trie_repr_empty|].
  intros HW. destruct (draws_ok s L _ T HW) as (text & t & E' & HD & _). by exists text, t.
Qed.
Print Assumptions C60_radix_drawing.
(** [a]=97 [b]=98 [c]=99 [d]=100: the words "ab", "ac", "b". *)
Example C60_example :
  option_map (fun s => match trie_repr s with Ok t _ => split_lines t | _ => [] end) (trie_run CTrie ex_hist trie_new) =
  Some [[82;79;79;84]; [9500;9472;9516;32;97]; [9474;32;9500;9472;9472;32;98;32;10003]; [9474;32;9492;9472;9472;32;99;32;10003]; [9492;9472;9472;32;98;32;10003]]%N.
Proof. by vm_compute. Qed.

Lemma prints_dashes T : get_data T = (root_text, false) -> tree_repr trie_text (Some T) <> s_dashes.
Proof. intros Hd E. rewrite PrintThm.repr_lines, Hd in E. cbn in E. by destruct (PrintThm.forest _ _ _). Qed.
Lemma print_same (P : word * bool -> Prop) s1 L1 W1 s2 L2 W2 t :
  (forall x y r r', P x -> P y -> trie_text x ++ 10%N :: r = trie_text y ++ 10%N :: r' -> trie_text x = trie_text y) ->
  (forall x y, P x -> P y -> trie_text x = trie_text y -> x = y) ->
  trep s1 L1 W1 -> trep s2 L2 W2 ->
  (forall j q m, L1 !! j = Some q -> q <> [] -> t_nodes s1 !! j = Some m -> P (n_data m, n_word m)) ->
  (forall j q m, L2 !! j = Some q -> q <> [] -> t_nodes s2 !! j = Some m -> P (n_data m, n_word m)) ->
  trie_repr s1 = Ok t s1 -> trie_repr s2 = Ok t s2 -> W1 = W2.
Proof.
  intros HE HI T1 T2 P1 P2 E1 E2.
  assert (forall s L W, trep s L W -> trie_repr s = Ok s_dashes s -> W = ∅) as HN.
  { intros s L W T E. destruct (decide (W = ∅)) as [|HW]; [done|]. exfalso.
    destruct (draws_ok s L W T HW) as (text & t' & E' & (l & _ & _ & Hd & _) & n & _ & ->). rewrite E in E'. injection E' as E'. by apply (prints_dashes t' Hd). }
  destruct (decide (W1 = ∅)) as [->|H1]; [|destruct (decide (W2 = ∅)) as [->|H2]].
  - rewrite (trie_repr_empty s1 L1 ∅ T1 eq_refl) in E1. injection E1 as <-. symmetry. by eapply HN.
  - rewrite (trie_repr_empty s2 L2 ∅ T2 eq_refl) in E2. injection E2 as <-. by eapply HN.
  - destruct (draws_ok s1 L1 W1 T1 H1) as (x1 & t1 & F1 & (_ & _ & _ & D1 & Ho1 & _) & n1 & S1 & ->).
    destruct (draws_ok s2 L2 W2 T2 H2) as (x2 & t2 & F2 & (_ & _ & _ & D2 & Ho2 & _) & n2 & S2 & ->).
    rewrite E1 in F1. injection F1 as ->. rewrite E2 in F2. injection F2 as E.
    pose proof (shows_below _ _ _ _ P S1 P1) as B1. pose proof (shows_below _ _ _ _ P S2 P2) as B2.
    apply (repr_determines trie_text P HE) in E; [|by rewrite D1, D2|done..].
    apply set_eq. intros w. rewrite <- Ho1, <- Ho2. split; intros (n & Hr & Hm).
    + destruct (reach_map trie_text P HI _ _ _ Hr t2 B1 B2 E) as (n' & Hr' & Hd & _). exists n'. by rewrite Hd.
    + destruct (reach_map trie_text P HI _ _ _ Hr t1 B2 B1 (eq_sym E)) as (n' & Hr' & Hd & _). exists n'. by rewrite Hd.
Qed.
(** Two Tries that print alike hold the same words, whatever characters these contain. *)
Theorem C60_trie_print_determines h1 h2 s1 s2 t :
  trie_run CTrie h1 trie_new = Some s1 -> trie_run CTrie h2 trie_new = Some s2 ->
  trie_repr s1 = Ok t s1 -> trie_repr s2 = Ok t s2 ->
  forall w, trie_contains (PStr w) s1 = Ok true s1 <-> trie_contains (PStr w) s2 = Ok true s2.
Proof.
  intros R1 R2 E1 E2 w. destruct trep_new as [T0 Hs0].
  destruct (trie_run_ok h1 _ _ _ T0 Hs0) as (s1' & L1 & F1 & T1 & Hs1). rewrite R1 in F1. injection F1 as <-.
  destruct (trie_run_ok h2 _ _ _ T0 Hs0) as (s2' & L2 & F2 & T2 & Hs2). rewrite R2 in F2. injection F2 as <-.
  rewrite (contains_iff _ _ _ _ T1), (contains_iff _ _ _ _ T2).
  rewrite (print_same (fun d => length (fst d) = 1) s1 L1 (trie_words h1 ∅) s2 L2 (trie_words h2 ∅) t); try done.
  - intros [x b] [y b'] r r' Hx Hy. destruct x as [|x []], y as [|y []]; try done. destruct b, b'; cbn; intros E; [by injection E as ->..].
  - intros [x b] [y b'] Hx Hy. destruct x as [|x []], y as [|y []]; try done. destruct b, b'; cbn; intros E; [by injection E as ->|done|done|by injection E as ->].
  - intros j q m Hj Hq Hm. by eapply (Hs1 j q m).
  - intros j q m Hj Hq Hm. by eapply (Hs2 j q m).
Qed.
Print Assumptions C60_trie_print_determines.
Example C60_determines_example : exists s, trie_run CTrie ex_hist trie_new = Some s /\ exists t, trie_repr s = Ok t s.
Proof. eexists. split; [by vm_compute|]. eexists. by vm_compute. Qed.
(** Two RadixTries that print alike hold the same words, if none of the words contains a
    newline or a check mark. *)
Theorem C60_radix_print_determines_partial h1 h2 s1 s2 t :
  trie_run CRadix h1 trie_new = Some s1 -> trie_run CRadix h2 trie_new = Some s2 ->
  (forall w, trie_contains (PStr w) s1 = Ok true s1 -> plain_word w) ->
  (forall w, trie_contains (PStr w) s2 = Ok true s2 -> plain_word w) ->
  trie_repr s1 = Ok t s1 -> trie_repr s2 = Ok t s2 ->
  forall w, trie_contains (PStr w) s1 = Ok true s1 <-> trie_contains (PStr w) s2 = Ok true s2.
Proof.
  intros R1 R2 N1 N2 E1 E2 w. destruct trep_new as [T0 _].
  destruct (radix_run_any h1 _ _ _ T0) as (s1' & L1 & W1 & F1 & T1). rewrite R1 in F1. injection F1 as <-.
  destruct (radix_run_any h2 _ _ _ T0) as (s2' & L2 & W2 & F2 & T2). rewrite R2 in F2. injection F2 as <-.
  assert (forall s L W j q m, trep s L W -> (forall w, trie_contains (PStr w) s = Ok true s -> plain_word w) ->
    L !! j = Some q -> q <> [] -> t_nodes s !! j = Some m -> plain_word (n_data m)) as HP.
  { intros s L W j q m T N Hj Hq Hm. destruct (ext' _ _ _ _ _ T Hj Hq) as (u & Hu). apply (contains_iff _ _ _ _ T), N in Hu as [U1 U2].
    destruct (rep_get _ _ _ _ _ (x_rep _ _ _ _ T) Hj Hm) as (_ & _ & [[-> _]|(i & r & k & m' & _ & _ & -> & _)]).
    { rewrite (r_root _ _ (x_rep _ _ _ _ T)) in Hj. congruence. }
    rewrite !not_elem_of_app in U1, U2. split; [by apply U1|by apply U2]. }
  rewrite (contains_iff _ _ _ _ T1), (contains_iff _ _ _ _ T2).
  rewrite (print_same (fun d => plain_word (fst d)) s1 L1 W1 s2 L2 W2 t); try done.
  - intros x y r r' Hx Hy E. assert (forall d, plain_word (fst d) -> one_line (trie_text d)) as HO.
    { intros [d b] [_ H]. unfold trie_text. destruct b; cbn in *; [|done]. apply not_elem_of_app. split; [done|]. apply (bool_decide_unpack _). by vm_compute. }
    apply (f_equal split_lines) in E. rewrite !PrintThm.split_app in E by (by apply HO). by injection E.
  - intros [x b] [y b'] [Hx _] [Hy _]. cbn in *. destruct b, b'; cbn; intros E.
    + by apply app_inv_tail in E as ->.
    + exfalso. apply Hy. rewrite <- E. apply elem_of_app. right. right. left.
    + exfalso. apply Hx. rewrite E. apply elem_of_app. right. right. left.
    + by rewrite E.
  - intros j q m Hj Hq Hm. exact (HP _ _ _ _ _ _ T1 N1 Hj Hq Hm).
  - intros j q m Hj Hq Hm. exact (HP _ _ _ _ _ _ T2 N2 Hj Hq Hm).
Qed.
Print Assumptions C60_radix_print_determines_partial.
Example C60_radix_determines_example : exists s t, trie_run CRadix C53_hist trie_new = Some s /\ trie_repr s = Ok t s /\
  forall w, trie_contains (PStr w) s = Ok true s -> plain_word w.
Proof.
  destruct trep_new as [T0 _]. destruct (radix_run_ok C53_hist _ _ _ T0) as (s & L & E & T).
  { repeat (apply Forall_cons; split; [unfold op_no_brace, no_brace; set_solver|]). constructor. }
  exists s. revert E. vm_compute trie_run. intros [= <-]. eexists. split; [done|]. split; [by vm_compute|].
  intros w Hw. apply (contains_iff _ _ _ _ T) in Hw. revert w Hw. change (set_Forall plain_word (set_run C53_hist ∅)). unfold plain_word.
  apply (bool_decide_unpack _). by vm_compute.
Qed.
(** Both conditions are needed: "a", "ab", "ac" print like "a ✓b", "a ✓c"; and "ab", "ac",
    "d" print like "a\n│ ├── b", "a\n│ ├── bc", "d". *)
Theorem C60_check_mark_refuted : exists h1 h2 s1 s2 t w,
  trie_run CRadix h1 trie_new = Some s1 /\ trie_run CRadix h2 trie_new = Some s2 /\
  trie_repr s1 = Ok t s1 /\ trie_repr s2 = Ok t s2 /\
  trie_contains (PStr w) s1 = Ok true s1 /\ trie_contains (PStr w) s2 = Ok false s2.
Proof.
  exists [TInsert (PStr [97]%N); TInsert (PStr [97;98]%N); TInsert (PStr [97;99]%N)],
    [TInsert (PStr [97;32;10003;98]%N); TInsert (PStr [97;32;10003;99]%N)]. eexists _, _, _, [97]%N.
  split; [by vm_compute|]. split; [by vm_compute|]. split; [by vm_compute|]. split; [by vm_compute|]. split; by vm_compute.
Qed.
Print Assumptions C60_check_mark_refuted.
Theorem C60_newline_refuted : exists h1 h2 s1 s2 t w,
  trie_run CRadix h1 trie_new = Some s1 /\ trie_run CRadix h2 trie_new = Some s2 /\
  trie_repr s1 = Ok t s1 /\ trie_repr s2 = Ok t s2 /\
  trie_contains (PStr w) s1 = Ok true s1 /\ trie_contains (PStr w) s2 = Ok false s2.
Proof.
  exists [TInsert (PStr [97;98]%N); TInsert (PStr [97;99]%N); TInsert (PStr [100]%N)],
    [TInsert (PStr [97;10;9474;32;9500;9472;9472;32;98]%N); TInsert (PStr [97;10;9474;32;9500;9472;9472;32;98;99]%N); TInsert (PStr [100]%N)].
  eexists _, _, _, [97;98]%N.
  split; [by vm_compute|]. split; [by vm_compute|]. split; [by vm_compute|]. split; [by vm_compute|]. split; by vm_compute.
Qed.
Print Assumptions C60_newline_refuted.

(** ** C61: SuffixTrie *)
(** [word$ ⟶ i], where [i] is written in decimal. *)
Definition suffix_label (w : word) (i : nat) : word := drop i w ++ [36; 32; 10230; 32]%N ++ py_str_nat i.
(** A SuffixTrie prints the compressed tree of its suffixes: the lines, in preorder, of a
    tree with root "ROOT" whose leaves spell "suffix$ ⟶ position" for every suffix, the
    empty one included, and whose inner nodes are the points where two of these part; no
    node is marked. *)
Theorem C61_suffix_drawing_partial w : w <> [] -> no_closing_brace w -> exists f T lines, suffix_new (PStr w) = Ok f tt /\
  suffix_repr f = Ok (join s_newline lines) (f_rt f) /\ lines_in_preorder trie_text T lines /\
  get_data T = (root_text, false) /\ forks T /\ (forall p n, reach T p n -> snd (get_data n) = false) /\
  (forall l, leads T l <-> exists i, i <= length (without_dollar w) /\ l = suffix_label (without_dollar w) i) /\
  (forall p, (exists n, reach T p n) <-> leads T p \/ parting_point (list_to_set (map (suffix_label (without_dollar w)) (seq 0 (S (length (without_dollar w)))))) p).
Proof.
  intros Hw Hb. destruct (suffix_new_ok w Hw Hb) as (f & L & E & I).
  destruct (trie_repr_ok _ _ _ (i_shape _ _ _ I) (labels_not_empty _)) as (T & n & Er & Hn & Hd & HS).
  destruct (C54_lines_in_preorder _ trie_text T) as (l & El & Hl & _). pose proof (suffix_unmarked _ _ E) as HU.
  exists f, T, l. split; [done|]. split; [by rewrite <- El|]. split; [done|]. split; [by rewrite Hd, (HU _ _ Hn)|].
  split; [by destruct HS as (_ & _ & _ & _ & ?)|]. split.
  - intros p x Hx. destruct HS as (_ & _ & H1 & _). destruct (H1 _ _ Hx) as (_ & j & m & _ & Hm & -> & _). by eapply HU.
  - split; [intros p; exact (suffix_leads _ _ _ _ _ I HS p)|]. intros p. rewrite (suffix_leads _ _ _ _ _ I HS p), <- elem_labels.
    exact (suffix_reached _ _ _ _ _ I HS p).
Qed.
Print Assumptions C61_suffix_drawing_partial.
Example C61_example : match suffix_repr (made [97; 98; 97]%N) with Ok t _ => split_lines t | _ => [] end =
  [[82;79;79;84]; [9500;9472;9516;32;97]; [9474;32;9500;9472;9472;32;98;97;36;32;10230;32;48]; [9474;32;9492;9472;9472;32;36;32;10230;32;50];
   [9500;9472;9472;32;98;97;36;32;10230;32;49]; [9492;9472;9472;32;36;32;10230;32;51]]%N.
Proof. by vm_compute. Qed.
(** Two SuffixTries that print alike are of the same word (the "$"s apart), if there are no
    newlines in it. *)
Theorem C61_print_determines_partial w1 w2 f1 f2 t : w1 <> [] -> no_closing_brace w1 -> no_newline w1 -> w2 <> [] -> no_closing_brace w2 -> no_newline w2 ->
  suffix_new (PStr w1) = Ok f1 tt -> suffix_new (PStr w2) = Ok f2 tt ->
  suffix_repr f1 = Ok t (f_rt f1) -> suffix_repr f2 = Ok t (f_rt f2) -> without_dollar w1 = without_dollar w2.
Proof.
  intros N1 B1 L1 N2 B2 L2 E1 E2 F1 F2.
  assert (forall w f t, w <> [] -> no_closing_brace w -> no_newline w -> suffix_new (PStr w) = Ok f tt -> suffix_repr f = Ok t (f_rt f) ->
    exists T, t = tree_repr trie_text (Some T) /\ get_data T = (root_text, false) /\ everywhere_below (fun d => one_line (fst d) /\ snd d = false) T /\
      no_dollar (without_dollar w) /\ forall l, leads T l <-> exists i, i <= length (without_dollar w) /\ l = label (without_dollar w) i) as H.
  { clear. intros w f t Hw Hb Hl E F. destruct (suffix_new_ok w Hw Hb) as (f' & L & E' & I). rewrite E in E'. injection E' as <-.
    destruct (trie_repr_ok _ _ _ (i_shape _ _ _ I) (labels_not_empty _)) as (T & n & Er & Hn & Hd & HS). pose proof (suffix_unmarked _ _ E) as HU.
    unfold suffix_repr in F. rewrite Er in F. injection F as <-. exists T. split; [done|]. split; [by rewrite Hd, (HU _ _ Hn)|].
    split; [|split; [apply (i_dollar _ _ _ I)|intros l; exact (suffix_leads _ _ _ _ _ I HS l)]].
    apply (shows_below _ _ _ _ _ HS). intros j q m Hj Hq Hm. split; [|by eapply HU]. cbn.
    pose proof (i_shape _ _ _ I) as S. destruct (ext' _ _ _ _ _ S Hj Hq) as (u & Hu). apply elem_labels in Hu as (i & Hi & Hu).
    assert (one_line (label (strip_dollar w) i)) as HO.
    { unfold label, one_line. rewrite !not_elem_of_app. split_and!.
      - intros Hin. apply Hl. assert (10%N ∈ strip_dollar w) as [_ ?]%elem_of_list_filter; [|done].
        rewrite <- (take_drop i (strip_dollar w)). apply elem_of_app. by right.
      - apply (bool_decide_unpack _). by vm_compute.
      - unfold py_str_nat. generalize (Nat.to_uint i). clear. intros d Hin. induction d; cbn in Hin;
          try (apply elem_of_cons in Hin as [Hin|Hin]; [done|by apply IHd]). by apply elem_of_nil in Hin. }
    destruct (rep_get _ _ _ _ _ (x_rep _ _ _ _ S) Hj Hm) as (_ & _ & [[-> _]|(a & r & k & m' & _ & _ & -> & _)]).
    { rewrite (r_root _ _ (x_rep _ _ _ _ S)) in Hj. congruence. }
    unfold one_line in *. rewrite <- Hu, !not_elem_of_app in HO. by apply HO. }
  destruct (H w1 f1 t N1 B1 L1 E1 F1) as (T1 & -> & D1 & A1 & O1 & H1). destruct (H w2 f2 _ N2 B2 L2 E2 F2) as (T2 & E & D2 & A2 & O2 & H2).
  apply (repr_determines trie_text (fun d => one_line (fst d) /\ snd d = false)) in E; [| |by rewrite D1, D2|done..].
  2:{ intros [x b] [y b'] r r' [Hx Hb] [Hy Hb']. cbn in *. subst. cbn. intros E'. apply (f_equal split_lines) in E'. rewrite !PrintThm.split_app in E' by done. by injection E'. }
  assert (HI : forall x y : word * bool, one_line (fst x) /\ snd x = false -> one_line (fst y) /\ snd y = false -> trie_text x = trie_text y -> x = y).
  { intros [x b] [y b'] [_ Hb] [_ Hb']. cbn in *. subst. cbn. by intros ->. }
  assert (forall T T' l, everywhere_below (fun d => one_line (fst d) /\ snd d = false) T -> everywhere_below (fun d => one_line (fst d) /\ snd d = false) T' ->
    map (tree_map trie_text) (get_children T) = map (tree_map trie_text) (get_children T') -> leads T l -> leads T' l) as HL.
  { intros T T' l HA HA' Em (n & Hr & Hc). destruct (reach_map trie_text _ HI _ _ _ Hr T' HA HA' Em) as (n' & Hr' & _ & Hm). exists n'. split; [done|].
    rewrite Hc in Hm. symmetry in Hm. by apply map_eq_nil in Hm. }
  assert (forall w w', no_dollar w -> no_dollar w' -> (exists i, i <= length w' /\ label w 0 = label w' i) -> exists i, w = drop i w') as HC.
  { intros w w' Hw Hw' (i & Hi & Ei). exists i. rewrite !label_cons in Ei. apply dollar_cut in Ei as [Ei _]; [done|by apply no_dollar_drop..]. }
  destruct (HC (without_dollar w1) (without_dollar w2) O1 O2) as (i & Ei).
  { apply H2, (HL T1 T2 _ A1 A2 E), H1. exists 0. split; [lia|done]. }
  destruct (HC (without_dollar w2) (without_dollar w1) O2 O1) as (j & Ej).
  { apply H1, (HL T2 T1 _ A2 A1 (eq_sym E)), H2. exists 0. split; [lia|done]. }
  pose proof (f_equal length Ei) as G1. pose proof (f_equal length Ej) as G2. rewrite drop_length in G1, G2.
  destruct i as [|i]; [done|]. destruct (decide (length (without_dollar w2) = 0)) as [Hz|Hz]; [|lia].
  apply nil_length_inv in Hz. rewrite Ei, Hz. by destruct i.
Qed.
Print Assumptions C61_print_determines_partial.
Example C61_determines_example : BANANA <> [] /\ no_closing_brace BANANA /\ no_newline BANANA /\ suffix_new (PStr BANANA) = Ok (made BANANA) tt.
Proof. split; [done|]. split; [apply (bool_decide_unpack _); by vm_compute|]. split; [apply (bool_decide_unpack _); by vm_compute|]. by vm_compute. Qed.

(** Iterating over a SuffixTrie (and to_list) gives, level by level, the data of the
    compressed tree of the suffixes, each followed by "$": every suffix and every point where
    two of them part is spelled once; one string per suffix ends in "$".  Words with "⟶"
    excepted. *)
Theorem C61_to_list_partial w : w <> [] -> no_closing_brace w -> no_arrow w -> exists f ls pss, suffix_new (PStr w) = Ok f tt /\
  suffix_to_list f = Ok (mjoin ls) (f_rt f) /\ spells pss ls /\ NoDup (mjoin pss) /\
  (forall p, p ∈ mjoin pss <-> p ∈ ended_suffixes (without_dollar w) \/ parting_point (ended_suffixes (without_dollar w)) p) /\
  ending_in_dollar (mjoin ls) = S (length (without_dollar w)).
Proof.
  intros Hw Hb Ha. destruct (suffix_new_ok w Hw Hb) as (f & L & E & I).
  assert (no_arrow (strip_dollar w)) as Ha'. { intros [_ ?]%elem_of_list_filter. by apply Ha. }
  destruct (listed_ok f _ L I Ha') as (ls & pss & H). exists f, ls, pss. split; [done|exact H].
Qed.
Print Assumptions C61_to_list_partial.
Example C61_to_list_example : BANANA <> [] /\ no_closing_brace BANANA /\ no_arrow BANANA /\
  suffix_to_list (made [97; 98; 97]%N) = Ok [[97]; [98;97;36]; [36]; [98;97;36]; [36]]%N (f_rt (made [97; 98; 97]%N)).
Proof. split; [done|]. split; [apply (bool_decide_unpack _); by vm_compute|]. split; [apply (bool_decide_unpack _); by vm_compute|]. by vm_compute. Qed.
(** "a ⟶ b" *)
Theorem C61_arrow_refuted : exists w f l, no_closing_brace w /\ no_dollar w /\ suffix_new (PStr w) = Ok f tt /\
  suffix_to_list f = Ok l (f_rt f) /\ ending_in_dollar l <> S (length w).
Proof.
  exists [97; 32; 10230; 32; 98]%N. eexists _, _. split; [apply (bool_decide_unpack _); by vm_compute|]. split; [apply (bool_decide_unpack _); by vm_compute|].
  split; [by vm_compute|]. split; [by vm_compute|]. by vm_compute.
Qed.
Print Assumptions C61_arrow_refuted.
