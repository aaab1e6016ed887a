(** * C59: the printed form of binary trees, heaps and search trees *)
From Verif Require Import Base TreeModel TreeSpec PrintModel PrintSpec BstModel BalModel BstSpec BstProps3 HeapModel BinDrawModel BinDrawSpec BinDrawThm.

(** The drawing of a tree whose texts contain no white space and no underscore shows the
    texts of every level, in its row, and every node to the right of those before it. *)
Theorem C59_drawing : forall {A} (show : A -> pystr) (t : bin A),
  clean_texts show t -> pictures show t (bin_repr show t).
Proof. intros A show t. apply repr_pictures. Qed.
Print Assumptions C59_drawing.

(** Trees that print alike have the same form and the same texts. *)
Theorem C59_print_determines : forall {A} (show : A -> pystr) (t t' : bin A),
  clean_texts show t -> clean_texts show t' ->
  bin_repr show t = bin_repr show t' -> bin_map show t = bin_map show t'.
Proof. intros A show t t'. apply repr_inj. Qed.
Print Assumptions C59_print_determines.

(** Without that condition, they need not: a space at the end of a text is lost. *)
Theorem C59_condition_needed : exists t t' : bin pystr,
  bin_map id t <> bin_map id t' /\ bin_repr id t = bin_repr id t'.
Proof. exists (Bin Nil [97%N] Nil), (Bin Nil [97%N; 32%N] Nil). split; [done|]. by vm_compute. Qed.
Print Assumptions C59_condition_needed.

(** A heap prints as the tree of its array: the row of depth [n] shows the items from
    position [2^n - 1] on, as many as fit.  Heaps that print alike hold the same texts, in
    the same order. *)
Theorem C59_heaps : forall (show : num -> pystr) (h : list num), (forall x, clean (show x)) ->
  exists pic m, heap_repr show h = Ok pic m /\ pictures show (heap_tree h) pic /\
  forall n, bin_level n (heap_tree h) = take (2 ^ n) (drop (2 ^ n - 1) h).
Proof.
  intros show h Hc. destruct (heap_repr_ok show h) as [m E]. eexists _, m. split; [exact E|]. split.
  - apply repr_pictures, heap_clean. by apply Forall_forall.
  - apply heap_level.
Qed.
Print Assumptions C59_heaps.
Theorem C59_heap_print_determines : forall (show : num -> pystr) (h h' : list num) pic m m',
  (forall x, clean (show x)) -> heap_repr show h = Ok pic m -> heap_repr show h' = Ok pic m' ->
  map show h = map show h'.
Proof.
  intros show h h' pic m m' Hc E E'. destruct (heap_repr_ok show h) as [k Ek]. destruct (heap_repr_ok show h') as [k' Ek'].
  rewrite Ek in E. rewrite Ek' in E'. injection E as E _. injection E' as E' _. apply heap_tree_inj.
  apply repr_inj; [apply heap_clean; by apply Forall_forall..|]. congruence.
Qed.
Print Assumptions C59_heap_print_determines.

(** A search tree prints as the tree of its nodes, in any state where they form one. *)
Theorem C59_search_tree_states : forall c sp (text : num -> pystr) s t, (forall x, clean (text x)) ->
  shape s = Some t ->
  exists pic s', search_tree_repr (pay_text c sp text) s = Ok pic s' /\ pictures (pay_text c sp text) t pic.
Proof.
  intros c sp text s t Hc H. unfold shape in H. unfold search_tree_repr.
  destruct (tree_pays s) as [t' s'| |] eqn:E; [|done|done]. injection H as ->.
  exists (bin_repr (pay_text c sp text) t), s'. split; [by rewrite (bind_ok _ _ _ _ _ E)|].
  apply repr_pictures. intros n d _. by apply pay_text_clean.
Qed.
Print Assumptions C59_search_tree_states.
(** In particular after every history without removals on every class, and after every
    history whatever on a BST or, with priorities above -1, on a Treap. *)
Theorem C59_search_tree_histories : forall c sp (text : num -> pystr) os, (forall x, clean (text x)) ->
  no_removals os \/ c = CBST \/ (c = CTreap /\ Forall prio_above os) ->
  exists rs s t pic s', history c os = Some (rs, s) /\ shape s = Some t /\
    search_tree_repr (pay_text c sp text) s = Ok pic s' /\ pictures (pay_text c sp text) t pic.
Proof.
  intros c sp text os Hc H. destruct (C55_after_histories_partial c os H) as (rs & s & t & H1 & H2 & _).
  destruct (C59_search_tree_states c sp text s t Hc H2) as (pic & s' & H3 & H4). eauto 10.
Qed.
Print Assumptions C59_search_tree_histories.
(** Two red-black trees that print alike have the same form, values and colours. *)
Theorem C59_red_black_print_determines : forall sp (text : num -> pystr) s t s' t' pic u u',
  (forall x, clean (text x)) -> (forall x y, text x = text y -> x = y) ->
  shape s = Some t -> shape s' = Some t' ->
  search_tree_repr (pay_text CRB sp text) s = Ok pic u -> search_tree_repr (pay_text CRB sp text) s' = Ok pic u' ->
  bin_map (fun p => (p_val p, p_color p)) t = bin_map (fun p => (p_val p, p_color p)) t'.
Proof.
  intros sp text s t s' t' pic u u' Hc Hi H H' E E'. unfold shape in *. unfold search_tree_repr in *.
  destruct (tree_pays s) as [t1 s1| |] eqn:E1; [|done|done]. destruct (tree_pays s') as [t2 s2| |] eqn:E2; [|done|done].
  injection H as ->. injection H' as ->. rewrite (bind_ok _ _ _ _ _ E1) in E. rewrite (bind_ok _ _ _ _ _ E2) in E'.
  injection E as E _. injection E' as E' _.
  apply (bin_map_rel (pay_text CRB sp text)).
  - intros x y [Hv Hcol]%pay_text_rb. by rewrite (Hi _ _ Hv), Hcol.
  - apply repr_inj; [intros n d _; by apply pay_text_clean..|]. congruence.
Qed.
Print Assumptions C59_red_black_print_determines.

(** Non-trivial cases: a tree with one text of two letters; a heap and a red-black tree of
    numbers, printed with one clean text a number. *)
Example C59_example :
  let t := Bin (Bin Nil [98%N; 99%N] (Bin Nil [100%N] Nil)) [97%N] (Bin Nil [101%N] Nil) in
  clean_texts id t /\
  split_lines (bin_repr id t) =
    [[32; 32; 95; 95; 95; 97]; [32; 47; 32; 32; 32; 32; 92]; [98; 99; 32; 32; 32; 32; 32; 101]; [32; 32; 92]; [32; 32; 32; 100]]%N.
Proof.
  split; [|by vm_compute]. intros [|[|[|n]]] d Hd; cbn in Hd; set_unfold in Hd;
    repeat match goal with H : _ \/ _ |- _ => destruct H end; subst; try done; (split; [done|repeat constructor; done]).
Qed.
Definition stroke (x : num) : pystr :=
  match x with Fin (Zpos p) => repeat 49%N (Pos.to_nat p) | Fin (Zneg p) => 45%N :: repeat 49%N (Pos.to_nat p) | Fin Z0 => [48%N] | PosInf => [43%N] | NegInf => [42%N] end.
Lemma ones_clean n : Forall (fun c => is_space c = false /\ c <> c_under) (repeat 49%N n).
Proof. apply Forall_forall. intros x Hx%elem_of_list_In%repeat_spec. by subst. Qed.
Lemma ones_inj n m : repeat 49%N n = repeat 49%N m -> n = m.
Proof. intros E. apply (f_equal length) in E. by rewrite !repeat_length in E. Qed.
Example C59_example_texts : (forall x, clean (stroke x)) /\ (forall x y, stroke x = stroke y -> x = y).
Proof.
  split.
  - intros [|[|p|p]|]; cbn; split; try done; try (repeat constructor; done).
    + intros E. apply (f_equal length) in E. rewrite repeat_length in E. cbn in E. lia.
    + apply ones_clean.
    + constructor; [done|apply ones_clean].
  - assert (HP : forall p, exists k, Pos.to_nat p = S k) by (intros p; exists (Nat.pred (Pos.to_nat p)); lia).
    intros [|[|p|p]|] [|[|q|q]|] E; try done; cbn in E;
      repeat match goal with E : context [repeat _ (Pos.to_nat ?p)] |- _ => lazymatch goal with H : Pos.to_nat p = _ |- _ => fail | _ => let k := fresh "k" in destruct (HP p) as [k ?] end end;
      repeat match goal with H : Pos.to_nat _ = S _ |- _ => rewrite H in E end; cbn in E; try done.
    + injection E as E. apply ones_inj in E. do 2 f_equal. lia.
    + injection E as E. apply ones_inj in E. do 2 f_equal. lia.
Qed.
Example C59_example_heap : exists pic m, heap_repr stroke [Fin 1; Fin 2; Fin 3]%Z = Ok pic m /\
  split_lines pic = [[32; 32; 95; 49; 95]; [32; 47; 32; 32; 32; 92]; [49; 49; 32; 32; 32; 49; 49; 49]]%N.
Proof. do 2 eexists. split; vm_compute; reflexivity. Qed.
Example C59_example_red_black : exists rs s pic s', history CRB (inserts [Fin 2; Fin 1; Fin 3]%Z) = Some (rs, s) /\
  no_removals (inserts [Fin 2; Fin 1; Fin 3]%Z) /\
  search_tree_repr (pay_text CRB false stroke) s = Ok pic s' /\
  split_lines pic = [[32; 32; 32; 95; 49; 49; 124; 66; 95; 95]; [32; 32; 47; 32; 32; 32; 32; 32; 32; 32; 92];
    [49; 124; 82; 32; 32; 32; 32; 32; 32; 49; 49; 49; 124; 82]]%N.
Proof.
  do 4 eexists. split; [vm_compute; reflexivity|]. split; [repeat constructor|]. split; vm_compute; reflexivity.
Qed.
