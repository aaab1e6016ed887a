(** * How far the calls on a Treap and a RedBlackTree walk (C85): proofs *)
From iris.proofmode Require Import proofmode.
From Verif Require Import Base TreeModel TreeSpec BstModel BalModel BstSpec BstSep BstRules BstZip BstDel BstPure BstThm SplayThm AvlThm WalkModel WalkSpec WalkThm WalkThm2.
From Verif Require Import TreeIterThm TreeIterThm3 TreeIterThm4 DepthSpec DepthThm DepthThm2 DepthThm3 DepthThm6 DownModel DownSpec DownThm DownThm2 DownThm3.
From Verif Require Import TreapThm RbThm DownModel2 DownSpec2 DownThm4.
Local Open Scope py_scope.

(** ** The counter changes nothing *)
#[local] Hint Resolve co_insert_value co_search_root co_remove_with : co.
Lemma co_treap_up : forall f p n, counts (treap_up_c f p n) (treap_up f p n).
Proof. induction f; intros [] ?; cbn [treap_up_c treap_up]; cog. Qed.
#[local] Hint Resolve co_treap_up : co.
Lemma co_treap_insert v p : counts (treap_insert_c v p) (treap_insert v p).
Proof. unfold treap_insert_c, treap_insert. cog. Qed.
Lemma co_treap_down : forall f p n, counts (treap_down_c f p n) (treap_down f p n).
Proof. induction f; intros p n; cbn [treap_down_c treap_down]; cog. Qed.
#[local] Hint Resolve co_treap_down : co.
Lemma co_treap_remove v : counts (treap_remove_c v) (treap_remove v).
Proof. apply co_remove_with. intros. cog. Qed.
Lemma co_recolor : forall f n, counts (recolor_c f n) (recolor f n).
Proof. induction f; intros n; cbn [recolor_c recolor]; cog. Qed.
#[local] Hint Resolve co_recolor : co.
Lemma co_rb_insert v : counts (rb_insert_c v) (rb_insert v).
Proof. unfold rb_insert_c, rb_insert. cog. Qed.

(** ** No more rounds than end the loop *)
Ltac amstep H := apply am_lfb; let E := fresh "E" in intros ? ? E; rewrite (bind_ok _ _ _ _ _ E) in H.
Ltac amget H a := apply am_lfb; let E := fresh "E" in intros a ? E; rewrite (bind_ok _ _ _ _ _ E) in H.
Ltac amtick := eapply am_bind; [intros k; unfold tick; cbn; lia|]; let E := fresh "E" in intros ? ? ? ? E; injection E as _ <- _.
Ltac algo H := apply al_lfb; let E := fresh "E" in intros ? ? E; rewrite (bind_ok _ _ _ _ _ E) in H.
Ltac alget H a := apply al_lfb; let E := fresh "E" in intros a ? E; rewrite (bind_ok _ _ _ _ _ E) in H.
Lemma am_treap_up fu : forall f p n s z s', treap_up_n fu p n s = Ok z s' -> at_most s (treap_up_c f p n) z.
Proof.
  induction fu as [|fu IH]; intros f p n s z s' H; (destruct p as [i|]; [|destruct f; (eapply am_le; [apply tk_ret|lia])]); [done|].
  destruct f as [|f]; [apply tk_diverge|]. cbn [treap_up_n] in H. cbn [treap_up_c].
  destruct z as [|z]. { exfalso. revert H. unfold bind, ret. repeat case_match; intros; simplify_eq. }
  change (S z) with (1 + z). amtick. do 3 amstep H. destruct (num_ltb _ _); [eapply am_le; [apply tk_ret|lia]|]. do 3 amstep H.
  apply (IH f _ _ _ _ s'); unfold bind in H; match type of H with context [treap_up_n ?a ?b ?c ?d] => destruct (treap_up_n a b c d) as [w s9| |]; try done end; injection H as <- <-; done.
Qed.
Lemma al_treap_up f : forall fu p n s z s', f <= fu -> treap_up_n fu p n s = Ok z s' -> at_least s (treap_up_c f p n) z.
Proof.
  induction f as [|f IH]; intros fu p n s z s' Hf H; (destruct p as [i|]; [|destruct fu; cbn in H; injection H as <- _; apply tk_ret]); [apply tk_diverge|].
  destruct fu as [|fu]; [lia|]. cbn [treap_up_n] in H. cbn [treap_up_c].
  destruct z as [|z]. { exfalso. revert H. unfold bind, ret. repeat case_match; intros; simplify_eq. }
  change (S z) with (1 + z). eapply al_bind; [intros k; unfold tick; cbn; lia|]. intros ? ? ? ? E9. injection E9 as _ <- _.
  do 3 algo H. destruct (num_ltb _ _); [injection H as <- _; apply tk_ret|]. do 3 algo H.
  apply (IH fu _ _ _ _ s'); [lia|]; unfold bind in H; match type of H with context [treap_up_n ?a ?b ?c ?d] => destruct (treap_up_n a b c d) as [w s9| |]; try done end; injection H as <- <-; done.
Qed.
Lemma am_treap_down fu : forall f p n s z s', treap_down_n fu p n s = Ok z s' -> at_most s (treap_down_c f p n) z.
Proof.
  induction fu as [|fu IH]; intros f p n s z s' H; cbn [treap_down_n] in H.
  - destruct f as [|f]; cbn [treap_down_c]; amget H a; (destruct a; [eapply am_le; [apply tk_ret|lia]|done]).
  - destruct f as [|f]; cbn [treap_down_c]; amget H a; (destruct a; [eapply am_le; [apply tk_ret|lia]|]); [apply tk_diverge|].
    destruct z as [|z]. { exfalso. revert H. unfold bind, ret. repeat case_match; intros; simplify_eq. }
    change (S z) with (1 + z). amtick. do 4 amstep H. destruct (num_ltb _ _); do 4 amstep H;
      (apply (IH f _ _ _ _ s'); unfold bind in H; match type of H with context [treap_down_n ?a ?b ?c ?d] => destruct (treap_down_n a b c d) as [w s9| |]; try done end; injection H as <- <-; done).
Qed.
Lemma al_treap_down f : forall fu p n s z s', f <= fu -> treap_down_n fu p n s = Ok z s' -> at_least s (treap_down_c f p n) z.
Proof.
  induction f as [|f IH]; intros fu p n s z s' Hf H.
  - cbn [treap_down_c]. destruct fu as [|fu]; cbn [treap_down_n] in H; alget H a; (destruct a; [injection H as <- _; apply tk_ret|apply tk_diverge]).
  - destruct fu as [|fu]; [lia|]. cbn [treap_down_c]. cbn [treap_down_n] in H; alget H a. destruct a; [injection H as <- _; apply tk_ret|].
    destruct z as [|z]. { exfalso. revert H. unfold bind, ret. repeat case_match; intros; simplify_eq. }
    change (S z) with (1 + z). eapply al_bind; [intros k; unfold tick; cbn; lia|]. intros ? ? ? ? E9. injection E9 as _ <- _.
    do 4 algo H. destruct (num_ltb _ _); do 4 algo H;
      (apply (IH fu _ _ _ _ s'); [lia|]; unfold bind in H; match type of H with context [treap_down_n ?a ?b ?c ?d] => destruct (treap_down_n a b c d) as [w s9| |]; try done end; injection H as <- <-; done).
Qed.
Lemma am_recolor fu : forall f n s, recolor fu n s <> Diverge -> at_most s (recolor_c f n) fu.
Proof.
  induction fu as [|fu IH]; intros f n s H; cbn [recolor] in H; [done|].
  destruct f as [|f]; [apply tk_diverge|]. cbn [recolor_c]. change (S fu) with (1 + fu). amtick.
  amget H a. amget H b. destruct b as [p|]; [|eapply am_le; [apply tk_ret|lia]].
  amget H b. destruct b as [g|]; [|eapply am_le; [apply tk_ret|lia]].
  amstep H. destruct (negb _); [eapply am_le; [apply tk_lf|lia]|].
  amstep H. destruct a as [u|]; [destruct (is_red _)|]; do 3 amstep H; by apply IH.
Qed.

(** ** The calls *)
Lemma tk_treap_insert s T x p q : rep s T -> increasing (ino T) -> prio_val p = Some q ->
  takes s (treap_insert_c (PNum x) p) (path x (vals T) + rising (default q (priority_of x (bin_map snd T))) (above x (bin_map snd T))).
Proof.
  intros H Hi Hq. destruct (rep_held s T H) as (T1 & H1 & EV & EL). unfold treap_insert_c.
  apply tk_lfb. intros y s' E. injection E as <- <-.
  assert (check_prio p s = Ok q s) as Ep. { unfold prio_val, check_prio in *. destruct p as [d|[]]; naive_solver. }
  apply (tk_lfk _ _ _ _ _ Ep). apply (tk_lfk _ _ _ _ _ (rep_empty s T H)). destruct (decide (T = Nil)) as [->|HT].
  { do 3 (apply tk_lfb; intros). apply tk_ret. }
  assert ((match T with Nil => true | _ => false end) = false) as -> by (by destruct T).
  rewrite -EV. eapply tk_bind; [by apply (tk_insert_value CTreap x q s T1 H1)|].
  intros r s1 k k' Er%(co_ok _ _ _ _ _ _ _ (co_insert_value CTreap x q)).
  apply tk_lfb. intros pp s2 Epp. apply tk_lfb. intros n s3 E3. injection E3 as En <-.
  apply tk_bind0; [|intros; apply tk_ret].
  destruct (treap_insert_up s T x q (Nat.max n (nlevels T)) H Hi HT) as (a & s3 & E & ->); [lia|]. rewrite (bind_ok _ _ _ _ _ Er) (bind_ok _ _ _ _ _ Epp) in E.
  split; [by eapply am_treap_up|]. eapply al_treap_up; [|exact E]. lia.
Qed.
Lemma am_rb_insert s T x : rep s T -> increasing (ino T) -> at_most s (rb_insert_c (PNum x)) (path x (vals T) + nlevels T + 1).
Proof.
  intros H Hi. destruct (rep_held s T H) as (T1 & H1 & EV & EL). unfold rb_insert_c.
  apply am_lfb. intros y s' E. injection E as <- <-.
  apply am_lfb. intros e s' E. pose proof (rep_empty s T H) as E'. rewrite E' in E. injection E as <- <-. destruct (decide (T = Nil)) as [->|HT].
  { do 4 (apply am_lfb; intros). eapply am_le; [apply tk_ret|lia]. }
  assert ((match T with Nil => true | _ => false end) = false) as -> by (by destruct T).
  rewrite -EV -Nat.add_assoc. eapply am_bind; [by apply (tk_insert_value CRB x (Fin 0) s T1 H1)|].
  intros r s1 k k' Er%(co_ok _ _ _ _ _ _ _ (co_insert_value CRB x (Fin 0))).
  apply am_lfb. intros n s3 E3. injection E3 as _ <-.
  rewrite -(Nat.add_0_r (nlevels T + 1)). eapply am_bind.
  - apply am_recolor. intros Hd.
    destruct (rb_insert_up s T x (nlevels T + 1) H Hi HT) as (a & s3 & E); [lia|]. rewrite (bind_ok _ _ _ _ _ Er) in E. unfold bind in E. by rewrite Hd in E.
  - intros. do 3 (apply am_lfb; intros). apply tk_ret.
Qed.
Lemma right_branch_map {A B} (f : A -> B) t : right_branch (bin_map f t) = right_branch t.
Proof. induction t as [|l _ x r IH]; [done|]. cbn. by rewrite IH. Qed.
Lemma left_branch_map {A B} (f : A -> B) t : left_branch (bin_map f t) = left_branch t.
Proof. induction t as [|l IH x r _]; [done|]. cbn. by rewrite IH. Qed.
Lemma sinking_zfind x T : sinking x (vals T) = match (zfind x T).2 with Nil => 0 | Bin l _ u => right_branch l + left_branch u end.
Proof.
  unfold sinking, vals. rewrite subtree_at_zfind. destruct (zfind x T).2 as [|l ix u]; [done|]. cbn [bin_map]. by rewrite !right_branch_map !left_branch_map.
Qed.
Lemma tk_treap_remove s T x : rep s T -> increasing (ino T) -> heap T -> sks x T ->
  takes s (treap_remove_c (PNum x)) (if only_value x (vals T) then 0 else path x (vals T) + sinking x (vals T)).
Proof.
  intros H Hi Hh Hok. destruct (rep_held s T H) as (T1 & H1 & EV & EL). unfold treap_remove_c. rewrite -EV.
  eapply tk_eq; [apply (tk_remove_with (PNum x) _ s T1 (fun x => path x (vmap T1) + sinking x (vmap T1)) H1)|].
  2:{ destruct T1; [|done]. by destruct (only_value _ _). }
  intros ? [= <-] HT1 Eo. eapply tk_bind; [by apply (tk_search_root x s T1 H1)|].
  intros i s1 k k' Ei%(co_ok _ _ _ _ _ _ _ (co_search_root x)).
  destruct (search_root_lands x s T1 H1 HT1) as (j' & E & l & y & r & Hs & _ & _ & Hv & Hnv). rewrite Ei in E. injection E as <- ->.
  pose proof Hs as (_ & ce & Hc & Hx & _ & _). cbn [fst snd] in *.
  apply tk_lfb. intros d s' Ed. rewrite (gd _ _ _ Hc) in Ed. injection Ed as <- <-. rewrite Hx.
  destruct (bool_decide_reflect (p_val y = x)) as [Ey|Hne]; cbn [negb].
  2:{ unfold sinking. rewrite Hnv; [apply tk_ret|congruence]. }
  rewrite EV. assert (x ∈ ino T) as HxT.
  { apply (zfind_in x T Hi). intros HN. pose proof (subtree_at_zfind x T) as HS. rewrite HN in HS. change (bin_map p_val (bin_map snd T)) with (vals T) in HS.
    rewrite -EV -(Hv (eq_sym Ey)) in HS. done. }
  apply tk_lfb. intros p s' Ep. apply tk_lfb. intros n s3 E3. injection E3 as En <-.
  rewrite -(Nat.add_0_r (sinking _ _)). eapply tk_bind.
  - destruct (treap_remove_down s T x (Nat.max n (sinking x (vals T))) H Hi Hh Hok HxT) as (a & s3 & E & Ea); [rewrite -sinking_zfind; lia|].
    rewrite -sinking_zfind in Ea. subst a. rewrite (bind_ok _ _ _ _ _ Ei) (bind_ok _ _ _ _ _ Ep) in E.
    split; [by eapply am_treap_down|]. eapply al_treap_down; [|exact E]. lia.
  - intros. do 4 (apply tk_lfb; intros). apply tk_ret.
Qed.
(** ** Levels *)

Lemma sinking_levels x t : path x t + sinking x t <= 2 * nlevels t.
Proof.
  pose proof (path_levels x t) as HP. pose proof (path_subtree x t) as HS. unfold sinking. destruct (subtree_at x t) as [|l y r]; [lia|].
  specialize (HS ltac:(done)). cbn [nlevels] in HS. pose proof (right_levels l). pose proof (left_levels r).
  destruct t as [|a b c]; [cbn in *; lia|]. assert (1 <= path x (Bin a b c)) by (cbn [path]; repeat case_match; lia). lia.
Qed.
Lemma rising_length q l : rising q l <= length l.
Proof. induction l as [|p l IH]; [done|]. cbn. destruct (num_ltb q p); lia. Qed.
Lemma above_levels x t : length (above x t) <= nlevels t.
Proof. induction t as [|l IHl y r IHr]; [done|]. cbn [above nlevels]. destruct (decide _); [cbn; lia|]. rewrite app_length. cbn. destruct (num_ltb _ _); lia. Qed.
