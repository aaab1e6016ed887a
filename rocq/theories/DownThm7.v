(** * How far RedBlackTree.remove walks (C85): proofs *)
From iris.proofmode Require Import proofmode.
From Verif Require Import Base TreeModel TreeSpec BstModel BalModel BstSpec RbSpec BstSep BstRules BstZip BstDel BstPure BstThm SplayThm AvlThm WalkModel WalkSpec WalkThm WalkThm2.
From Verif Require Import TreeIterThm TreeIterThm3 TreeIterThm4 DepthSpec DepthThm DepthThm2 DepthThm3 DepthThm6 DownModel DownSpec DownThm DownThm2 DownThm3.
From Verif Require Import RbThm RbDel RbDel2 RbDel3 RbDel4 RbDel5 DownModel2 DownSpec2 DownThm5 DownModel3 DownThm6.
Local Open Scope py_scope.

(** ** The counter changes nothing *)
#[local] Hint Resolve co_max co_min co_search_root co_transplant : co.
Lemma co_rb_find i : counts (rb_find_replacement_c i) (rb_find_replacement i).
Proof. unfold rb_find_replacement_c, rb_find_replacement. cog. Qed.
Lemma co_double_black : forall f p d, counts (double_black_loop_c f p d) (double_black_loop f p d).
Proof. induction f; intros p d; cbn [double_black_loop_c double_black_loop]; cog. Qed.
#[local] Hint Resolve co_rb_find co_double_black : co.
Lemma co_handle p d : counts (handle_double_black_c p d) (handle_double_black p d).
Proof. unfold handle_double_black_c, handle_double_black. cog. Qed.
#[local] Hint Resolve co_handle : co.
Lemma co_rb_remove v : counts (rb_remove_c v) (rb_remove v).
Proof. apply co_remove_with. intros. cog. Qed.

(** ** Looking for the replacement *)
Lemma am_rb_find l i x r s : snap (t_nodes s) (Some i) (Bin l (i, x) r) -> at_most s (rb_find_replacement_c i) (left_branch r + right_branch l).
Proof.
  intros (_ & c & Hc & Hx & Hl & Hr). cbn [fst snd] in *. unfold rb_find_replacement_c.
  assert (exists b, node_is_leaf i s = Ok b s) as [b E1].
  { unfold node_is_leaf, get_left, get_right, rd, ret, bind. repeat (rewrite Hc; cbv beta iota). by eexists. }
  apply am_lfb. intros b' s' Eb. rewrite E1 in Eb. injection Eb as <- <-. destruct b; [eapply am_le; [apply tk_ret|lia]|].
  apply am_lfb. intros a s' E. rewrite (gr _ _ _ Hc) in E. injection E as <- <-.
  eapply am_bind.
  { destruct (c_right c) as [j|]; [|eapply am_le; [apply tk_ret|lia]]. apply am_lfb; intros ? ? [= <- <-].
    rewrite -(Nat.add_0_r (left_branch r)). eapply am_bind; [by apply tk_min|]. intros. apply tk_ret. }
  intros p s' k k' E. assert (s' = s) as ->.
  { destruct (c_right c) as [j|]; [|by injection E].
    assert (counts (let! n := lf get_fuel in let! k := get_min_node_c n j in ret (Some k)) (let! n := get_fuel in let! k := get_min_node n j in ret (Some k))) as Hco by cog.
    apply (co_ok _ _ _ _ _ _ _ Hco) in E. unfold get_fuel, bind, ret in E.
    destruct (get_min_node _ j s) as [q s2| |] eqn:Em; try done. destruct (min_found _ _ _ _ _ _ Hr Em) as [-> _]. by injection E. }
  apply am_lfb. intros a s' E'. rewrite (gl _ _ _ Hc) in E'. injection E' as <- <-.
  rewrite -(Nat.add_0_r (right_branch l)). eapply am_bind.
  { destruct (c_left c) as [j|]; [|eapply am_le; [apply tk_ret|lia]]. apply am_lfb; intros ? ? [= <- <-].
    rewrite -(Nat.add_0_r (right_branch l)). eapply am_bind; [by apply tk_max|]. intros. apply tk_ret. }
  intros. do 2 (apply am_lfb; intros). apply tk_ret.
Qed.
Lemma rb_find_found l i x r s p s' : snap (t_nodes s) (Some i) (Bin l (i, x) r) -> rb_find_replacement i s = Ok p s' ->
  s' = s /\ (p = None \/ snap (t_nodes s) p (at_leftmost r) \/ snap (t_nodes s) p (at_rightmost l)).
Proof.
  intros (_ & c & Hc & Hx & Hl & Hr) E. cbn [fst snd] in *. unfold rb_find_replacement in E.
  assert (exists b, node_is_leaf i s = Ok b s) as [b E1].
  { unfold node_is_leaf, get_left, get_right, rd, ret, bind. repeat (rewrite Hc; cbv beta iota). by eexists. }
  rewrite (bind_ok _ _ _ _ _ E1) in E. destruct b; [injection E as <- <-; split; [done|by left]|].
  rewrite (bind_ok _ _ _ _ _ (gr _ _ _ Hc)) in E.
  match type of E with bind ?m _ _ = _ => destruct (m s) as [a s1| |] eqn:Ea; [rewrite (bind_ok _ _ _ _ _ Ea) in E|unfold bind at 1 in E; by rewrite Ea in E..] end.
  assert (s1 = s /\ (a = None \/ snap (t_nodes s) a (at_leftmost r))) as [-> Ha].
  { destruct (c_right c) as [j|]; [|injection Ea as <- <-; split; [done|by left]]. unfold get_fuel, bind, ret in Ea.
    destruct (get_min_node _ j s) as [q s2| |] eqn:Em; try done. injection Ea as <- <-. destruct (min_found _ _ _ _ _ _ Hr Em) as [-> ?]. split; [done|by right]. }
  rewrite (bind_ok _ _ _ _ _ (gl _ _ _ Hc)) in E.
  match type of E with bind ?m _ _ = _ => destruct (m s) as [a2 s1| |] eqn:Ea2; [rewrite (bind_ok _ _ _ _ _ Ea2) in E|unfold bind at 1 in E; by rewrite Ea2 in E..] end.
  assert (s1 = s /\ (a2 = None \/ snap (t_nodes s) a2 (at_rightmost l))) as [-> Ha2].
  { destruct (c_left c) as [j|]; [|injection Ea2 as <- <-; split; [done|by left]]. unfold get_fuel, bind, ret in Ea2.
    destruct (get_max_node _ j s) as [q s2| |] eqn:Em; try done. injection Ea2 as <- <-. destruct (max_found _ _ _ _ _ _ Hl Em) as [-> ?]. split; [done|by right]. }
  clear Ea Ea2. assert (forall q k s2, color_of q s = Ok k s2 -> s2 = s) as Hcol.
  { intros [q|] k s2; cbn; [unfold get_color, rd, bind, ret; destruct (t_nodes s !! q)|unfold ret]; congruence. }
  unfold bind at 1 in E. destruct (color_of a s) as [k1 s2| |] eqn:E2; try done. apply Hcol in E2 as ->.
  unfold bind at 1 in E. destruct (color_of a2 s) as [k2 s2| |] eqn:E3; try done. apply Hcol in E3 as ->.
  injection E as <- <-. split; [done|]. destruct (is_red k1); [tauto|]. destruct (is_red k2); [tauto|]. destruct a; tauto.
Qed.
(** In a red-black tree nothing, or one red leaf, is below a node with one child. *)
Lemma rbt0_exchanges t : rbt t 0 -> exchanges t <= 1.
Proof.
  intros H. destruct (colr_cases t) as [Hc|Hc].
  - apply rbt_black0 in H; [|done]. subst. cbn. lia.
  - apply rbt_red0 in H as [? ->]; [|done]. cbn. lia.
Qed.
Lemma rb_leftmost t : forall n, rbt t n -> exchanges (at_leftmost t) <= 2.
Proof.
  induction t as [|l IH x r _]; intros n H; [cbn; lia|]. destruct H as (m & _ & Hl & Hr & _). cbn [at_leftmost]. destruct l as [|ll lx lr]; [|by eapply IH].
  cbn in Hl. subst m. apply rbt0_exchanges in Hr. cbn [exchanges]. lia.
Qed.
Lemma rb_rightmost t : forall n, rbt t n -> exchanges (at_rightmost t) <= 2.
Proof.
  induction t as [|l _ x r IH]; intros n H; [cbn; lia|]. destruct H as (m & _ & Hl & Hr & _). cbn [at_rightmost]. destruct r as [|rl rx rr]; [|by eapply IH].
  cbn in Hr. subst m. apply rbt0_exchanges in Hl. destruct l; cbn [exchanges] in *; lia.
Qed.

(** ** Mending *)
Lemma am_double_black fu : forall f m d s, double_black_loop fu m d s <> Diverge -> at_most s (double_black_loop_c f m d) fu.
Proof.
  induction fu as [|fu IH]; intros f m d s H; cbn [double_black_loop] in H.
  - destruct f as [|f]; cbn [double_black_loop_c]; do 2 amstep H; (destruct (_ && _); [done|eapply am_le; [apply tk_ret|lia]]).
  - destruct f as [|f]; cbn [double_black_loop_c]; do 2 amstep H; (destruct (_ && _); [|eapply am_le; [apply tk_ret|lia]]); [apply tk_diverge|].
    change (S fu) with (1 + fu). amtick. amstep H. by apply IH.
Qed.
Lemma am_handle m d s : double_black_loop 2 m d s <> Diverge -> at_most s (handle_double_black_c m d) 2.
Proof.
  intros H. unfold handle_double_black_c. apply am_lfb; intros ? ? [= <- <-]. change 2 with (2 + 0). eapply am_bind; [by apply am_double_black|].
  intros. do 2 (apply am_lfb; intros). apply tk_lf.
Qed.

(** ** The call *)
Lemma am_remove_with x rest s T n : held s T -> (T <> Nil -> only_value x (vmap T) = false -> at_most s (rest x) n) ->
  at_most s (remove_with_c (PNum x) rest) n.
Proof.
  intros H Hr. unfold remove_with_c. apply am_lfb; intros ? ? [= <- <-]. destruct (t_root s) as [i|] eqn:E.
  2:{ eapply am_le; [apply tk_ret|lia]. }
  assert (T <> Nil) as HT by (rewrite -(held_root _ _ H); congruence).
  destruct H as [H _]. rewrite E in H. destruct T as [|l [j y] r]; [done|]. destruct H as ([= ->] & ce & Hc & Hy & Hl & Hr'). cbn [fst snd] in *.
  assert (node_is_leaf j s = Ok (match c_left ce, c_right ce with None, None => true | _, _ => false end) s) as E1.
  { intros. unfold node_is_leaf, get_left, get_right, rd, ret, bind. repeat (rewrite Hc; cbv beta iota). done. }
  apply am_lfb. intros b s' Eb. rewrite E1 in Eb. injection Eb as <- <-. apply am_lfb. intros d s' Ed. rewrite (gd _ _ _ Hc) in Ed. injection Ed as <- <-. rewrite Hy.
  assert ((match c_left ce, c_right ce with None, None => true | _, _ => false end) && bool_decide (x = p_val y) = only_value x (vmap (Bin l (j, y) r))) as ->.
  { assert (forall p U, snap (t_nodes s) p U -> match p with None => true | _ => false end = match U with Nil => true | _ => false end) as Hz.
    { intros p [|? ? ?]; cbn; [by intros ->|by intros [-> _]]. }
    pose proof (Hz _ _ Hl) as Z1. pose proof (Hz _ _ Hr') as Z2. destruct (c_left ce), (c_right ce), l, r; done. }
  destruct (only_value _ _) eqn:Eo; [do 2 (apply am_lfb; intros); eapply am_le; [apply tk_ret|lia]|]. by apply Hr.
Qed.
Lemma am_rb_remove s T x : rep s T -> increasing (ino T) -> rbok T ->
  at_most s (rb_remove_c (PNum x)) (path x (vals T) + match subtree_at x (vals T) with Nil => 0 | _ => sinking x (vals T) + 5 end).
Proof.
  intros H Hi Hrb. pose proof (rep_held' s T H) as H1. unfold rb_remove_c. eapply (am_remove_with x _ s T); [done|]. intros HT Eo.
  eapply am_bind; [by apply (tk_search_root x s T H1)|].
  intros i s1 k k' Ei%(co_ok _ _ _ _ _ _ _ (co_search_root x)).
  destruct (search_root_lands x s T H1 HT) as (j' & E & l & y & r & Hs & _ & _ & Hv & Hnv). rewrite Ei in E. injection E as <- ->.
  pose proof Hs as (_ & ce & Hc & Hx & _ & _). cbn [fst snd] in *.
  apply am_lfb. intros d s' Ed. rewrite (gd _ _ _ Hc) in Ed. injection Ed as <- <-. rewrite Hx.
  destruct (bool_decide_reflect (p_val y = x)) as [Ey|Hne]; cbn [negb].
  2:{ eapply am_le; [apply tk_ret|lia]. }
  specialize (Hv (eq_sym Ey)). change (vmap T) with (vals T) in *.
  pose proof (subtree_at_zfind x T) as HS. change (bin_map p_val (bin_map snd T)) with (vals T) in HS.
  assert (x ∈ ino T) as HxT.
  { apply (zfind_in x T Hi). intros HN. rewrite HN -Hv in HS. done. }
  assert (rb_probe x s <> Diverge) as Hp.
  { apply (probe_ends s T); try done. intros Hl. destruct T as [|[] [i0 y0] []]; cbn in Hl; try done. cbn in HxT. apply elem_of_list_singleton in HxT as ->. cbn in Eo.
    by rewrite bool_decide_eq_true_2 in Eo. }
  assert (exchanges (at_leftmost r) <= 2 /\ exchanges (at_rightmost l) <= 2) as [Hx1 Hx2].
  { destruct Hrb as [_ [N HN]]. rewrite -(zfind_plug x T) in HN. apply rb_plug in HN as (n & Hn & _). rewrite -Hv in HS.
    destruct (zfind x T).2 as [|l' iy u]; [done|]. unfold vmap in HS. cbn [bin_map] in HS. injection HS as HS1 _ HS2.
    destruct Hn as (m & _ & Hnl & Hnu & _). apply rb_rightmost in Hnl. apply rb_leftmost in Hnu.
    assert (exchanges (at_leftmost r) = exchanges (at_leftmost u)) as ->.
    { rewrite -(exchanges_map snd) -(exchanges_map p_val) -!leftmost_map HS2 !leftmost_map !exchanges_map. done. }
    assert (exchanges (at_rightmost l) = exchanges (at_rightmost l')) as ->.
    { rewrite -(exchanges_map snd) -(exchanges_map p_val) -!rightmost_map HS1 !rightmost_map !exchanges_map. done. }
    done. }
  unfold sinking. rewrite -Hv. unfold vmap. cbn [bin_map]. rewrite !right_branch_map !left_branch_map.
  replace (right_branch l + left_branch r + 5) with (left_branch r + right_branch l + 5) by lia.
  unfold rb_probe in Hp. rewrite (bind_ok _ _ _ _ _ Ei) in Hp. rewrite (bind_ok _ _ _ _ _ (gd _ _ _ Hc)) Hx in Hp.
  rewrite bool_decide_eq_true_2 in Hp; [|done]. cbn [negb] in Hp.
  eapply am_bind; [by eapply am_rb_find|].
  intros p s' k1 k2 Er%(co_ok _ _ _ _ _ _ _ (co_rb_find i)). rewrite (bind_ok _ _ _ _ _ Er) in Hp.
  destruct (rb_find_found _ _ _ _ _ _ _ Hs Er) as [-> Hfd].
  assert (exists R : ltree, snap (t_nodes s) p R /\ exchanges R <= 2) as (R & HR & HRx).
  { destruct Hfd as [->|[?|?]]; [exists Nil; split; [done|cbn; lia]|by eexists..]. }
  destruct (color_total (Some i) s _ Hs) as [ci Hci]. destruct (color_total p s _ HR) as [cr Hcr].
  apply am_lfb. intros ci' s' Eci. cbn [color_of] in Hci. rewrite Hci in Eci. injection Eci as <- <-. rewrite (bind_ok _ _ _ _ _ Hci) in Hp.
  apply am_lfb. intros cr' s' Ecr. rewrite Hcr in Ecr. injection Ecr as <- <-. rewrite (bind_ok _ _ _ _ _ Hcr) in Hp.
  amget Hp n0. injection E as _ <-.
  assert (forall s2 f, same_links (t_nodes s) (t_nodes s2) -> at_most s2 (transplant_c f CRB i p) 3) as Htr.
  { intros s2 f Hsl. eapply am_le; [apply (tk_transplant CRB R); eapply lk_same; [exact Hsl|by apply snap_lk]|lia]. }
  assert (forall q s2 pp, get_parent q s = Ok pp s2 -> s2 = s) as Hgp.
  { intros q s2 pp. unfold get_parent, rd, bind, ret. destruct (t_nodes s !! q); congruence. }
  change 5 with (5 + 0). eapply am_bind; [|intros; apply am_lfb; intros; apply tk_ret].
  destruct ci, p as [q|]; [destruct cr| |destruct cr|].
  - amstep Hp. apply Hgp in E as ->. change 5 with (3 + 2). eapply am_bind; [apply Htr, same_refl|].
    intros ? s2 ? ? Et%(co_ok _ _ _ _ _ _ _ (co_transplant _ _ _ _)). rewrite (bind_ok _ _ _ _ _ Et) in Hp. do 4 amstep Hp. by apply am_handle.
  - apply am_lfb. intros ? s2 Es2. pose proof (quiet_color q Black s) as Hq. rewrite Es2 in Hq. eapply am_le; [apply Htr, Hq|lia].
  - amstep Hp. apply Hgp in E as ->. change 5 with (3 + 2). eapply am_bind; [apply Htr, same_refl|].
    intros ? s2 ? ? Et%(co_ok _ _ _ _ _ _ _ (co_transplant _ _ _ _)). rewrite (bind_ok _ _ _ _ _ Et) in Hp. do 3 amstep Hp. by apply am_handle.
  - apply tk_raise.
  - eapply am_le; [apply Htr, same_refl|lia].
  - eapply am_le; [apply Htr, same_refl|lia].
Qed.
