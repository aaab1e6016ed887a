(** * The nodes on the way to a value in a treap *)
From Coq Require Import Sorted.
From iris.proofmode Require Import proofmode.
From Verif Require Import Base NumOrd TreeModel TreeSpec BstModel BalModel BstSpec BstPure DepthSpec TreapAvgSpec TreapAvgThm.

(** ** Only weak maxima are on the way *)
Fixpoint ntops (l : list num) : nat :=
  match l with [] => 0 | p :: l' => (if forallb (fun q => num_leb q p) l' then 1 else 0) + ntops l' end.
Lemma ntops_app l1 l2 : ntops l2 <= ntops (l1 ++ l2).
Proof. induction l1 as [|p l1 IH]; cbn [app ntops]; lia. Qed.
Lemma ntops_pos l : l <> [] -> 1 <= ntops l.
Proof. induction l as [|p l IH]; [done|]. intros _. cbn [ntops]. destruct l as [|q l]; [cbn; lia|]. pose proof (IH ltac:(done)). lia. Qed.
Lemma ntops_top p l : Forall (fun q => num_le q p) l -> ntops (p :: l) = S (ntops l).
Proof.
  intros H. cbn [ntops]. assert (forallb (fun q => num_leb q p) l = true) as ->; [|done]. apply forallb_forall. intros q Hq.
  rewrite Forall_forall in H. unfold num_leb. apply negb_true_iff, num_ltb_le, H. by apply elem_of_list_In.
Qed.
Lemma heap_all t : forall p, root_prio_le t p -> heap_ordered t -> Forall (fun y => num_le (p_prio y) p) (inorder t).
Proof.
  induction t as [|a IHa y b IHb]; intros p Hp Hh; [constructor|]. cbn [heap_ordered] in Hh. destruct Hh as (Ha & Hb & Hha & Hhb).
  cbn [root_prio_le] in Hp. apply num_ltb_le in Hp. cbn [inorder]. apply Forall_app. split; [|constructor].
  - apply Forall_impl with (fun z => num_le (p_prio z) (p_prio y)); [by apply IHa|]. intros z Hz. by eapply num_le_trans.
  - done.
  - apply Forall_impl with (fun z => num_le (p_prio z) (p_prio y)); [by apply IHb|]. intros z Hz. by eapply num_le_trans.
Qed.

Lemma path_tops t x : forall l r, heap_ordered t -> increasing (map p_val (inorder t)) -> inorder t = l ++ r ->
  Forall (fun y => ~ num_lt x (p_val y)) l -> Forall (fun y => num_lt x (p_val y)) r ->
  path x (values t) <= ntops (map p_prio l) + ntops (rev (map p_prio r)).
Proof.
  induction t as [|a IHa y b IHb]; intros l r Hh Hinc E Hl Hr; [cbn; lia|]. cbn [heap_ordered] in Hh. destruct Hh as (Ha & Hb & Hha & Hhb).
  pose proof (heap_all a _ Ha Hha) as HAa. pose proof (heap_all b _ Hb Hhb) as HAb.
  cbn [inorder] in E, Hinc. unfold values. cbn [bin_map path]. rewrite map_app map_cons in Hinc.
  apply inc_app in Hinc as (Hia & Hyb & _). apply StronglySorted_inv in Hyb as [Hib _].
  destruct (decide (x = p_val y)) as [->|Hne].
  - assert (l <> []) as Hln. { intros ->. cbn in E. rewrite -E in Hr. apply Forall_app in Hr as [_ Hr]. apply Forall_cons in Hr as [Hr _]. by apply (num_lt_irrefl (p_val y)). }
    pose proof (ntops_pos (map p_prio l)) as HP. destruct l; [done|]. specialize (HP ltac:(done)). lia.
  - destruct (num_ltb x (p_val y)) eqn:Exy.
    + assert (exists k, inorder a = l ++ k /\ r = k ++ y :: inorder b) as (k & E1 & ->).
      { apply app_eq_inv in E as [(k & E1 & E2)|(k & E1 & E2)]; [by exists k|]. destruct k as [|z k].
        - exists []. rewrite app_nil_r in E1. cbn in E2. by rewrite app_nil_r E1 -E2.
        - injection E2 as -> ->. rewrite E1 in Hl. apply Forall_app in Hl as [_ Hl]. apply Forall_cons in Hl as [Hl _]. done. }
      rewrite map_app map_cons rev_app_distr. cbn [rev]. rewrite -app_assoc. cbn [app].
      pose proof (ntops_app (rev (map p_prio (inorder b))) (p_prio y :: rev (map p_prio k))) as HA. rewrite ntops_top in HA.
      * apply Forall_app in Hr as [Hr _]. pose proof (IHa l k Hha Hia E1 Hl Hr). unfold values in *. lia.
      * apply Forall_rev, Forall_map. rewrite E1 in HAa. by apply Forall_app in HAa as [_ ?].
    + assert (exists k, l = inorder a ++ y :: k /\ inorder b = k ++ r) as (k & -> & E1).
      { apply app_eq_inv in E as [(k & E1 & ->)|(k & E1 & E2)].
        - apply Forall_app in Hr as [_ Hr]. apply Forall_cons in Hr as [Hr _]. unfold num_lt in Hr. by rewrite Exy in Hr.
        - destruct k as [|z k].
          + cbn in E2. subst r. apply Forall_cons in Hr as [Hr _]. unfold num_lt in Hr. by rewrite Exy in Hr.
          + injection E2 as -> ->. by exists k. }
      rewrite map_app map_cons.
      pose proof (ntops_app (map p_prio (inorder a)) (p_prio y :: map p_prio k)) as HA. rewrite ntops_top in HA.
      * apply Forall_app in Hl as [_ Hl]. apply Forall_cons in Hl as [_ Hl]. pose proof (IHb k r Hhb Hib E1 Hl Hr). unfold values in *. lia.
      * apply Forall_map. rewrite E1 in HAb. by apply Forall_app in HAb as [? _].
Qed.
Definition fin (q : nat) : num := Fin (Z.of_nat q).
Lemma ntops_fin l : ntops (map fin l) = tops l.
Proof.
  induction l as [|p l IH]; [done|]. cbn [List.map ntops tops]. rewrite IH. f_equal.
  assert (forallb (fun q => num_leb q (fin p)) (map fin l) = forallb (fun q => q <=? p) l) as ->; [|done].
  clear IH. induction l as [|q l IH]; [done|]. cbn [List.map forallb]. rewrite IH. f_equal. unfold num_leb, fin. cbn.
  destruct (q <=? p) eqn:E; [apply Nat.leb_le in E|apply Nat.leb_gt in E]; destruct (Z.of_nat p <? Z.of_nat q)%Z eqn:E2; rewrite ?Z.ltb_lt ?Z.ltb_ge in E2; try done; lia.
Qed.

(** ** Which draw belongs to which value *)
Fixpoint owners (os : list top) (n : nat) (l : list (num * nat)) : list (num * nat) :=
  match os with
  | [] => l
  | TInsert (PNum x) _ :: os' => owners os' (S n) (if decide (x ∈ map fst l) then l else (x, n) :: l)
  | TInsert _ _ :: os' => owners os' (S n) l
  | TRemove (PNum x) :: os' => owners os' n (filter (fun y => fst y <> x) l)
  | TClear :: os' => owners os' n []
  | _ :: os' => owners os' n l
  end.
Lemma owners_ok os : forall n l, NoDup (map snd l) -> Forall (fun y => snd y < n) l ->
  NoDup (map snd (owners os n l)) /\ Forall (fun y => snd y < n + insertions os) (owners os n l).
Proof.
  induction os as [|o os IH]; intros n l Hn Hl.
  { cbn. split; [done|]. eapply Forall_impl; [done|]. cbn. lia. }
  assert (NoDup (map snd (owners os n l)) /\ Forall (fun y => snd y < n + insertions os) (owners os n l)) as H1 by (by apply IH).
  assert (forall l', NoDup (map snd l') -> Forall (fun y => snd y < S n) l' ->
    NoDup (map snd (owners os (S n) l')) /\ Forall (fun y => snd y < n + S (insertions os)) (owners os (S n) l')) as H2.
  { intros l' Hn' Hl'. rewrite Nat.add_succ_r. by apply (IH (S n)). }
  assert (Forall (fun y => snd y < S n) l) as Hl1. { eapply Forall_impl; [done|]. cbn. lia. }
  destruct o as [v p|v| | | | | | | | | | | | |]; try done.
  - change (insertions (TInsert v p :: os)) with (S (insertions os)). destruct v; cbn [owners]; try by apply H2.
    case_decide; [by apply H2|]. apply H2.
    + cbn [List.map snd]. constructor; [|done]. intros (y & E & Hy)%elem_of_list_fmap. rewrite Forall_forall in Hl. specialize (Hl y Hy). lia.
    + constructor; [cbn; lia|done].
  - destruct v; try done. cbn [owners]. apply IH.
    + clear -Hn. induction l as [|y l IH]; [done|]. cbn [List.map] in Hn. apply NoDup_cons in Hn as [Hy Hn]. rewrite filter_cons. case_decide; [|by apply IH].
      cbn [List.map]. constructor; [|by apply IH]. intros (z & E & [_ Hz]%elem_of_list_filter)%elem_of_list_fmap. apply Hy. rewrite E. by apply elem_of_list_fmap_1.
    + apply Forall_forall. intros y [_ Hy]%elem_of_list_filter. rewrite Forall_forall in Hl. by apply Hl.
  - cbn [owners]. by apply IH; constructor.
Qed.
Definition drawn_for (ps : list nat) (y : num * nat) : num * num := (fst y, fin (ps !!! snd y)).
Lemma drawn_for_fst ps l : map fst (map (drawn_for ps) l) = map fst l.
Proof. rewrite map_map. done. Qed.
Lemma owners_pairs ps os : forall n l, n + insertions os <= length ps ->
  pairs_after (with_draws os (drop n ps)) (map (drawn_for ps) l) = map (drawn_for ps) (owners os n l).
Proof.
  induction os as [|o os IH]; intros n l Hn; [done|].
  destruct o as [v p|v| | | | | | | | | | | | |]; try (cbn [with_draws pairs_after pairs_next owners]; by apply IH).
  - change (insertions (TInsert v p :: os)) with (S (insertions os)) in Hn.
    assert (drop n ps = ps !!! n :: drop (S n) ps) as -> by (apply drop_S, list_lookup_lookup_total_lt; lia).
    cbn [with_draws pairs_after]. destruct v; cbn [pairs_next owners]; try (apply IH; lia).
    cbn [prio_val]. rewrite drawn_for_fst. case_decide; [apply IH; lia|]. rewrite -IH; [|lia]. done.
  - destruct v; cbn [with_draws pairs_after pairs_next owners]; try by apply IH. rewrite -IH; [|done]. f_equal.
    clear. induction l as [|y l IH]; [done|]. rewrite map_cons !filter_cons. cbn [fst drawn_for]. case_decide; [|done]. by rewrite IH.
  - cbn [with_draws pairs_after pairs_next owners]. by apply (IH n []).
Qed.
Lemma with_draws_set os : forall ps l, default_priorities os -> set_after CTreap (with_draws os ps) l = set_after CTreap os l.
Proof.
  induction os as [|o os IH]; intros ps l Ho; [done|]. apply Forall_cons in Ho as [Ho Hos].
  destruct o as [v p|v| | | | | | | | | | | | |]; try (cbn [with_draws set_after]; by apply IH).
  cbn [with_draws]. destruct ps as [|q ps]; [done|]. cbn [set_after]. destruct p; [|done]. rewrite IH //.
Qed.
Lemma with_draws_above os : forall ps, default_priorities os -> insertions os <= length ps -> Forall prio_above (with_draws os ps).
Proof.
  induction os as [|o os IH]; intros ps Ho Hn; [constructor|]. apply Forall_cons in Ho as [Ho Hos].
  destruct o as [v p|v| | | | | | | | | | | | |]; try (cbn [with_draws]; constructor; [done|by apply IH]).
  change (insertions (TInsert v p :: os)) with (S (insertions os)) in Hn. destruct ps as [|q ps]; [cbn in Hn; lia|]. cbn in Hn.
  cbn [with_draws]. constructor; [|apply IH; [done|lia]]. cbn. unfold num_lt. cbn. apply Z.ltb_lt. lia.
Qed.
