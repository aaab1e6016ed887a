(** * Proofs about SkipList: updates *)
From Coq Require Import Sorted.
From Verif Require Import Base NumOrd ListModel ListRep ListPure ListCore ListCore2 ListOps ListOps2 ListOps3 SkipModel SkipSpec SkipThm.
Local Open Scope py_scope.

(** ** Changing one level *)
(** [x] in the levels under [k] only. *)
Definition part (x : num) (k : nat) : towers := match k with 0 => [] | S j => [(x, j)] end.
Lemma up_part x k i : up (part x k) i = if decide (i < k) then [x] else [].
Proof. destruct k as [|k]; cbn [part]; [by destruct (decide (i < 0)); [lia|]|]. rewrite up_cons. do 2 case_decide; try lia; done. Qed.
Section Framed.
Context {F : frame}.
Lemma Rep_update s s' os G A A' k o g g' L : Rep s os G A -> os !! k = Some o -> G !! k = Some g ->
  rep CLL s' o g' -> vals g' = map PNum (lev A' k) ->
  modifies L [o] s s' -> (forall l, l ∈ L -> l ∈ locs g \/ length (s_nodes s) <= l) ->
  (forall l, l ∈ locs g' -> l ∈ locs g \/ length (s_nodes s) <= l) ->
  (forall j, j <> k -> lev A' j = lev A j) ->
  down_ok G k g' -> (forall gu, G !! S k = Some gu -> Forall (down_in g') gu) ->
  Forall (fun p => p.2 < length G) A' -> Forall (fun p => p.1 <> NegInf) A' -> StronglySorted nlt (elems A') ->
  Rep s' os (<[k := g']> G) A'.
Proof.
  intros H Ho Hg Hr' Hv' Hm HL HL' Hlev Hd Hu Htop Hneg Hsort. pose proof (lookup_lt_Some _ _ _ Hg) as Hk.
  assert (forall j gj l, G !! j = Some gj -> l ∈ locs gj -> j <> k -> l ∉ L /\ l ∉ locs g') as Hfr.
  { intros j gj l Hj Hl Hne. destruct (Rep_level _ _ _ _ j H) as (oj & gj' & Hoj & Hgj' & Hrj & _); [by eapply lookup_lt_Some|].
    rewrite Hj in Hgj'. injection Hgj' as <-. pose proof (rep_bound _ _ _ _ _ Hrj Hl) as Hb.
    split; intros Hx; [apply HL in Hx|apply HL' in Hx]; (destruct Hx as [Hx|?]; [|lia]); apply Hne; by eapply (r_disj _ _ _ _ H j k). }
  split; try done.
  - rewrite insert_length. apply H.
  - intros j oj gj Hoj Hgj. destruct (decide (j = k)) as [->|Hne].
    + rewrite list_lookup_insert in Hgj by done. injection Hgj as <-. rewrite Ho in Hoj. by injection Hoj as <-.
    + rewrite list_lookup_insert_ne in Hgj by done. destruct (r_rep _ _ _ _ H _ _ _ Hoj Hgj) as [Hrj Hvj]. split; [|by rewrite Hlev].
      eapply rep_frame; [exact Hrj|exact Hm| |].
      * intros ->%elem_of_list_singleton. apply Hne. eapply NoDup_lookup; [apply H|done|done].
      * intros l Hl. by eapply Hfr.
  - intros j gj Hgj. destruct (decide (j = k)) as [->|Hne].
    + rewrite list_lookup_insert in Hgj by done. injection Hgj as <-. destruct k as [|k]; [done|]. intros b Hb. rewrite list_lookup_insert_ne in Hb by lia. by apply Hd.
    + rewrite list_lookup_insert_ne in Hgj by done. pose proof (r_down _ _ _ _ H _ _ Hgj) as HD. destruct j as [|j]; [done|]. intros b Hb.
      destruct (decide (j = k)) as [->|Hne'].
      * rewrite list_lookup_insert in Hb by done. injection Hb as <-. by apply Hu.
      * rewrite list_lookup_insert_ne in Hb by done. by apply HD.
  - apply H.
  - intros j j' gj gj' l Hgj Hgj' Hl Hl'. destruct (decide (j = k)) as [->|Hne], (decide (j' = k)) as [->|Hne']; [done| | |].
    + rewrite list_lookup_insert in Hgj by done. injection Hgj as <-. rewrite list_lookup_insert_ne in Hgj' by done. by apply (Hfr j' _ l) in Hl' as [_ ?].
    + rewrite list_lookup_insert in Hgj' by done. injection Hgj' as <-. rewrite list_lookup_insert_ne in Hgj by done. by apply (Hfr j _ l) in Hl as [_ ?].
    + rewrite list_lookup_insert_ne in Hgj by done. rewrite list_lookup_insert_ne in Hgj' by done. by eapply (r_disj _ _ _ _ H).
  - rewrite insert_length. apply H.
  - by rewrite insert_length.
  - intros oj gj Hj. destruct (r_kept _ _ _ _ H _ _ Hj) as (Hrj & Hoj & Hdj). split_and!; [|done|].
    + eapply rep_frame; [exact Hrj|exact Hm| |].
      * intros ->%elem_of_list_singleton. apply Hoj. by eapply elem_of_list_lookup_2.
      * intros l Hl Hx. pose proof (rep_bound _ _ _ _ _ Hrj Hl). apply HL in Hx as [Hx|?]; [|lia]. by eapply Hdj.
    + intros j g0 l Hg0 Hl Hl'. pose proof (rep_bound _ _ _ _ _ Hrj Hl'). destruct (decide (j = k)) as [->|Hne].
      * rewrite list_lookup_insert in Hg0 by done. injection Hg0 as <-. apply HL' in Hl as [Hl|?]; [|lia]. by eapply Hdj.
      * rewrite list_lookup_insert_ne in Hg0 by done. by eapply Hdj.
Qed.

(** ** Single steps on the heap *)
Lemma insert_skip s o a l b x : rep CLL s o (a ++ l :: b) ->
  exists s1 s2, new_skip_node (PNum x) s = Ok (length (s_nodes s)) s1 /\ (s_objs s1 = s_objs s /\ modifies [] [] s s1) /\
    insert_node o (Some (g_loc l)) (length (s_nodes s)) s1 = Ok (length (s_nodes s)) s2 /\
    rep CLL s2 o (a ++ l :: GN (length (s_nodes s)) (PNum x) (Fin 0) None :: b) /\ modifies (locs (a ++ l :: b)) [o] s s2.
Proof.
  intros Hr. set (n := GN (length (s_nodes s)) (PNum x) (Fin 0) None).
  set (s1 := St (s_nodes s ++ [Cell false (PNum x) None None (Fin 0) None]) (s_objs s)).
  assert (modifies [] [] s s1) as Hm1 by apply alloc_modifies.
  assert (rep CLL s1 o ((a ++ [l]) ++ b)) as Hr1. { rewrite <- app_assoc. eapply rep_frame; [exact Hr|exact Hm1|set_solver|set_solver]. }
  assert (fresh_node CLL s1 ((a ++ [l]) ++ b) n) as Hf.
  { split; [cbn; by rewrite lookup_app_r, Nat.sub_diag by lia| |done]. rewrite <- app_assoc. intros Hin. pose proof (rep_bound _ _ _ _ _ Hr Hin). cbn in *. lia. }
  destruct (wp_elim _ _ _ (insert_node_spec _ _ _ _ _ _ Hr1 Hf)) as (r & s2 & E & Hpost). destruct Hpost as (Hloc & Hr2 & Hm2 & _). 
  exists s1, s2. split; [done|]. split; [done|]. rewrite last_loc_snoc in E. cbn [ins_loc is_cll] in Hloc. subst r. split; [exact E|]. split.
  - cbn [ins_ghost is_cll] in Hr2. by rewrite <- app_assoc in Hr2.
  - eapply modifies_trans; [exact Hm1|exact Hm2|set_solver|set_solver| |by left].
    intros y [->|Hy]%elem_of_cons; [right; cbn; lia|]. left. rewrite <- app_assoc in Hy. exact Hy.
Qed.
Lemma set_down_spec s o a n b d : rep CLL s o (a ++ n :: b) ->
  exists s', set_down (g_loc n) (Some d) s = Ok tt s' /\ rep CLL s' o (a ++ GN (g_loc n) (g_val n) (g_pri n) (Some d) :: b) /\ modifies [g_loc n] [] s s'.
Proof.
  intros Hr. destruct Hr as [(hd & tl & Hob & Hhd & Htl) Hs Hnd Hst]. pose proof Hs as Hs'. apply lseg_app in Hs' as [Hs1 [(c & Hc & Hdb & Hdat & Hpri & Hdn & Hnx & Hpv) Hs2]].
  exists (St (<[g_loc n := upd_down c (Some d)]> (s_nodes s)) (s_objs s)). split; [|split].
  - unfold set_down, bind, get_cell. rewrite Hc. done.
  - rewrite map_app in Hnd. cbn in Hnd. apply NoDup_app in Hnd as Hnd'. destruct Hnd' as (_ & Hd1 & [Hd2 _]%NoDup_cons). split.
    + exists hd, tl. split_and!; [|intros _; rewrite Hhd; [by destruct a|by destruct a]|done].
      cbn. rewrite Hob. rewrite !app_length. done.
    + cbn [is_dll endp is_cll s_nodes]. apply lseg_app. cbn [hd_loc]. split; [|split].
      * eapply lseg_frame; [|exact Hs1]. intros y Hy. rewrite list_lookup_insert_ne; [done|]. intros <-. apply (Hd1 (g_loc n)); set_solver.
      * exists (upd_down c (Some d)). cbn. split; [apply list_lookup_insert; by eapply lookup_lt_Some|]. done.
      * cbn [g_loc]. eapply lseg_frame; [|exact Hs2]. intros y Hy. rewrite list_lookup_insert_ne; [done|]. by intros <-.
    + by rewrite map_app.
    + apply Forall_app in Hst as [? Hst]. apply Forall_cons in Hst as [? ?]. apply Forall_app. split; [done|]. by apply Forall_cons.
  - split; cbn; try done; [by rewrite insert_length|]. intros y _ Hy. rewrite list_lookup_insert_ne; [done|]. set_solver.
Qed.
Lemma remove_skip s o a l f b : rep CLL s o (a ++ l :: f :: b) ->
  exists s', remove_node o (Some (g_loc l)) (g_loc f) s = Ok tt s' /\ rep CLL s' o (a ++ l :: b) /\ modifies (locs (a ++ l :: f :: b)) [o] s s' /\
    s_nodes s' !! g_loc f = s_nodes s !! g_loc f /\ length (s_nodes s') = length (s_nodes s).
Proof.
  intros Hr. assert (rep CLL s o ((a ++ [l]) ++ f :: b)) as Hr' by by rewrite <- app_assoc.
  destruct (wp_elim _ _ _ (remove_node_spec _ _ _ _ _ _ Hr')) as (u & s' & E & Hpost). destruct Hpost as (Hr2 & Hm & Hl & _). rewrite last_loc_snoc in E. destruct u.
  exists s'. split; [exact E|]. split_and!; [| | |done].
  - destruct a; cbn in Hr2 |- *; [done|]. by rewrite <- app_assoc in Hr2.
  - by rewrite <- app_assoc in Hm.
  - assert (g_loc l <> g_loc f) as Hne. { pose proof (rep_nodup _ _ _ _ Hr') as Hnd. rewrite !map_app in Hnd. apply NoDup_app in Hnd as (_ & Hd & _). intros Heq. apply (Hd (g_loc f)); [|cbn; left]. rewrite <- Heq. cbn. set_solver. }
    destruct (obj_eq Hr) as (ob & Hob & Hk & Hlen & Hhd & _).
    pose proof (rep_seg _ _ _ _ Hr') as Hs. apply lseg_app in Hs as [Hs1 [(cf & Hcf & _) _]]. destruct (lseg_last _ _ _ _ _ _ Hs1) as (cl & Hcl & Hdb & _).
    unfold remove_node in E. erewrite bind_ok in E by (by apply get_obj_ok). rewrite Hk in E. unfold ll_remove_node in E. erewrite bind_ok in E by (by apply get_obj_ok).
    assert (get_next (g_loc f) s = Ok (c_next cf) s) as En. { unfold get_next, bind. by rewrite (get_cell_ok _ _ _ Hcf). }
    rewrite (bind_ok _ _ _ _ _ En) in E. cbn in Hdb.
    assert (set_next (g_loc l) (c_next cf) s = Ok tt (St (<[g_loc l := upd_next cl (c_next cf)]> (s_nodes s)) (s_objs s))) as Es.
    { unfold set_next, bind. rewrite (get_cell_ok _ _ _ Hcl). destruct (c_next cf); [|done]. cbn. by rewrite Hdb. }
    rewrite (bind_ok _ _ _ _ _ Es) in E. unfold bind, get_obj in E. cbn in E. rewrite Hob in E. injection E as <-. cbn. by rewrite list_lookup_insert_ne.
Qed.

Lemma elems_app A B : elems (A ++ B) = elems A ++ elems B.
Proof. apply map_app. Qed.
Lemma part_in x k y : y ∈ elems (part x k) -> y = x.
Proof. destruct k; cbn; set_solver. Qed.
Lemma above_in x A y : above x A -> y ∈ elems A -> nlt x y.
Proof. intros H (p & -> & Hp)%elem_of_list_fmap. by apply (proj1 (Forall_forall _ _) H). Qed.
Lemma sorted_part A1 A2 x k k' : StronglySorted nlt (elems (A1 ++ part x k ++ A2)) -> below x A1 -> above x A2 ->
  StronglySorted nlt (elems (A1 ++ part x k' ++ A2)).
Proof.
  intros HS H1 H2. induction A1 as [|[y j] A1 IH]; cbn [app] in *.
  - assert (StronglySorted nlt (elems A2)) as HS2. { destruct k; [done|]. by apply StronglySorted_inv in HS as [? _]. }
    destruct k'; [done|]. cbn. constructor; [done|]. apply Forall_forall. intros z Hz. by eapply above_in.
  - cbn in HS |- *. apply StronglySorted_inv in HS as [HS HF]. apply Forall_cons in H1 as [Hy H1]. constructor; [by apply IH|].
    change (Forall (nlt y) (elems (A1 ++ part x k ++ A2))) in HF. change (Forall (nlt y) (elems (A1 ++ part x k' ++ A2))).
    rewrite !elems_app, !Forall_app in HF |- *. destruct HF as (F1 & _ & F2). split_and!; [done| |done]. apply Forall_forall. by intros z ->%part_in.
Qed.
Lemma part_lev A1 A2 x k j : j <> k -> lev (A1 ++ part x (S k) ++ A2) j = lev (A1 ++ part x k ++ A2) j.
Proof. intros H. rewrite !lev_app, !up_app, !up_part. do 2 case_decide; try lia; done. Qed.
Lemma down_ok_app G k g h : down_ok G k (g ++ h) <-> down_ok G k g /\ down_ok G k h.
Proof.
  destruct k as [|k]; cbn; [apply Forall_app|]. split.
  - intros H. split; intros b Hb; by apply H, Forall_app in Hb as [? ?].
  - intros [H1 H2] b Hb. apply Forall_app. auto.
Qed.
Lemma Rep_insert s s' os G A1 A2 x k o a l b n L : Rep s os G (A1 ++ part x k ++ A2) -> Split s os G A1 (part x k ++ A2) k o a l b ->
  x <> NegInf -> below x A1 -> above x A2 ->
  rep CLL s' o (a ++ l :: n :: b) -> g_val n = PNum x -> length (s_nodes s) <= g_loc n ->
  modifies L [o] s s' -> (forall l', l' ∈ L -> l' ∈ locs (a ++ l :: b) \/ length (s_nodes s) <= l') -> down_ok G k [n] ->
  Rep s' os (<[k := a ++ l :: n :: b]> G) (A1 ++ part x (S k) ++ A2).
Proof.
  intros H HS Hx H1 H2 Hr' Hv Hn Hm HL Hd. pose proof HS as [Ho Hg Hr Ha Hb]. pose proof (lookup_lt_Some _ _ _ Hg) as Hk.
  assert (a ++ l :: n :: b = (a ++ [l]) ++ [n] ++ b) as E1 by by rewrite <- app_assoc.
  assert (a ++ l :: b = (a ++ [l]) ++ b) as E2 by by rewrite <- app_assoc.
  eapply Rep_update; [exact H|exact Ho|exact Hg|exact Hr'| |exact Hm|exact HL| | | | | | |].
  - rewrite E1. rewrite !map_app in *. rewrite Ha, Hb. rewrite lev_app, !up_app, !up_part. do 2 (case_decide; [try lia|try lia]). cbn. rewrite map_app. cbn. by rewrite Hv.
  - intros l'. rewrite E1, E2, !map_app, !elem_of_app. cbn [map]. rewrite !elem_of_list_singleton. intros [?|[->|?]]; tauto.
  - intros j Hj. by apply part_lev.
  - rewrite E1. pose proof (r_down _ _ _ _ H _ _ Hg) as HD. rewrite E2 in HD. rewrite !down_ok_app in HD |- *. rewrite (down_ok_app G k [n] b). tauto.
  - intros gu Hgu. pose proof (r_down _ _ _ _ H _ _ Hgu _ Hg) as HD. eapply Forall_impl; [exact HD|]. intros u (m & Hin & ? & ?). exists m. split; [set_solver|done].
  - pose proof (r_top _ _ _ _ H) as HT. rewrite !Forall_app in HT |- *. destruct HT as (? & _ & ?). split_and!; try done. cbn. apply Forall_singleton. done.
  - pose proof (r_neg _ _ _ _ H) as HT. rewrite !Forall_app in HT |- *. destruct HT as (? & _ & ?). split_and!; try done. cbn. apply Forall_singleton. done.
  - eapply sorted_part; [apply (r_sort _ _ _ _ H)|done|done].
Qed.
Lemma not_lev A1 A2 x j y : x <> NegInf -> below x A1 -> above x A2 -> y ∈ lev (A1 ++ A2) j -> y <> x.
Proof.
  intros Hx H1 H2. rewrite lev_app. intros [Hy|Hy]%elem_of_app ->; [by eapply nlt_irrefl, lev_below|by eapply nlt_irrefl, up_above].
Qed.
Lemma Rep_remove s s' os G A1 A2 x k o a l f b : Rep s os G (A1 ++ part x (S k) ++ A2) -> Split s os G A1 (part x (S k) ++ A2) k o a l (f :: b) ->
  x <> NegInf -> below x A1 -> above x A2 ->
  rep CLL s' o (a ++ l :: b) -> modifies (locs (a ++ l :: f :: b)) [o] s s' ->
  Rep s' os (<[k := a ++ l :: b]> G) (A1 ++ part x k ++ A2).
Proof.
  intros H HS Hx H1 H2 Hr' Hm. pose proof HS as [Ho Hg Hr Ha Hb]. pose proof (lookup_lt_Some _ _ _ Hg) as Hk.
  assert (a ++ l :: f :: b = (a ++ [l]) ++ [f] ++ b) as E1 by by rewrite <- app_assoc.
  assert (a ++ l :: b = (a ++ [l]) ++ b) as E2 by by rewrite <- app_assoc.
  rewrite up_app, up_part in Hb. case_decide; [|lia]. cbn in Hb. injection Hb as Hf Hb.
  eapply Rep_update; [exact H|exact Ho|exact Hg|exact Hr'| |exact Hm|by left| | | | | | |].
  - rewrite E2. rewrite !map_app in *. rewrite Ha, Hb. rewrite lev_app, !up_app, !up_part. case_decide; [lia|]. cbn. by rewrite map_app.
  - intros l'. rewrite E1, E2, !map_app, !elem_of_app. cbn [map]. tauto.
  - intros j Hj. symmetry. by apply part_lev.
  - pose proof (r_down _ _ _ _ H _ _ Hg) as HD. rewrite E1 in HD. rewrite E2. rewrite !down_ok_app in HD |- *. rewrite (down_ok_app G k [f] b) in HD. tauto.
  - intros gu Hgu. pose proof (r_down _ _ _ _ H _ _ Hgu _ Hg) as HD. rewrite Forall_forall in HD |- *. intros u Hu. destruct (HD u Hu) as (m & Hin & Hmv & Hmd). exists m. split; [|done].
    destruct (Rep_level _ _ _ _ _ H (lookup_lt_Some _ _ _ Hgu)) as (ou & gu' & Hou & Hgu' & Hru & Hvu). rewrite Hgu in Hgu'. injection Hgu' as <-.
    destruct (vals_num _ _ _ Hvu Hu) as (y & Ey & Hy).
    assert (m <> f) as Hne.
    { intros ->. rewrite Hf, Ey in Hmv. injection Hmv as <-. rewrite lev_app, up_app, up_part in Hy. case_decide; [lia|]. cbn [app] in Hy. rewrite <- lev_app in Hy. by eapply not_lev. }
    set_solver.
  - pose proof (r_top _ _ _ _ H) as HT. rewrite !Forall_app in HT |- *. destruct HT as (? & HT & ?). split_and!; try done. destruct k; [constructor|]. cbn in *. apply Forall_singleton. apply Forall_singleton in HT. cbn in *. lia.
  - pose proof (r_neg _ _ _ _ H) as HT. rewrite !Forall_app in HT |- *. destruct HT as (? & HT & ?). split_and!; try done. destruct k; [constructor|]. by apply Forall_singleton.
  - eapply sorted_part; [apply (r_sort _ _ _ _ H)|done|done].
Qed.

(** ** Adding and dropping the top level *)
Lemma new_level_ok s : exists s', new_level s = Ok (length (s_objs s)) s' /\ rep CLL s' (length (s_objs s)) [GN (length (s_nodes s)) (PNum NegInf) (Fin 0) None] /\ modifies [] [] s s'.
Proof.
  unfold new_level. destruct (wp_elim _ _ _ (create_instance_spec CLL s)) as (o & s1 & E1 & Hpost). destruct Hpost as (-> & Hr1 & Hm1 & Hl1 & Hn1). rewrite (bind_ok _ _ _ _ _ E1).
  set (c := Cell false (PNum NegInf) None None (Fin 0) None). set (s2 := St (s_nodes s1 ++ [c]) (s_objs s1)). set (n := GN (length (s_nodes s)) (PNum NegInf) (Fin 0) None).
  assert (new_skip_node (PNum NegInf) s1 = Ok (g_loc n) s2) as E2. { cbn. rewrite <- Hn1. done. }
  rewrite (bind_ok _ _ _ _ _ E2). pose proof (alloc_modifies c s1) as Hm2. fold s2 in Hm2.
  assert (rep CLL s2 (length (s_objs s)) []) as Hr2. { eapply rep_frame; [exact Hr1|exact Hm2|set_solver|set_solver]. }
  destruct (obj_eq Hr2) as (ob & Hob & _ & Hlen & _). erewrite bind_ok by (by apply get_obj_ok).
  assert (fresh_node CLL s2 [] n) as Hf. { split; [|set_solver|done]. cbn. rewrite Hn1, lookup_app_r, Nat.sub_diag by lia. done. }
  destruct (wp_elim _ _ _ (insert_node_spec CLL s2 _ [] n [] Hr2 Hf)) as (r & s3 & E3 & Hpost). destruct Hpost as (-> & Hr3 & Hm3 & _).
  pose proof (insert_node_empty_prev _ _ _ (o_head ob) (g_loc n) Hr2) as E4. cbn [last_loc last] in E3. unfold last_loc in E3. cbn [last] in E3. rewrite E3 in E4.
  rewrite (bind_ok _ _ _ _ _ E4). exists s3. split; [done|]. split; [done|].
  assert (modifies [g_loc n] [length (s_objs s)] s1 s3) as Hm4.
  { eapply modifies_trans; [exact Hm2|exact Hm3|set_solver|set_solver| |]; intros y Hy; by left. }
  eapply modifies_trans; [exact Hm1|exact Hm4|set_solver|set_solver| |].
  - intros y Hy. right. apply elem_of_list_singleton in Hy as ->. cbn. lia.
  - intros y Hy. right. apply elem_of_list_singleton in Hy as ->. lia.
Qed.
Lemma vals_singleton g y : vals g = [y] -> exists n, g = [n].
Proof. destruct g as [|n [|]]; try done. by exists n. Qed.
Lemma top_level s os G A : Rep s os G A -> exists o n g, os !! (length G - 1) = Some o /\ G !! (length G - 1) = Some (n :: g) /\ rep CLL s o (n :: g) /\ g_val n = PNum NegInf.
Proof.
  intros H. pose proof (r_pos _ _ _ _ H). destruct (Rep_level _ _ _ _ (length G - 1) H) as (o & g & Ho & Hg & Hr & Hv); [lia|].
  destruct g as [|n g]; [done|]. cbn in Hv. injection Hv as Hn _. by exists o, n, g.
Qed.
Lemma lookup_snoc_inv {T} (l : list T) x k y : (l ++ [x]) !! k = Some y -> (l !! k = Some y /\ k < length l) \/ (k = length l /\ y = x).
Proof.
  intros [H|[Hk H]]%lookup_app_Some; [left; split; [done|by eapply lookup_lt_Some]|]. right.
  destruct (k - length l) as [|j] eqn:E; [|done]. cbn in H. injection H as ->. split; [lia|done].
Qed.
Lemma Rep_add s s' os G A o n : Rep s os G A -> modifies [] [] s s' -> rep CLL s' o [n] -> g_val n = PNum NegInf -> length (s_objs s) <= o -> length (s_nodes s) <= g_loc n ->
  (forall m g, G !! (length G - 1) = Some (m :: g) -> g_dn n = Some (g_loc m)) ->
  Rep s' (os ++ [o]) (G ++ [[n]]) A.
Proof.
  intros H Hm Hr Hv Ho Hn Hd. pose proof (r_len _ _ _ _ H) as Hlen.
  assert (forall j gj l, G !! j = Some gj -> l ∈ locs gj -> l < length (s_nodes s)) as Hb.
  { intros j gj l Hj Hl. destruct (Rep_level _ _ _ _ j H) as (oj & gj' & Hoj & Hgj' & Hrj & _); [by eapply lookup_lt_Some|].
    rewrite Hj in Hgj'. injection Hgj' as <-. by eapply rep_bound. }
  split.
  - rewrite !app_length. cbn. lia.
  - intros k ok gk [[Hok Hk]|[-> ->]]%lookup_snoc_inv [[Hgk Hk']|[Hk' ->]]%lookup_snoc_inv; try lia.
    + destruct (r_rep _ _ _ _ H _ _ _ Hok Hgk) as [Hrk Hvk]. split; [|done]. eapply rep_frame; [exact Hrk|exact Hm|set_solver|set_solver].
    + split; [done|]. unfold lev. rewrite up_top; [cbn; by rewrite Hv|]. rewrite Hlen. apply (r_top _ _ _ _ H).
  - intros k gk [[Hgk Hk']|[-> ->]]%lookup_snoc_inv.
    + pose proof (r_down _ _ _ _ H _ _ Hgk) as HD. destruct k as [|k]; [done|]. intros b Hb'. rewrite lookup_app_l in Hb' by lia. by apply HD.
    + destruct (top_level _ _ _ _ H) as (ot & m & g & Hot & Hg & Hrt & Hvt). pose proof (r_pos _ _ _ _ H). destruct (length G) as [|N] eqn:EN; [lia|].
      intros b Hb'. rewrite lookup_app_l in Hb' by lia. replace (S N - 1) with N in * by lia. rewrite Hg in Hb'. injection Hb' as <-. apply Forall_singleton. exists m. split; [left|]. split; [by rewrite Hv|by eapply Hd].
  - apply NoDup_app. split; [apply H|]. split; [|apply NoDup_singleton]. intros o' [k Ho']%elem_of_list_lookup ->%elem_of_list_singleton.
    destruct (Rep_level _ _ _ _ k H) as (ok & gk & Hok & _ & Hrk & _); [rewrite <- Hlen; by eapply lookup_lt_Some|]. rewrite Ho' in Hok. injection Hok as <-. apply rep_obound in Hrk. lia.
  - intros k k' g g' l [[Hgk Hk]|[-> ->]]%lookup_snoc_inv [[Hgk' Hk']|[-> ->]]%lookup_snoc_inv Hl Hl'.
    + by eapply (r_disj _ _ _ _ H).
    + cbn in Hl'. apply elem_of_list_singleton in Hl' as ->. eapply Hb in Hl; [|done]. lia.
    + cbn in Hl. apply elem_of_list_singleton in Hl as ->. eapply Hb in Hl'; [|done]. lia.
    + done.
  - rewrite app_length. cbn. lia.
  - eapply Forall_impl; [apply (r_top _ _ _ _ H)|]. cbn. intros p Hp. rewrite app_length. cbn. lia.
  - apply H.
  - apply H.
  - intros oj gj Hj. destruct (r_kept _ _ _ _ H _ _ Hj) as (Hrj & Hoj & Hdj). split_and!.
    + eapply rep_frame; [exact Hrj|exact Hm|set_solver|set_solver].
    + intros [?|Heq%elem_of_list_singleton]%elem_of_app; [done|]. apply rep_obound in Hrj. lia.
    + intros k g' l [[Hgk Hk]|[-> ->]]%lookup_snoc_inv Hl Hl'; [by eapply Hdj|]. cbn in Hl. apply elem_of_list_singleton in Hl as ->.
      pose proof (rep_bound _ _ _ _ _ Hrj Hl'). lia.
Qed.
Lemma Rep_drop s os G A N : Rep s os G A -> 0 < N -> N <= length G -> Forall (fun p => p.2 < N) A -> Rep s (take N os) (take N G) A.
Proof.
  intros H HN HN' HA. pose proof (r_len _ _ _ _ H) as Hlen.
  assert (forall {T} (l : list T) k y, take N l !! k = Some y -> l !! k = Some y /\ k < N) as Ht.
  { intros T l k y Hy. destruct (decide (k < N)) as [Hk|Hk]; [by rewrite lookup_take in Hy|]. by rewrite lookup_take_ge in Hy by lia. }
  split.
  - rewrite !take_length. lia.
  - intros k o g [Ho _]%Ht [Hg _]%Ht. by eapply (r_rep _ _ _ _ H).
  - intros k g [Hg _]%Ht. pose proof (r_down _ _ _ _ H _ _ Hg) as HD. destruct k as [|k]; [done|]. intros b [Hb _]%Ht. by apply HD.
  - pose proof (r_os _ _ _ _ H) as Hn. rewrite <- (take_drop N os) in Hn. by apply NoDup_app in Hn as [? _].
  - intros k k' g g' l [Hg _]%Ht [Hg' _]%Ht. by eapply (r_disj _ _ _ _ H).
  - rewrite take_length. lia.
  - rewrite take_length. eapply Forall_impl; [exact HA|]. intros p ?. cbn in *. lia.
  - apply H.
  - apply H.
  - intros oj gj Hj. destruct (r_kept _ _ _ _ H _ _ Hj) as (Hrj & Hoj & Hdj). split_and!; [done| |].
    + intros Hin. apply Hoj. rewrite <- (take_drop N os). apply elem_of_app. by left.
    + intros k g' l [Hg _]%Ht. by eapply Hdj.
Qed.

(** ** insert *)
Lemma get_sl_ok self ks r os G A : Inv self ks r os G A -> get_sl self ks = Ok (r, length G) ks.
Proof. intros H. unfold get_sl. by rewrite (i_sl _ _ _ _ _ _ H). Qed.
Lemma get_lls_ok self ks r os G A : Inv self ks r os G A -> get_lls r ks = Ok os ks.
Proof. intros H. unfold get_lls. by rewrite (i_ls _ _ _ _ _ _ H). Qed.
Lemma add_extra_level_ok self ks r os G A : Inv self ks r os G A ->
  exists ks' ll n, add_extra_level self ks = Ok ll ks' /\ Inv self ks' r (os ++ [ll]) (G ++ [[n]]) A /\ g_val n = PNum NegInf.
Proof.
  intros H. pose proof (i_rep _ _ _ _ _ _ H) as HR. unfold add_extra_level.
  rewrite (bind_ok _ _ _ _ _ (num_levels_ok _ _ _ _ _ _ H)). destruct (top_level _ _ _ _ HR) as (ot & m & gt & Hot & Hgt & Hrt & Hvt).
  rewrite (bind_ok _ _ _ _ _ (level_list_ok _ _ _ _ _ _ _ _ H Hot)).
  destruct (new_level_ok (k_st ks)) as (s1 & E1 & Hr1 & Hm1). rewrite (bind_ok _ _ _ _ _ (lift_ok _ _ _ _ E1)).
  set (ll := length (s_objs (k_st ks))) in *. set (n := GN (length (s_nodes (k_st ks))) (PNum NegInf) (Fin 0) None) in *.
  assert (rep CLL s1 ot (m :: gt)) as Hrt1. { eapply rep_frame; [exact Hrt|exact Hm1|set_solver|set_solver]. }
  destruct (head_ok _ _ _ Hr1) as (ob & Hob & Hh); [done|]. destruct (head_ok _ _ _ Hrt1) as (obt & Hobt & Hht); [done|].
  destruct (set_down_spec s1 ll [] n [] (g_loc m) Hr1) as (s2 & E2 & Hr2 & Hm2).
  erewrite (bind_ok (lift _)).
  2:{ eapply lift_ok. cbn [k_st]. rewrite (bind_ok _ _ _ _ _ Hob), Hh. cbn [hd_loc deref]. erewrite (bind_ok (ret _)) by done. rewrite (bind_ok _ _ _ _ _ Hobt), Hht. exact E2. }
  cbn [k_lls k_sls]. unfold get_sl at 1, bind at 1. cbn [k_sls]. rewrite (i_sl _ _ _ _ _ _ H). cbn [fst snd].
  unfold get_lls at 1, bind at 1. cbn [k_lls]. rewrite (i_ls _ _ _ _ _ _ H).
  unfold put_lls, put_sl, bind, ret. cbn. eexists _, ll, (GN (g_loc n) (g_val n) (g_pri n) (Some (g_loc m))). split; [reflexivity|]. split; [|done].
  split; cbn.
  - rewrite list_lookup_insert by (eapply lookup_lt_Some, H). rewrite app_length. cbn. do 2 f_equal. lia.
  - by rewrite list_lookup_insert by (eapply lookup_lt_Some, H).
  - eapply Rep_add; [exact HR| |exact Hr2|done|done|cbn; lia|].
    + eapply modifies_trans; [exact Hm1|exact Hm2|set_solver|set_solver| |set_solver]. intros y ->%elem_of_list_singleton. right. cbn. lia.
    + intros m' g' Hg'. rewrite Hgt in Hg'. by injection Hg' as <- _.
  - intros r' l Hl. destruct (i_lls _ _ _ _ _ _ H _ _ Hl) as [Hne Hl']. by rewrite list_lookup_insert_ne by done.
  - intros j p Hj. destruct (i_sls _ _ _ _ _ _ H _ _ Hj) as [Hne Hj']. by rewrite list_lookup_insert_ne by done.
Qed.
Lemma lastloc_insert A1 G k g j : j <> k -> lastloc A1 (<[k := g]> G) j = lastloc A1 G j.
Proof. intros H. unfold lastloc. by rewrite list_lookup_insert_ne. Qed.
Lemma lastloc_split s os G A1 A2 k p : Rep s os G (A1 ++ A2) -> lastloc A1 G k = Some p ->
  exists o a l b, Split s os G A1 A2 k o a l b /\ p = g_loc l.
Proof.
  intros H Hp. assert (k < length G) as Hk. { unfold lastloc in Hp. destruct (G !! k) eqn:E; [by eapply lookup_lt_Some|done]. }
  destruct (Rep_split _ _ _ _ _ k H Hk) as (o & a & l & b & HS). exists o, a, l, b. split; [done|].
  rewrite (split_lastloc _ _ _ _ _ _ _ _ _ _ HS) in Hp. by injection Hp.
Qed.
(** Inserting [x] in level [k] above its node [c] of level [k - 1]. *)
Lemma promote_ok self ks r os G A1 A2 x k gc c p : Inv self ks r os G (A1 ++ part x (S k) ++ A2) -> x <> NegInf -> below x A1 -> above x A2 ->
  S k < length G -> G !! k = Some gc -> c ∈ gc -> g_val c = PNum x -> lastloc A1 G (S k) = Some p ->
  exists ks' g' c', promote self p (g_loc c) k ks = Ok (g_loc c') ks' /\ Inv self ks' r os (<[S k := g']> G) (A1 ++ part x (S (S k)) ++ A2) /\ c' ∈ g' /\ g_val c' = PNum x.
Proof.
  intros H Hx H1 H2 Hk Hgc Hc Hv Hp. pose proof (i_rep _ _ _ _ _ _ H) as HR. unfold promote.
  destruct (lastloc_split _ _ _ _ _ _ _ HR Hp) as (o & a & l & b & HS & ->).
  rewrite (bind_ok _ _ _ _ _ (num_levels_ok _ _ _ _ _ _ H)). rewrite (proj2 (Nat.ltb_lt k (length G))) by lia. unfold py_assert at 1, bind at 1. cbn [ret].
  destruct (Rep_level _ _ _ _ k HR) as (oc & gc' & Hoc & Hgc' & Hrc & _); [lia|]. rewrite Hgc in Hgc'. injection Hgc' as <-.
  destruct (insert_skip _ _ _ _ _ x (sp_rep _ _ _ _ _ _ _ _ _ _ HS)) as (s1 & s2 & E1 & [Ho1 Hm1] & E2 & Hr2 & Hm2).
  set (n := GN (length (s_nodes (k_st ks))) (PNum x) (Fin 0) None) in *.
  erewrite (bind_ok (lift _)).
  2:{ eapply lift_ok. rewrite (bind_ok _ _ _ _ _ (get_data_in _ _ _ _ Hrc Hc)), Hv. exact E1. }
  unfold level_list. unfold get_sl at 1. unfold bind at 1 2. cbn [k_sls]. rewrite (i_sl _ _ _ _ _ _ H). cbn [fst].
  unfold get_lls at 1. unfold bind at 1. cbn [k_lls]. rewrite (i_ls _ _ _ _ _ _ H). rewrite (sp_o _ _ _ _ _ _ _ _ _ _ HS). cbn [ret].
  assert (rep CLL s2 o ((a ++ [l]) ++ n :: b)) as Hr2' by by rewrite <- app_assoc.
  destruct (set_down_spec _ _ _ _ _ (g_loc c) Hr2') as (s3 & E3 & Hr3 & Hm3). set (n' := GN (g_loc n) (g_val n) (g_pri n) (Some (g_loc c))) in *.
  eexists _, (a ++ l :: n' :: b), n'. split; [|split; [|split; [set_solver|done]]].
  - unfold ret at 1. eapply lift_ok. cbn [k_st]. rewrite (bind_ok _ _ _ _ _ E2). change (length (s_nodes (k_st ks))) with (g_loc n). rewrite (bind_ok _ _ _ _ _ E3). reflexivity.
  - split; cbn.
    + rewrite insert_length. apply (i_sl _ _ _ _ _ _ H).
    + apply (i_ls _ _ _ _ _ _ H).
    + eapply (Rep_insert (k_st ks) s3 os G A1 A2 x (S k) o a l b n' (g_loc n :: locs (a ++ l :: b))); try done.
      * by rewrite <- app_assoc in Hr3.
      * eapply modifies_trans; [exact Hm2|exact Hm3|set_solver|set_solver| |set_solver]. intros y ->%elem_of_list_singleton. left. left.
      * intros y [->|Hy]%elem_of_cons; [right; done|by left].
      * intros g0 Hg0. rewrite Hgc in Hg0. injection Hg0 as <-. apply Forall_singleton. exists c. done.
    + apply (i_lls _ _ _ _ _ _ H).
    + apply (i_sls _ _ _ _ _ _ H).
Qed.
Lemma lastloc_app A1 G g j : j < length G -> lastloc A1 (G ++ [g]) j = lastloc A1 G j.
Proof. intros H. unfold lastloc. by rewrite lookup_app_l. Qed.
Lemma promote_loop_ok self x A1 A2 last r : x <> NegInf -> below x A1 -> above x A2 -> forall heads ks os G gc c k,
  Inv self ks r os G (A1 ++ part x (S k) ++ A2) -> G !! k = Some gc -> c ∈ gc -> g_val c = PNum x ->
  (forall i, k <= i -> S i < length G -> last !! i = lastloc A1 G (S i)) ->
  exists ks' os' G', promote_loop self heads last (g_loc c) k ks = Ok tt ks' /\ Inv self ks' r os' G' (A1 ++ part x (S (k + heads)) ++ A2) /\
    length G' = length G `max` S (k + heads).
Proof.
  intros Hx H1 H2. induction heads as [|heads IH]; intros ks os G gc c k H Hgc Hc Hv Hlast.
  - exists ks, os, G. rewrite Nat.add_0_r. split; [done|]. split; [done|]. apply lookup_lt_Some in Hgc. lia.
  - pose proof (lookup_lt_Some _ _ _ Hgc) as Hk. cbn [promote_loop]. rewrite (bind_ok _ _ _ _ _ (num_levels_ok _ _ _ _ _ _ H)).
    destruct (Nat.leb (length G - 1) k) eqn:Ele.
    + apply Nat.leb_le in Ele. destruct (add_extra_level_ok _ _ _ _ _ _ H) as (ks1 & ll & n & E1 & Hi1 & Hn).
      unfold bind at 1. rewrite (bind_ok _ _ _ _ _ E1).
      assert (k = length G - 1) as Ek by lia. assert (S k = length G) as ESk by lia.
      destruct (Rep_level _ _ _ _ (length G) (i_rep _ _ _ _ _ _ Hi1)) as (o' & g' & Ho' & Hg' & Hr' & Hv'); [rewrite app_length; cbn; lia|].
      rewrite lookup_app_r, Nat.sub_diag in Hg' by lia. injection Hg' as <-.
      assert (o' = ll) as ->. { rewrite lookup_app_r in Ho' by (rewrite (r_len _ _ _ _ (i_rep _ _ _ _ _ _ H)); lia). rewrite (r_len _ _ _ _ (i_rep _ _ _ _ _ _ H)), Nat.sub_diag in Ho'. by injection Ho'. }
      destruct (head_ok _ _ _ Hr') as (ob & Hob & Hh); [done|].
      erewrite lift_ok0; [|rewrite (bind_ok _ _ _ _ _ Hob), Hh; reflexivity].
      destruct (promote_ok self ks1 r (os ++ [ll]) (G ++ [[n]]) A1 A2 x k gc c (g_loc n) Hi1 Hx H1 H2) as (ks2 & g2 & c2 & E2 & Hi2 & Hc2 & Hv2); try done.
      { rewrite app_length. cbn. lia. }
      { by rewrite lookup_app_l. }
      { unfold lastloc. rewrite lookup_app_r, ESk, Nat.sub_diag by lia. cbn.
        assert (up A1 (length G) = []) as ->; [|done]. apply up_top. pose proof (r_top _ _ _ _ (i_rep _ _ _ _ _ _ H)) as HT. by apply Forall_app in HT as [? _]. }
      rewrite (bind_ok _ _ _ _ _ E2).
      destruct (IH ks2 _ _ g2 c2 (S k) Hi2) as (ks3 & os3 & G3 & E3 & Hi3 & Hl3); try done.
      { apply list_lookup_insert. rewrite app_length. cbn. lia. }
      { intros i Hi. rewrite insert_length, app_length. cbn. lia. }
      exists ks3, os3, G3. split; [done|]. replace (k + S heads) with (S k + heads) by lia. split; [done|]. rewrite Hl3, insert_length, app_length. cbn. lia.
    + apply Nat.leb_gt in Ele. destruct (Rep_split _ _ _ _ _ (S k) (i_rep _ _ _ _ _ _ H)) as (o & a & l & b & HS); [lia|].
      pose proof (split_lastloc _ _ _ _ _ _ _ _ _ _ HS) as Hll. rewrite (Hlast k) by lia. rewrite Hll. unfold bind at 1, ret at 1.
      destruct (promote_ok self ks r os G A1 A2 x k gc c (g_loc l) H Hx H1 H2) as (ks2 & g2 & c2 & E2 & Hi2 & Hc2 & Hv2); try done; [lia|].
      rewrite (bind_ok _ _ _ _ _ E2).
      destruct (IH ks2 _ _ g2 c2 (S k) Hi2) as (ks3 & os3 & G3 & E3 & Hi3 & Hl3); try done.
      { apply list_lookup_insert. lia. }
      { intros i Hi. rewrite insert_length. intros Hi'. rewrite lastloc_insert by lia. apply Hlast; lia. }
      exists ks3, os3, G3. split; [done|]. replace (k + S heads) with (S k + heads) by lia. split; [done|]. rewrite Hl3, insert_length. cbn. lia.
Qed.
End Framed.
