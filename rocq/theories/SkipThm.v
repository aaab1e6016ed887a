(** * Proofs about SkipList *)
From Coq Require Import Sorted.
From Verif Require Import Base NumOrd ListModel ListRep ListPure ListCore ListCore2 ListOps ListOps2 ListOps3 SkipModel SkipSpec.
Local Open Scope py_scope.

(** ** Pure part: levels *)
Definition nlt (a b : num) : Prop := num_ltb a b = true.
Definition up (A : towers) (k : nat) : list num := map fst (filter (fun p => k <= p.2) A).
Definition lev (A : towers) (k : nat) : list num := NegInf :: up A k.
Lemma up_app A B k : up (A ++ B) k = up A k ++ up B k.
Proof. unfold up. by rewrite filter_app, map_app. Qed.
Lemma up_cons x h A k : up ((x, h) :: A) k = (if decide (k <= h) then [x] else []) ++ up A k.
Proof. unfold up. rewrite filter_cons. cbn. by destruct (decide (k <= h)). Qed.
Lemma lev_app A B k : lev (A ++ B) k = lev A k ++ up B k.
Proof. unfold lev. by rewrite up_app. Qed.
Lemma up_in A k y : y ∈ up A k <-> exists h, (y, h) ∈ A /\ k <= h.
Proof.
  unfold up. rewrite elem_of_list_fmap. split.
  - intros ([z h] & -> & [? ?]%elem_of_list_filter). by exists h.
  - intros (h & Hin & Hk). exists (y, h). split; [done|]. by apply elem_of_list_filter.
Qed.
Lemma up_mono A k j y : y ∈ up A k -> j <= k -> y ∈ up A j.
Proof. rewrite !up_in. intros (h & ? & ?) ?. exists h. split; [done|lia]. Qed.
Lemma up_top A k : Forall (fun p => p.2 < k) A -> up A k = [].
Proof.
  intros H. destruct (up A k) as [|y l] eqn:E; [done|]. assert (y ∈ up A k) as Hy by (rewrite E; left).
  apply up_in in Hy as (h & Hin & Hk). rewrite Forall_forall in H. specialize (H _ Hin). cbn in H. lia.
Qed.
Lemma nlt_irrefl a : ~ nlt a a.
Proof. unfold nlt. destruct a; cbn; rewrite ?Z.ltb_irrefl; done. Qed.
Lemma nlt_leb a b : nlt a b -> num_leb a b = true.
Proof. unfold nlt, num_leb. destruct a, b; cbn; try done. intros H. apply Z.ltb_lt in H. rewrite (proj2 (Z.ltb_ge _ _)); [done|lia]. Qed.
Lemma nlt_nleb a b : nlt a b -> num_leb b a = false.
Proof. unfold nlt, num_leb. by intros ->. Qed.
Lemma nlt_trans a b c : nlt a b -> nlt b c -> nlt a c.
Proof. unfold nlt. destruct a, b, c; cbn; try done. rewrite !Z.ltb_lt. lia. Qed.
Lemma neg_nlt x : x <> NegInf -> nlt NegInf x.
Proof. by destruct x. Qed.

(** ** The representation *)
Definition down_in (b : list gn) (n : gn) : Prop := exists m, m ∈ b /\ g_val m = g_val n /\ g_dn n = Some (g_loc m).
Definition down_ok (G : list (list gn)) (k : nat) (g : list gn) : Prop :=
  match k with
  | 0 => Forall (fun n => g_dn n = None) g
  | S j => forall b, G !! j = Some b -> Forall (down_in b) g
  end.
(** What a call on one SkipList leaves alone: linked lists with their contents, lists of
    levels and SkipList objects that belong to something else. *)
Class frame := Frame { f_lists : nat -> list gn -> Prop; f_lls : nat -> list nat -> Prop; f_sls : nat -> nat * nat -> Prop }.
Section Framed.
Context {F : frame}.
Record Rep (s : st) (os : list nat) (G : list (list gn)) (A : towers) : Prop := MkRep {
  r_len : length os = length G;
  r_rep : forall k o g, os !! k = Some o -> G !! k = Some g -> rep CLL s o g /\ vals g = map PNum (lev A k);
  r_down : forall k g, G !! k = Some g -> down_ok G k g;
  r_os : NoDup os;
  r_disj : forall k k' g g' l, G !! k = Some g -> G !! k' = Some g' -> l ∈ locs g -> l ∈ locs g' -> k = k';
  r_pos : 0 < length G;
  r_top : Forall (fun p => p.2 < length G) A;
  r_neg : Forall (fun p => p.1 <> NegInf) A;
  r_sort : StronglySorted nlt (elems A);
  r_kept : forall o g, f_lists o g -> rep CLL s o g /\ o ∉ os /\ forall k g' l, G !! k = Some g' -> l ∈ locs g' -> l ∉ locs g }.

Lemma Rep_level s os G A k : Rep s os G A -> k < length G ->
  exists o g, os !! k = Some o /\ G !! k = Some g /\ rep CLL s o g /\ vals g = map PNum (lev A k).
Proof.
  intros H Hk. destruct (lookup_lt_is_Some_2 G k Hk) as [g Hg]. destruct (lookup_lt_is_Some_2 os k) as [o Ho]; [by rewrite (r_len _ _ _ _ H)|].
  exists o, g. split_and!; try done; eapply r_rep; eauto.
Qed.
Lemma nodup_bound (l : list nat) n : NoDup l -> Forall (fun x => x < n) l -> length l <= n.
Proof.
  intros Hd Hf. rewrite <- (seq_length n 0). apply submseteq_length. apply NoDup_submseteq; [done|].
  intros x Hx. rewrite Forall_forall in Hf. apply elem_of_seq. specialize (Hf _ Hx). lia.
Qed.
Lemma rep_size s o g : rep CLL s o g -> length g <= length (s_nodes s).
Proof.
  intros H. rewrite <- (map_length g_loc). apply nodup_bound; [by eapply rep_nodup|]. apply Forall_forall. intros l Hl. by eapply rep_bound.
Qed.
Lemma levels_bound s os G A : Rep s os G A -> length G <= length (s_nodes s).
Proof.
  intros H. pose (f := fun g : list gn => match g with [] => 0 | n :: _ => g_loc n end).
  rewrite <- (map_length f). apply nodup_bound.
  - apply NoDup_alt. intros i j l Hi Hj. rewrite list_lookup_fmap in Hi, Hj.
    destruct (G !! i) as [g|] eqn:Eg; [|done]. destruct (G !! j) as [g'|] eqn:Eg'; [|done]. injection Hi as Hi. injection Hj as Hj.
    assert (forall k g, G !! k = Some g -> f g ∈ locs g) as Hf.
    { intros k g0 Hg0. destruct (Rep_level _ _ _ _ k H) as (o & g1 & _ & Hg1 & _ & Hv); [by eapply lookup_lt_Some|]. rewrite Hg0 in Hg1. injection Hg1 as <-.
      destruct g0; [done|]. cbn. left. }
    eapply (r_disj _ _ _ _ H i j g g' l); try done; [rewrite <- Hi|rewrite <- Hj]; eauto.
  - apply Forall_forall. intros l. rewrite elem_of_list_fmap. intros (g & -> & [k Hg]%elem_of_list_lookup).
    destruct (Rep_level _ _ _ _ k H) as (o & g1 & _ & Hg1 & Hr & Hv); [by eapply lookup_lt_Some|]. rewrite Hg in Hg1. injection Hg1 as <-.
    eapply rep_bound; [done|]. destruct g; [done|]. cbn. left.
Qed.
(** Reading cells. *)
Lemma seg_cell s o g1 n g2 : rep CLL s o (g1 ++ n :: g2) ->
  exists c, s_nodes s !! g_loc n = Some c /\ c_data c = g_val n /\ c_down c = g_dn n /\ c_next c = hd_loc g2 None.
Proof.
  intros H. pose proof (rep_seg _ _ _ _ H) as Hs. cbn [is_dll endp is_cll] in Hs. apply lseg_app in Hs as [_ [(c & ? & ? & ? & ? & ? & ? & ?) _]]. by exists c.
Qed.
Lemma get_data_ok s o g1 n g2 : rep CLL s o (g1 ++ n :: g2) -> get_data (g_loc n) s = Ok (g_val n) s.
Proof. intros H. destruct (seg_cell _ _ _ _ _ H) as (c & Hc & <- & _). unfold get_data, bind, get_cell. by rewrite Hc. Qed.
Lemma get_next_ok s o g1 n g2 : rep CLL s o (g1 ++ n :: g2) -> get_next (g_loc n) s = Ok (hd_loc g2 None) s.
Proof. intros H. destruct (seg_cell _ _ _ _ _ H) as (c & Hc & _ & _ & <-). unfold get_next, bind, get_cell. by rewrite Hc. Qed.
Lemma get_down_ok s o g1 n g2 : rep CLL s o (g1 ++ n :: g2) -> get_down (g_loc n) s = Ok (g_dn n) s.
Proof. intros H. destruct (seg_cell _ _ _ _ _ H) as (c & Hc & _ & <- & _). unfold get_down, bind, get_cell. by rewrite Hc. Qed.

(** ** Searching one level *)
Fixpoint lastof (n : gn) (m : list gn) : gn := match m with [] => n | c :: m' => lastof c m' end.
Fixpoint prevof (prev : option nat) (n : gn) (m : list gn) : option nat := match m with [] => prev | c :: m' => prevof (Some (g_loc n)) c m' end.
Lemma lastof_snoc n m c : lastof n (m ++ [c]) = c.
Proof. revert n. induction m as [|d m IH]; intros n; [done|]. apply IH. Qed.
Lemma prevof_snoc p n m c : prevof p n (m ++ [c]) = Some (g_loc (lastof n m)).
Proof. revert p n. induction m as [|d m IH]; intros p n; [done|]. apply IH. Qed.
Lemma lastof_app a n m : exists a', a ++ n :: m = a' ++ [lastof n m].
Proof.
  revert a n. induction m as [|c m IH]; intros a n; [by exists a|]. destruct (IH (a ++ [n]) c) as (a' & E). exists a'. rewrite <- app_assoc in E. exact E.
Qed.
Lemma search_sorted_ok s o x b : forall m a n prev fuel, rep CLL s o (a ++ n :: m ++ b) ->
  Forall (fun c => exists y, g_val c = PNum y /\ num_leb y x = true) m ->
  match b with [] => True | c :: _ => exists y, g_val c = PNum y /\ num_leb y x = false end ->
  length m < fuel ->
  search_sorted fuel prev (g_loc n) (PNum x) s = Ok (prevof prev n m, g_loc (lastof n m)) s.
Proof.
  induction m as [|c m IH]; intros a n prev fuel Hr Hm Hb Hf; (destruct fuel as [|fuel]; [cbn in Hf; lia|]); cbn [search_sorted];
    rewrite (bind_ok _ _ _ _ _ (get_next_ok _ _ _ _ _ Hr)); cbn [app hd_loc].
  - destruct b as [|c b]; [done|]. cbn [hd_loc]. change (a ++ n :: [] ++ c :: b) with (a ++ [n] ++ c :: b) in Hr. rewrite app_assoc in Hr.
    rewrite (bind_ok _ _ _ _ _ (get_data_ok _ _ _ _ _ Hr)). destruct Hb as (y & -> & Hle). cbn [py_leb]. rewrite Hle. done.
  - change (a ++ n :: (c :: m) ++ b) with (a ++ [n] ++ c :: m ++ b) in Hr. rewrite app_assoc in Hr.
    rewrite (bind_ok _ _ _ _ _ (get_data_ok _ _ _ _ _ Hr)). apply Forall_cons in Hm as [(y & -> & Hle) Hm]. cbn [py_leb]. rewrite Hle.
    cbn [bind ret]. unfold bind, ret. cbn [length] in Hf. by erewrite IH; [|exact Hr|done|done|lia].
Qed.

(** ** One level, split at [A1] *)
Record Split (s : st) (os : list nat) (G : list (list gn)) (A1 A2 : towers) (k o : nat) (a : list gn) (l : gn) (b : list gn) : Prop := MkSplit {
  sp_o : os !! k = Some o;
  sp_g : G !! k = Some (a ++ l :: b);
  sp_rep : rep CLL s o (a ++ l :: b);
  sp_a : vals (a ++ [l]) = map PNum (lev A1 k);
  sp_b : vals b = map PNum (up A2 k) }.
Lemma Rep_split s os G A1 A2 k : Rep s os G (A1 ++ A2) -> k < length G -> exists o a l b, Split s os G A1 A2 k o a l b.
Proof.
  intros H Hk. destruct (Rep_level _ _ _ _ k H Hk) as (o & g & Ho & Hg & Hr & Hv). rewrite lev_app, map_app in Hv.
  apply map_eq_app in Hv as (a & b & -> & Ha & Hb).
  destruct a as [|l a _] using rev_ind; [done|].
  rewrite <- app_assoc in Hr, Hg. exists o, a, l, b. by split.
Qed.
Lemma vals_num a ys n : vals a = map PNum ys -> n ∈ a -> exists y, g_val n = PNum y /\ y ∈ ys.
Proof.
  intros E Hn. assert (g_val n ∈ vals a) as Hv by (apply elem_of_list_fmap; by exists n). rewrite E in Hv. apply elem_of_list_fmap in Hv as (y & Ey & Hy). eauto.
Qed.
Lemma vals_node a ys y : vals a = map PNum ys -> y ∈ ys -> exists n, n ∈ a /\ g_val n = PNum y.
Proof.
  intros E Hy. assert (PNum y ∈ vals a) as Hv by (rewrite E; apply elem_of_list_fmap; by exists y). apply elem_of_list_fmap in Hv as (n & En & Hn). exists n. done.
Qed.
Definition below (x : num) (A : towers) : Prop := Forall (fun p => nlt p.1 x) A.
Definition above (x : num) (A : towers) : Prop := Forall (fun p => nlt x p.1) A.
Lemma up_below x A k y : below x A -> y ∈ up A k -> nlt y x.
Proof. intros H (h & Hin & _)%up_in. by apply (proj1 (Forall_forall _ _) H) in Hin. Qed.
Lemma up_above x A k y : above x A -> y ∈ up A k -> nlt x y.
Proof. intros H (h & Hin & _)%up_in. by apply (proj1 (Forall_forall _ _) H) in Hin. Qed.
Lemma lev_below x A k y : x <> NegInf -> below x A -> y ∈ lev A k -> nlt y x.
Proof. intros Hx H [->|Hy]%elem_of_cons; [by apply neg_nlt|by eapply up_below]. Qed.
Lemma bound_head x b ys : vals b = map PNum ys -> (forall y, y ∈ ys -> nlt x y) -> match b with [] => True | c :: _ => exists y, g_val c = PNum y /\ num_leb y x = false end.
Proof.
  intros E H. destruct b as [|c b]; [done|]. destruct (vals_num _ _ c E) as (y & Ey & Hy); [left|]. exists y. split; [done|]. by apply nlt_nleb, H.
Qed.
Definition prev_ok (g : list gn) (p : option nat) : Prop := match p with Some q => exists n, n ∈ g /\ g_loc n = q | None => True end.
Lemma prevof_ok g p n m : prev_ok g p -> n ∈ g -> m ⊆ g -> prev_ok g (prevof p n m).
Proof.
  revert p n. induction m as [|c m IH]; intros p n Hp Hn Hm; [done|]. cbn [prevof]. apply IH; [by exists n|set_solver|set_solver].
Qed.
Lemma search_pass s os G A1 A2 k o a l b x n prev fuel : Split s os G A1 A2 k o a l b -> x <> NegInf -> below x A1 -> (forall y, y ∈ up A2 k -> nlt x y) ->
  n ∈ a ++ [l] -> prev_ok (a ++ [l]) prev -> length (s_nodes s) < fuel ->
  exists p', search_sorted fuel prev (g_loc n) (PNum x) s = Ok (p', g_loc l) s /\ prev_ok (a ++ [l]) p'.
Proof.
  intros [Ho Hg Hr Ha Hb] Hx H1 H2 Hn Hp Hf. apply elem_of_list_split in Hn as (a1 & a2 & E).
  assert (a ++ l :: b = a1 ++ n :: a2 ++ b) as E'. { change (l :: b) with ([l] ++ b). rewrite app_assoc, E. by rewrite <- app_assoc. }
  rewrite E' in Hr. exists (prevof prev n a2). split; [|apply prevof_ok; [done|rewrite E; set_solver|rewrite E; set_solver]].
  erewrite search_sorted_ok; [|exact Hr| |by eapply bound_head|].
  - f_equal. f_equal. f_equal. destruct (lastof_app a1 n a2) as (a' & E2). rewrite <- E in E2. by apply app_inj_tail in E2 as [_ <-].
  - apply Forall_forall. intros c Hc. destruct (vals_num _ _ c Ha) as (y & Ey & Hy); [rewrite E; set_solver|]. exists y. split; [done|]. apply nlt_leb. by eapply lev_below.
  - apply rep_size in Hr. rewrite app_length in Hr. cbn in Hr. rewrite app_length in Hr. lia.
Qed.
Lemma search_hit s os G A1 A2 k o a l f b x n prev fuel : Split s os G A1 A2 k o a l (f :: b) -> x <> NegInf -> below x A1 -> g_val f = PNum x -> (forall y, y ∈ up A2 k -> y = x \/ nlt x y) ->
  NoDup (up A2 k) -> n ∈ a ++ [l] -> length (s_nodes s) < fuel ->
  search_sorted fuel prev (g_loc n) (PNum x) s = Ok (Some (g_loc l), g_loc f) s.
Proof.
  intros [Ho Hg Hr Ha Hb] Hx H1 Hfx H2 Hnd Hn Hf. apply elem_of_list_split in Hn as (a1 & a2 & E).
  assert (a ++ l :: f :: b = a1 ++ n :: (a2 ++ [f]) ++ b) as E'. { change (l :: f :: b) with ([l] ++ f :: b). rewrite app_assoc, E. by rewrite <- !app_assoc. }
  rewrite E' in Hr. erewrite search_sorted_ok; [|exact Hr| | |].
  - rewrite prevof_snoc, lastof_snoc. f_equal. f_equal. f_equal. f_equal. destruct (lastof_app a1 n a2) as (a' & E2). rewrite <- E in E2. by apply app_inj_tail in E2 as [_ <-].
  - apply Forall_app. split.
    + apply Forall_forall. intros c Hc. destruct (vals_num _ _ c Ha) as (y & Ey & Hy); [rewrite E; set_solver|]. exists y. split; [done|]. apply nlt_leb. by eapply lev_below.
    + apply Forall_singleton. exists x. split; [done|]. unfold num_leb. destruct (num_ltb x x) eqn:Exx; [|done]. by apply nlt_irrefl in Exx.
  - destruct (up A2 k) as [|x' ys]; [done|]. cbn in Hb. injection Hb as Ef Eb. rewrite Hfx in Ef. injection Ef as <-.
    apply NoDup_cons in Hnd as [Hni _]. eapply bound_head; [exact Eb|]. intros y Hy. destruct (H2 y) as [->|]; [by right|done|done].
  - apply rep_size in Hr. rewrite app_length in Hr. cbn in Hr. rewrite !app_length in Hr. cbn in *. rewrite app_length. cbn. lia.
Qed.
(** The node below a node of the left part of level [S j] is in the left part of level [j]. *)
Lemma split_down s os G A1 A2 j o a l b o' a' l' b' n x : Rep s os G (A1 ++ A2) -> x <> NegInf -> below x A1 -> (forall y, y ∈ up A2 j -> ~ nlt y x) ->
  Split s os G A1 A2 (S j) o a l b -> Split s os G A1 A2 j o' a' l' b' -> n ∈ a ++ [l] ->
  exists m, m ∈ a' ++ [l'] /\ g_dn n = Some (g_loc m) /\ g_val m = g_val n.
Proof.
  intros H Hx H1 H2 [Ho Hg Hr Ha Hb] [Ho' Hg' Hr' Ha' Hb'] Hn.
  pose proof (r_down _ _ _ _ H (S j) _ Hg _ Hg') as HD. rewrite Forall_forall in HD. destruct (HD n) as (m & Hm & Hv & Hd); [set_solver|].
  exists m. split; [|done]. destruct (vals_num _ _ n Ha Hn) as (y & Ey & Hy).
  assert (m ∈ a' ++ [l'] \/ m ∈ b') as [?|Hm']; [set_solver|done|]. exfalso.
  destruct (vals_num _ _ m Hb' Hm') as (z & Ez & Hz). rewrite Hv, Ey in Ez. injection Ez as <-. apply (H2 y Hz). by eapply lev_below.
Qed.
Lemma get_down_in s o g n : rep CLL s o g -> n ∈ g -> get_down (g_loc n) s = Ok (g_dn n) s.
Proof. intros H (g1 & g2 & ->)%elem_of_list_split. by eapply get_down_ok. Qed.
Lemma get_data_in s o g n : rep CLL s o g -> n ∈ g -> get_data (g_loc n) s = Ok (g_val n) s.
Proof. intros H (g1 & g2 & ->)%elem_of_list_split. by eapply get_data_ok. Qed.
Lemma py_eq_num x y : py_eq (PNum x) (PNum y) = bool_decide (x = y).
Proof. done. Qed.
(** One round of the loop that does not find [x]. *)
Lemma search_loop_down s os G A1 A2 j o a l b o' a' l' b' n N x prev acc fuel : Rep s os G (A1 ++ A2) -> x <> NegInf -> below x A1 ->
  (forall y, y ∈ up A2 (S j) -> nlt x y) -> (forall y, y ∈ up A2 j -> ~ nlt y x) ->
  Split s os G A1 A2 (S j) o a l b -> Split s os G A1 A2 j o' a' l' b' -> n ∈ a ++ [l] -> prev_ok (a ++ [l]) prev ->
  exists prev' m, m ∈ a' ++ [l'] /\ prev_ok (a' ++ [l']) prev' /\ search_loop (S fuel) N prev (g_loc n) (PNum x) acc s = search_loop fuel N prev' (g_loc m) (PNum x) (acc ++ [g_loc l]) s.
Proof.
  intros H Hx H1 H2 H3 HS HS' Hn Hp. pose proof (sp_rep _ _ _ _ _ _ _ _ _ _ HS) as Hr.
  assert (n ∈ a ++ l :: b) as Hn' by set_solver. assert (l ∈ a ++ l :: b) as Hl' by set_solver.
  destruct (split_down _ _ _ _ _ _ _ _ _ _ _ _ _ _ n x H Hx H1 H3 HS HS' Hn) as (m & _ & Hdn & _).
  destruct (split_down _ _ _ _ _ _ _ _ _ _ _ _ _ _ l x H Hx H1 H3 HS HS') as (ml & Hml & Hdl & _); [set_solver|].
  destruct (search_pass _ _ _ _ _ _ _ _ _ _ x n prev (S (length (s_nodes s))) HS Hx H1 H2 Hn Hp) as (p' & Es & Hp'); [lia|].
  assert (exists prev', (match p' with Some p => get_down p | None => ret None end) s = Ok prev' s /\ prev_ok (a' ++ [l']) prev') as (prev' & Ep & Hpp).
  { destruct p' as [p|]; [|by exists None]. destruct Hp' as (q & Hq & <-).
    destruct (split_down _ _ _ _ _ _ _ _ _ _ _ _ _ _ q x H Hx H1 H3 HS HS' Hq) as (mq & Hmq & Hdq & _).
    exists (Some (g_loc mq)). split; [|by exists mq]. rewrite <- Hdq. eapply get_down_in; [exact Hr|set_solver]. }
  exists prev', ml. split; [done|]. split; [done|]. cbn [search_loop].
  rewrite (bind_ok get_fuel _ s (S (length (s_nodes s))) s eq_refl). rewrite (bind_ok _ _ _ _ _ (get_down_in _ _ _ _ Hr Hn')), Hdn.
  rewrite (bind_ok _ _ _ _ _ Es). cbn [fst snd]. rewrite (bind_ok _ _ _ _ _ (get_data_in _ _ _ _ Hr Hl')).
  destruct (vals_num _ _ l (sp_a _ _ _ _ _ _ _ _ _ _ HS)) as (y & Ey & Hy); [set_solver|]. rewrite Ey, py_eq_num, bool_decide_eq_false_2.
  2:{ intros ->. by eapply nlt_irrefl, lev_below. }
  rewrite (bind_ok _ _ _ _ _ (get_down_in _ _ _ _ Hr Hl')), Hdl. rewrite (bind_ok _ _ _ _ _ Ep). done.
Qed.
(** From level [k + d] down to level [k], if [x] is in none of the levels above [k]. *)
Definition lastloc (A1 : towers) (G : list (list gn)) (k : nat) : option nat := g ← G !! k; g_loc <$> g !! length (up A1 k).
Lemma split_lastloc s os G A1 A2 k o a l b : Split s os G A1 A2 k o a l b -> lastloc A1 G k = Some (g_loc l).
Proof.
  intros [Ho Hg Hr Ha Hb]. unfold lastloc. rewrite Hg. cbn. assert (length a = length (up A1 k)) as <-.
  { apply (f_equal length) in Ha. rewrite !map_length, app_length in Ha. cbn in Ha. lia. }
  by rewrite list_lookup_middle.
Qed.
Lemma search_loop_descend s os G A1 A2 N x k fuel : Rep s os G (A1 ++ A2) -> x <> NegInf -> below x A1 ->
  (forall y, y ∈ up A2 0 -> ~ nlt y x) -> (forall y, y ∈ up A2 (S k) -> nlt x y) ->
  forall d o a l b n prev acc o' a' l' b',
  Split s os G A1 A2 (k + d) o a l b -> Split s os G A1 A2 k o' a' l' b' -> n ∈ a ++ [l] -> prev_ok (a ++ [l]) prev ->
  exists prev' m acc', m ∈ a' ++ [l'] /\ prev_ok (a' ++ [l']) prev' /\ length acc' = d /\
    (forall i, i < d -> rev acc' !! i = lastloc A1 G (S (k + i))) /\
    search_loop (d + fuel) N prev (g_loc n) (PNum x) acc s = search_loop fuel N prev' (g_loc m) (PNum x) (acc ++ acc') s.
Proof.
  intros H Hx H1 H2 H3. induction d as [|d IH]; intros o a l b n prev acc o' a' l' b' HS HS' Hn Hp.
  - rewrite Nat.add_0_r in HS. assert (a ++ l :: b = a' ++ l' :: b') as E.
    { pose proof (sp_g _ _ _ _ _ _ _ _ _ _ HS) as E1. rewrite (sp_g _ _ _ _ _ _ _ _ _ _ HS') in E1. by injection E1. }
    assert (a ++ [l] = a' ++ [l']) as E2.
    { change (l :: b) with ([l] ++ b) in E. change (l' :: b') with ([l'] ++ b') in E. rewrite !app_assoc in E.
      apply app_inj_1 in E as [? _]; [done|]. rewrite <- !(map_length g_val (_ ++ _)). by rewrite (sp_a _ _ _ _ _ _ _ _ _ _ HS), (sp_a _ _ _ _ _ _ _ _ _ _ HS'). }
    exists prev, n, []. rewrite <- E2, app_nil_r. split_and!; try done. intros i Hi. lia.
  - replace (k + S d) with (S (k + d)) in HS by lia.
    assert (k + d < length G) as Hlt. { apply sp_g, lookup_lt_Some in HS. lia. }
    destruct (Rep_split s os G A1 A2 (k + d) H Hlt) as (o2 & a2 & l2 & b2 & HS2).
    destruct (search_loop_down s os G A1 A2 (k + d) o a l b o2 a2 l2 b2 n N x prev acc (d + fuel) H Hx H1) as (prev2 & m2 & Hm2 & Hp2 & E); try done.
    { intros y Hy. apply H3. eapply up_mono; [done|lia]. }
    { intros y Hy. apply H2. eapply up_mono; [done|lia]. }
    destruct (IH _ _ _ _ m2 prev2 (acc ++ [g_loc l]) _ _ _ _ HS2 HS' Hm2 Hp2) as (prev' & m & acc' & Hm & Hp' & Hl & Hacc & E').
    exists prev', m, (g_loc l :: acc'). split; [done|]. split; [done|]. split; [cbn; lia|]. split.
    + intros i Hi. cbn [rev]. destruct (decide (i < d)) as [Hid|Hid].
      * rewrite lookup_app_l by (rewrite rev_length; lia). by apply Hacc.
      * assert (i = d) as -> by lia. rewrite lookup_app_r by (rewrite rev_length; lia). rewrite rev_length, Hl, Nat.sub_diag. cbn.
        symmetry. by eapply split_lastloc.
    + cbn [Nat.add]. rewrite E, E', <- app_assoc. done.
Qed.

(** ** _search *)
Record Inv (self : nat) (ks : kst) (r : nat) (os : list nat) (G : list (list gn)) (A : towers) : Prop := MkInv {
  i_sl : k_sls ks !! self = Some (r, length G);
  i_ls : k_lls ks !! r = Some os;
  i_rep : Rep (k_st ks) os G A;
  i_lls : forall r' l, f_lls r' l -> r' <> r /\ k_lls ks !! r' = Some l;
  i_sls : forall j p, f_sls j p -> j <> self /\ k_sls ks !! j = Some p }.
Lemma lift_ok {A} (m : M st A) ks a s : m (k_st ks) = Ok a s -> lift m ks = Ok a (KSt s (k_lls ks) (k_sls ks)).
Proof. unfold lift. by intros ->. Qed.
Lemma kst_eta ks : KSt (k_st ks) (k_lls ks) (k_sls ks) = ks.
Proof. by destruct ks. Qed.
Lemma lift_ok0 {A} (m : M st A) ks a : m (k_st ks) = Ok a (k_st ks) -> lift m ks = Ok a ks.
Proof. intros H. rewrite (lift_ok _ _ _ _ H). by rewrite kst_eta. Qed.
Lemma num_levels_ok self ks r os G A : Inv self ks r os G A -> num_levels self ks = Ok (length G) ks.
Proof. intros H. unfold num_levels, bind, get_sl. by rewrite (i_sl _ _ _ _ _ _ H). Qed.
Lemma level_list_ok self ks r os G A k o : Inv self ks r os G A -> os !! k = Some o -> level_list self k ks = Ok o ks.
Proof. intros H Ho. unfold level_list, bind, get_sl. rewrite (i_sl _ _ _ _ _ _ H). cbn. unfold get_lls. by rewrite (i_ls _ _ _ _ _ _ H), Ho. Qed.
Lemma head_ok s o g : rep CLL s o g -> g <> [] -> exists ob, get_obj o s = Ok ob s /\ o_head ob = hd_loc g None.
Proof.
  intros H Hg. destruct (rep_obj _ _ _ _ H) as (hd & tl & Ho & Hh & _). eexists. split; [unfold get_obj; by rewrite Ho|]. by apply Hh.
Qed.
Lemma split_head s os G A1 A2 k o a l b : Split s os G A1 A2 k o a l b -> exists n, hd_loc (a ++ l :: b) None = Some (g_loc n) /\ n ∈ a ++ [l].
Proof. intros _. destruct a as [|n a]; [exists l|exists n]; split; try done; set_solver. Qed.
(** The search, down to level [k]. *)
Lemma search_to self ks r os G A1 A2 x k : Inv self ks r os G (A1 ++ A2) -> x <> NegInf -> below x A1 ->
  (forall y, y ∈ up A2 0 -> ~ nlt y x) -> (forall y, y ∈ up A2 (S k) -> nlt x y) -> k < length G ->
  exists prev m acc o a l b f, Split (k_st ks) os G A1 A2 k o a l b /\ m ∈ a ++ [l] /\ length acc = length G - 1 - k /\
    (forall i, i < length G - 1 - k -> rev acc !! i = lastloc A1 G (S (k + i))) /\
    search self (PNum x) ks = lift (search_loop (S f) (length G) prev (g_loc m) (PNum x) acc) ks.
Proof.
  intros H Hx H1 H2 H3 Hk. pose proof (i_rep _ _ _ _ _ _ H) as HR.
  destruct (Rep_split _ _ _ _ _ (length G - 1) HR) as (o & a & l & b & HS); [lia|].
  destruct (Rep_split _ _ _ _ _ k HR Hk) as (o' & a' & l' & b' & HS').
  destruct (split_head _ _ _ _ _ _ _ _ _ _ HS) as (n & Hn & Hn').
  destruct (search_loop_descend (k_st ks) os G A1 A2 (length G) x k (S (length (s_nodes (k_st ks))) - (length G - 1 - k)) HR Hx H1 H2 H3 (length G - 1 - k) o a l b n None [] o' a' l' b')
    as (prev & m & acc & Hm & Hp & Hl & Hacc & E); try done.
  { by replace (k + (length G - 1 - k)) with (length G - 1) by lia. }
  pose proof (levels_bound _ _ _ _ HR) as Hb.
  exists prev, m, acc, o', a', l', b', (length (s_nodes (k_st ks)) - (length G - 1 - k)). split_and!; try done.
  unfold search. rewrite (bind_ok _ _ _ _ _ (num_levels_ok _ _ _ _ _ _ H)). rewrite (bind_ok _ _ _ _ _ (level_list_ok _ _ _ _ _ _ _ _ H (sp_o _ _ _ _ _ _ _ _ _ _ HS))).
  destruct (head_ok _ _ _ (sp_rep _ _ _ _ _ _ _ _ _ _ HS)) as (ob & Hob & Hh); [by destruct a|].
  unfold lift at 1. rewrite (bind_ok _ _ _ _ _ Hob), Hh, Hn. cbn [deref]. unfold ret at 1, bind at 1. unfold get_fuel at 1, bind at 1.
  replace (S (length (s_nodes (k_st ks)))) with ((length G - 1 - k) + (S (length (s_nodes (k_st ks))) - (length G - 1 - k))) by lia.
  rewrite E. cbn [app]. replace (S (length (s_nodes (k_st ks))) - (length G - 1 - k)) with (S (length (s_nodes (k_st ks)) - (length G - 1 - k))) by lia. done.
Qed.
Lemma search_absent self ks r os G A1 A2 x : Inv self ks r os G (A1 ++ A2) -> x <> NegInf -> below x A1 -> above x A2 ->
  exists prev last o a l b, search self (PNum x) ks = Ok (prev, g_loc l, last) ks /\ Split (k_st ks) os G A1 A2 0 o a l b /\
    (forall i, S i < length G -> last !! i = lastloc A1 G (S i)).
Proof.
  intros H Hx H1 H2. pose proof (i_rep _ _ _ _ _ _ H) as HR.
  destruct (search_to self ks r os G A1 A2 x 0 H Hx H1) as (prev & m & acc & o & a & l & b & f & HS & Hm & Hl & Hacc & E).
  { intros y Hy Hlt. eapply nlt_irrefl, nlt_trans; [exact Hlt|]. by eapply up_above. }
  { intros y Hy. by eapply up_above. }
  { apply (r_pos _ _ _ _ HR). }
  pose proof (sp_rep _ _ _ _ _ _ _ _ _ _ HS) as Hr.
  assert (exists p', search_sorted (S (length (s_nodes (k_st ks)))) prev (g_loc m) (PNum x) (k_st ks) = Ok (p', g_loc l) (k_st ks)) as (p' & Es).
  { pose proof HS as [_ _ _ Ha Hb]. apply elem_of_list_split in Hm as (a1 & a2 & E2).
    assert (a ++ l :: b = a1 ++ m :: a2 ++ b) as E'. { change (l :: b) with ([l] ++ b). rewrite app_assoc, E2. by rewrite <- app_assoc. }
    rewrite E' in Hr. eexists. erewrite search_sorted_ok; [|exact Hr| |eapply bound_head; [exact Hb|]|].
    - f_equal. f_equal. f_equal. destruct (lastof_app a1 m a2) as (a' & E3). rewrite <- E2 in E3. by apply app_inj_tail in E3 as [_ <-].
    - apply Forall_forall. intros c Hc. destruct (vals_num _ _ c Ha) as (y & Ey & Hy); [rewrite E2; set_solver|]. exists y. split; [done|]. apply nlt_leb. by eapply lev_below.
    - intros y Hy. by eapply up_above.
    - apply rep_size in Hr. rewrite app_length in Hr. cbn in Hr. rewrite app_length in Hr. lia. }
  exists p', (rev acc), o, a, l, b. split; [|split; [done|]].
  - rewrite E. apply lift_ok0. cbn [search_loop]. unfold get_fuel at 1, bind at 1.
    erewrite bind_ok; [|eapply get_down_in; [exact Hr|set_solver]].
    pose proof (r_down _ _ _ _ HR 0 _ (sp_g _ _ _ _ _ _ _ _ _ _ HS)) as HD. cbn in HD. rewrite Forall_forall in HD. rewrite (HD m) by set_solver.
    rewrite (bind_ok _ _ _ _ _ Es). rewrite Hl, Nat.sub_0_r, Nat.eqb_refl. done.
  - intros i Hi. rewrite Hacc by lia. done.
Qed.
Lemma sorted_nodup l : StronglySorted nlt l -> NoDup l.
Proof.
  induction 1 as [|x l HS IH HF]; constructor; [|done]. intros Hx. rewrite Forall_forall in HF. by apply (nlt_irrefl x), HF.
Qed.
Lemma up_nodup A k : NoDup (elems A) -> NoDup (up A k).
Proof.
  induction A as [|[y j] A IH]; [done|]. unfold elems. cbn [map fst]. intros [Hy Hnd]%NoDup_cons. rewrite up_cons.
  destruct (decide (k <= j)); [|by apply IH]. apply NoDup_cons. split; [|by apply IH]. intros (h & Hin & _)%up_in. apply Hy. apply (elem_of_list_fmap_1 fst _ _ Hin).
Qed.
Lemma search_present self ks r os G A1 A2 x h : Inv self ks r os G (A1 ++ (x, h) :: A2) -> x <> NegInf -> below x A1 -> above x A2 ->
  exists last o a l f b, search self (PNum x) ks = Ok (Some (g_loc l), g_loc f, last) ks /\ Split (k_st ks) os G A1 ((x, h) :: A2) h o a l (f :: b) /\
    g_val f = PNum x /\ length last = length G - 1 - h.
Proof.
  intros H Hx H1 H2. pose proof (i_rep _ _ _ _ _ _ H) as HR.
  assert (h < length G) as Hh. { pose proof (r_top _ _ _ _ HR) as HT. apply Forall_app in HT as [_ HT]. by apply Forall_cons in HT as [HT _]. }
  assert (forall k y, y ∈ up ((x, h) :: A2) k -> y = x \/ nlt x y) as H3.
  { intros k y. rewrite up_cons. intros [Hy|Hy]%elem_of_app; [left|right; by eapply up_above]. destruct (decide (k <= h)); set_solver. }
  destruct (search_to self ks r os G A1 ((x, h) :: A2) x h H Hx H1) as (prev & m & acc & o & a & l & b & f & HS & Hm & Hl & Hacc & E).
  { intros y Hy Hlt. destruct (H3 0 y Hy) as [->|Hlt']; [by eapply nlt_irrefl|]. eapply nlt_irrefl, nlt_trans; [exact Hlt|done]. }
  { intros y. rewrite up_cons, decide_False by lia. intros Hy. by eapply up_above. }
  { done. }
  pose proof (sp_b _ _ _ _ _ _ _ _ _ _ HS) as Hb. rewrite up_cons, decide_True in Hb by done. destruct b as [|fd b]; [done|]. cbn in Hb. injection Hb as Hfd Hb.
  pose proof (sp_rep _ _ _ _ _ _ _ _ _ _ HS) as Hr.
  assert (NoDup (up ((x, h) :: A2) h)) as Hnd.
  { apply up_nodup. pose proof (sorted_nodup _ (r_sort _ _ _ _ HR)) as Hnd. unfold elems in Hnd. rewrite map_app in Hnd. by apply NoDup_app in Hnd as (_ & _ & ?). }
  pose proof (search_hit _ _ _ _ _ _ _ _ _ _ _ x m prev (S (length (s_nodes (k_st ks)))) HS Hx H1 Hfd (H3 h) Hnd Hm ltac:(lia)) as Es.
  exists (if decide (h = 0) then rev acc else acc), o, a, l, fd, b. split; [|split_and!; [done|done|]].
  - rewrite E. apply lift_ok0. cbn [search_loop]. unfold get_fuel at 1, bind at 1.
    erewrite bind_ok; [|eapply get_down_in; [exact Hr|set_solver]].
    destruct h as [|h].
    + pose proof (r_down _ _ _ _ HR 0 _ (sp_g _ _ _ _ _ _ _ _ _ _ HS)) as HD. cbn in HD. rewrite Forall_forall in HD. rewrite (HD m) by set_solver.
      rewrite (bind_ok _ _ _ _ _ Es). rewrite Hl, Nat.sub_0_r, Nat.eqb_refl. done.
    + destruct (lookup_lt_is_Some_2 G h) as [g' Hg']; [lia|].
      pose proof (r_down _ _ _ _ HR (S h) _ (sp_g _ _ _ _ _ _ _ _ _ _ HS) _ Hg') as HD. rewrite Forall_forall in HD. destruct (HD m) as (m' & _ & _ & ->); [set_solver|].
      rewrite (bind_ok _ _ _ _ _ Es). cbn [fst snd]. erewrite bind_ok; [|eapply get_data_in; [exact Hr|set_solver]].
      rewrite Hfd, py_eq_num, bool_decide_eq_true_2 by done. done.
  - destruct (decide (h = 0)); [rewrite rev_length|]; done.
Qed.
End Framed.
