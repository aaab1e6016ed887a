(** * RedBlackTree.remove on a valid tree: when the result is valid *)
From Coq Require Import Sorted.
From iris.proofmode Require Import proofmode.
From Verif Require Import Base NumOrd TreeModel TreeSpec BstModel BalModel BstSpec RbSpec BstSep BstRules BstZip BstDel BinThm BstPure BstThm AvlThm SplayThm RbThm RbDel RbDel2.
Local Open Scope py_scope.

(** ** Pure facts *)
Lemma rbt_unique t : forall n m, rbt t n -> rbt t m -> n = m.
Proof.
  induction t as [|l IHl ix u _]; intros n m; cbn [rbt]; [congruence|]. intros (n' & -> & Hl & _) (m' & -> & Hl' & _). by rewrite (IHl _ _ Hl Hl').
Qed.
Lemma rbt_black0 t : rbt t 0 -> colr t = Black -> t = Nil.
Proof. destruct t as [|a jy b]; [done|]. intros (m & Em & _) Ec. cbn in Ec. by rewrite Ec in Em. Qed.
Lemma rbt_red0 t : rbt t 0 -> colr t = Red -> exists ix, t = Bin Nil ix Nil.
Proof.
  destruct t as [|a jy b]; [done|]. intros (m & Em & Ha & Hb & HR) Ec. cbn in Ec. rewrite Ec in Em. cbn in Em. subst m.
  destruct (HR Ec) as [H1 H2]. exists jy. by rewrite (rbt_black0 _ Ha H1) (rbt_black0 _ Hb H2).
Qed.
Lemma colr_cases t : colr t = Black \/ colr t = Red.
Proof. destruct (colr t); eauto. Qed.
Definition lendsL (S : ptree) : bool := match S with Nil => false | Bin a s _ => if is_red (col s) then lendL a else lendL S end.
Definition lendsR (S : ptree) : bool := match S with Nil => false | Bin _ s b => if is_red (col s) then lendR b else lendR S end.
Lemma lendL_spec S : lendL S = true <-> has_red_child (bin_map snd S).
Proof.
  destruct S as [|a s b]; [done|]. cbn [lendL bin_map has_red_child]. rewrite -!colr_root orb_true_iff. destruct (colr a), (colr b); cbn; naive_solver.
Qed.
Lemma lendR_spec S : lendR S = true <-> has_red_right_child (bin_map snd S).
Proof. destruct S as [|a s b]; [done|]. cbn [lendR bin_map has_red_right_child]. rewrite -colr_root. by destruct (colr b). Qed.
Lemma lendsL_spec S : lendsL S = true <-> lends_to_left (bin_map snd S).
Proof.
  destruct S as [|a s b]; [done|]. cbn [lendsL lends_to_left bin_map]. destruct (col s); cbn [is_red].
  - exact (lendL_spec (Bin a s b)).
  - apply lendL_spec.
Qed.
Lemma lendsR_spec S : lendsR S = true <-> lends_to_right (bin_map snd S).
Proof.
  destruct S as [|a s b]; [done|]. cbn [lendsR lends_to_right bin_map]. destruct (col s); cbn [is_red].
  - exact (lendR_spec (Bin a s b)).
  - apply lendR_spec.
Qed.
Lemma turnedL_rb p S : rbt S 1 -> colr S = Black -> lendL S = true -> rbt (turnedL Nil p S) (bump (col p) 1) /\ colr (turnedL Nil p S) = col p.
Proof.
  destruct S as [|a s b]; [done|]. intros (m & Em & Ha & Hb & _) Ec HL. cbn in Ec. rewrite Ec in Em. cbn in Em. injection Em as <-.
  cbn [lendL turnedL] in *. destruct (is_red (colr b)) eqn:Eb.
  - apply is_red_true in Eb. destruct (rbt_red0 _ Hb Eb) as [[bi bx] ->].
    split; [|done]. cbn [rbt pc snd pay_color p_color paint]. exists 1. split; [done|]. split.
    + exists 0. by split_and!.
    + split; [|done]. exists 0. by split_and!.
  - rewrite orb_false_r in HL. apply is_red_true in HL. destruct (rbt_red0 _ Ha HL) as [[ai ax] ->]. apply is_red_false in Eb. rewrite (rbt_black0 _ Hb Eb).
    split; [|done]. cbn [rbt pc snd pay_color p_color paint]. exists 1. split; [done|]. split; [exists 0; by split_and!|]. split; [|done]. exists 0. by split_and!.
Qed.
Lemma turnedR_rb p S : rbt S 1 -> colr S = Black -> lendR S = true -> rbt (turnedR S p Nil) (bump (col p) 1) /\ colr (turnedR S p Nil) = col p.
Proof.
  destruct S as [|a s b]; [done|]. intros (m & Em & Ha & Hb & _) Ec HL. cbn in Ec. rewrite Ec in Em. cbn in Em. injection Em as <-.
  cbn [lendR turnedR] in *. apply is_red_true in HL. destruct (rbt_red0 _ Hb HL) as [[bi bx] ->]. cbn in HL. destruct (is_red (colr a)) eqn:Ea.
  - apply is_red_true in Ea. destruct (rbt_red0 _ Ha Ea) as [[ai ax] ->].
    split; [|done]. cbn [rbt pc snd pay_color p_color paint]. exists 1. split; [done|]. split; [exists 0; by split_and!|].
    split; [|done]. exists 0. by split_and!.
  - apply is_red_false in Ea. rewrite (rbt_black0 _ Ha Ea).
    split; [|done]. cbn [rbt pc snd pay_color p_color paint]. exists 1. split; [done|]. split; [exists 0; by split_and!|]. split; [|done]. exists 0. by split_and!.
Qed.
Lemma rbok_paint T N : rbt T N -> rbok (paint Black T).
Proof. intros H. split; [by destruct T|]. pose proof (rbt_paint Black _ _ H (or_introl eq_refl)) as Hp. by eexists. Qed.
Lemma colr_plug_fill K f t t' : colr (plug K (fill f t)) = colr (plug K (fill f t')).
Proof. change (colr (plug (f :: K) t) = colr (plug (f :: K) t')). by apply colr_plug. Qed.

(** Painting the root changes no subtree below it. *)
Definition bframe (f : frame) : frame := match f with InL ix u => InL (pc Black ix) u | InR u ix => InR u (pc Black ix) end.
Lemma paint_plug f K : exists g K', (g = f \/ g = bframe f) /\ forall t, paint Black (plug (f :: K) t) = plug (g :: K') t.
Proof.
  revert f. induction K as [|h K IH]; intros f.
  - exists (bframe f), []. split; [by right|]. intros t. by destruct f.
  - destruct (IH h) as (g & K' & _ & Hg). exists f, (g :: K'). split; [by left|]. intros t. exact (Hg (fill f t)).
Qed.
Lemma sub_rb f K t : rbok (paint Black (plug (f :: K) t)) -> exists n, rbt t n /\ rbt (sib f) n.
Proof.
  intros [_ [N HN]]. destruct (paint_plug f K) as (g & K' & Hg & E). rewrite E in HN. apply rb_plug in HN as (n & Hn & HK & _). exists n. split; [done|].
  destruct HK as [HK _]. destruct Hg as [->| ->]; [done|]. by destruct f.
Qed.
Lemma sub_red f K l ix u : rbok (paint Black (plug (f :: K) (Bin l ix u))) -> col ix = Red -> colr l = Black /\ colr u = Black.
Proof. intros H E. apply sub_rb in H as (n & (m & _ & _ & _ & HR) & _). by apply HR. Qed.
Lemma leaf_black K ix N : rbt (plug K (Bin Nil ix Nil)) N -> col ix = Black -> rbK K 1.
Proof. intros H E. apply rb_plug in H as (n & (m & -> & Hm & _) & HK & _). cbn in Hm. subst m. by rewrite E in HK. Qed.
Lemma outL_valid K p S : rbK (InL p S :: K) 1 ->
  match outL K p S with
  | Some T' => rbok (paint Black T') <-> lendsL S = true \/ (K = [] /\ leafb S = true)
  | None => ~ (lendsL S = true \/ (K = [] /\ leafb S = true))
  end.
Proof.
  cbn [rbK sib fnode]. intros (HS & HR & HK). destruct S as [|a s b]; [done|]. cbn [outL lendsL]. destruct (is_red (col s)) eqn:Es.
  - apply is_red_true in Es. destruct HS as (m & Em & Ha & Hb & HsR). rewrite Es in Em. cbn in Em. subst m. destruct (HsR Es) as [Hca Hcb].
    assert (col p = Black) as Hp. { destruct (col p); [done|]. destruct (HR eq_refl) as [H _]. cbn in H. congruence. }
    rewrite Hp in HK. cbn [bump] in HK. destruct a as [|a1 q a2] eqn:Ea; [done|]. rewrite -Ea in Ha Hca |- *.
    assert (leafb (Bin a s b) = false) as -> by (by rewrite Ea).
    destruct (lendL a) eqn:El; cbv iota.
    + split; [by left|]. intros _. destruct (turnedL_rb (pc Red p) a Ha Hca El) as [Ht Hc].
      eapply rbok_paint, (plug_rb K _ 2); [|done|done]. exists 1. split_and!; try done.
    + split; [|naive_solver]. intros H. exfalso.
      change (plug K (Bin (Bin Nil (pc Red p) (paint Red a)) (pc Black s) b)) with (plug (InL (pc Black s) b :: K) (Bin Nil (pc Red p) (paint Red a))) in H.
      apply sub_red in H as [_ H]; [|done]. by rewrite Ea in H.
  - apply is_red_false in Es. destruct (lendL (Bin a s b)) eqn:El.
    + split; [by left|]. intros _. destruct (turnedL_rb p _ HS Es El) as [Ht Hc]. eapply rbok_paint, plug_rb; [done|done|]. intros E. rewrite Hc in E. by apply HR.
    + assert (a = Nil /\ b = Nil) as [-> ->].
      { destruct HS as (m & Em & Ha & Hb & _). rewrite Es in Em. injection Em as <-. cbn [lendL] in El. apply orb_false_iff in El as [E1%is_red_false E2%is_red_false].
        split; by apply rbt_black0. }
      destruct K as [|f K].
      * split; [by right|]. intros _. split; [done|]. exists 1. exists 0. split_and!; try done. exists 0. by split_and!.
      * destruct (is_red (col p)) eqn:Ep; [|naive_solver]. split; [|naive_solver]. intros H%sub_red; [|by apply is_red_true]. by destruct H as [_ H].
Qed.
Lemma outR_valid K p S : rbK (InR S p :: K) 1 ->
  match outR K S p with
  | Some T' => rbok (paint Black T') <-> lendsR S = true \/ (K = [] /\ leafb S = true)
  | None => ~ (lendsR S = true \/ (K = [] /\ leafb S = true))
  end.
Proof.
  cbn [rbK sib fnode]. intros (HS & HR & HK). destruct S as [|a s b]; [done|]. cbn [outR lendsR]. destruct (is_red (col s)) eqn:Es.
  - apply is_red_true in Es. destruct HS as (m & Em & Ha & Hb & HsR). rewrite Es in Em. cbn in Em. subst m. destruct (HsR Es) as [Hca Hcb].
    assert (col p = Black) as Hp. { destruct (col p); [done|]. destruct (HR eq_refl) as [H _]. cbn in H. congruence. }
    rewrite Hp in HK. cbn [bump] in HK. destruct b as [|a1 q a2] eqn:Ea; [done|]. rewrite -Ea in Hb Hcb |- *.
    assert (leafb (Bin a s b) = false) as -> by (rewrite Ea; by destruct a).
    destruct (lendR b) eqn:El; cbv iota.
    + split; [by left|]. intros _. destruct (turnedR_rb (pc Red p) b Hb Hcb El) as [Ht Hc].
      eapply rbok_paint, (plug_rb K _ 2); [|done|done]. exists 1. split_and!; try done.
    + split; [|naive_solver]. intros H. exfalso.
      change (plug K (Bin a (pc Black s) (Bin (paint Red b) (pc Red p) Nil))) with (plug (InR a (pc Black s) :: K) (Bin (paint Red b) (pc Red p) Nil)) in H.
      apply sub_red in H as [H _]; [|done]. by rewrite Ea in H.
  - apply is_red_false in Es. destruct (lendR (Bin a s b)) eqn:El.
    + split; [by left|]. intros _. destruct (turnedR_rb p _ HS Es El) as [Ht Hc]. eapply rbok_paint, plug_rb; [done|done|]. intros E. rewrite Hc in E. by apply HR.
    + destruct HS as (m & Em & Ha & Hb & _). rewrite Es in Em. injection Em as <-. cbn [lendR] in El. apply is_red_false in El. rewrite (rbt_black0 _ Hb El). clear Hb El.
      destruct K as [|f K].
      * split.
        -- intros H. right. split; [done|]. change (paint Black (Bin (paint Red (Bin a s Nil)) p Nil)) with (paint Black (plug [InL p Nil] (paint Red (Bin a s Nil)))) in H.
           cbn [paint] in H. apply sub_red in H as [H _]; [|done]. by rewrite (rbt_black0 _ Ha H).
        -- intros [|[_ H]]; [done|]. destruct a; [|done]. split; [done|]. exists 1. exists 0. split_and!; try done. exists 0. by split_and!.
      * destruct (is_red (col p)) eqn:Ep; [|naive_solver]. split; [|naive_solver]. intros H%sub_red; [|by apply is_red_true]. by destruct H as [H _].
Qed.
Definition helped (f : frame) : bool := match f with InL _ t => lendsL t | InR t _ => lendsR t end.
Lemma leafb_spec (t : ptree) : leafb t = true <-> is_leaf_tree (bin_map snd t).
Proof. destruct t as [|[] ix []]; done. Qed.
Lemma leaf_helped_zfind v T : forall top f K ix, zfind v T = (f :: K, Bin Nil ix Nil) ->
  leaf_helped top v (bin_map snd T) <-> helped f = true \/ (top = true /\ K = [] /\ leafb (sib f) = true).
Proof.
  induction T as [|l IHl iy u IHu]; intros top f K ix; [done|]. cbn [zfind]. destruct (bool_decide (v = p_val iy.2)) eqn:Ev; [done|].
  cbn [bin_map leaf_helped]. destruct (num_ltb v (p_val iy.2)) eqn:E.
  - pose proof (zfind_plug v l) as HP. destruct (zfind v l) as [[|g K'] t] eqn:Ez; cbn [fst snd app] in *; intros [= <- <- ->].
    + cbn [plug] in HP. subst l. cbn [bin_map helped sib]. rewrite -lendsL_spec -leafb_spec. naive_solver.
    + specialize (IHl false _ _ _ eq_refl). rewrite (_ : match bin_map snd l with Bin Nil _ Nil => _ | _ => _ end = leaf_helped false v (bin_map snd l)).
      2:{ destruct l as [|[] iz []]; try done. exfalso. cbn [zfind] in Ez. destruct (bool_decide _); [done|]. by destruct (num_ltb _ _). }
      rewrite IHl. split; [naive_solver|]. intros [|(_ & H & _)]; [by left|]. by destruct K'.
  - pose proof (zfind_plug v u) as HP. destruct (zfind v u) as [[|g K'] t] eqn:Ez; cbn [fst snd app] in *; intros [= <- <- ->].
    + cbn [plug] in HP. subst u. cbn [bin_map helped sib]. rewrite -lendsR_spec -leafb_spec. naive_solver.
    + specialize (IHu false _ _ _ eq_refl). rewrite (_ : match bin_map snd u with Bin Nil _ Nil => _ | _ => _ end = leaf_helped false v (bin_map snd u)).
      2:{ destruct u as [|[] iz []]; try done. exfalso. cbn [zfind] in Ez. destruct (bool_decide _); [done|]. by destruct (num_ltb _ _). }
      rewrite IHu. split; [naive_solver|]. intros [|(_ & H & _)]; [by left|]. by destruct K'.
Qed.
Lemma zmin_helped u : forall K2 ix v, zmin u = (K2, Bin Nil ix v) ->
  leftmost_helped (bin_map snd u) <-> exists p S K3, K2 = InL p S :: K3 /\ v = Nil /\ lendsL S = true.
Proof.
  induction u as [|l IHl iy u _]; intros K2 ix v; [done|]. cbn [zmin]. destruct l as [|l1 iz l2] eqn:El.
  - intros [= <- <- <-]. cbn [bin_map leftmost_helped]. naive_solver.
  - rewrite -El. rewrite -El in IHl. pose proof (zmin_plug l) as HP. destruct (zmin l) as [K' t] eqn:Ez. cbn [fst snd] in *. intros [= <- ->].
    specialize (IHl _ _ _ eq_refl). cbn [bin_map leftmost_helped].
    destruct (leafb l) eqn:Elf.
    + destruct l as [|[] ? []]; try done. cbn [zmin] in Ez. injection Ez as <- <- <-. cbn [bin_map app]. rewrite -lendsL_spec. split; [|naive_solver]. intros H. by eexists _, _, [].
    + rewrite (_ : match bin_map snd l with Bin Nil _ Nil => _ | _ => _ end = leftmost_helped (bin_map snd l)); [|by destruct l as [|[] ? []]].
      rewrite IHl. split.
      * intros (p & S & K3 & -> & -> & H). by eexists _, _, _.
      * intros (p & S & K3 & E & -> & H). destruct K' as [|g K']; [|injection E as -> _; by eexists _, _, _].
        cbn [plug] in HP. rewrite -HP in Elf. discriminate Elf.
Qed.

(** ** Leaving the logic *)
Definition epost (P : exn -> ptree -> option nat -> Z -> Prop) (e : exn) (r : option nat) (n : Z) : hprop := (∃ T', ⌜P e T' r n⌝ ∗ tree None T')%I.
Definition cpost {A} (Q : A -> ptree -> Prop) (P : exn -> ptree -> option nat -> Z -> Prop) (a : exn + A) (r : option nat) (n : Z) : hprop :=
  match a with inr a => post Q a r n | inl e => epost P e r n end.
Lemma rep_crun {A} (m : M tst A) s T (Q : A -> ptree -> Prop) P : rep s T ->
  (tree None T ⊢ twp (catch m) (rp T) (Z.of_nat (bsize T)) (cpost Q P)) ->
  (exists a s' T', m s = Ok a s' /\ rep s' T' /\ Q a T') \/
  (exists e s' T' h, m s = Exc e s' /\ P e T' (t_root s') (t_len s') /\ h ⊆ memof s' /\ tree None T' h).
Proof.
  intros (h & Hs & HT & Hr & Hn) Hm. rewrite -Hr -Hn in Hm.
  destruct (twp_run _ _ _ _ _ Hm HT Hs) as (a & s' & h' & E & Hs' & HQ). unfold catch in E.
  destruct (m s) as [x s1|e s1|]; [| |done]; injection E as <- <-; cbn [cpost] in HQ.
  - left. apply post_elim in HQ as (T' & HQ & Hr' & Hn' & HT'). exists x, s1, T'. split_and!; [done| |done]. exists h'. by split_and!.
  - right. destruct HQ as (T' & h1 & h2 & Hd & Hsub & HP & H2). exists e, s1, T', h'. split_and!; try done. eapply hp_mono; [|exact H2]. etrans; [|exact Hsub]. by apply map_union_subseteq_r.
Qed.
