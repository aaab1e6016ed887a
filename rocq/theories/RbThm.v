(** * RedBlackTree: insertion and removal *)
From Coq Require Import Sorted.
From iris.proofmode Require Import proofmode.
From Verif Require Import Base NumOrd TreeModel TreeSpec BstModel BalModel BstSpec BstSep BstRules BstZip BstDel BinThm BstPure BstThm AvlThm SplayThm.
Local Open Scope py_scope.

(** ** Recolouring, on trees *)
Definition pc (k : color) (ix : nat * pay) : nat * pay := (ix.1, pay_color k ix.2).
Notation col ix := (p_color (snd ix)).
Definition colr (t : ptree) : color := match t with Nil => Black | Bin _ ix _ => col ix end.
Definition paint (k : color) (t : ptree) : ptree := match t with Nil => Nil | Bin l ix u => Bin l (pc k ix) u end.
Definition sib (f : frame) : ptree := match f with InL _ u | InR u _ => u end.
Definition case2 (f g : frame) (t : ptree) : ptree :=
  let p := match f with InL ix s => Bin t (pc Black ix) s | InR s ix => Bin s (pc Black ix) t end in
  match g with InL ix v => Bin p (pc Red ix) (paint Black v) | InR v ix => Bin (paint Black v) (pc Red ix) p end.
Definition case3 (f g : frame) (t : ptree) : ptree :=
  match f, g with
  | InL p s, InL gp v => Bin t (pc Black p) (Bin s (pc Red gp) v)
  | InR s p, InR v gp => Bin (Bin v (pc Red gp) s) (pc Black p) t
  | InR s p, InL gp v => match t with Bin a j b => Bin (Bin s p a) (pc Black j) (Bin b (pc Red gp) v) | Nil => Nil end
  | InL p s, InR v gp => match t with Bin a j b => Bin (Bin v (pc Red gp) a) (pc Black j) (Bin b p s) | Nil => Nil end
  end.
Definition rcstep (f g : frame) (t : ptree) : ptree := if is_red (colr (sib g)) then case2 f g t else case3 f g t.
Fixpoint rcl (K : ctx) (t : ptree) : ptree :=
  match K with
  | f :: g :: K' => if is_red (col (fnode f)) then rcl K' (rcstep f g t) else plug K t
  | _ => plug K t
  end.
Lemma ino_paint k t : ino (paint k t) = ino t.
Proof. by destruct t. Qed.
Lemma ino_rcstep f g t : t <> Nil -> ino (rcstep f g t) = ino (fill g (fill f t)).
Proof.
  intros Ht. unfold rcstep. destruct (is_red _).
  - destruct f, g; cbn [case2 fill ino sib pc snd]; rewrite ino_paint //.
  - destruct f as [p s|s p], g as [gp v|v gp]; cbn [case3 fill ino pc snd]; try (by rewrite -?app_assoc);
      destruct t as [|a j b]; try done; cbn [ino snd pay_color p_val]; by rewrite -?app_assoc /= -?app_assoc.
Qed.
Lemma rcstep_bin f g l j u : exists l' j' u', rcstep f g (Bin l j u) = Bin l' j' u'.
Proof. unfold rcstep. destruct (is_red _), f, g; cbn; eauto. Qed.
Lemma rcl_ino K t : t <> Nil -> ino (rcl K t) = ino (plug K t).
Proof.
  assert (forall n K t, length K <= n -> t <> Nil -> ino (rcl K t) = ino (plug K t)) as H; [|by eapply H].
  clear. induction n as [|n IH]; intros K t Hn Ht; [by destruct K; cbn in Hn; [|lia]|].
  destruct K as [|f [|g K]]; [done..|]. cbn [rcl plug]. destruct (is_red _); [|done]. cbn in Hn.
  rewrite IH; [|lia|].
  - rewrite !ino_plug ino_rcstep //.
  - destruct t as [|l j u]; [done|]. destruct (rcstep_bin f g l j u) as (? & ? & ? & ->). done.
Qed.
Lemma rcl_ne K t : t <> Nil -> rcl K t <> Nil.
Proof.
  intros Ht E. pose proof (rcl_ino K t Ht) as H. rewrite E in H. cbn in H. destruct t as [|l j u]; [done|].
  rewrite ino_plug in H. cbn in H. destruct (zl K), (ino l); done.
Qed.

(** ** Recolouring, on the heap *)
Section rules.
Implicit Types (r : option nat) (n : Z).
Lemma twp_get_color i x l u p r n Q :
  i ↦ Cell x l u p ∗ (i ↦ Cell x l u p -∗ Q (p_color x) r n) ⊢ twp (get_color i) r n Q.
Proof. iIntros "[Hi HQ]". unfold get_color. wbind. wrd. wret. by iApply "HQ". Qed.
Lemma twp_set_color i k x l u p r n Q :
  i ↦ Cell x l u p ∗ (i ↦ Cell (pay_color k x) l u p -∗ Q tt r n) ⊢ twp (set_color i k) r n Q.
Proof. iIntros "[Hi HQ]". unfold set_color. wwr. by iApply "HQ". Qed.
Lemma twp_color_of q t r n Q :
  tree q t ∗ (tree q t -∗ Q (colr t) r n) ⊢ twp (color_of (rp t)) r n Q.
Proof.
  iIntros "[Ht HQ]". destruct t as [|a [i x] b]; cbn [rp tree fst snd color_of colr].
  - wret. by iApply "HQ".
  - iDestruct "Ht" as "(Hi & Ha & Hb)". iApply twp_get_color. iFrame "Hi". iIntros "Hi". iApply "HQ". iFrame.
Qed.
(** [__recolor_case3] at [j], with the parent and grandparent of the two frames. *)
Lemma twp_case3 f g K l j y u r n Q :
  num_ltb (p_val y) (p_val (fnode f).2) = isl f ->
  num_ltb (p_val (fnode f).2) (p_val (fnode g).2) = isl g ->
  ctxp (f :: g :: K) (Some j) ∗ tree (Some (fnode f).1) (Bin l (j, y) u) ∗
  (∀ m, ⌜rp (case3 f g (Bin l (j, y) u)) = Some m⌝ -∗ ctxp K (Some (fnode g).1) -∗ tree (cpar K) (case3 f g (Bin l (j, y) u)) -∗ Q m r n) ⊢
  twp (recolor_case3 j (fnode f).1 (fnode g).1) r n Q.
Proof.
  intros Hf Hg. destruct f as [[pi px] s|s [pi px]], g as [[gi gx] v|v [gi gx]]; cbn [ctxp tree fnode cpar fst snd rp isl case3 pc] in *;
  iIntros "((Hp & Hs & Hg & Hv & HK) & (Hj & Hl & Hu) & HQ)"; unfold recolor_case3;
  (wbind; iApply (twp_is_left_child pi px _ _ gi gx); iFrame "Hp Hg"; iIntros "Hp Hg");
  (wbind; iApply (twp_is_left_child j y _ _ pi px); iFrame "Hj Hp"; iIntros "Hj Hp"); rewrite Hf Hg.
  - wbind. iApply twp_set_color. iFrame "Hg". iIntros "Hg". wbind. iApply twp_set_color. iFrame "Hp". iIntros "Hp".
    iApply (twp_rotate_right CRB (cpar K) (Bin l (j, y) u) gi _ s pi _ v). cbn [tree fst snd rp]. iFrame "Hj Hl Hu Hg Hp Hs Hv".
    iIntros "HT". iApply ("HQ" $! pi with "[//] HK"). cbn [node fst snd refresh rp tree]. iFrame "HT".
  - wbind. iApply (twp_rotate_right CRB (Some gi) l pi px u j y s). cbn [tree fst snd rp]. iFrame "Hj Hl Hu Hp Hs".
    cbn [node fst snd refresh]. iIntros "HT". wbind.
    iApply (twp_set_right CRB gi (Some j) _ _ (Bin l (j, y) (Bin u (pi, px) s)) (Some gi) v); [done|done|]. iFrame "Hg Hv". cbn [tree fst snd rp]. iFrame "HT".
    cbn [refresh]. iIntros "Hg (Hj & Hl & Hp & Hu & Hs) Hv".
    wbind. iApply twp_set_color. iFrame "Hg". iIntros "Hg". wbind.
    iApply (twp_rotate_left CRB (cpar K) v gi _ l j y (Bin u (pi, px) s)). cbn [tree fst snd rp]. iFrame "Hj Hl Hu Hp Hs Hg Hv".
    cbn [node fst snd refresh tree rp]. iIntros "(Hj & Hg & HX)". wbind. iApply twp_set_color. iFrame "Hj". iIntros "Hj". wret.
    iApply ("HQ" $! j with "[//] HK"). iFrame.
  - wbind. iApply (twp_rotate_left CRB (Some gi) s pi px l j y u). cbn [tree fst snd rp]. iFrame "Hj Hl Hu Hp Hs".
    cbn [node fst snd refresh]. iIntros "HT". wbind.
    iApply (twp_set_left CRB gi (Some j) _ _ (Bin (Bin s (pi, px) l) (j, y) u) (Some gi) v); [done|done|]. iFrame "Hg Hv". cbn [tree fst snd rp]. iFrame "HT".
    cbn [refresh]. iIntros "Hg (Hj & (Hp & Hs & Hl) & Hu) Hv".
    wbind. iApply twp_set_color. iFrame "Hg". iIntros "Hg". wbind.
    iApply (twp_rotate_right CRB (cpar K) (Bin s (pi, px) l) gi _ u j y v). cbn [tree fst snd rp]. iFrame "Hj Hl Hu Hp Hs Hg Hv".
    cbn [node fst snd refresh tree rp]. iIntros "(Hj & Hp & HX)". wbind. iApply twp_set_color. iFrame "Hj". iIntros "Hj". wret.
    iApply ("HQ" $! j with "[//] HK"). iFrame.
  - wbind. iApply twp_set_color. iFrame "Hg". iIntros "Hg". wbind. iApply twp_set_color. iFrame "Hp". iIntros "Hp".
    iApply (twp_rotate_left CRB (cpar K) v gi _ s pi _ (Bin l (j, y) u)). cbn [tree fst snd rp]. iFrame "Hj Hl Hu Hg Hp Hs Hv".
    iIntros "HT". iApply ("HQ" $! pi with "[//] HK"). cbn [node fst snd refresh rp tree]. iFrame "HT".
Qed.
(** Reading around two frames. *)
Lemma twp_uncle f g K l j y u r n Q :
  num_ltb (p_val (fnode f).2) (p_val (fnode g).2) = isl g ->
  ctxp (f :: g :: K) (Some j) ∗ tree (Some (fnode f).1) (Bin l (j, y) u) ∗
  (ctxp (f :: g :: K) (Some j) -∗ tree (Some (fnode f).1) (Bin l (j, y) u) -∗ Q (rp (sib g)) r n) ⊢
  twp (get_uncle j) r n Q.
Proof.
  intros Hg. destruct f as [[pi px] s|s [pi px]], g as [[gi gx] v|v [gi gx]]; cbn [ctxp tree fnode cpar fst snd rp isl sib] in *;
  iIntros "((Hp & Hs & Hg & Hv & HK) & (Hj & Hl & Hu) & HQ)"; unfold get_uncle; wget; wget;
  (wbind; iApply (twp_is_left_child pi px _ _ gi gx); iFrame "Hp Hg"; iIntros "Hp Hg"); rewrite Hg; wget1; iApply ("HQ" with "[Hp Hs Hg Hv HK] [Hj Hl Hu]"); iFrame.
Qed.
Lemma twp_recolor fu : forall K l j y u r n Q, length K < fu -> (K <> [] -> r = croot K (Some j)) ->
  increasing (zl K ++ ino (Bin l (j, y) u) ++ zr K) ->
  ctxp K (Some j) ∗ tree (cpar K) (Bin l (j, y) u) ∗
  (tree None (rcl K (Bin l (j, y) u)) -∗ Q (rp (rcl K (Bin l (j, y) u))) r n) ⊢
  twp (recolor fu j) r n Q.
Proof.
  induction fu as [|fu IH]; intros K l j y u r n Q Hfu Hr Hinc; [lia|].
  destruct K as [|f [|g K]].
  - cbn [recolor cpar tree fst snd rcl plug rp]. iIntros "(_ & (Hj & Hl & Hu) & HQ)". unfold get_uncle. wbind. wget. wret. wget. wret. iApply "HQ". iFrame.
  - cbn [recolor]. destruct f as [[pi px] s|s [pi px]]; cbn [cpar fnode ctxp tree fst snd rcl plug fill rp]; iIntros "((Hp & Hs & _) & (Hj & Hl & Hu) & HQ)";
      unfold get_uncle; wbind; wget; wget; wret; wget; wget; wret; iApply "HQ"; iFrame.
  - assert (num_ltb (p_val y) (p_val (fnode f).2) = isl f) as Hf.
    { pose proof (side_ok_in _ _ Hinc) as Hs. by destruct f. }
    assert (num_ltb (p_val (fnode f).2) (p_val (fnode g).2) = isl g) as Hg.
    { assert (increasing (zl (g :: K) ++ ino (fill f (Bin l (j, y) u)) ++ zr (g :: K))) as Hinc2.
      { rewrite -(ino_plug (f :: g :: K)) in Hinc. by rewrite -(ino_plug (g :: K)). }
      pose proof (side_ok_in _ _ Hinc2) as Hs. by destruct f as [[] ?|? []], g. }
    cbn in Hfu. specialize (Hr ltac:(done)). cbn [recolor rcl cpar].
    iIntros "(HK & HT & HQ)". wbind. iApply (twp_uncle f g K l j y u); [done|]. iFrame "HK HT". iIntros "HK HT".
    assert (increasing (zl K ++ ino (rcstep f g (Bin l (j, y) u)) ++ zr K)) as Hi3.
    { rewrite ino_rcstep //. rewrite -(ino_plug (f :: g :: K)) in Hinc. by rewrite -(ino_plug K). }
    assert (forall T m, rcstep f g (Bin l (j, y) u) = T -> rp T = Some m -> (K <> [] -> r = croot K (Some m)) ->
      ctxp K (Some m) ∗ tree (cpar K) T ∗ (tree None (rcl K T) -∗ Q (rp (rcl K T)) r n) ⊢ twp (recolor fu m) r n Q) as Hgo.
    { intros T m ET Hm Hroot. rewrite ET in Hi3. destruct T as [|l' [m' y'] u']; [done|]. cbn in Hm. injection Hm as ->. apply IH; [lia|done|done]. }
    cbn [tree fst snd]. iDestruct "HT" as "(Hj & Hl & Hu)". wget.
    iAssert (∃ a b, (fnode f).1 ↦ Cell (fnode f).2 a b (Some (fnode g).1) ∗ ((fnode f).1 ↦ Cell (fnode f).2 a b (Some (fnode g).1) -∗ ctxp (f :: g :: K) (Some j)))%I with "[HK]" as (a b) "[Hp HK]".
    { destruct f as [[pi px] s|s [pi px]]; cbn [ctxp fnode fst snd cpar]; iDestruct "HK" as "(Hp & Hs & HK)"; iExists _, _; iFrame "Hp"; iIntros "Hp"; iFrame. }
    wget. wbind. iApply twp_get_color. iFrame "Hp". iIntros "Hp". iSpecialize ("HK" with "Hp").
    destruct (is_red (col (fnode f))) eqn:Ered; cbn [negb].
    2:{ iApply twp_get_root. rewrite Hr. rewrite rp_plug. cbn [rp fst]. iApply "HQ". iApply at_tree. cbn [tree rp fst snd]. iFrame. }
    unfold rcstep in *.
    iAssert (∃ q, tree q (sib g) ∗ (tree q (sib g) -∗ ctxp (f :: g :: K) (Some j)))%I with "[HK]" as (q) "[Hv HK]".
    { destruct f as [[pi px] s|s [pi px]], g as [[gi gx] v|v [gi gx]]; cbn [ctxp fnode fst snd cpar sib]; iDestruct "HK" as "(Hp & Hs & Hg & Hv & HK)"; iExists _; iFrame "Hv"; iIntros "Hv"; iFrame. }
    wbind. iApply (twp_color_of q (sib g)). iFrame "Hv". iIntros "Hv". iSpecialize ("HK" with "Hv").
    destruct (is_red (colr (sib g))) eqn:Eu.
    + (* the uncle is red *)
      destruct (sib g) as [|v1 [vi vx] v2] eqn:Ev; [done|]. cbn [rp fst].
      destruct f as [[pi px] s|s [pi px]], g as [[gi gx] v|v [gi gx]]; cbn [sib] in Ev; subst v; cbn [ctxp fnode fst snd cpar sib tree rp];
        iDestruct "HK" as "(Hp & Hs & Hg & (Hv & Hv1 & Hv2) & HK)";
        (wbind; iApply twp_set_color; iFrame "Hp"; iIntros "Hp"); (wbind; iApply twp_set_color; iFrame "Hv"; iIntros "Hv");
        (wbind; iApply twp_set_color; iFrame "Hg"; iIntros "Hg");
        (iApply (Hgo _ gi eq_refl eq_refl); [by rewrite Hr|]); cbn [case2 paint pc fst snd tree rp]; iFrame.
    + (* the uncle is black *)
      iAssert (twp (let! gg := get_parent (fnode g).1 in
          let! top := recolor_case3 j (fnode f).1 (fnode g).1 in
          match gg with
          | Some great => let! x := get_data great in let! y := get_data top in if num_ltb y x then set_left CRB great (Some top) else set_right CRB great (Some top)
          | None => ret tt
          end ;; recolor fu top) r n Q) with "[HK Hj Hl Hu HQ]" as "HG".
      2:{ by destruct (rp (sib g)). }
      iAssert (∃ a b, (fnode g).1 ↦ Cell (fnode g).2 a b (cpar K) ∗ ((fnode g).1 ↦ Cell (fnode g).2 a b (cpar K) -∗ ctxp (f :: g :: K) (Some j)))%I with "[HK]" as (a' b') "[Hg HK]".
      { destruct f as [[pi px] s|s [pi px]], g as [[gi gx] v|v [gi gx]]; cbn [ctxp fnode fst snd cpar sib]; iDestruct "HK" as "(Hp & Hs & Hg & Hv & HK)"; iExists _, _; iFrame "Hg"; iIntros "Hg"; iFrame. }
      wget. iSpecialize ("HK" with "Hg"). wbind. iApply (twp_case3 f g K l j y u); [done|done|]. iFrame "HK". cbn [tree fst snd]. iFrame "Hj Hl Hu".
      iIntros (m) "%Hm HK HT".
      destruct (case3 f g (Bin l (j, y) u)) as [|l' [m' y'] u'] eqn:EC; [done|]. cbn in Hm. injection Hm as ->.
      destruct K as [|h K]; cbn [cpar].
      * wbind. wret. iApply (Hgo _ m eq_refl eq_refl); [done|]. iFrame.
      * pose proof (side_ok_in _ _ Hi3) as Hside. wbind.
        destruct h as [[hi hx] w|w [hi hx]]; cbn [ctxp fnode fst snd cpar tree side_ok rp] in *; iDestruct "HK" as "(Hh & Hw & HK)"; iDestruct "HT" as "(Hm & Hl & Hu)"; wget; wget; rewrite Hside.
        -- iApply (twp_set_left CRB hi (Some m) _ _ (Bin l' (m, y') u') (Some hi) w); [done|done|]. cbn [tree fst snd rp]. iFrame "Hh Hw Hm Hl Hu". iIntros "Hh HT Hw".
           iApply (Hgo _ m eq_refl eq_refl); [by rewrite Hr|]. cbn [tree fst snd rp refresh]. iFrame.
        -- iApply (twp_set_right CRB hi (Some m) _ _ (Bin l' (m, y') u') (Some hi) w); [done|done|]. cbn [tree fst snd rp]. iFrame "Hh Hw Hm Hl Hu". iIntros "Hh HT Hw".
           iApply (Hgo _ m eq_refl eq_refl); [by rewrite Hr|]. cbn [tree fst snd rp refresh]. iFrame.
Qed.
End rules.

(** ** Colours *)
Definition bump (k : color) (n : nat) : nat := match k with Red => n | Black => S n end.
Fixpoint rbt (t : ptree) (n : nat) : Prop :=
  match t with
  | Nil => n = 0
  | Bin l ix u => exists m, n = bump (col ix) m /\ rbt l m /\ rbt u m /\ (col ix = Red -> colr l = Black /\ colr u = Black)
  end.
Definition topb (K : ctx) : Prop := match K with [] => True | f :: _ => col (fnode f) = Black end.
Fixpoint rbK (K : ctx) (n : nat) : Prop :=
  match K with
  | [] => True
  | f :: K' => rbt (sib f) n /\ (col (fnode f) = Red -> colr (sib f) = Black /\ topb K') /\ rbK K' (bump (col (fnode f)) n)
  end.
Fixpoint bumps (K : ctx) (n : nat) : nat := match K with [] => n | f :: K' => bumps K' (bump (col (fnode f)) n) end.
Fixpoint lastb (K : ctx) : Prop := match K with [] => True | [f] => col (fnode f) = Black | _ :: K' => lastb K' end.
Definition rbok (T : ptree) : Prop := colr T = Black /\ exists n, rbt T n.
Lemma colr_root t : colr t = root_color (bin_map snd t).
Proof. by destruct t. Qed.
Lemma rbt_spec t : forall n, rbt t n <-> no_red_red (bin_map snd t) /\ has_blacks (bin_map snd t) n.
Proof.
  induction t as [|l IHl ix u IHu]; intros n; [cbn; tauto|]. cbn [rbt bin_map no_red_red has_blacks]. rewrite -!colr_root. split.
  - intros (m & -> & Hl%IHl & Hu%IHu & HR). split; [tauto|]. exists m. split_and!; [by destruct (col ix)|tauto|tauto].
  - intros ((Hl & Hu & HR) & m & -> & Hl2 & Hu2). exists m. rewrite IHl IHu. by split_and!.
Qed.
Lemma rbok_spec T : rbok T <-> red_black (bin_map snd T).
Proof.
  unfold rbok, red_black. rewrite colr_root. split.
  - intros (H & n & [H1 H2]%rbt_spec). eauto.
  - intros (H & H1 & n & H2). split; [done|]. exists n. by apply rbt_spec.
Qed.
Lemma rb_plug K : forall t N, rbt (plug K t) N -> exists n, rbt t n /\ rbK K n /\ (colr t = Red -> topb K) /\ N = bumps K n.
Proof.
  induction K as [|f K IH]; intros t N H; [by exists N|]. cbn [plug] in H. destruct (IH _ _ H) as (n & Ht & HK & Hc & ->).
  assert (exists m, n = bump (col (fnode f)) m /\ rbt t m /\ rbt (sib f) m /\ (col (fnode f) = Red -> colr t = Black /\ colr (sib f) = Black)) as (m & -> & Hl & Hu & HR).
  { destruct f as [ix u|u ix]; cbn [fill rbt fnode sib] in *; destruct Ht as (m & -> & Hl & Hu & HR); exists m; split_and!; try done. intros E. by destruct (HR E). }
  assert (colr (fill f t) = col (fnode f)) as Ec by (by destruct f). rewrite Ec in Hc. exists m. cbn [rbK topb]. split_and!; try done.
  - intros E. split; [by apply HR|by apply Hc].
  - intros E. destruct (col (fnode f)); [done|]. destruct (HR eq_refl) as [? ?]. congruence.
Qed.
Lemma plug_rb K : forall t n, rbt t n -> rbK K n -> (colr t = Red -> topb K) -> rbt (plug K t) (bumps K n).
Proof.
  induction K as [|f K IH]; intros t n Ht HK Hc; [done|]. cbn [plug bumps]. destruct HK as (Hs & HR & HK).
  apply (IH _ (bump (col (fnode f)) n)); [|done|].
  - destruct f as [ix u|u ix]; cbn [fill rbt fnode sib topb] in *; exists n; (split; [done|]; split; [done|]; split; [done|]); intros E; destruct (HR E) as [? ?]; (split; [try done|try done]); destruct (colr t); try done; specialize (Hc eq_refl); congruence.
  - destruct f as [ix u|u ix]; cbn [fill colr fnode sib topb] in *; intros E; by apply HR.
Qed.
Lemma rbt_paint k t n : rbt t n -> (k = Black \/ match t with Nil => True | Bin l _ u => colr l = Black /\ colr u = Black end) ->
  rbt (paint k t) (match t with Nil => n | Bin _ ix _ => match col ix, k with Red, Black => S n | Black, Red => n - 1 | _, _ => n end end).
Proof.
  destruct t as [|l ix u]; [done|]. intros (m & -> & Hl & Hu & HR) Hk. cbn [paint rbt pc snd pay_color p_color]. exists m.
  split; [destruct k, (col ix); cbn; lia|]. split_and!; try done. intros ->. by destruct Hk as [|Hk].
Qed.
(** [str b K]: red nodes with children are gone through without turning; [b]: the innermost
    frame has children. *)
Fixpoint str (b : bool) (K : ctx) : Prop :=
  match K with
  | f :: ((g :: _) as K') => (b = true -> col (fnode f) = Red -> isl f = isl g) /\ str true K'
  | _ => True
  end.
Lemma str_weak b K : str true K -> str b K.
Proof. destruct K as [|f [|g K]]; cbn; naive_solver. Qed.
Lemma str_tail b f K : str b (f :: K) -> str true K.
Proof. destruct K; cbn; naive_solver. Qed.
Lemma rcl_rb m : forall K t n b, length K <= m -> t <> Nil -> rbt t n -> rbK K n -> lastb K -> str b K -> (colr t = Black -> b = true) ->
  exists N, rbt (rcl K t) N.
Proof.
  induction m as [|m IH]; intros K t n b Hm Hne Ht HK HL HS Hb; [by destruct K; cbn in Hm; [exists n|lia]|].
  destruct K as [|f [|g K]]; cbn [rcl].
  - by exists n.
  - eexists. by apply (plug_rb [f] t n).
  - destruct (col (fnode f)) eqn:Ef; cbn [is_red]; [eexists; by apply (plug_rb (f :: g :: K) t n)|].
    cbn [rbK] in HK. rewrite Ef in HK. destruct HK as (Hs & HR & Hv & HR2 & HK). destruct (HR eq_refl) as [Hcs Htb]. cbn [topb] in Htb. rewrite Htb in HK. cbn [bump] in HK, Hv.
    assert (lastb K) as HL' by (by destruct K). cbn in Hm.
    pose proof (str_tail _ _ _ HS) as HS1. pose proof (str_tail _ _ _ HS1) as HS2.
    unfold rcstep. destruct (colr (sib g)) eqn:Eg; cbn [is_red].
    + assert (case3 f g t <> Nil) as H3n by (by destruct f, g, t).
      assert (colr (case3 f g t) = Black) as H3c by (by destruct f, g, t).
      assert (rbt (case3 f g t) (S n)) as H3.
      { destruct t as [|a j d]; [done|].
        destruct f as [p s|s p], g as [gp v|v gp]; cbn [case3 sib fnode] in *; cbn [rbt pc snd pay_color p_color bump].
        - exists n. split_and!; try done. exists n. by split_and!.
        - assert (col j = Red) as Ej. { destruct (col j) eqn:Ej; [|done]. cbn [colr] in Hb. rewrite Ej in Hb. specialize (Hb eq_refl). subst b. cbn [str fnode isl] in HS. destruct HS as [HS _]. specialize (HS eq_refl Ef). done. }
          destruct Ht as (m' & -> & Ha & Hd & HJ). rewrite Ej in Hs, Hv |- *. cbn [bump] in Hs, Hv |- *. destruct (HJ Ej). exists m'. split_and!; try done; exists m'; [by split_and!|]. rewrite Ef. by split_and!.
        - assert (col j = Red) as Ej. { destruct (col j) eqn:Ej; [|done]. cbn [colr] in Hb. rewrite Ej in Hb. specialize (Hb eq_refl). subst b. cbn [str fnode isl] in HS. destruct HS as [HS _]. specialize (HS eq_refl Ef). done. }
          destruct Ht as (m' & -> & Ha & Hd & HJ). rewrite Ej in Hs, Hv |- *. cbn [bump] in Hs, Hv |- *. destruct (HJ Ej). exists m'. split_and!; try done; exists m'; [rewrite Ef|]; by split_and!.
        - exists n. split_and!; try done. exists n. by split_and!. }
      apply (IH K _ (S n) true); try done; lia.
    + assert (rbt (paint Black (sib g)) (S n)) as Hv'.
      { pose proof (rbt_paint Black _ _ Hv (or_introl eq_refl)) as Hp. destruct (sib g) as [|v1 vx v2]; [done|]. cbn in Eg. by rewrite Eg in Hp. }
      assert (colr (paint Black (sib g)) = Black) as Hcv by (by destruct (sib g)).
      apply (IH K _ (S n) true); [lia|by destruct f, g| |done|done|done|done].
      destruct f as [p s|s p], g as [gp v|v gp]; cbn [case2 sib] in *; cbn [rbt colr]; exists (S n); cbn [pc snd pay_color p_color bump]; split_and!; try done; exists n; by split_and!.
Qed.
Definition side_of (K : ctx) : option bool := match K with [] => None | f :: _ => Some (isl f) end.
Definition nonnil (t : ptree) : bool := match t with Nil => false | _ => true end.
Lemma straight_str x T : forall K0, str true K0 -> straight x (side_of K0) (bin_map snd T) -> str (nonnil (zfind x T).2) ((zfind x T).1 ++ K0).
Proof.
  induction T as [|l IHl ix u IHu]; intros K0 HK HS; [by apply str_weak|]. cbn [zfind]. cbn [bin_map straight] in HS.
  case_bool_decide as Hx; [done|]. destruct (HS Hx) as [HR HS']. destruct (num_ltb x (p_val ix.2)) eqn:E; cbn [fst snd]; rewrite -app_assoc /=.
  - destruct l as [|l1 jy l2]; [cbn; by destruct K0|]. apply IHl; [|done]. destruct K0 as [|g K0]; [done|]. cbn [str]. split; [|done]. intros _ Hc. destruct (HR Hc) as [H|H]; [done|]. cbn in H. by injection H.
  - destruct u as [|l1 jy l2]; [cbn; by destruct K0|]. apply IHu; [|done]. destruct K0 as [|g K0]; [done|]. cbn [str]. split; [|done]. intros _ Hc. destruct (HR Hc) as [H|H]; [by destruct l|]. cbn in H. by injection H.
Qed.
Lemma lastb_plug K t : K <> [] -> colr (plug K t) = Black -> lastb K.
Proof.
  revert t. induction K as [|f K IH]; intros t HK H; [done|]. destruct K as [|g K]; [by destruct f|]. cbn [lastb]. apply (IH (fill f t)); done.
Qed.

(** ** Insertion *)
Lemma rep_new_black s x : rep s Nil ->
  exists i s', (let! i := new_node x (Fin 0) in set_root (Some i) ;; set_color i Black ;; add_len 1 ;; ret false) s = Ok false s' /\
    rep s' (leaf_of i (Pay x 0 (Fin 0) Black)).
Proof.
  intros H. destruct (rep_run (let! i := new_node x (Fin 0) in set_root (Some i) ;; set_color i Black ;; add_len 1 ;; ret false) s Nil
    (fun w T' => w = false /\ exists i, T' = leaf_of i (Pay x 0 (Fin 0) Black)) H) as (w & s' & T' & E & HR & -> & i & ->); [|by exists i, s'].
  iIntros "_". wbind. unfold new_node. iApply twp_alloc. iIntros (i) "Hi". wbind. iApply twp_set_root. wbind. iApply twp_set_color. iFrame "Hi". iIntros "Hi".
  wbind. iApply twp_add_len. wret. wpost (leaf_of i (Pay x 0 (Fin 0) Black)); [done|by exists i|done|done|]. cbn [leaf_of tree fst snd rp pay_color p_val p_height p_prio]. by iFrame.
Qed.
Lemma rb_insert_run s T x p : rep s T -> increasing (ino T) ->
  exists s' T', tree_insert CRB (PNum x) p s = Ok (bool_decide (x ∈ ino T)) s' /\ rep s' T' /\ ino T' = set_add x (ino T) /\
    colr T' = Black /\ (rbok T -> straight x None (bin_map snd T) -> rbok T').
Proof.
  intros H Hinc. cbn [tree_insert]. unfold rb_insert. rewrite (bind_ok (check_number (PNum x)) _ s x s eq_refl).
  rewrite (bind_ok _ _ _ _ _ (rep_empty s T H)). destruct (decide (T = Nil)) as [->|HT].
  { destruct (rep_new_black s x H) as (i & s' & E & HR). exists s', (leaf_of i (Pay x 0 (Fin 0) Black)). split_and!; try done.
    intros _ _. split; [done|]. exists 1, 0. by split_and!. }
  assert ((match T with Nil => true | _ => false end) = false) as -> by (by destruct T).
  edestruct (rep_run (let! r := insert_value CRB x (Fin 0) in let! n := get_fuel in let! root := recolor n r.2 in
       set_root root ;; let! i := deref root in set_color i Black ;; ret r.1) s T
     (fun w T' => w = bool_decide (x ∈ ino T) /\ ino T' = set_add x (ino T) /\ colr T' = Black /\ (rbok T -> straight x None (bin_map snd T) -> rbok T')) H)
     as (w & s' & T' & E & HR & -> & HQ); [|by exists s', T'].
  rewrite -(found_in x T Hinc).
  iIntros "HT". wbind. iApply (twp_insert_value CRB x (Fin 0) T); [done|done|]. iFrame "HT". iIntros (w j new) "%Hw HT".
  pose proof (zfind_plug x T) as HP. pose proof (insert_size x T Hinc) as HSz.
  pose proof (zinsert_ino CRB x new (Pay x 0 (Fin 0) Red) T eq_refl HT Hinc) as HI. pose proof (straight_str x T [] I) as HST. rewrite app_nil_r in HST.
  unfold found in *.
  assert (exists K l y u, zinsert CRB x new (Pay x 0 (Fin 0) Red) T = plug K (Bin l (j, y) u) /\
     w = (match (zfind x T).2 with Nil => false | _ => true end) /\
     (rbok T -> straight x None (bin_map snd T) -> exists N, rbt (rcl K (Bin l (j, y) u)) N)) as (K & l & y & u & EZ & -> & HRB).
  { unfold zinsert. destruct (zfind x T) as [K t] eqn:EZ. cbn [fst snd] in *. destruct t as [|l [i y] u].
    - destruct Hw as [-> ->]. destruct K as [|f K]; [by subst|].
      exists (f :: K), Nil, (Pay x 0 (Fin 0) Red), Nil. split_and!; try done.
      + by destruct f as [[] ?|? []].
      + intros (Hc & N & HN) HS. rewrite -HP in HN. apply rb_plug in HN as (n & Hn & HK & Htop & _).
        apply (rcl_rb (length (f :: K)) (f :: K) _ n false); try done.
        * by exists n.
        * eapply (lastb_plug _ Nil); [done|]. by rewrite HP.
        * by apply HST.
    - destruct Hw as [-> Hw]. injection Hw as ->. exists K, l, y, u. split_and!; try done; [by destruct K|].
      intros (Hc & N & HN) HS. rewrite -HP in HN. apply rb_plug in HN as (n & Hn & HK & Htop & _). apply (rcl_rb (length K) K _ n true); try done.
      + destruct K as [|f K]; [done|]. eapply (lastb_plug _ (Bin l (i, y) u)); [done|]. by rewrite HP.
      + by apply HST. }
  rewrite EZ. assert (increasing (zl K ++ ino (Bin l (j, y) u) ++ zr K)) as Hi2. { rewrite -ino_plug -EZ HI. by apply set_add_inc. }
  iDestruct (tree_at with "HT") as "[HK HT]".
  wbind. iApply (twp_get_fuel (ctxp K (rp (Bin l (j, y) u))) (length K)); [apply plug_atleast|]. iFrame "HK". iIntros (fu Hfu) "HK".
  wbind. iApply (twp_recolor fu K l j y u); [lia| |done|].
  { intros _. rewrite -(rp_zinsert CRB x new (Pay x 0 (Fin 0) Red)) // EZ rp_plug. done. }
  iFrame "HK HT". iIntros "HT". wbind. iApply twp_set_root.
  pose proof (rcl_ino K (Bin l (j, y) u) ltac:(done)) as HRI. rewrite -EZ HI in HRI.
  destruct (rcl K (Bin l (j, y) u)) as [|l' [j' y'] u'] eqn:ER; [by apply rcl_ne in ER|]. cbn [rp fst tree snd]. iDestruct "HT" as "(Hj & Hl & Hu)".
  wbind. wret. wbind. iApply twp_set_color. iFrame "Hj". iIntros "Hj". wret. cbn [fst].
  wpost (Bin l' (j', pay_color Black y') u' : ptree); [done|exact HRI|done| |done| |].
  - intros H1 H2. split; [done|]. destruct (HRB H1 H2) as [N HN]. pose proof (rbt_paint Black _ _ HN (or_introl eq_refl)) as Hp. eexists. exact Hp.
  - assert (ino (Bin l' (j', pay_color Black y') u') = set_add x (ino T)) as HRI2 by exact HRI. rewrite -(ino_length (Bin l' (j', pay_color Black y') u')) HRI2 HSz. destruct (zfind x T).2; lia.
  - cbn [tree fst snd]. iFrame.
Qed.

(** ** Removal with a red node to spare *)
Lemma colr_plug K t t' : K <> [] -> colr (plug K t) = colr (plug K t').
Proof. destruct K as [|f K]; [done|]. intros _. revert f t t'. induction K as [|g K IH]; intros f t t'; [by destruct f|]. cbn [plug]. apply (IH g). Qed.
Lemma red_leaf l ix u n : rbt (Bin l ix u) n -> col ix = Red -> (l = Nil \/ u = Nil) -> l = Nil /\ u = Nil /\ n = 0.
Proof.
  intros (m & -> & Hl & Hu & HR) E H. destruct (HR E) as [H1 H2]. rewrite E. cbn [bump].
  assert (m = 0) as -> by (destruct H as [-> | ->]; done).
  assert (forall t, rbt t 0 -> colr t = Black -> t = Nil) as HN. { intros [|a jy b] Hm Ec; [done|]. destruct Hm as (m & Em & _). cbn in Ec. rewrite Ec in Em. done. }
  split_and!; [by apply HN|by apply HN|done].
Qed.
(** Taking a red leaf away. *)
Lemma take_red_leaf K jy N : rbt (plug K (Bin Nil jy Nil)) N -> col jy = Red -> rbt (plug K Nil) N /\ (colr (plug K (Bin Nil jy Nil)) = Black -> colr (plug K Nil) = Black).
Proof.
  intros HN Hc. apply rb_plug in HN as (n & Hn & HK & _ & ->). apply red_leaf in Hn as (_ & _ & ->); [|done|by left]. split; [by apply plug_rb|].
  destruct K as [|f K]; [done|]. by rewrite (colr_plug _ Nil (Bin Nil jy Nil)).
Qed.
Definition repl (l u : ptree) : option nat :=
  if is_red (colr (zmin u).2) then rp (zmin u).2
  else if is_red (colr (zmax l).2) then rp (zmax l).2
  else match rp (zmin u).2 with Some _ => rp (zmin u).2 | None => rp (zmax l).2 end.
Section remove.
Implicit Types (r : option nat) (n : Z).
Lemma twp_color_in K t q r n Q :
  tree q (plug K t) ∗ (tree q (plug K t) -∗ Q (colr t) r n) ⊢ twp (color_of (rp t)) r n Q.
Proof.
  iIntros "[HT HQ]". iDestruct (tree_focus with "HT") as "[Ht HT]". iApply (twp_color_of _ t). iFrame "Ht". iIntros "Ht". iApply "HQ". iApply ("HT" $! t with "[//] Ht").
Qed.
Lemma twp_rb_find i x p l u r n Q : leafb (Bin l (i, x) u) = false ->
  i ↦ Cell x (rp l) (rp u) p ∗ tree (Some i) l ∗ tree (Some i) u ∗
  (i ↦ Cell x (rp l) (rp u) p -∗ tree (Some i) l -∗ tree (Some i) u -∗ Q (repl l u) r n) ⊢
  twp (rb_find_replacement i) r n Q.
Proof.
  intros Hlf. iIntros "(Hi & Hl & Hu & HQ)". unfold rb_find_replacement.
  wbind. iApply (twp_node_is_leaf i x l u). iFrame "Hi". iIntros "Hi". rewrite Hlf. wget. wbind.
  iApply (twp_wand _ _ _ (fun a r' n' => ⌜a = rp (zmin u).2 /\ r' = r /\ n' = n⌝ ∗ tree (Some i) u)%I).
  iSplitL "Hu".
  { destruct u as [|u1 [k z] u2]; cbn [rp fst]; [wret; by iFrame|]. wbind. iApply twp_get_fuel; [apply (tree_atleast (Some i) (Bin u1 (k, z) u2))|]. iFrame "Hu". iIntros (fu Hfu) "Hu".
    wbind. iApply (twp_get_min_node (Bin u1 (k, z) u2) (Some i)); [lia|done|]. iFrame "Hu". iIntros (j) "%Hj Hu". wret. iSplit; [|done]. by rewrite Hj. }
  iIntros (a r' n') "[(-> & -> & ->) Hu]". wget. wbind.
  iApply (twp_wand _ _ _ (fun a r' n' => ⌜a = rp (zmax l).2 /\ r' = r /\ n' = n⌝ ∗ tree (Some i) l)%I).
  iSplitL "Hl".
  { destruct l as [|u1 [k z] u2]; cbn [rp fst]; [wret; by iFrame|]. wbind. iApply twp_get_fuel; [apply (tree_atleast (Some i) (Bin u1 (k, z) u2))|]. iFrame "Hl". iIntros (fu Hfu) "Hu".
    wbind. iApply (twp_get_max_node (Bin u1 (k, z) u2) (Some i)); [lia|done|]. iFrame "Hu". iIntros (j) "%Hj Hu". wret. iSplit; [|done]. by rewrite Hj. }
  iIntros (a r' n') "[(-> & -> & ->) Hl]".
  wbind. iApply (twp_color_in (zmin u).1 (zmin u).2 (Some i)). rewrite zmin_plug. iFrame "Hu". iIntros "Hu".
  wbind. iApply (twp_color_in (zmax l).1 (zmax l).2 (Some i)). rewrite zmax_plug. iFrame "Hl". iIntros "Hl". wret.
  iApply ("HQ" with "Hi Hl Hu").
Qed.
End remove.

Lemma node_at_zfind x T : node_at x (bin_map snd T) = bin_map snd (zfind x T).2.
Proof.
  induction T as [|l IHl ix u IHu]; [done|]. cbn [bin_map node_at zfind].
  destruct (decide (x = p_val ix.2)) as [->|Hx].
  { rewrite bool_decide_eq_true_2 //. }
  rewrite bool_decide_eq_false_2 //. by destruct (num_ltb x (p_val ix.2)).
Qed.
Lemma leftmost_zmin u : leftmost (bin_map snd u) = match (zmin u).2 with Nil => None | Bin _ ix _ => Some ix.2 end.
Proof. induction u as [|l IHl ix u IHu]; [done|]. cbn [bin_map leftmost zmin]. destruct l as [|l1 jy l2]; [done|]. exact IHl. Qed.
Lemma rightmost_zmax u : rightmost (bin_map snd u) = match (zmax u).2 with Nil => None | Bin _ ix _ => Some ix.2 end.
Proof. induction u as [|l IHl ix u IHu]; [done|]. cbn [bin_map rightmost zmax]. destruct u as [|l1 jy l2]; [done|]. exact IHu. Qed.
Lemma red_spare_repl l ix u : red_spare (bin_map snd (Bin l ix u)) ->
  if leafb (Bin l ix u) then col ix = Red
  else is_red (colr (zmin u).2) = true \/ (is_red (colr (zmin u).2) = false /\ is_red (colr (zmax l).2) = true).
Proof.
  intros H. assert (leafb (Bin l ix u) = true \/ (leafb (Bin l ix u) = false /\ (option_map p_color (leftmost (bin_map snd u)) = Some Red \/ option_map p_color (rightmost (bin_map snd l)) = Some Red))) as [E|[E H']].
  { destruct l, u; cbn [bin_map red_spare leafb] in *; tauto. }
  - rewrite E. by destruct l, u.
  - rewrite E. rewrite leftmost_zmin rightmost_zmax in H'. destruct ((zmin u).2) as [|u1 jy u2]; cbn [colr].
    + destruct H' as [|H']; [done|]. right. split; [done|]. destruct ((zmax l).2); [done|]. cbn in H' |- *. injection H' as ->. done.
    + destruct (col jy) eqn:Ej; [|by left]. destruct H' as [H'|H']; [cbn in H'; congruence|]. right. split; [done|]. destruct ((zmax l).2); [done|]. cbn in H' |- *. injection H' as ->. done.
Qed.
Lemma plug_mid K2 f K t : plug (K2 ++ f :: K) t = plug K (fill f (plug K2 t)).
Proof. by rewrite plug_app. Qed.
Lemma ino_mid K K2 f t : ino (plug (K2 ++ f :: K) t) = zl K ++ ino (fill f (plug K2 t)) ++ zr K.
Proof. by rewrite plug_mid ino_plug. Qed.
Definition reval (f : frame) (y : pay) : frame :=
  match f with InL ix u => InL (ix.1, y) u | InR u ix => InR u (ix.1, y) end.
Definition spare (y z : pay) : pay := take_pay CRB y (match p_color y with Red => z | Black => pay_color Black z end).
Lemma spare_val y z : p_val (spare y z) = p_val z.
Proof. unfold spare. by destruct (p_color y). Qed.
Lemma spare_color y z : p_color z = Red -> p_color (spare y z) = p_color y.
Proof. intros Hz. unfold spare. destruct (p_color y) eqn:E; [done|]. cbn. done. Qed.
(** The node of frame [g] takes the value of the red leaf below it. *)
Lemma twp_swap_red K g K2 j y k z fu (r : option nat) (n : Z) Q : fnode g = (j, y) -> 1 <= fu ->
  ctxp K (Some j) ∗ tree (cpar K) (fill g (plug K2 (Bin Nil (k, z) Nil))) ∗
  (tree None (plug (K2 ++ reval g (spare y z) :: K) Nil) -∗ Q tt r n) ⊢
  twp (match p_color y with Red => transplant (S fu) CRB j (Some k) | Black => set_color k Black ;; transplant (S fu) CRB j (Some k) end) r n Q.
Proof.
  intros Hg Hfu.
  assert (forall z', ctxp K (Some j) ∗ tree (cpar K) (fill g (plug K2 (Bin Nil (k, z') Nil))) ∗
    (tree None (plug (K2 ++ reval g (take_pay CRB y z') :: K) Nil) -∗ Q tt r n) ⊢ twp (transplant (S fu) CRB j (Some k)) r n Q) as Hgo.
  { intros z'. iIntros "(HK & HT & HQ)".
    assert (forall f K', K2 ++ reval g (take_pay CRB y z') :: K = f :: K' -> plug K' (putdel CRB f (Bin Nil (k, z') Nil)) = plug (K2 ++ reval g (take_pay CRB y z') :: K) Nil) as Hpl.
    { intros f K' ->. unfold putdel. cbn [leafb plug]. f_equal. by destruct f as [[] ?|? []]. }
    destruct g as [[j' y'] v|v [j' y']]; cbn in Hg; injection Hg as -> ->; cbn [fill tree fst snd]; iDestruct "HT" as "(Hj & H1 & H2)".
    - iApply (twp_transplant_far CRB K (InL (j, y) v) (InL (j, take_pay CRB y z') v) K2 j y (plug K2 (Bin Nil (k, z') Nil)) v (cpar K) k z' Nil Nil fu); try done.
      iFrame "HK Hj H1 H2". iIntros "HT". iApply "HQ". cbn [reval fst] in *. destruct (K2 ++ InL (j, take_pay CRB y z') v :: K) as [|f K'] eqn:E; [by destruct K2|].
      by rewrite (Hpl f K' eq_refl).
    - iApply (twp_transplant_far CRB K (InR v (j, y)) (InR v (j, take_pay CRB y z')) K2 j y v (plug K2 (Bin Nil (k, z') Nil)) (cpar K) k z' Nil Nil fu); try done.
      iFrame "HK Hj H1 H2". iIntros "HT". iApply "HQ". cbn [reval fst] in *. destruct (K2 ++ InR v (j, take_pay CRB y z') :: K) as [|f K'] eqn:E; [by destruct K2|].
      by rewrite (Hpl f K' eq_refl). }
  unfold spare. destruct (p_color y); [|apply Hgo].
  iIntros "(HK & HT & HQ)". change (fill g (plug K2 (Bin Nil (k, z) Nil))) with (plug [g] (plug K2 (Bin Nil (k, z) Nil))). rewrite -plug_app.
  iDestruct (tree_focus with "HT") as "[(Hk & Hl & Hu) HT]". cbn [fst snd]. wbind. iApply twp_set_color. iFrame "Hk". iIntros "Hk".
  iDestruct ("HT" $! (Bin Nil (k, pay_color Black z) Nil) with "[//] [Hk Hl Hu]") as "HT"; [cbn [tree fst snd]; iFrame|].
  iApply (Hgo (pay_color Black z)). iFrame "HK HQ". rewrite (plug_app K2 [g]). iExact "HT".
Qed.
Lemma rb_remove_run s T x : rep s T -> increasing (ino T) -> rbok T -> red_spare (node_at x (bin_map snd T)) \/ is_leaf_tree (bin_map snd T) ->
  exists s' T', tree_remove CRB (PNum x) s = Ok (bool_decide (x ∉ ino T)) s' /\ rep s' T' /\ ino T' = set_del x (ino T) /\ rbok T'.
Proof.
  intros H Hinc [HB [N HN]] Hsp. cbn [tree_remove]. unfold rb_remove.
  match goal with |- context [remove_with _ ?k] => set (kk := k) end.
  destruct (remove_guard s T x kk (fun w T' => w = negb (found x T) /\ ino T' = set_del x (ino T) /\ rbok T') H) as (w & s' & T' & E & HR & -> & HQ).
  - intros ->. split_and!; [done|done|]. split; [done|]. by exists 0.
  - intros l [i y] u -> Hl ->. destruct l, u; try done. unfold found. cbn [zfind snd ino]. rewrite bool_decide_eq_true_2 //. split; [done|].
    split; [symmetry; apply (set_del_mid [] []); apply not_elem_of_nil|]. split; [done|]. by exists 0.
  - intros HT Hl. iIntros "HT". unfold kk. wbind. iApply (twp_search_root x T); [done|done|]. iFrame "HT". iIntros (j) "%Hj HT".
    destruct (zlast_node x T HT) as (l & [j' y] & u & Ez & Hb). rewrite Ez in Hj. injection Hj as ->. cbn [snd] in Hb.
    assert (T = plug (zlast (zfind x T)).1 (Bin l (j, y) u)) as HTz by (by rewrite -Ez zlast_plug zfind_plug).
    wbind. iApply (twp_get_data_at T (zlast (zfind x T)).1 l (j, y) u); [done|done|]. iFrame "HT". iIntros "HT". cbn [snd]. rewrite Hb.
    destruct (found x T) eqn:Ef; cbn [negb].
    2:{ wret. wpost T; try done; [|split; [done|by exists N]]. rewrite set_del_notin //. rewrite (found_in _ _ Hinc) in Ef. by apply bool_decide_eq_false in Ef. }
    assert (red_spare (node_at x (bin_map snd T))) as Hsp'.
    { destruct Hsp as [|Hsp]; [done|]. exfalso. apply found_elem in Ef. destruct T as [|[] ix []]; try done. eapply Hl; [done..|]. by apply elem_of_list_singleton in Ef. }
    clear Hb HTz Hsp. rewrite node_at_zfind in Hsp'. pose proof (zfind_plug x T) as HP. pose proof (zfind_val x T) as HV. pose proof Hinc as Hinc'. unfold found in Ef.
    destruct (zfind x T) as [K t]. cbn [fst snd] in *. destruct t as [|l' [i x'] u']; [done|]. rewrite zlast_bin in Ez. cbn in Ez. injection Ez as -> -> -> ->.
    specialize (HV _ _ _ eq_refl). cbn [snd] in HV. subst x. apply red_spare_repl in Hsp'.
    rewrite -HP ino_plug in Hinc'. cbn [ino snd] in Hinc'. rewrite -app_assoc /= app_assoc in Hinc'.
    assert (ino T = (zl K ++ ino l) ++ p_val y :: ino u ++ zr K) as HIT. { rewrite -HP ino_plug. cbn [ino snd]. by rewrite -!app_assoc. }
    assert (set_del (p_val y) (ino T) = (zl K ++ ino l) ++ ino u ++ zr K) as HSD.
    { rewrite HIT. apply inc_NoDup in Hinc'. apply NoDup_app in Hinc' as (_ & H1 & [H2 _]%NoDup_cons). apply set_del_mid; [|done].
      intros Hx. apply (H1 _ Hx). left. }
    rewrite HSD. rewrite -HP in HN HB |- *. pose proof (rb_plug _ _ _ HN) as (n & Hn & HK & Htop & ->).
    assert (bsize (plug K (Bin l (j, y) u)) = S (length ((zl K ++ ino l) ++ ino u ++ zr K))) as Hsz.
    { rewrite HP -ino_length HIT !app_length. cbn [length]. rewrite !app_length. lia. }
    (* it is enough to have the contents and the colours *)
    assert (forall T', rp (plug K (Bin l (j, y) u)) = rp T' -> ino T' = (zl K ++ ino l) ++ ino u ++ zr K -> rbok T' ->
      tree None T' ⊢ twp (add_len (-1) ;; ret false) (rp (plug K (Bin l (j, y) u))) (Z.of_nat (bsize (plug K (Bin l (j, y) u))))
        (post (fun w T' => w = false /\ ino T' = (zl K ++ ino l) ++ ino u ++ zr K /\ rbok T'))) as Hend.
    { intros T' Hrp Hi Hrb. iIntros "HT". wbind. iApply twp_add_len. wret. wpost T'; try done. rewrite Hsz -(ino_length T') Hi. lia. }
    iDestruct (tree_at with "HT") as "[HK (Hj & Hl & Hu)]". cbn [fst snd].
    destruct (leafb (Bin l (j, y) u)) eqn:El.
    + (* a red leaf *)
      destruct l, u; try done. wbind. unfold rb_find_replacement at 1. wbind. iApply (twp_node_is_leaf j y Nil Nil). iFrame "Hj". iIntros "Hj". cbn [leafb]. wret.
      wbind. iApply twp_get_color. iFrame "Hj". iIntros "Hj". wbind. wret. rewrite Hsp'.
      wbind. iApply (twp_get_fuel emp%I 0); [apply atleast_0|]. iSplitR; [done|]. iIntros (fu Hfu) "_".
      destruct K as [|f K]; [naive_solver|]. wbind. iApply (twp_transplant CRB (leaf_of j y) f K (S fu)); [done|cbn; lia|].
      cbn [leaf_of tree rp fst snd cpar]. iFrame "HK Hj". iSplitR; [done|]. iIntros "HT".
      destruct (take_red_leaf (f :: K) (j, y) _ HN Hsp') as [HN' HB'].
      iApply (Hend (plug K (putdel CRB f (leaf_of j y))) with "HT"); unfold putdel; cbn [leafb leaf_of].
      * cbn [plug]. rewrite !rp_plug. by destruct f.
      * rewrite ino_plug_fillc ino_plug. cbn [ino app]. by rewrite app_nil_r.
      * assert (fillc CRB f Nil = fill f Nil) as -> by (by destruct f as [[] ?|? []]). split; [by apply HB'|]. by eexists.
    + wbind. iApply (twp_rb_find j y (cpar K) l u); [done|]. iFrame "Hj Hl Hu". iIntros "Hj Hl Hu". unfold repl.
      destruct (is_red (colr (zmin u).2)) eqn:Emin.
      * (* the successor is red *)
        pose proof (zmin_plug u) as Hzp. destruct (zmin_shape u) as ([k z] & v & Ezm); [by intros ->|].
        rewrite Ezm in Hzp Emin |- *. cbn [rp fst colr snd] in *. set (K2 := (zmin u).1) in *.
        assert (p_color z = Red) as Ez by (by destruct (p_color z)).
        destruct Hn as (m & En & Hnl & Hnu & HnR). assert (v = Nil) as ->.
        { rewrite -Hzp in Hnu. apply rb_plug in Hnu as (m' & Hm' & _). apply red_leaf in Hm' as (_ & -> & _); [done|done|by left]. }
        rewrite -Hzp in Hnu. destruct (take_red_leaf _ _ _ Hnu Ez) as [Hnu' Hcu'].
        assert (ino u = p_val z :: ino (plug K2 Nil)) as HIu.
        { rewrite -Hzp !ino_plug. unfold K2. rewrite zmin_zl. done. }
        wbind. iApply twp_get_color. iFrame "Hj". iIntros "Hj".
        wbind. iAssert (tree (Some j) (plug K2 (Bin Nil (k, z) Nil))) with "[Hu]" as "Hu"; [by rewrite Hzp|].
        iApply (twp_color_in K2 (Bin Nil (k, z) Nil) (Some j)). iFrame "Hu". iIntros "Hu". cbn [colr snd]. rewrite Ez.
        wbind. iApply (twp_get_fuel emp%I 0); [apply atleast_0|]. iSplitR; [done|]. iIntros (fu Hfu) "_".
        assert (forall (m1 m2 : M tst bool), m1 = m2 -> (twp m2 (rp (plug K (Bin l (j, y) u))) (Z.of_nat (bsize (plug K (Bin l (j, y) u)))) (post (fun w T' => w = false /\ ino T' = (zl K ++ ino l) ++ ino u ++ zr K /\ rbok T'))
           ⊢ twp m1 (rp (plug K (Bin l (j, y) u))) (Z.of_nat (bsize (plug K (Bin l (j, y) u)))) (post (fun w T' => w = false /\ ino T' = (zl K ++ ino l) ++ ino u ++ zr K /\ rbok T'))))%I as Heq by (by intros ? ? ->).
        iApply (Heq _ ((match p_color y with Red => transplant (S fu) CRB j (Some k) | Black => set_color k Black ;; transplant (S fu) CRB j (Some k) end) ;; add_len (-1) ;; ret false)).
        { by destruct (p_color y). }
        wbind. iApply (twp_swap_red K (InR l (j, y)) K2 j y k z fu); [done|lia|]. iFrame "HK". cbn [fill tree fst snd]. rewrite Hzp. iFrame "Hj Hl". iSplitL "Hu"; [done|]. iIntros "HT".
        iApply (Hend with "HT").
        -- rewrite plug_mid !rp_plug. done.
        -- rewrite ino_mid. cbn [reval fst fill ino snd]. rewrite spare_val HIu. by rewrite -!app_assoc.
        -- rewrite plug_mid. split.
           ++ destruct K as [|f K]; [|by rewrite (colr_plug _ _ (Bin l (j, y) u))]. cbn [plug reval fst fill colr snd]. rewrite spare_color //.
           ++ eexists. apply plug_rb; [|exact HK|].
              ** cbn [reval fst fill rbt snd]. exists m. rewrite spare_color //. split_and!; try done. intros Ec. destruct (HnR Ec) as [? Hcu]. split; [done|]. apply Hcu'. by rewrite Hzp.
              ** cbn [reval fst fill colr snd]. rewrite spare_color //.
      * (* the predecessor is red *)
        destruct Hsp' as [|[_ Emax]]; [done|]. rewrite Emax.
        pose proof (zmax_plug l) as Hzp. destruct (zmax_shape l) as (v & [k z] & Ezm); [by intros ->|].
        rewrite Ezm in Hzp Emax |- *. cbn [rp fst colr snd] in *. set (K2 := (zmax l).1) in *.
        assert (p_color z = Red) as Ez by (by destruct (p_color z)).
        destruct Hn as (m & En & Hnl & Hnu & HnR). assert (v = Nil) as ->.
        { rewrite -Hzp in Hnl. apply rb_plug in Hnl as (m' & Hm' & _). apply red_leaf in Hm' as (-> & _ & _); [done|done|by right]. }
        rewrite -Hzp in Hnl. destruct (take_red_leaf _ _ _ Hnl Ez) as [Hnl' Hcl'].
        assert (ino l = ino (plug K2 Nil) ++ [p_val z]) as HIl.
        { rewrite -Hzp !ino_plug. unfold K2. rewrite zmax_zr. cbn [ino snd app]. by rewrite !app_nil_r. }
        wbind. iApply twp_get_color. iFrame "Hj". iIntros "Hj".
        wbind. iAssert (tree (Some j) (plug K2 (Bin Nil (k, z) Nil))) with "[Hl]" as "Hl"; [by rewrite Hzp|].
        iApply (twp_color_in K2 (Bin Nil (k, z) Nil) (Some j)). iFrame "Hl". iIntros "Hl". cbn [colr snd]. rewrite Ez.
        wbind. iApply (twp_get_fuel emp%I 0); [apply atleast_0|]. iSplitR; [done|]. iIntros (fu Hfu) "_".
        assert (forall (m1 m2 : M tst bool), m1 = m2 -> (twp m2 (rp (plug K (Bin l (j, y) u))) (Z.of_nat (bsize (plug K (Bin l (j, y) u)))) (post (fun w T' => w = false /\ ino T' = (zl K ++ ino l) ++ ino u ++ zr K /\ rbok T'))
           ⊢ twp m1 (rp (plug K (Bin l (j, y) u))) (Z.of_nat (bsize (plug K (Bin l (j, y) u)))) (post (fun w T' => w = false /\ ino T' = (zl K ++ ino l) ++ ino u ++ zr K /\ rbok T'))))%I as Heq by (by intros ? ? ->).
        iApply (Heq _ ((match p_color y with Red => transplant (S fu) CRB j (Some k) | Black => set_color k Black ;; transplant (S fu) CRB j (Some k) end) ;; add_len (-1) ;; ret false)).
        { by destruct (p_color y). }
        wbind. iApply (twp_swap_red K (InL (j, y) u) K2 j y k z fu); [done|lia|]. iFrame "HK". cbn [fill tree fst snd]. rewrite Hzp. iFrame "Hj Hu". iSplitL "Hl"; [done|]. iIntros "HT".
        iApply (Hend with "HT").
        -- rewrite plug_mid !rp_plug. done.
        -- rewrite ino_mid. cbn [reval fst fill ino snd]. rewrite spare_val HIl. by rewrite -!app_assoc.
        -- rewrite plug_mid. split.
           ++ destruct K as [|f K]; [|by rewrite (colr_plug _ _ (Bin l (j, y) u))]. cbn [plug reval fst fill colr snd]. rewrite spare_color //.
           ++ eexists. apply plug_rb; [|exact HK|].
              ** cbn [reval fst fill rbt snd]. exists m. rewrite spare_color //. split_and!; try done. intros Ec. destruct (HnR Ec) as [Hcl ?]. split; [|done]. apply Hcl'. by rewrite Hzp.
              ** cbn [reval fst fill colr snd]. rewrite spare_color //.
  - destruct HQ. exists s', T'. rewrite (found_in _ _ Hinc) -bool_decide_not in E. by split_and!.
Qed.
(** ** Calls *)
Lemma rb_ins_step s T o : rep s T -> increasing (ino T) -> colr T = Black -> is_removal o = false ->
  exists r s' T', call CRB o s = Some (r, s') /\ rep s' T' /\
    (colr T' = Black /\ (rbok T -> colors_allow o (bin_map snd T) -> rbok T')) /\
    answer CRB o (ino T) r /\ ino T' = next CRB o (ino T).
Proof.
  intros H Hinc Hc Hr. destruct (changes CRB o) eqn:Ec.
  2:{ destruct (read_step CRB o s T Ec H (fun _ => Hinc)) as (r & s' & E & HR & HA & HN). exists r, s', T. by split_and!. }
  destruct o as [v p|v|v| | | | | | | | | | | |]; try done.
  - apply (insert_step CRB s T v p (fun T' => colr T' = Black /\ (rbok T -> colors_allow (TInsert v p) (bin_map snd T) -> rbok T')) H); [|done].
    intros x -> _. destruct (rb_insert_run s T x p H Hinc) as (s' & T' & E & HR & HI & HB & HK). exists s', T'. by split_and!.
  - destruct (clear_step CRB s T H) as (s' & E & HR). exists (OUnit false), s', Nil. split_and!; try done.
    intros _ _. split; [done|]. by exists 0.
Qed.
Lemma rb_step s T o : rep s T -> increasing (ino T) -> rbok T -> colors_allow o (bin_map snd T) ->
  exists r s' T', call CRB o s = Some (r, s') /\ rep s' T' /\ rbok T' /\
    answer CRB o (ino T) r /\ ino T' = next CRB o (ino T).
Proof.
  intros H Hinc Hk Hal. destruct (is_removal o) eqn:Er.
  - destruct o as [|v| | | | | | | | | | | | |]; try done. apply remove_step; [done| |done].
    intros x ->. by apply rb_remove_run.
  - destruct (rb_ins_step s T o H Hinc (proj1 Hk) Er) as (r & s' & T' & E & HR & [_ HB] & HA & HN). exists r, s', T'. split_and!; try done. by apply HB.
Qed.
Lemma rb_run os : forall s T, rep s T -> increasing (ino T) -> rbok T ->
  (forall pre o post rs s' t, os = pre ++ o :: post -> calls CRB pre s = Some (rs, s') -> shape s' = Some t -> colors_allow o t) ->
  exists rs s' T', calls CRB os s = Some (rs, s') /\ rep s' T' /\ rbok T' /\ answers CRB os (ino T) rs /\ ino T' = set_after CRB os (ino T).
Proof.
  induction os as [|o os IH]; intros s T H Hinc Hk HB; [by exists [], s, T|].
  destruct (rb_step s T o H Hinc Hk) as (r & s1 & T1 & E & HR & Hk1 & HA1 & HN).
  { eapply (HB [] o os); try done. by apply rep_shape. }
  destruct (IH s1 T1 HR) as (rs & s2 & T2 & E2 & HR2 & Hk2 & HA2 & HN2); [|done| |].
  - rewrite HN. by apply next_inc.
  - intros pre o' post rs s' t -> Ec Ht. eapply (HB (o :: pre) o' post); try done. cbn [calls]. by rewrite E Ec.
  - rewrite HN in HA2, HN2. exists (r :: rs), s2, T2. cbn [calls]. rewrite E E2. by split_and!.
Qed.
(** ** Insertions at the ends *)
Lemma leb_le a b : num_leb a b = true -> num_le a b.
Proof. unfold num_leb. intros H. apply num_ltb_le. by destruct (num_ltb b a). Qed.
Lemma straight_low x side t : (forall y, y ∈ map p_val (inorder t) -> num_leb x y = true) -> (root_color t = Black \/ side = Some true) -> straight x side t.
Proof.
  revert side. induction t as [|l IHl y r _]; intros side Hy Hs; [done|]. cbn in Hy. rewrite map_app in Hy. intros Hne.
  assert (num_ltb x (p_val y) = true) as Hlt.
  { assert (num_leb x (p_val y) = true) as H1 by (apply Hy; set_solver). destruct (num_ltb x (p_val y)) eqn:E; [done|]. exfalso. apply Hne.
    apply num_le_antisym; [by apply leb_le|]. by apply num_ltb_le. }
  rewrite Hlt. split.
  - intros Hc. cbn in Hs. rewrite Hc in Hs. right. by destruct Hs.
  - apply IHl; [|by right]. intros z Hz. apply Hy. set_solver.
Qed.
Lemma straight_high x side t : (forall y, y ∈ map p_val (inorder t) -> num_leb y x = true) -> (root_color t = Black \/ side = Some false) -> straight x side t.
Proof.
  revert side. induction t as [|l _ y r IHr]; intros side Hy Hs; [done|]. cbn in Hy. rewrite map_app in Hy. intros Hne.
  assert (num_ltb x (p_val y) = false) as Hlt.
  { assert (num_leb (p_val y) x = true) as H1 by (apply Hy; set_solver). by apply num_ltb_le, leb_le. }
  rewrite Hlt. split.
  - intros Hc. cbn in Hs. rewrite Hc in Hs. right. by destruct Hs.
  - apply IHr; [|by right]. intros z Hz. apply Hy. set_solver.
Qed.
Lemma ends_straight o T : rbok T -> is_removal o = false -> inserts_at_ends o (ino T) -> colors_allow o (bin_map snd T).
Proof.
  intros [Hc _] Hr He. destruct o as [[| x | | | | ] p| | | | | | | | | | | | | |]; try done. cbn [colors_allow].
  rewrite colr_root in Hc. destruct (He x p eq_refl) as [H|H]; [apply straight_low|apply straight_high]; try (by left); intros y; rewrite inorder_pays; apply H.
Qed.
(** ** Size and height *)
Lemma rb_levels t n : no_red_red t -> has_blacks t n -> nlevels t <= 2 * n + (match root_color t with Red => 1 | Black => 0 end).
Proof.
  revert n. induction t as [|l IHl x r IHr]; intros n Hn Hb; [cbn; lia|]. cbn in Hn, Hb. destruct Hn as (H1 & H2 & H3), Hb as (m & -> & B1 & B2).
  specialize (IHl _ H1 B1). specialize (IHr _ H2 B2). cbn [nlevels root_color]. destruct (p_color x).
  - destruct (root_color l), (root_color r); lia.
  - destruct (H3 eq_refl) as [E1 E2]. rewrite E1 in IHl. rewrite E2 in IHr. lia.
Qed.
Lemma rb_size t n : has_blacks t n -> 2 ^ n <= length (inorder t) + 1.
Proof.
  revert n. induction t as [|l IHl x r IHr]; intros n Hb; cbn in Hb; [subst; cbn; lia|]. destruct Hb as (m & -> & B1 & B2).
  specialize (IHl _ B1). specialize (IHr _ B2). cbn [inorder]. rewrite !app_length. cbn [length]. destruct (p_color x); cbn [Nat.pow]; lia.
Qed.
Lemma rb_height t : red_black t -> nlevels t <= 2 * Nat.log2 (length (inorder t) + 1).
Proof.
  intros (Hc & Hn & n & Hb). pose proof (rb_levels _ _ Hn Hb) as H1. rewrite Hc in H1. pose proof (rb_size _ _ Hb) as H2.
  apply Nat.log2_le_mono in H2. rewrite Nat.log2_pow2 in H2; lia.
Qed.
(** ** get_black_height *)
Lemma blacks_all t n p k : has_blacks t n -> blacks_to_nil t p = Some k -> k = n + 1.
Proof.
  revert n p k. induction t as [|l IHl x r IHr]; intros n p k Hb Hp.
  - cbn in Hb. subst. destruct p; [|done]. by injection Hp as <-.
  - cbn in Hb. destruct Hb as (m & -> & B1 & B2). destruct p as [|b p]; [done|]. cbn in Hp.
    destruct (blacks_to_nil (if b then r else l) p) as [k'|] eqn:E; [|done]. injection Hp as <-.
    assert (k' = m + 1) as -> by (destruct b; eauto). by destruct (p_color x).
Qed.
Fixpoint lblacks (t : ptree) : nat := match t with Nil => 0 | Bin l ix _ => match p_color ix.2 with Red => lblacks l | Black => S (lblacks l) end end.
Lemma rbt_lblacks t n : rbt t n -> lblacks t = n.
Proof. revert n. induction t as [|l IHl ix r _]; intros n; [done|]. cbn. intros (m & -> & Hl & _). rewrite (IHl m Hl). by destruct (p_color ix.2). Qed.
Lemma twp_black_loop t par f acc r n Q : bsize t <= f ->
  tree par t ∗ (tree par t -∗ Q (acc + lblacks t + 1) r n) ⊢ twp (black_loop f (rp t) acc) r n Q.
Proof.
  revert par f acc. induction t as [|l IHl [i x] u _]; intros par f acc Hf.
  - iIntros "[HT HQ]". destruct f; cbn [rp black_loop]; wret; cbn [lblacks]; rewrite Nat.add_0_r; by iApply "HQ".
  - cbn [bsize] in Hf. destruct f as [|f]; [lia|]. cbn [tree rp fst snd black_loop]. iIntros "[(Hi & Hl & Hu) HQ]".
    wbind. iApply twp_get_color. iFrame "Hi". iIntros "Hi". wget. iApply (IHl (Some i)); [lia|]. iFrame "Hl". iIntros "Hl".
    cbn [lblacks fst snd].
    assert ((if is_red (p_color x) then acc else acc + 1) + lblacks l + 1 = acc + (match p_color x with Red => lblacks l | Black => S (lblacks l) end) + 1) as -> by (destruct (p_color x); cbn; lia).
    iApply "HQ". iFrame.
Qed.
Lemma rb_black_height_run s T l ix u : rep s T -> T = Bin l ix u -> exists s', rb_black_height s = Ok (lblacks l + 1) s' /\ rep s' T.
Proof.
  intros H ->. destruct ix as [i x].
  destruct (rep_run rb_black_height s (Bin l (i, x) u) (fun a T' => a = lblacks l + 1 /\ T' = Bin l (i, x) u) H) as (a & s' & T' & E & HR & -> & ->); [|by exists s'].
  iIntros "HT". unfold rb_black_height. wbind. iApply twp_get_root. cbn [rp fst deref]. wbind. wret. cbn [tree fst snd]. iDestruct "HT" as "(Hi & Hl & Hu)". wget.
  wbind. iApply (twp_get_fuel (tree (Some i) l)); [apply tree_atleast|]. iFrame "Hl". iIntros (f Hf) "Hl".
  iApply (twp_black_loop l (Some i)); [lia|]. iFrame "Hl". iIntros "Hl". wpost (Bin l (i, x) u); try done. cbn [tree fst snd]. iFrame.
Qed.
