(** * What the programs of BstModel.v do to the tree in memory, as functions on trees

    Proof machinery: a node of a tree is reached through a list of frames, innermost
    first. *)
From iris.proofmode Require Import proofmode.
From Verif Require Import Base TreeModel BstModel BstSep BstRules.
Local Open Scope py_scope.

Inductive frame := InL (ix : nat * pay) (u : ptree) | InR (u : ptree) (ix : nat * pay).
Notation ctx := (list frame).
Definition fnode (f : frame) : nat * pay := match f with InL ix _ | InR _ ix => ix end.
Definition fill (f : frame) (t : ptree) : ptree :=
  match f with InL ix u => Bin t ix u | InR u ix => Bin u ix t end.
(** The same after a setter: refreshed. *)
Definition fillc (c : tcls) (f : frame) (t : ptree) : ptree :=
  match f with InL ix u => node c t ix u | InR u ix => node c u ix t end.
Definition reframe (c : tcls) (t : ptree) (f : frame) : frame :=
  match f with
  | InL ix u => InL (ix.1, refresh c t ix.2 u) u
  | InR u ix => InR u (ix.1, refresh c u ix.2 t)
  end.
Lemma fill_reframe c t f : fill (reframe c t f) t = fillc c f t.
Proof. by destruct f. Qed.
Fixpoint plug (k : ctx) (t : ptree) : ptree := match k with [] => t | f :: k' => plug k' (fill f t) end.
Definition cpar (k : ctx) : option nat := match k with [] => None | f :: _ => Some (fnode f).1 end.
Fixpoint croot (k : ctx) (p : option nat) : option nat :=
  match k with [] => p | f :: k' => croot k' (Some (fnode f).1) end.
Lemma rp_fill f t : rp (fill f t) = Some (fnode f).1.
Proof. by destruct f. Qed.
Lemma rp_plug k t : rp (plug k t) = croot k (rp t).
Proof. revert t. induction k as [|f k IH]; intros t; [done|]. cbn. by rewrite IH rp_fill. Qed.
Lemma plug_app k k' t : plug (k ++ k') t = plug k' (plug k t).
Proof. revert t. induction k as [|f k IH]; intros t; [done|]. cbn. apply IH. Qed.
Lemma plug_snoc k f t : plug (k ++ [f]) t = fill f (plug k t).
Proof. by rewrite plug_app. Qed.
Lemma croot_nonempty k p q : k <> [] -> croot k p = croot k q.
Proof. by destruct k. Qed.

Fixpoint ctxp (k : ctx) (p : option nat) : hprop :=
  match k with
  | [] => emp
  | InL ix u :: k' => ix.1 ↦ Cell ix.2 p (rp u) (cpar k') ∗ tree (Some ix.1) u ∗ ctxp k' (Some ix.1)
  | InR u ix :: k' => ix.1 ↦ Cell ix.2 (rp u) p (cpar k') ∗ tree (Some ix.1) u ∗ ctxp k' (Some ix.1)
  end%I.
Lemma ctxp_fill f k t : ctxp (f :: k) (rp t) ∗ tree (Some (fnode f).1) t ⊣⊢ ctxp k (rp (fill f t)) ∗ tree (cpar k) (fill f t).
Proof.
  destruct f as [[i x] u|u [i x]]; cbn [ctxp fill tree rp fst snd fnode].
  - iSplit; [iIntros "[(?&?&?) ?]"|iIntros "(?&?&?&?)"]; iFrame.
  - iSplit; [iIntros "[(?&?&?) ?]"|iIntros "(?&?&?&?)"]; iFrame.
Qed.
Lemma plug_tree k t : ctxp k (rp t) ∗ tree (cpar k) t ⊣⊢ tree None (plug k t).
Proof.
  revert t. induction k as [|f k IH]; intros t; cbn [plug].
  - cbn [ctxp cpar]. iSplit; [iIntros "[_ $]"|iIntros "$"].
  - rewrite -IH. change (cpar (f :: k)) with (Some (fnode f).1). apply ctxp_fill.
Qed.
Lemma plug_atleast k p : ctxp k p ⊢ atleast (length k).
Proof.
  revert p. induction k as [|[[i x] u|u [i x]] k IH]; intros p; cbn [ctxp length].
  - iIntros "_". iApply atleast_0.
  - rewrite IH atleast_pto. iIntros "(H1 & _ & H2)". iApply (atleast_sep 1). iFrame.
  - rewrite IH atleast_pto. iIntros "(H1 & _ & H2)". iApply (atleast_sep 1). iFrame.
Qed.

(** ** Searching *)
(** Where [v] is, or the empty place where it belongs. *)
Fixpoint zfind (v : num) (t : ptree) : ctx * ptree :=
  match t with
  | Nil => ([], Nil)
  | Bin l ix u =>
      if bool_decide (v = p_val ix.2) then ([], t)
      else if num_ltb v (p_val ix.2) then let q := zfind v l in (q.1 ++ [InL ix u], q.2)
      else let q := zfind v u in (q.1 ++ [InR l ix], q.2)
  end.
Lemma zfind_plug v t : plug (zfind v t).1 (zfind v t).2 = t.
Proof.
  induction t as [|l IHl [i x] u IHu]; [done|]. cbn [zfind snd].
  repeat case_match; cbn [fst snd]; [done|..]; rewrite plug_snoc; cbn [fill]; by f_equal.
Qed.
Lemma zfind_val v t l ix u : (zfind v t).2 = Bin l ix u -> p_val ix.2 = v.
Proof.
  induction t as [|l' IHl [i x] u' IHu]; [done|]. cbn [zfind snd].
  case_match eqn:E; [|case_match; cbn [fst snd]; assumption].
  cbn [fst snd]. intros [= <- <- <-]. by apply bool_decide_eq_true in E.
Qed.
(** The node [_search] returns: the node with the value, or the last one visited. *)
Definition zlast (q : ctx * ptree) : ctx * ptree :=
  match q with
  | (f :: k, Nil) => (k, fill f Nil)
  | q => q
  end.
Lemma zlast_snoc k t f : k <> [] \/ t <> Nil -> zlast (k ++ [f], t) = ((zlast (k, t)).1 ++ [f], (zlast (k, t)).2).
Proof. destruct t; [|by destruct k]. destruct k; [|done]. naive_solver. Qed.
Lemma zfind_nonempty v l ix u : (zfind v (Bin l ix u)).1 <> [] \/ (zfind v (Bin l ix u)).2 <> Nil.
Proof. cbn [zfind]. repeat case_match; cbn [fst snd]; [by right|left..]; by destruct (zfind v _).1. Qed.
Lemma zlast_plug q : plug (zlast q).1 (zlast q).2 = plug q.1 q.2.
Proof. destruct q as [[|f k] [|]]; done. Qed.

Section search.
Implicit Types (r : option nat) (n : Z).
Lemma twp_search v t par f i r n Q : bsize t <= f -> rp t = Some i ->
  tree par t ∗ (∀ j, ⌜rp (zlast (zfind v t)).2 = Some j⌝ -∗ tree par t -∗ Q j r n) ⊢
  twp (search f v i) r n Q.
Proof.
  revert par f i. induction t as [|l IHl [i x] u IHu]; intros par f i' Hf Hi; [done|].
  cbn in Hi. injection Hi as <-. cbn [bsize] in Hf. destruct f as [|f]; [lia|].
  cbn [tree fst snd search]. iIntros "[(Hi & Hl & Hu) HQ]". wget.
  cbn [zfind fst snd].
  case_match eqn:E1.
  { wret. iApply "HQ"; [done|]. iFrame. }
  case_match eqn:E2.
  - wget. destruct l as [|l1 [j y] l2]; cbn [rp fst].
    + wret. iApply "HQ"; [done|]. iFrame.
    + iApply (IHl (Some i)); [lia|done|]. iFrame "Hl". iIntros (w) "%Hw Hl". iApply ("HQ" with "[%]").
      * rewrite zlast_snoc; [by rewrite -surjective_pairing|apply zfind_nonempty].
      * iFrame.
  - wget. destruct u as [|u1 [j y] u2]; cbn [rp fst].
    + wret. iApply "HQ"; [done|]. iFrame.
    + iApply (IHu (Some i)); [lia|done|]. iFrame "Hu". iIntros (w) "%Hw Hu". iApply ("HQ" with "[%]").
      * rewrite zlast_snoc; [by rewrite -surjective_pairing|apply zfind_nonempty].
      * iFrame.
Qed.
Lemma twp_search_root v t r n Q : r = rp t -> t <> Nil ->
  tree None t ∗ (∀ j, ⌜rp (zlast (zfind v t)).2 = Some j⌝ -∗ tree None t -∗ Q j r n) ⊢
  twp (search_root v) r n Q.
Proof.
  intros -> Ht. iIntros "[Ht HQ]". unfold search_root. wbind. iApply twp_get_root.
  destruct t as [|l [i x] u]; [done|]. cbn [rp fst]. wbind.
  iApply twp_get_fuel; [apply tree_atleast|]. iFrame "Ht". iIntros (f Hf) "Ht".
  iApply (twp_search v (Bin l (i, x) u) None f); [lia|done|]. iFrame.
Qed.

(** ** Extrema *)
Fixpoint zmin (t : ptree) : ctx * ptree :=
  match t with
  | Nil => ([], Nil)
  | Bin l ix u => match l with Nil => ([], t) | _ => let q := zmin l in (q.1 ++ [InL ix u], q.2) end
  end.
Fixpoint zmax (t : ptree) : ctx * ptree :=
  match t with
  | Nil => ([], Nil)
  | Bin l ix u => match u with Nil => ([], t) | _ => let q := zmax u in (q.1 ++ [InR l ix], q.2) end
  end.
Lemma zmin_plug t : plug (zmin t).1 (zmin t).2 = t.
Proof.
  induction t as [|l IHl [i x] u IHu]; [done|]. cbn [zmin].
  destruct l; [done|]. cbn [fst snd]. rewrite plug_snoc. cbn [fill]. by rewrite IHl.
Qed.
Lemma zmax_plug t : plug (zmax t).1 (zmax t).2 = t.
Proof.
  induction t as [|l IHl [i x] u IHu]; [done|]. cbn [zmax].
  destruct u; [done|]. cbn [fst snd]. rewrite plug_snoc. cbn [fill]. by rewrite IHu.
Qed.
Lemma zmin_shape t : t <> Nil -> exists ix u, (zmin t).2 = Bin Nil ix u.
Proof.
  induction t as [|l IHl ix u IHu]; [done|]. intros _. cbn [zmin]. destruct l; [by eauto|]. by apply IHl.
Qed.
Lemma zmax_shape t : t <> Nil -> exists l ix, (zmax t).2 = Bin l ix Nil.
Proof.
  induction t as [|l IHl ix u IHu]; [done|]. intros _. cbn [zmax]. destruct u; [by eauto|]. by apply IHu.
Qed.
Lemma twp_get_min_node t par f i r n Q : bsize t <= f -> rp t = Some i ->
  tree par t ∗ (∀ j, ⌜rp (zmin t).2 = Some j⌝ -∗ tree par t -∗ Q j r n) ⊢ twp (get_min_node f i) r n Q.
Proof.
  revert par f i. induction t as [|l IHl [i x] u IHu]; intros par f i' Hf Hi; [done|].
  cbn in Hi. injection Hi as <-. cbn [bsize] in Hf. destruct f as [|f]; [lia|].
  cbn [tree fst snd get_min_node]. iIntros "[(Hi & Hl & Hu) HQ]". wget.
  cbn [zmin]. destruct l as [|l1 [j y] l2]; cbn [rp fst snd].
  - wret. iApply "HQ"; [done|]. iFrame.
  - iApply (IHl (Some i)); [lia|done|]. iFrame "Hl". iIntros (w) "%Hw Hl". iApply ("HQ" with "[%]"); [done|iFrame].
Qed.
Lemma twp_get_max_node t par f i r n Q : bsize t <= f -> rp t = Some i ->
  tree par t ∗ (∀ j, ⌜rp (zmax t).2 = Some j⌝ -∗ tree par t -∗ Q j r n) ⊢ twp (get_max_node f i) r n Q.
Proof.
  revert par f i. induction t as [|l IHl [i x] u IHu]; intros par f i' Hf Hi; [done|].
  cbn in Hi. injection Hi as <-. cbn [bsize] in Hf. destruct f as [|f]; [lia|].
  cbn [tree fst snd get_max_node]. iIntros "[(Hi & Hl & Hu) HQ]". wget.
  cbn [zmax]. destruct u as [|l1 [j y] l2]; cbn [rp fst snd].
  - wret. iApply "HQ"; [done|]. iFrame.
  - iApply (IHu (Some i)); [lia|done|]. iFrame "Hu". iIntros (w) "%Hw Hu". iApply ("HQ" with "[%]"); [done|iFrame].
Qed.
(** Access to the node at a place. *)
Lemma tree_at k t : tree None (plug k t) ⊢ ctxp k (rp t) ∗ tree (cpar k) t.
Proof. by rewrite plug_tree. Qed.
Lemma at_tree k t : ctxp k (rp t) ∗ tree (cpar k) t ⊢ tree None (plug k t).
Proof. by rewrite plug_tree. Qed.
(** Reading the value of a node of a tree. *)
Lemma twp_get_data_at T k l ix u i r n Q : T = plug k (Bin l ix u) -> i = ix.1 ->
  tree None T ∗ (tree None T -∗ Q (p_val ix.2) r n) ⊢ twp (get_data i) r n Q.
Proof.
  intros -> ->. iIntros "[Ht HQ]". iDestruct (tree_at with "Ht") as "[Hk (Hi & Hl & Hu)]". wget1.
  iApply "HQ". iApply at_tree. cbn [tree rp]. iFrame.
Qed.

(** ** Insertion *)
Definition leaf_of (i : nat) (x : pay) : ptree := Bin Nil (i, x) Nil.
(** The tree after [_insert_node] of a new node: the setter refreshes the parent. *)
Definition zinsert (c : tcls) (v : num) (new : nat) (x : pay) (t : ptree) : ptree :=
  match zfind v t with
  | (f :: k, Nil) => plug k (fillc c f (leaf_of new x))
  | _ => t
  end.
Lemma zinsert_left c v new x l ix u :
  bool_decide (v = p_val ix.2) = false -> num_ltb v (p_val ix.2) = true -> l <> Nil ->
  zinsert c v new x (Bin l ix u) = Bin (zinsert c v new x l) ix u.
Proof.
  intros E1 E2 Hl. unfold zinsert at 1. cbn [zfind]. rewrite E1 E2. unfold zinsert.
  destruct (zfind v l) as [k t] eqn:E. cbn [fst snd].
  destruct t as [|]; [|by destruct k]. destruct k as [|f k]; [|].
  - destruct l as [|l1 [j y] l2]; [done|]. destruct (zfind_nonempty v l1 (j, y) l2) as [H|H]; rewrite E in H; done.
  - cbn [app]. by rewrite plug_snoc.
Qed.
Lemma zinsert_right c v new x l ix u :
  bool_decide (v = p_val ix.2) = false -> num_ltb v (p_val ix.2) = false -> u <> Nil ->
  zinsert c v new x (Bin l ix u) = Bin l ix (zinsert c v new x u).
Proof.
  intros E1 E2 Hl. unfold zinsert at 1. cbn [zfind]. rewrite E1 E2. unfold zinsert.
  destruct (zfind v u) as [k t] eqn:E. cbn [fst snd].
  destruct t as [|]; [|by destruct k]. destruct k as [|f k]; [|].
  - destruct u as [|l1 [j y] l2]; [done|]. destruct (zfind_nonempty v l1 (j, y) l2) as [H|H]; rewrite E in H; done.
  - cbn [app]. by rewrite plug_snoc.
Qed.
Lemma rp_zinsert c v new x t : t <> Nil -> rp (zinsert c v new x t) = rp t.
Proof.
  intros Ht. unfold zinsert. pose proof (zfind_plug v t) as H. destruct (zfind v t) as [k t'].
  cbn in H. destruct k as [|f k]; [done|]. destruct t'; [|done]. rewrite -H. cbn [plug]. rewrite !rp_plug.
  by destruct f.
Qed.
Lemma twp_insert_node c v new x t par f i r n Q : bsize t <= f -> rp t = Some i -> p_val x = v ->
  tree par t ∗ new ↦ Cell x None None None ∗
  (∀ w : bool, ∀ j : nat,
     ⌜match (zfind v t).2 with
      | Nil => w = false /\ j = new
      | t' => w = true /\ Some j = rp t'
      end⌝ -∗
     tree par (zinsert c v new x t) -∗ Q (w, j) r (if w then n else n + 1)%Z) ⊢
  twp (insert_node f c i new) r n Q.
Proof.
  intros Hf Hi Hv. revert par f i Hf Hi. induction t as [|l IHl [i x'] u IHu]; intros par f i' Hf Hi; [done|].
  cbn in Hi. injection Hi as <-. cbn [bsize] in Hf. destruct f as [|f]; [lia|].
  cbn [tree fst snd insert_node]. iIntros "((Hi & Hl & Hu) & Hn & HQ)". wget. wget. rewrite Hv.
  destruct (bool_decide (v = p_val x')) eqn:E1.
  { wret. iApply ("HQ" $! true i with "[%] [-]"); cbn [zfind fst snd].
    - by rewrite E1.
    - unfold zinsert. cbn [zfind snd]. rewrite E1. iFrame. }
  destruct (num_ltb v (p_val x')) eqn:E2.
  - wget. destruct l as [|l1 [j y] l2]; cbn [rp fst].
    + wbind. iApply (twp_set_left c i (Some new) x' None (leaf_of new x) None u); [done|done|].
      iSplitL "Hi"; [done|]. iSplitL "Hn"; [cbn [leaf_of tree rp fst snd]; by iFrame|]. iFrame "Hu". iIntros "Hi Hn Hu".
      wbind. iApply twp_add_len. wret. iApply ("HQ" $! false new with "[%] [-]"); cbn [zfind fst snd].
      * by rewrite E1 E2.
      * unfold zinsert. cbn [zfind snd fst]. rewrite E1 E2. cbn [app plug fillc]. cbn [tree node fst snd]. iFrame.
    + iApply (IHl (Some i)); [lia|done|]. iFrame "Hl Hn". iIntros (w j') "%Hw Hl".
      iApply ("HQ" $! w j' with "[%] [-]"); cbn [zfind fst snd].
      * by rewrite E1 E2.
      * rewrite (zinsert_left c v new x (Bin l1 (j, y) l2) (i, x') u); [|exact E1|exact E2|done]. cbn [tree fst snd]. rewrite rp_zinsert; [|done]. iFrame.
  - wget. destruct u as [|l1 [j y] l2]; cbn [rp fst].
    + wbind. iApply (twp_set_right c i (Some new) x' None (leaf_of new x) None l); [done|done|].
      iSplitL "Hi"; [done|]. iSplitL "Hn"; [cbn [leaf_of tree rp fst snd]; by iFrame|]. iFrame "Hl". iIntros "Hi Hn Hl".
      wbind. iApply twp_add_len. wret. iApply ("HQ" $! false new with "[%] [-]"); cbn [zfind fst snd].
      * by rewrite E1 E2.
      * unfold zinsert. cbn [zfind snd fst]. rewrite E1 E2. cbn [app plug fillc]. cbn [tree node fst snd]. iFrame.
    + iApply (IHu (Some i)); [lia|done|]. iFrame "Hu Hn". iIntros (w j') "%Hw Hu".
      iApply ("HQ" $! w j' with "[%] [-]"); cbn [zfind fst snd].
      * by rewrite E1 E2.
      * rewrite (zinsert_right c v new x l (i, x') (Bin l1 (j, y) l2)); [|exact E1|exact E2|done]. cbn [tree fst snd]. rewrite rp_zinsert; [|done]. iFrame.
Qed.
Lemma twp_insert_value c v pr t r n Q : r = rp t -> t <> Nil ->
  tree None t ∗
  (∀ (w : bool) (j new : nat),
     ⌜match (zfind v t).2 with
      | Nil => w = false /\ j = new
      | t' => w = true /\ Some j = rp t'
      end⌝ -∗
     tree None (zinsert c v new (Pay v 0 pr Red) t) -∗ Q (w, j) r (if w then n else n + 1)%Z) ⊢
  twp (insert_value c v pr) r n Q.
Proof.
  intros -> Ht. iIntros "[Ht HQ]". unfold insert_value, new_node. wbind. iApply twp_alloc. iIntros (new) "Hn".
  wbind. iApply twp_get_root. destruct (rp t) as [i|] eqn:Ei; [|by destruct t]. wbind. wret. wbind.
  iApply twp_get_fuel; [apply tree_atleast|]. iFrame "Ht". iIntros (f Hf) "Ht".
  iApply (twp_insert_node c v new (Pay v 0 pr Red) t None f); [lia|done|done|]. iFrame "Ht Hn". iIntros (w j) "%Hw Ht".
  iApply ("HQ" with "[%] Ht"). exact Hw.
Qed.

(** ** Attaching a rotated subtree *)
Definition recontext (c : tcls) (t : ptree) (k : ctx) : ctx :=
  match k with [] => [] | f :: k' => reframe c t f :: k' end.
Definition side_ok (k : ctx) (t : ptree) : Prop :=
  match k, t with
  | InL ix _ :: _, Bin _ jy _ => num_ltb (p_val jy.2) (p_val ix.2) = true
  | InR _ ix :: _, Bin _ jy _ => num_ltb (p_val jy.2) (p_val ix.2) = false
  | _, _ => True
  end.
Lemma twp_attach c k p q t j r n Q : rp t = Some j -> side_ok k t ->
  ctxp k p ∗ tree q t ∗
  (ctxp (recontext c t k) (Some j) -∗ tree (match k with [] => q | _ => cpar k end) t -∗
   Q tt (match k with [] => Some j | _ => r end) n) ⊢
  twp (attach c (cpar k) j) r n Q.
Proof.
  intros Hj Hs. destruct t as [|l [j' y] u]; [done|]. cbn in Hj. injection Hj as ->.
  iIntros "(Hk & Ht & HQ)". destruct k as [|[[i x] v|v [i x]] k]; cbn [cpar fnode fst attach side_ok] in *.
  - iApply twp_set_root. iApply ("HQ" with "Hk Ht").
  - cbn [ctxp fst snd]. iDestruct "Hk" as "(Hi & Hv & Hk)". wget.
    iDestruct "Ht" as "(Hj & Hl & Hu)". cbn [fst snd] in *. wget. rewrite Hs.
    iApply (twp_set_left c i (Some j) _ _ (Bin l (j, y) u) q v); [done|done|].
    iFrame "Hi". cbn [tree fst snd]. iFrame "Hj Hl Hu Hv". iIntros "Hi Ht Hv".
    iApply ("HQ" with "[Hi Hv Hk] Ht"). cbn [recontext reframe ctxp fst snd]. iFrame.
  - cbn [ctxp fst snd]. iDestruct "Hk" as "(Hi & Hv & Hk)". wget.
    iDestruct "Ht" as "(Hj & Hl & Hu)". cbn [fst snd] in *. wget. rewrite Hs.
    iApply (twp_set_right c i (Some j) _ _ (Bin l (j, y) u) q v); [done|done|].
    iFrame "Hi". cbn [tree fst snd]. iFrame "Hj Hl Hu Hv". iIntros "Hi Ht Hv".
    iApply ("HQ" with "[Hi Hv Hk] Ht"). cbn [recontext reframe ctxp fst snd]. iFrame.
Qed.

(** ** Reading the whole tree *)
Lemma twp_snapshot t par f r n Q : bsize t <= f ->
  tree par t ∗ (tree par t -∗ Q (bin_map snd t) r n) ⊢ twp (snapshot f (rp t)) r n Q.
Proof.
  revert par f Q. induction t as [|l IHl [i x] u IHu]; intros par f Q Hf.
  - iIntros "[Ht HQ]". destruct f; cbn; wret; by iApply "HQ".
  - cbn [bsize] in Hf. destruct f as [|f]; [lia|]. cbn [tree fst snd rp snapshot].
    iIntros "[(Hi & Hl & Hu) HQ]". wbind. wrd. wbind. iApply IHl; [lia|]. iFrame "Hl". iIntros "Hl".
    wbind. iApply IHu; [lia|]. iFrame "Hu". iIntros "Hu". wret. iApply "HQ". iFrame.
Qed.
Lemma twp_tree_pays t r n Q : r = rp t ->
  tree None t ∗ (tree None t -∗ Q (bin_map snd t) r n) ⊢ twp tree_pays r n Q.
Proof.
  intros ->. iIntros "[Ht HQ]". unfold tree_pays. wbind. iApply twp_get_root. wbind.
  iApply twp_get_fuel; [apply tree_atleast|]. iFrame "Ht". iIntros (f Hf) "Ht".
  iApply twp_snapshot; [lia|]. iFrame.
Qed.
End search.
