(** * RedBlackTree.insert on a valid tree: exactly when it stays valid *)
From Coq Require Import Sorted.
From iris.proofmode Require Import proofmode.
From Verif Require Import Base NumOrd TreeModel TreeSpec BstModel BalModel BstSpec RbSpec RbInsSpec BstSep BstRules BstZip BstDel BinThm BstPure BstThm AvlThm SplayThm RbThm RbDel3.
Local Open Scope py_scope.

Definition fr (f : frame) : bool * color * color := (isl f, col (fnode f), colr (sib f)).
Definition rok (c : color) (K : ctx) : Prop := mends c (map fr K).

(** ** Broken trees stay broken *)
Definition brk (t : ptree) : Prop := forall N, ~ rbt t N.
Definition brk2 (t : ptree) : Prop := match t with Nil => False | Bin l _ u => brk l \/ brk u end.
Lemma brk2_brk t : brk2 t -> brk t.
Proof. destruct t as [|l ix u]; [done|]. intros [H|H] N (m & _ & H1 & H2 & _); [by apply (H m)|by apply (H m)]. Qed.
Lemma brk2_fill f t : brk t -> brk2 (fill f t).
Proof. destruct f; intros H; [by left|by right]. Qed.
Lemma brk2_plug K : forall t, brk2 t -> brk2 (plug K t).
Proof. induction K as [|f K IH]; intros t H; [done|]. cbn [plug]. apply IH, brk2_fill, brk2_brk, H. Qed.
Lemma brk2_rcl m : forall K t, length K <= m -> brk2 t -> brk2 (rcl K t).
Proof.
  induction m as [|m IH]; intros K t Hm Ht; [by destruct K; cbn in Hm; [|lia]|].
  destruct K as [|f [|g K]]; [done|by apply (brk2_plug [f])|]. cbn [rcl]. destruct (is_red _); [|by apply (brk2_plug (f :: g :: K))].
  cbn in Hm. apply IH; [lia|]. pose proof (brk2_brk _ Ht) as Hb. unfold rcstep. destruct (is_red _).
  - destruct f as [p s|s p], g as [gp v|v gp]; cbn [case2 brk2].
    + left. apply brk2_brk. by left.
    + right. apply brk2_brk. by left.
    + left. apply brk2_brk. by right.
    + right. apply brk2_brk. by right.
  - destruct t as [|a j b]; [done|]. destruct f as [p s|s p], g as [gp v|v gp]; cbn [case3 brk2].
    + by left.
    + destruct Ht; [left|right]; apply brk2_brk; cbn; tauto.
    + destruct Ht; [left|right]; apply brk2_brk; cbn; tauto.
    + by right.
Qed.
(** ** The repair *)
Lemma rcl_exact m : forall K t n, length K <= m -> t <> Nil -> rbt t n -> rbK K n -> lastb K ->
  (rok (colr t) K /\ exists N, rbt (rcl K t) N) \/ (~ rok (colr t) K /\ brk2 (rcl K t)).
Proof.
  induction m as [|m IH]; intros K t n Hm Hne Ht HK HL; [by destruct K; cbn in Hm; [left; split; [done|by exists n]|lia]|].
  destruct K as [|f [|g K]]; cbn [rcl].
  - left. split; [done|]. by exists n.
  - left. split; [by unfold rok, fr; cbn; destruct (col (fnode f))|]. eexists. apply (plug_rb [f] t n); done.
  - unfold rok. cbn [map fr mends]. destruct (col (fnode f)) eqn:Ef; cbn [is_red].
    { left. split; [done|]. eexists. apply (plug_rb (f :: g :: K) t n); [done|done|]. by intros _. }
    cbn [rbK] in HK. rewrite Ef in HK. destruct HK as (Hs & HR & Hv & HR2 & HK). destruct (HR eq_refl) as [Hcs Htb]. cbn [topb] in Htb. rewrite Htb in HK. cbn [bump] in HK, Hv.
    assert (lastb K) as HL' by (by destruct K). cbn in Hm.
    unfold rcstep. destruct (colr (sib g)) eqn:Eg; cbn [is_red].
    + assert (case3 f g t <> Nil) as H3n by (by destruct f, g, t).
      assert (colr (case3 f g t) = Black) as H3c by (by destruct f, g, t).
      assert ((rbt (case3 f g t) (S n) /\ (colr t = Red \/ isl f = isl g)) \/ (colr t = Black /\ isl f <> isl g /\ brk2 (case3 f g t))) as [[H3 Hgo]|(Hc & Hi & Hb)].
      { destruct t as [|a j d]; [done|]. cbn [colr].
        destruct f as [p s|s p], g as [gp v|v gp]; cbn [case3 sib fnode isl] in *; cbn [rbt pc snd pay_color p_color bump].
        - left. split; [|by right]. exists n. split_and!; try done. exists n. by split_and!.
        - destruct Ht as (m' & -> & Ha & Hd & HJ). destruct (col j) eqn:Ej.
          + right. split_and!; try done. right. intros N (m2 & _ & Hd2 & Hs2 & _). cbn [bump] in Hs.
            pose proof (rbt_unique _ _ _ Hd Hd2). pose proof (rbt_unique _ _ _ Hs Hs2). lia.
          + left. split; [|by left]. cbn [bump] in Hs, Hv |- *. destruct (HJ eq_refl). exists m'. split_and!; try done; exists m'; [by split_and!|]. rewrite Ef. by split_and!.
        - destruct Ht as (m' & -> & Ha & Hd & HJ). destruct (col j) eqn:Ej.
          + right. split_and!; try done. left. intros N (m2 & _ & Hd2 & Hs2 & _). cbn [bump] in Hs.
            pose proof (rbt_unique _ _ _ Ha Hs2). pose proof (rbt_unique _ _ _ Hs Hd2). lia.
          + left. split; [|by left]. cbn [bump] in Hs, Hv |- *. destruct (HJ eq_refl). exists m'. split_and!; try done; exists m'; [rewrite Ef|]; by split_and!.
        - left. split; [|by right]. exists n. split_and!; try done. exists n. by split_and!. }
      2:{ right. split; [|by apply (brk2_rcl (length K))]. intros [[?|?] _]; congruence. }
      destruct (IH K _ (S n) ltac:(lia) H3n H3 HK HL') as [[H1 H2]|[H1 H2]]; rewrite H3c in H1.
      * left. by split.
      * right. split; [|done]. intros [_ H]. done.
    + assert (rbt (paint Black (sib g)) (S n)) as Hv'.
      { pose proof (rbt_paint Black _ _ Hv (or_introl eq_refl)) as Hp. destruct (sib g) as [|v1 vx v2]; [done|]. cbn in Eg. by rewrite Eg in Hp. }
      assert (colr (paint Black (sib g)) = Black) as Hcv by (by destruct (sib g)).
      assert (rbt (case2 f g t) (S n) /\ colr (case2 f g t) = Red /\ case2 f g t <> Nil) as (H3 & H3c & H3n).
      { split; [|by destruct f, g].
        destruct f as [p s|s p], g as [gp v|v gp]; cbn [case2 sib] in *; cbn [rbt colr]; exists (S n); cbn [pc snd pay_color p_color bump]; split_and!; try done; exists n; by split_and!. }
      pose proof (IH K _ (S n) ltac:(lia) H3n H3 HK HL') as H. by rewrite H3c in H.
Qed.
Lemma way_zfind x T : rev (way x (bin_map snd T)) = map fr (zfind x T).1.
Proof.
  induction T as [|l IHl ix u IHu]; [done|]. cbn [bin_map way zfind]. case_decide as E; case_bool_decide as E'; try done.
  destruct (num_ltb x (p_val ix.2)); cbn [rev fst]; rewrite map_app; [rewrite IHl|rewrite IHu]; unfold fr at 3; cbn; by rewrite -colr_root.
Qed.
Lemma mended_zfind x T : mended x (bin_map snd T) <-> rok (match (zfind x T).2 with Nil => Red | t => colr t end) (zfind x T).1.
Proof. unfold mended, rok, arrival. rewrite node_at_zfind way_zfind. by destruct (zfind x T).2. Qed.
Lemma rb_insert_exact s T x p : rep s T -> increasing (ino T) -> rbok T ->
  exists s' T', tree_insert CRB (PNum x) p s = Ok (bool_decide (x ∈ ino T)) s' /\ rep s' T' /\ ino T' = set_add x (ino T) /\
    colr T' = Black /\ (rbok T' <-> mended x (bin_map snd T)).
Proof.
  intros H Hinc Hrb. cbn [tree_insert]. unfold rb_insert. rewrite (bind_ok (check_number (PNum x)) _ s x s eq_refl).
  rewrite (bind_ok _ _ _ _ _ (rep_empty s T H)). destruct (decide (T = Nil)) as [->|HT].
  { destruct (rep_new_black s x H) as (i & s' & E & HR). exists s', (leaf_of i (Pay x 0 (Fin 0) Black)). split_and!; try done.
    split; [done|]. intros _. split; [done|]. exists 1, 0. by split_and!. }
  assert ((match T with Nil => true | _ => false end) = false) as -> by (by destruct T).
  edestruct (rep_run (let! r := insert_value CRB x (Fin 0) in let! n := get_fuel in let! root := recolor n r.2 in
       set_root root ;; let! i := deref root in set_color i Black ;; ret r.1) s T
     (fun w T' => w = bool_decide (x ∈ ino T) /\ ino T' = set_add x (ino T) /\ colr T' = Black /\ (rbok T' <-> mended x (bin_map snd T))) H)
     as (w & s' & T' & E & HR & -> & HQ); [|by exists s', T'].
  rewrite -(found_in x T Hinc).
  iIntros "HT". wbind. iApply (twp_insert_value CRB x (Fin 0) T); [done|done|]. iFrame "HT". iIntros (w j new) "%Hw HT".
  pose proof (zfind_plug x T) as HP. pose proof (insert_size x T Hinc) as HSz.
  pose proof (zinsert_ino CRB x new (Pay x 0 (Fin 0) Red) T eq_refl HT Hinc) as HI.
  unfold found in *.
  assert (exists K l y u, zinsert CRB x new (Pay x 0 (Fin 0) Red) T = plug K (Bin l (j, y) u) /\
     w = (match (zfind x T).2 with Nil => false | _ => true end) /\
     ((mended x (bin_map snd T) /\ exists N, rbt (rcl K (Bin l (j, y) u)) N) \/
      (~ mended x (bin_map snd T) /\ brk2 (rcl K (Bin l (j, y) u))))) as (K & l & y & u & EZ & -> & HRB).
  { pose proof (mended_zfind x T) as HM. unfold zinsert. destruct Hrb as (Hc & N & HN). destruct (zfind x T) as [K t] eqn:EZ. cbn [fst snd] in *. destruct t as [|l [i y] u].
    - destruct Hw as [-> ->]. destruct K as [|f K]; [by subst|].
      exists (f :: K), Nil, (Pay x 0 (Fin 0) Red), Nil. split_and!; try done.
      + by destruct f as [[] ?|? []].
      + rewrite HM. rewrite -HP in HN. apply rb_plug in HN as (n & Hn & HK & Htop & _).
        apply (rcl_exact (length (f :: K)) (f :: K) (Bin Nil (new, Pay x 0 (Fin 0) Red) Nil) n); try done.
        * by exists n.
        * eapply (lastb_plug _ Nil); [done|]. by rewrite HP.
    - destruct Hw as [-> Hw]. injection Hw as ->. exists K, l, y, u. split_and!; try done; [by destruct K|].
      rewrite HM. rewrite -HP in HN. apply rb_plug in HN as (n & Hn & HK & Htop & _). apply (rcl_exact (length K) K (Bin l (i, y) u) n); try done.
      destruct K as [|f K]; [done|]. eapply (lastb_plug _ (Bin l (i, y) u)); [done|]. by rewrite HP. }
  rewrite EZ. assert (increasing (zl K ++ ino (Bin l (j, y) u) ++ zr K)) as Hi2. { rewrite -ino_plug -EZ HI. by apply set_add_inc. }
  iDestruct (tree_at with "HT") as "[HK HT]".
  wbind. iApply (twp_get_fuel (ctxp K (rp (Bin l (j, y) u))) (length K)); [apply plug_atleast|]. iFrame "HK". iIntros (fu Hfu) "HK".
  wbind. iApply (twp_recolor fu K l j y u); [lia| |done|].
  { intros _. rewrite -(rp_zinsert CRB x new (Pay x 0 (Fin 0) Red)) // EZ rp_plug. done. }
  iFrame "HK HT". iIntros "HT". wbind. iApply twp_set_root.
  pose proof (rcl_ino K (Bin l (j, y) u) ltac:(done)) as HRI. rewrite -EZ HI in HRI.
  destruct (rcl K (Bin l (j, y) u)) as [|l' [j' y'] u'] eqn:ER; [by apply rcl_ne in ER|]. cbn [rp fst tree snd]. iDestruct "HT" as "(Hj & Hl & Hu)".
  wbind. wret. wbind. iApply twp_set_color. iFrame "Hj". iIntros "Hj". wret. cbn [fst].
  wpost (Bin l' (j', pay_color Black y') u' : ptree); [done|exact HRI|done| |done| |].
  - destruct HRB as [[Hm [N HN]]|[Hm Hb]]; (split; [|done || intros _]).
    + intros _. done.
    + split; [done|]. pose proof (rbt_paint Black _ _ HN (or_introl eq_refl)) as Hp. eexists. exact Hp.
    + intros [_ [N HN]]. exfalso. revert HN. apply brk2_brk. exact Hb.
  - assert (ino (Bin l' (j', pay_color Black y') u') = set_add x (ino T)) as HRI2 by exact HRI. rewrite -(ino_length (Bin l' (j', pay_color Black y') u')) HRI2 HSz. destruct (zfind x T).2; lia.
  - cbn [tree fst snd]. iFrame.
Qed.
(** ** Straight insertions are mended *)
Lemma str_rok m : forall K c b, length K <= m -> str b K -> (c = Black -> b = true) -> rok c K.
Proof.
  unfold rok. induction m as [|m IH]; intros K c b Hm HS Hb; [by destruct K; cbn in Hm; [|lia]|].
  destruct K as [|f [|g K]]; [done|by cbn; destruct (col (fnode f))|]. cbn [map fr mends]. destruct (col (fnode f)) eqn:Ef; [done|].
  pose proof (str_tail _ _ _ (str_tail _ _ _ HS)) as HS2. cbn in Hm. cbn [str] in HS. destruct HS as [HS _].
  destruct (colr (sib g)); [|by apply (IH _ _ true); [lia| |]]. split; [|by apply (IH _ _ true); [lia| |]].
  destruct c; [|by left]. right. by apply HS; [apply Hb|].
Qed.
Lemma straight_mended x (T : ptree) : straight x None (bin_map snd T) -> mended x (bin_map snd T).
Proof.
  intros H. apply mended_zfind. pose proof (straight_str x T [] I H) as HS. rewrite app_nil_r in HS. eapply str_rok; [done|exact HS|]. by destruct (zfind x T).2.
Qed.
Lemma tag_tree (t : bin pay) : exists T : ptree, t = bin_map snd T.
Proof. induction t as [|l [L ->] x r [R ->]]; [by exists Nil|]. by exists (Bin L (0, x) R). Qed.
