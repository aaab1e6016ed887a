(** * RedBlackTree.remove through __handle_double_black: proofs *)
From Coq Require Import Sorted.
From iris.proofmode Require Import proofmode.
From Verif Require Import Base NumOrd TreeModel TreeSpec BstModel BalModel BstSpec BstSep BstRules BstZip BstDel BinThm BstPure BstThm AvlThm SplayThm RbThm.
Local Open Scope py_scope.

(** ** Programs that may raise *)
Definition catch {A} (m : M tst A) : M tst (exn + A) :=
  fun s => match m s with Ok a s' => Ok (inr a) s' | Exc e s' => Ok (inl e) s' | Diverge => Diverge end.
Section rules.
Implicit Types (r : option nat) (n : Z).
Lemma twp_catch {A} (m : M tst A) r n Q : twp m r n (fun a => Q (inr a)) ⊢ twp (catch m) r n Q.
Proof.
  constructor. intros h H s hf Hd Hm Hr Hn. specialize (H s hf Hd Hm Hr Hn). unfold catch. destruct (m s); done.
Qed.
Lemma twp_cbind {A B} (m : M tst A) (k : A -> M tst B) r n Q :
  twp m r n (fun a r' n' => twp (catch (k a)) r' n' Q) ⊢ twp (catch (bind m k)) r n Q.
Proof.
  constructor. intros h H s hf Hd Hm Hr Hn. unfold catch, bind. specialize (H s hf Hd Hm Hr Hn).
  destruct (m s) as [a s'|e s'|]; [|done..]. destruct H as (h' & Hd' & Hm' & H').
  specialize (H' s' hf Hd' Hm' eq_refl eq_refl). unfold catch in H'. exact H'.
Qed.
Lemma twp_ccbind {A B} (m : M tst A) (k : A -> M tst B) r n Q :
  twp (catch m) r n (fun a r' n' => match a with inl e => Q (inl e) r' n' | inr a => twp (catch (k a)) r' n' Q end) ⊢ twp (catch (bind m k)) r n Q.
Proof.
  constructor. intros h H s hf Hd Hm Hr Hn. unfold catch, bind in *. specialize (H s hf Hd Hm Hr Hn). cbn beta in H.
  destruct (m s) as [a s'|e s'|]; [|done..]. destruct H as (h' & Hd' & Hm' & H').
  specialize (H' s' hf Hd' Hm' eq_refl eq_refl). exact H'.
Qed.
Lemma twp_raise {A} e r n (Q : exn + A -> option nat -> Z -> hprop) : Q (inl e) r n ⊢ twp (catch (raise e)) r n Q.
Proof. constructor. intros h HQ s hf Hd Hm Hr Hn. cbn. exists h. split_and!; try done. by rewrite Hr Hn. Qed.
Lemma twp_raise_bind {A B} e (k : A -> M tst B) r n Q : Q (inl e) r n ⊢ twp (catch (bind (raise e) k)) r n Q.
Proof. constructor. intros h HQ s hf Hd Hm Hr Hn. cbn. exists h. split_and!; try done. by rewrite Hr Hn. Qed.
End rules.
Ltac cbind := iApply twp_cbind.
Ltac cget := unfold get_left, get_right, get_parent, get_data; cbind; wbind; wrd; wret.

Lemma recontext_rb t K : recontext CRB t K = K.
Proof. by destruct K as [|[[] ?|? []] ?]. Qed.

(** ** One turn *)
(** The parts of [double_black_step] after a red sibling has been dealt with. *)
Definition turnL (ps : nat * option nat) : M tst (nat * option nat) :=
    let parent := fst ps in
    let! sibling := deref (snd ps) in
    let! sl := get_left sibling in
    let! sr := get_right sibling in
    let! cl := color_of sl in
    let! cr := color_of sr in
    if negb (is_red cl) && negb (is_red cr) then
      set_color sibling Red ;;
      ret (parent, Some parent)
    else
      let! sibling := (if negb (is_red cr) then
                         let! sl' := deref sl in
                         set_color sl' Black ;;
                         set_color sibling Red ;;
                         let! s1 := rotate_right CRB sibling in
                         attach CRB (Some parent) s1 ;;
                         let! s2 := get_right parent in
                         deref s2
                       else ret sibling) in
      let! cp := get_color parent in
      set_color sibling cp ;;
      set_color parent Black ;;
      let! sr := get_right sibling in
      let! sr' := deref sr in
      set_color sr' Black ;;
      let! grandparent := get_parent parent in
      let! p1 := rotate_left CRB parent in
      attach CRB grandparent p1 ;;
      let! root := get_root in
      ret (p1, root).
Definition turnR (ps : nat * option nat) : M tst (nat * option nat) :=
    let parent := fst ps in
    let! sibling := deref (snd ps) in
    let! sl := get_left sibling in
    let! sr := get_right sibling in
    let! cl := color_of sl in
    let! cr := color_of sr in
    if negb (is_red cr) && negb (is_red cr) then
      set_color sibling Red ;;
      ret (parent, Some parent)
    else
      let! sibling := (if negb (is_red cl) then
                         let! sr' := deref sr in
                         set_color sr' Black ;;
                         set_color sibling Red ;;
                         let! s1 := rotate_left CRB sibling in
                         attach CRB (Some parent) s1 ;;
                         let! s2 := get_left parent in
                         deref s2
                       else ret sibling) in
      let! cp := get_color parent in
      set_color sibling cp ;;
      set_color parent Black ;;
      let! sl := get_left sibling in
      let! sl' := deref sl in
      set_color sl' Black ;;
      let! grandparent := get_parent parent in
      let! p1 := rotate_right CRB parent in
      attach CRB grandparent p1 ;;
      let! root := get_root in
      ret (p1, root).
Definition sibL (parent : nat) : M tst (nat * option nat) :=
    let! s := get_right parent in
    let! cs := color_of s in
    if is_red cs then
                  let! sibling := deref s in
                  set_color sibling Black ;;
                  set_color parent Red ;;
                  let! grandparent := get_parent parent in
                  let! p1 := rotate_left CRB parent in
                  attach CRB grandparent p1 ;;
                  let! p2 := get_left p1 in
                  let! p3 := deref p2 in
                  let! s1 := get_right p3 in
                  ret (p3, s1)
                else ret (parent, s).
Definition sibR (parent : nat) : M tst (nat * option nat) :=
    let! s := get_left parent in
    let! cs := color_of s in
    if is_red cs then
                  let! sibling := deref s in
                  set_color sibling Black ;;
                  set_color parent Red ;;
                  let! grandparent := get_parent parent in
                  let! p1 := rotate_right CRB parent in
                  attach CRB grandparent p1 ;;
                  let! p2 := get_right p1 in
                  let! p3 := deref p2 in
                  let! s1 := get_left p3 in
                  ret (p3, s1)
                else ret (parent, s).
Lemma bind_cong {A B} (m : M tst A) (k k' : A -> M tst B) s : (forall a s', k a s' = k' a s') -> bind m k s = bind m k' s.
Proof. intros H. unfold bind. destruct (m s); [apply H|done..]. Qed.
Definition step2 (parent : nat) (db : option nat) : M tst (nat * option nat) :=
  let! pl := get_left parent in if bool_decide (db = pl) then (let! ps := sibL parent in turnL ps) else (let! ps := sibR parent in turnR ps).
Lemma step_eq parent db s : double_black_step parent db s = step2 parent db s.
Proof.
  unfold step2, double_black_step. apply bind_cong. intros pl s1. case_bool_decide.
  - unfold sibL. unfold bind. destruct (get_right parent s1); [|done..]. destruct (color_of a s0); done.
  - unfold sibR. unfold bind. destruct (get_left parent s1); [|done..]. destruct (color_of a s0); done.
Qed.
Lemma twp_ext {A} (m m' : M tst A) r n Q : (forall s, m s = m' s) -> twp m' r n Q ⊢ twp m r n Q.
Proof. intros E. constructor. intros h H s hf Hd Hm Hr Hn. rewrite E. exact (H s hf Hd Hm Hr Hn). Qed.

(** What one turn makes of the tree below the parent, when it lends a red node. *)
Definition turnedL (l : ptree) (p : nat * pay) (S : ptree) : ptree :=
  match S with
  | Nil => Nil
  | Bin a s b =>
      if is_red (colr b) then Bin (Bin l (pc Black p) a) (pc (col p) s) (paint Black b)
      else match a with
           | Nil => Nil
           | Bin a1 q a2 => Bin (Bin l (pc Black p) a1) (pc (col p) q) (Bin a2 (pc Black s) b)
           end
  end.
Definition turnedR (S : ptree) (p : nat * pay) (l : ptree) : ptree :=
  match S with
  | Nil => Nil
  | Bin a s b =>
      if is_red (colr a) then Bin (paint Black a) (pc (col p) s) (Bin b (pc Black p) l)
      else match b with
           | Nil => Nil
           | Bin b1 q b2 => Bin (Bin a (pc Black s) b1) (pc (col p) q) (Bin b2 (pc Black p) l)
           end
  end.
Definition lendL (S : ptree) : bool := match S with Nil => false | Bin a _ b => is_red (colr a) || is_red (colr b) end.
Definition lendR (S : ptree) : bool := match S with Nil => false | Bin a _ b => is_red (colr b) end.
Lemma ino_turnedL l p S : lendL S = true -> ino (turnedL l p S) = ino (Bin l p S).
Proof.
  destruct S as [|a s b]; [done|]. cbn [lendL turnedL]. intros H. destruct (is_red (colr b)) eqn:Eb.
  - cbn [ino pc snd pay_color p_val]. rewrite ino_paint. by rewrite -?app_assoc.
  - rewrite orb_false_r in H. destruct a as [|a1 q a2]; [done|]. cbn [ino pc snd pay_color p_val]. by rewrite -?app_assoc /= -?app_assoc /= -?app_assoc.
Qed.
Lemma ino_turnedR l p S : lendR S = true -> ino (turnedR S p l) = ino (Bin S p l).
Proof.
  destruct S as [|a s b]; [done|]. cbn [lendR turnedR]. intros H. destruct (is_red (colr a)) eqn:Eb.
  - cbn [ino pc snd pay_color p_val]. rewrite ino_paint. by rewrite -?app_assoc.
  - destruct b as [|a1 q a2]; [done|]. cbn [ino pc snd pay_color p_val]. by rewrite -?app_assoc /= -?app_assoc /= -?app_assoc.
Qed.
Lemma is_red_false k : is_red k = false -> k = Black. Proof. by destruct k. Qed.
Lemma is_red_true k : is_red k = true -> k = Red. Proof. by destruct k. Qed.

Section turn.
Implicit Types (r : option nat) (n : Z).
Lemma twp_attach_rb k p t j r n Q : rp t = Some j -> increasing (zl k ++ ino t ++ zr k) -> (k <> [] -> r = croot k p) ->
  ctxp k p ∗ tree (cpar k) t ∗ (tree None (plug k t) -∗ Q tt (rp (plug k t)) n) ⊢
  twp (attach CRB (cpar k) j) r n Q.
Proof.
  intros Hj Hi Hr. iIntros "(Hk & Ht & HQ)". iApply (twp_attach CRB k p (cpar k) t j); [done|by apply side_ok_in|]. iFrame "Hk Ht". rewrite recontext_rb.
  iIntros "Hk Ht". rewrite rp_plug Hj. destruct k as [|f k].
  - cbn [croot plug]. iApply "HQ". done.
  - rewrite Hr //. assert (croot (f :: k) p = croot (f :: k) (Some j)) as -> by done. iApply "HQ". iApply at_tree. rewrite Hj. iFrame.
Qed.
Lemma twp_turnL K l pi px S r n Q : increasing (ino (plug K (Bin l (pi, px) S))) -> (K <> [] -> r = croot K (Some pi)) ->
  ctxp K (Some pi) ∗ tree (cpar K) (Bin l (pi, px) S) ∗
  (if lendL S then ∀ m, tree None (plug K (turnedL l (pi, px) S)) -∗ Q (inr (m, rp (plug K (turnedL l (pi, px) S)))) (rp (plug K (turnedL l (pi, px) S))) n
   else match S with
        | Nil => Q (inl AttributeError) r n
        | _ => ctxp K (Some pi) -∗ tree (cpar K) (Bin l (pi, px) (paint Red S)) -∗ Q (inr (pi, Some pi)) r n
        end) ⊢
  twp (catch (turnL (pi, rp S))) r n Q.
Proof.
  intros Hinc Hr. iIntros "(HK & HT & HQ)". unfold turnL. cbn [fst snd].
  destruct S as [|a [si sx] b]; cbn [rp deref fst].
  { iApply twp_raise_bind. done. }
  pose proof (ino_turnedL l (pi, px) (Bin a (si, sx) b)) as Hino.
  cbn [lendL turnedL] in *. rewrite ino_plug in Hinc. rewrite orb_comm in Hino. rewrite orb_comm.
  cbn [tree fst snd rp]. iDestruct "HT" as "(Hp & Hl & Hs & Ha & Hb)".
  cbind. wret. cget. cget. cbind. iApply twp_color_of. iFrame "Ha". iIntros "Ha". cbind. iApply twp_color_of. iFrame "Hb". iIntros "Hb".
  destruct (is_red (colr b)) eqn:Eb; cbn [orb].
  - (* the far nephew is red *)
    specialize (Hino eq_refl). rewrite -Hino in Hinc. rewrite andb_false_r. cbn [negb].
    destruct b as [|b1 [bi bx] b2]; [done|]. cbn [tree fst snd rp paint] in *. iDestruct "Hb" as "(Hb & Hb1 & Hb2)".
    cbind. wret. cbind. iApply twp_get_color. iFrame "Hp". iIntros "Hp". cbind. iApply twp_set_color. iFrame "Hs". iIntros "Hs".
    cbind. iApply twp_set_color. iFrame "Hp". iIntros "Hp". cget. cbind. wret. cbind. iApply twp_set_color. iFrame "Hb". iIntros "Hb".
    cget. cbind.
    iApply (twp_rotate_left CRB (cpar K) l pi (pay_color Black px) a si (pay_color (p_color px) sx) (Bin b1 (bi, pay_color Black bx) b2)).
    cbn [tree fst snd rp]. iFrame "Hp Hl Hs Ha Hb Hb1 Hb2". iIntros "HT".
    cbind. iApply (twp_attach_rb K (Some pi) (Bin (Bin l (pi, pay_color Black px) a) (si, pay_color (p_color px) sx) (Bin b1 (bi, pay_color Black bx) b2)) si); [done|exact Hinc|done|].
    iFrame "HK HT". iIntros "HT". cbind. iApply twp_get_root. iApply twp_catch. wret. iApply ("HQ" $! si with "HT").
  - destruct (is_red (colr a)) eqn:Ea; cbn [negb andb].
    2:{ cbind. iApply twp_set_color. iFrame "Hs". iIntros "Hs". iApply twp_catch. wret. iApply ("HQ" with "HK"). cbn [tree fst snd rp paint pc]. iFrame. }
    specialize (Hino eq_refl).
    destruct a as [|a1 [ai ax] a2]; [done|]. cbn [tree fst snd rp]. iDestruct "Ha" as "(Ha & Ha1 & Ha2)".
    assert (num_ltb (p_val ax) (p_val px) = false) as Hside.
    { cbn [ino snd] in Hinc. rewrite -!app_assoc /= in Hinc. rewrite app_assoc in Hinc. apply (inc_in_mid _ _ _ (p_val ax) Hinc). set_solver. }
    rewrite -Hino in Hinc.
    cbind. cbn [deref]. wbind. wret. wbind. iApply twp_set_color. iFrame "Ha". iIntros "Ha". wbind. iApply twp_set_color. iFrame "Hs". iIntros "Hs".
    wbind. iApply (twp_rotate_right CRB (Some pi) a1 si (pay_color Red sx) a2 ai (pay_color Black ax) b).
    cbn [tree fst snd rp]. iFrame "Hs Ha Ha1 Ha2 Hb". cbn [node refresh fst snd]. iIntros "(Ha & Ha1 & Hs & Ha2 & Hb)". cbn [fst snd].
    wbind. cbn [attach]. wget. wget. cbn [pay_color p_val]. rewrite Hside.
    iApply (twp_set_right CRB pi (Some ai) _ _ (Bin a1 (ai, pay_color Black ax) (Bin a2 (si, pay_color Red sx) b)) (Some pi) l); [done|done|].
    cbn [tree fst snd rp refresh]. iFrame "Hp Ha Ha1 Hs Ha2 Hb Hl". iIntros "Hp (Ha & Ha1 & Hs & Ha2 & Hb) Hl". wget. cbn [deref]. wret.
    cbind. iApply twp_get_color. iFrame "Hp". iIntros "Hp". cbind. iApply twp_set_color. iFrame "Ha". iIntros "Ha".
    cbind. iApply twp_set_color. iFrame "Hp". iIntros "Hp". cget. cbind. wret. cbind. iApply twp_set_color. iFrame "Hs". iIntros "Hs".
    cget. cbind.
    iApply (twp_rotate_left CRB (cpar K) l pi (pay_color Black px) a1 ai (pay_color (p_color px) (pay_color Black ax)) (Bin a2 (si, pay_color Black (pay_color Red sx)) b)).
    cbn [tree fst snd rp]. iFrame "Hp Hl Ha Ha1 Hs Ha2 Hb". iIntros "HT".
    cbind. iApply (twp_attach_rb K (Some pi) (Bin (Bin l (pi, pay_color Black px) a1) (ai, pay_color (p_color px) ax) (Bin a2 (si, pay_color Black sx) b)) ai); [done|exact Hinc|done|].
    iFrame "HK HT". iIntros "HT". cbind. iApply twp_get_root. iApply twp_catch. wret. iApply ("HQ" $! ai with "HT").
Qed.
Lemma twp_turnR K l pi px S r n Q : increasing (ino (plug K (Bin S (pi, px) l))) -> (K <> [] -> r = croot K (Some pi)) ->
  ctxp K (Some pi) ∗ tree (cpar K) (Bin S (pi, px) l) ∗
  (if lendR S then ∀ m, tree None (plug K (turnedR S (pi, px) l)) -∗ Q (inr (m, rp (plug K (turnedR S (pi, px) l)))) (rp (plug K (turnedR S (pi, px) l))) n
   else match S with
        | Nil => Q (inl AttributeError) r n
        | _ => ctxp K (Some pi) -∗ tree (cpar K) (Bin (paint Red S) (pi, px) l) -∗ Q (inr (pi, Some pi)) r n
        end) ⊢
  twp (catch (turnR (pi, rp S))) r n Q.
Proof.
  intros Hinc Hr. iIntros "(HK & HT & HQ)". unfold turnR. cbn [fst snd].
  destruct S as [|a [si sx] b]; cbn [rp deref fst].
  { iApply twp_raise_bind. done. }
  pose proof (ino_turnedR l (pi, px) (Bin a (si, sx) b)) as Hino.
  cbn [lendR turnedR] in *. rewrite ino_plug in Hinc.
  cbn [tree fst snd rp]. iDestruct "HT" as "(Hp & (Hs & Ha & Hb) & Hl)". cbn [fst snd].
  cbind. wret. cget. cget. cbind. iApply twp_color_of. iFrame "Ha". iIntros "Ha". cbind. iApply twp_color_of. iFrame "Hb". iIntros "Hb".
  destruct (is_red (colr b)) eqn:Eb; cbn [andb negb].
  2:{ cbind. iApply twp_set_color. iFrame "Hs". iIntros "Hs". iApply twp_catch. wret. iApply ("HQ" with "HK"). cbn [tree fst snd rp paint pc]. iFrame. }
  specialize (Hino eq_refl).
  destruct b as [|b1 [bi bx] b2]; [done|]. cbn [tree fst snd rp] in *. iDestruct "Hb" as "(Hb & Hb1 & Hb2)". cbn [fst snd].
  assert (num_ltb (p_val bx) (p_val px) = true) as Hside.
  { cbn [ino snd] in Hinc. rewrite -!app_assoc /= in Hinc. rewrite -!app_assoc /= in Hinc.
    assert (zl K ++ ino a ++ p_val sx :: ino b1 ++ p_val bx :: ino b2 ++ p_val px :: ino l ++ zr K = (zl K ++ ino a ++ p_val sx :: ino b1 ++ p_val bx :: ino b2) ++ p_val px :: ino l ++ zr K) as E by (by repeat (rewrite -?app_assoc; cbn [app])).
    repeat (rewrite -?app_assoc in Hinc; cbn [app] in Hinc). rewrite E in Hinc. apply (inc_in_mid _ _ _ (p_val bx) Hinc). set_solver. }
  rewrite -Hino in Hinc.
  destruct (is_red (colr a)) eqn:Ea; cbn [negb].
  - destruct a as [|a1 [ai ax] a2]; [done|]. cbn [tree fst snd rp paint] in *. iDestruct "Ha" as "(Ha & Ha1 & Ha2)". cbn [fst snd].
    cbind. wret. cbind. iApply twp_get_color. iFrame "Hp". iIntros "Hp". cbind. iApply twp_set_color. iFrame "Hs". iIntros "Hs".
    cbind. iApply twp_set_color. iFrame "Hp". iIntros "Hp". cget. cbind. wret. cbind. iApply twp_set_color. iFrame "Ha". iIntros "Ha".
    cget. cbind.
    iApply (twp_rotate_right CRB (cpar K) (Bin a1 (ai, pay_color Black ax) a2) pi (pay_color Black px) (Bin b1 (bi, bx) b2) si (pay_color (p_color px) sx) l).
    cbn [tree fst snd rp]. iFrame "Hp Hl Hs Ha Ha1 Ha2 Hb Hb1 Hb2". iIntros "HT".
    cbind. iApply (twp_attach_rb K (Some pi) (Bin (Bin a1 (ai, pay_color Black ax) a2) (si, pay_color (p_color px) sx) (Bin (Bin b1 (bi, bx) b2) (pi, pay_color Black px) l)) si); [done|exact Hinc|done|].
    iFrame "HK HT". iIntros "HT". cbind. iApply twp_get_root. iApply twp_catch. wret. iApply ("HQ" $! si with "HT").
  - cbind. cbn [deref]. wbind. wret. wbind. iApply twp_set_color. iFrame "Hb". iIntros "Hb". wbind. iApply twp_set_color. iFrame "Hs". iIntros "Hs".
    wbind. iApply (twp_rotate_left CRB (Some pi) a si (pay_color Red sx) b1 bi (pay_color Black bx) b2).
    cbn [tree fst snd rp]. iFrame "Hs Ha Hb Hb1 Hb2". cbn [node refresh fst snd]. iIntros "(Hb & (Hs & Ha & Hb1) & Hb2)". cbn [fst snd].
    wbind. cbn [attach]. wget. wget. cbn [pay_color p_val]. rewrite Hside.
    iApply (twp_set_left CRB pi (Some bi) _ _ (Bin (Bin a (si, pay_color Red sx) b1) (bi, pay_color Black bx) b2) (Some pi) l); [done|done|].
    cbn [tree fst snd rp refresh]. iFrame "Hp Hb Hb1 Hs Hb2 Ha Hl". iIntros "Hp (Hb & (Hs & Ha & Hb1) & Hb2) Hl". cbn [fst snd]. wget. cbn [deref]. wret.
    cbind. iApply twp_get_color. iFrame "Hp". iIntros "Hp". cbind. iApply twp_set_color. iFrame "Hb". iIntros "Hb".
    cbind. iApply twp_set_color. iFrame "Hp". iIntros "Hp". cget. cbind. wret. cbind. iApply twp_set_color. iFrame "Hs". iIntros "Hs".
    cget. cbind.
    iApply (twp_rotate_right CRB (cpar K) (Bin a (si, pay_color Black (pay_color Red sx)) b1) pi (pay_color Black px) b2 bi (pay_color (p_color px) (pay_color Black bx)) l).
    cbn [tree fst snd rp]. iFrame "Hp Hl Hb Hb1 Hs Ha Hb2". iIntros "HT".
    cbind. iApply (twp_attach_rb K (Some pi) (Bin (Bin a (si, pay_color Black sx) b1) (bi, pay_color (p_color px) bx) (Bin b2 (pi, pay_color Black px) l)) bi); [done|exact Hinc|done|].
    iFrame "HK HT". iIntros "HT". cbind. iApply twp_get_root. iApply twp_catch. wret. iApply ("HQ" $! bi with "HT").
Qed.

(** A red sibling is rotated up first. *)
Lemma twp_sibL K l pi px S r n Q : increasing (ino (plug K (Bin l (pi, px) S))) -> (K <> [] -> r = croot K (Some pi)) ->
  ctxp K (Some pi) ∗ tree (cpar K) (Bin l (pi, px) S) ∗
  match S with
  | Bin a (si, sx) b =>
     if is_red (p_color sx) then
       tree None (plug K (Bin (Bin l (pi, pay_color Red px) a) (si, pay_color Black sx) b)) -∗ Q (pi, rp a) (croot K (Some si)) n
     else ctxp K (Some pi) -∗ tree (cpar K) (Bin l (pi, px) S) -∗ Q (pi, rp S) r n
  | Nil => ctxp K (Some pi) -∗ tree (cpar K) (Bin l (pi, px) S) -∗ Q (pi, rp S) r n
  end ⊢ twp (sibL pi) r n Q.
Proof.
  intros Hinc Hr. iIntros "(HK & HT & HQ)". unfold sibL. cbn [tree fst snd rp]. iDestruct "HT" as "(Hp & Hl & Hs)". wget.
  wbind. iApply twp_color_of. iFrame "Hs". iIntros "Hs". destruct S as [|a [si sx] b]; cbn [colr snd is_red].
  { wret. iApply ("HQ" with "HK"). cbn [tree fst snd rp]. iFrame. }
  destruct (is_red (p_color sx)).
  2:{ wret. iApply ("HQ" with "HK"). cbn [tree fst snd rp]. iFrame. }
  cbn [tree fst snd rp deref]. iDestruct "Hs" as "(Hs & Ha & Hb)". cbn [fst snd]. wbind. wret. wbind. iApply twp_set_color. iFrame "Hs". iIntros "Hs".
  wbind. iApply twp_set_color. iFrame "Hp". iIntros "Hp". wget. wbind.
  iApply (twp_rotate_left CRB (cpar K) l pi (pay_color Red px) a si (pay_color Black sx) b). cbn [tree fst snd rp]. iFrame "Hp Hl Hs Ha Hb". iIntros "HT".
  wbind. iApply (twp_attach_rb K (Some pi) (Bin (Bin l (pi, pay_color Red px) a) (si, pay_color Black sx) b) si); [done| |done|].
  { rewrite ino_plug in Hinc. cbn [ino snd pay_color p_val] in *. by rewrite -!app_assoc /= -!app_assoc in Hinc |- *. }
  iFrame "HK HT". iIntros "HT". rewrite rp_plug. cbn [rp fst].
  iDestruct (tree_at with "HT") as "[HK (Hs & (Hp & Hl & Ha) & Hb)]". cbn [fst snd rp]. wget. cbn [deref]. wbind. wret. wget. wret. iApply "HQ".
  iApply at_tree. cbn [tree fst snd rp]. iFrame.
Qed.
Lemma twp_sibR K l pi px S r n Q : increasing (ino (plug K (Bin S (pi, px) l))) -> (K <> [] -> r = croot K (Some pi)) ->
  ctxp K (Some pi) ∗ tree (cpar K) (Bin S (pi, px) l) ∗
  match S with
  | Bin a (si, sx) b =>
     if is_red (p_color sx) then
       tree None (plug K (Bin a (si, pay_color Black sx) (Bin b (pi, pay_color Red px) l))) -∗ Q (pi, rp b) (croot K (Some si)) n
     else ctxp K (Some pi) -∗ tree (cpar K) (Bin S (pi, px) l) -∗ Q (pi, rp S) r n
  | Nil => ctxp K (Some pi) -∗ tree (cpar K) (Bin S (pi, px) l) -∗ Q (pi, rp S) r n
  end ⊢ twp (sibR pi) r n Q.
Proof.
  intros Hinc Hr. iIntros "(HK & HT & HQ)". unfold sibR. cbn [tree fst snd rp]. iDestruct "HT" as "(Hp & Hs & Hl)". wget.
  wbind. iApply twp_color_of. iFrame "Hs". iIntros "Hs". destruct S as [|a [si sx] b]; cbn [colr snd is_red].
  { wret. iApply ("HQ" with "HK"). cbn [tree fst snd rp]. iFrame. }
  destruct (is_red (p_color sx)).
  2:{ wret. iApply ("HQ" with "HK"). cbn [tree fst snd rp]. iFrame. }
  cbn [tree fst snd rp deref]. iDestruct "Hs" as "(Hs & Ha & Hb)". cbn [fst snd]. wbind. wret. wbind. iApply twp_set_color. iFrame "Hs". iIntros "Hs".
  wbind. iApply twp_set_color. iFrame "Hp". iIntros "Hp". wget. wbind.
  iApply (twp_rotate_right CRB (cpar K) a pi (pay_color Red px) b si (pay_color Black sx) l). cbn [tree fst snd rp]. iFrame "Hp Hl Hs Ha Hb". iIntros "HT".
  wbind. iApply (twp_attach_rb K (Some pi) (Bin a (si, pay_color Black sx) (Bin b (pi, pay_color Red px) l)) si); [done| |done|].
  { rewrite ino_plug in Hinc. cbn [ino snd pay_color p_val] in *. by rewrite -!app_assoc /= -!app_assoc in Hinc |- *. }
  iFrame "HK HT". iIntros "HT". rewrite rp_plug. cbn [rp fst].
  iDestruct (tree_at with "HT") as "[HK (Hs & Ha & (Hp & Hb & Hl))]". cbn [fst snd rp]. wget. cbn [deref]. wbind. wret. wget. wret. iApply "HQ".
  iApply at_tree. cbn [tree fst snd rp]. iFrame.
Qed.
End turn.

(** ** The loop *)
(** What is left when the place left (right) of [p] has lost a black node, [S] being on the
    other side; [None]: AttributeError. *)
Definition outL (K : ctx) (p : nat * pay) (S : ptree) : option ptree :=
  match S with
  | Nil => None
  | Bin a s b =>
      if is_red (col s) then
        match a with
        | Nil => None
        | _ => Some (plug K (Bin (if lendL a then turnedL Nil (pc Red p) a else Bin Nil (pc Red p) (paint Red a)) (pc Black s) b))
        end
      else if lendL S then Some (plug K (turnedL Nil p S))
      else match K with
           | [] => Some (Bin Nil p (paint Red S))
           | _ => if is_red (col p) then Some (plug K (Bin Nil p (paint Red S))) else None
           end
  end.
Definition outR (K : ctx) (S : ptree) (p : nat * pay) : option ptree :=
  match S with
  | Nil => None
  | Bin a s b =>
      if is_red (col s) then
        match b with
        | Nil => None
        | _ => Some (plug K (Bin a (pc Black s) (if lendR b then turnedR b (pc Red p) Nil else Bin (paint Red b) (pc Red p) Nil)))
        end
      else if lendR S then Some (plug K (turnedR S p Nil))
      else match K with
           | [] => Some (Bin (paint Red S) p Nil)
           | _ => if is_red (col p) then Some (plug K (Bin (paint Red S) p Nil)) else None
           end
  end.
Lemma ino_paint_in K p S : ino (plug K (Bin Nil p (paint Red S))) = ino (plug K (Bin Nil p S)).
Proof. rewrite !ino_plug. cbn [ino]. by rewrite ino_paint. Qed.
Lemma outL_ino K p S T : outL K p S = Some T -> ino T = ino (plug K (Bin Nil p S)).
Proof.
  destruct S as [|a s b]; [done|]. cbn [outL]. destruct (is_red (col s)).
  - destruct a as [|a1 q a2] eqn:Ea; [done|]. rewrite -Ea. intros <-%(inj Some). rewrite !ino_plug. refine (f_equal (fun X => zl K ++ X ++ zr K) _). cbn [ino pc snd pay_color p_val].
    destruct (lendL a) eqn:El; cbv iota; [rewrite ino_turnedL //|cbn [ino]; rewrite ino_paint]; done.
  - destruct (lendL (Bin a s b)) eqn:El.
    + intros <-%(inj Some). rewrite !ino_plug ino_turnedL //.
    + destruct K as [|f K]; [by intros <-%(inj Some)|]. destruct (is_red (col p)); [|done]. intros <-%(inj Some). apply ino_paint_in.
Qed.
Lemma outR_ino K p S T : outR K S p = Some T -> ino T = ino (plug K (Bin S p Nil)).
Proof.
  destruct S as [|a s b]; [done|]. cbn [outR]. destruct (is_red (col s)).
  - destruct b as [|a1 q a2] eqn:Ea; [done|]. rewrite -Ea. intros <-%(inj Some). rewrite !ino_plug. refine (f_equal (fun X => zl K ++ X ++ zr K) _). cbn [ino pc snd pay_color p_val].
    rewrite -app_assoc /=.
    destruct (lendR b) eqn:El; cbv iota; [rewrite ino_turnedR //|cbn [ino]; rewrite ino_paint]; done.
  - destruct (lendR (Bin a s b)) eqn:El.
    + intros <-%(inj Some). rewrite !ino_plug ino_turnedR //.
    + destruct K as [|f K]; [by intros <-%(inj Some)|]. destruct (is_red (col p)); [|done]. intros <-%(inj Some). rewrite !ino_plug. cbn [ino]. by rewrite ino_paint.
Qed.
Lemma bsize_ino (T T' : ptree) : ino T = ino T' -> bsize T = bsize T'.
Proof. intros E. by rewrite -!ino_length E. Qed.
Lemma plug_bin K l p u : exists l' j u', plug K (Bin l p u) = Bin l' j u'.
Proof.
  revert l p u. induction K as [|f K IH]; intros l p u; [by exists l, p, u|]. cbn [plug]. destruct f; apply IH.
Qed.

Section loop.
Implicit Types (r : option nat) (n : Z).
Lemma twp_loop fu m db r n Q : 1 <= fu -> db <> r ->
  twp (color_of db) r n (fun c r' n' => if is_red c then Q (inr tt) r' n' else twp (catch (let! x := double_black_step m db in double_black_loop (fu - 1) (fst x) (snd x))) r' n' Q)
  ⊢ twp (catch (double_black_loop fu m db)) r n Q.
Proof.
  intros Hfu Hr. destruct fu as [|fu]; [lia|]. cbn [double_black_loop]. iIntros "H". cbind. iApply twp_get_root. cbind.
  iApply twp_wand. iFrame "H". iIntros (c r' n') "H". rewrite bool_decide_eq_false_2 //. cbn [negb andb]. destruct (is_red c); cbn [negb].
  - iApply twp_catch. wret. done.
  - replace (S fu - 1) with fu by lia. done.
Qed.
Lemma twp_loop_root fu m l i x u r n Q : r = Some i ->
  tree None (Bin l (i, x) u) ∗ (tree None (Bin l (i, x) u) -∗ Q (inr tt) r n) ⊢ twp (catch (double_black_loop fu m r)) r n Q.
Proof.
  intros ->. iIntros "[HT HQ]". destruct fu; cbn [double_black_loop]; (cbind; iApply twp_get_root; cbind;
  iApply (twp_color_of None (Bin l (i, x) u)); iFrame "HT"; iIntros "HT"; rewrite bool_decide_eq_true_2 //; cbn [negb andb]; iApply twp_catch; wret; by iApply "HQ").
Qed.
Lemma twp_step_left K pi px S r n Q : r = rp (plug K (Bin Nil (pi, px) S)) ->
  tree None (plug K (Bin Nil (pi, px) S)) ∗
  (tree None (plug K (Bin Nil (pi, px) S)) -∗ twp (catch (let! ps := sibL pi in turnL ps)) r n Q) ⊢
  twp (catch (double_black_step pi None)) r n Q.
Proof.
  intros ->. iIntros "[HT HQ]". iApply (twp_ext _ (catch (step2 pi None))).
  { intros s. unfold catch. by rewrite step_eq. }
  iDestruct (tree_at with "HT") as "[HK (Hp & Hl & Hu)]". cbn [fst snd rp]. unfold step2. cget. rewrite bool_decide_eq_true_2 //. iApply "HQ". iApply at_tree. cbn [tree fst snd rp]. iFrame.
Qed.
Lemma twp_step_right K pi px db S l r n Q : r = rp (plug K (Bin S (pi, px) l)) -> db <> rp S ->
  tree None (plug K (Bin S (pi, px) l)) ∗
  (tree None (plug K (Bin S (pi, px) l)) -∗ twp (catch (let! ps := sibR pi in turnR ps)) r n Q) ⊢
  twp (catch (double_black_step pi db)) r n Q.
Proof.
  intros -> Hdb. iIntros "[HT HQ]". iApply (twp_ext _ (catch (step2 pi db))).
  { intros s. unfold catch. by rewrite step_eq. }
  iDestruct (tree_at with "HT") as "[HK (Hp & Hl & Hu)]". cbn [fst snd rp]. unfold step2. cget. rewrite bool_decide_eq_false_2 //. iApply "HQ". iApply at_tree. cbn [tree fst snd rp]. iFrame.
Qed.
(** Nodes are different. *)
Lemma pto_ne i j c d : i ↦ c ∗ j ↦ d ⊢ ⌜i <> j⌝ ∗ (i ↦ c ∗ j ↦ d).
Proof.
  destruct (decide (i = j)) as [->|E]; [|by iIntros "$"].
  constructor. intros h (h1 & h2 & Hd & Hs & H1 & H2). exfalso. cbn in H1, H2. by eapply map_disjoint_spec; [exact Hd|exact H1|exact H2].
Qed.
End loop.
