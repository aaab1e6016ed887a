(** * A deep RedBlackTree *)
From Coq Require Import Sorted.
From iris.proofmode Require Import proofmode.
From Verif Require Import Base NumOrd TreeModel TreeSpec BstModel BalModel BstSpec BstSep BstRules BstZip BstDel BinThm BstPure BstThm AvlThm SplayThm RbThm DepthSpec.
Local Open Scope py_scope.

(** An insertion of a new value, exactly. *)
Lemma rb_insert_eq s T x p K : rep s T -> increasing (ino T) -> T <> Nil -> zfind x T = (K, Nil) ->
  exists s' new T', tree_insert CRB (PNum x) p s = Ok false s' /\ T' = paint Black (rcl K (leaf_of new (Pay x 0 (Fin 0) Red))) /\
    rep s' T' /\ increasing (ino T').
Proof.
  intros H Hinc HT EK. cbn [tree_insert]. unfold rb_insert. rewrite (bind_ok (check_number (PNum x)) _ s x s eq_refl).
  rewrite (bind_ok _ _ _ _ _ (rep_empty s T H)). assert ((match T with Nil => true | _ => false end) = false) as -> by (by destruct T).
  edestruct (rep_run (let! r := insert_value CRB x (Fin 0) in let! n := get_fuel in let! root := recolor n r.2 in
       set_root root ;; let! i := deref root in set_color i Black ;; ret r.1) s T
     (fun w T' => w = false /\ (exists new, T' = paint Black (rcl K (leaf_of new (Pay x 0 (Fin 0) Red)))) /\ increasing (ino T')) H)
     as (w & s' & T' & E & HR & -> & (new & HQ) & Hi'); [|by exists s', new, T'].
  iIntros "HT". wbind. iApply (twp_insert_value CRB x (Fin 0) T); [done|done|]. iFrame "HT". iIntros (w j new) "%Hw HT".
  pose proof (zfind_plug x T) as HP. pose proof (insert_size x T Hinc) as HSz.
  pose proof (zinsert_ino CRB x new (Pay x 0 (Fin 0) Red) T eq_refl HT Hinc) as HI. unfold found in *. rewrite EK in Hw HP HSz. cbn [fst snd] in *.
  destruct Hw as [-> ->].
  assert (zinsert CRB x new (Pay x 0 (Fin 0) Red) T = plug K (leaf_of new (Pay x 0 (Fin 0) Red))) as EZ.
  { unfold zinsert. rewrite EK. destruct K as [|f K]; [by subst|]. by destruct f as [[] ?|? []]. }
  rewrite EZ. assert (increasing (zl K ++ ino (leaf_of new (Pay x 0 (Fin 0) Red)) ++ zr K)) as Hi2. { rewrite -ino_plug -EZ HI. by apply set_add_inc. }
  iDestruct (tree_at with "HT") as "[HK HT]".
  wbind. iApply (twp_get_fuel (ctxp K (rp (leaf_of new (Pay x 0 (Fin 0) Red)))) (length K)); [apply plug_atleast|]. iFrame "HK". iIntros (fu Hfu) "HK".
  wbind. iApply (twp_recolor fu K Nil new (Pay x 0 (Fin 0) Red) Nil); [lia| |done|].
  { intros _. rewrite -(rp_zinsert CRB x new (Pay x 0 (Fin 0) Red)) // EZ rp_plug. done. }
  iFrame "HK HT". iIntros "HT". wbind. iApply twp_set_root.
  pose proof (rcl_ino K (leaf_of new (Pay x 0 (Fin 0) Red)) ltac:(done)) as HRI. rewrite -EZ HI in HRI.
  fold (leaf_of new (Pay x 0 (Fin 0) Red)).
  destruct (rcl K (leaf_of new (Pay x 0 (Fin 0) Red))) as [|l' [j' y'] u'] eqn:ER; [by apply rcl_ne in ER|]. cbn [rp fst tree snd]. iDestruct "HT" as "(Hj & Hl & Hu)".
  wbind. wret. wbind. iApply twp_set_color. iFrame "Hj". iIntros "Hj". wret. cbn [fst].
  assert (ino (Bin l' (j', pay_color Black y') u') = set_add x (ino T)) as HRI2 by exact HRI.
  wpost (Bin l' (j', pay_color Black y') u' : ptree); [done|exists new; by rewrite ER| |done| |].
  - rewrite HRI2. by apply set_add_inc.
  - rewrite -(ino_length (Bin l' (j', pay_color Black y') u')) HRI2 HSz. lia.
  - cbn [tree fst snd]. iFrame.
Qed.

Notation nd i v c := (i, Pay (Fin v) 0 (Fin 0) c).
Lemma ltb_t a b : (a < b)%Z -> num_ltb (Fin a) (Fin b) = true.
Proof. intros. by apply Z.ltb_lt. Qed.
Lemma ltb_f a b : (b <= a)%Z -> num_ltb (Fin a) (Fin b) = false.
Proof. intros. by apply Z.ltb_ge. Qed.
Lemma eqb_f a b : (a <> b)%Z -> bool_decide (Fin a = Fin b) = false.
Proof. intros. apply bool_decide_eq_false_2. congruence. Qed.
Ltac cmps := repeat (cbn [zfind fst snd p_val app];
  match goal with
  | |- context [bool_decide (Fin ?a = Fin ?b)] => rewrite (eqb_f a b); [|lia]
  | |- context [num_ltb (Fin ?a) (Fin ?b)] => first [rewrite (ltb_t a b); [|lia] | rewrite (ltb_f a b); [|lia]]
  end).
(** One insertion of [v] into the tree at hand, whose black parts are known. *)
Ltac insert_one v :=
  lazymatch goal with
  | HR : rep ?s ?T, HI : increasing (ino ?T) |- _ =>
    let s' := fresh "s" in let new := fresh "i" in let T' := fresh "T" in let E := fresh "Ec" in let ET := fresh "ET" in
    let HR' := fresh "HR" in let HI' := fresh "HI" in
    edestruct (rb_insert_eq s T (Fin v) (Drawn 0)) as (s' & new & T' & E & ET & HR' & HI');
      [exact HR|exact HI|done|cmps; reflexivity|];
    clear HR HI; cbn in ET; repeat (unfold rcstep in ET; cbn in ET; match goal with HL : colr _ = Black |- _ => progress rewrite HL in ET; cbn in ET end);
    unfold leaf_of, pc, pay_color in ET; cbn [fst snd p_val p_height p_prio p_color] in ET; subst T'
  end.
Lemma calls_insert v p s s' : tree_insert CRB (PNum (Fin v)) (Drawn 0) s = Ok false s' ->
  forall rs s2, calls CRB (inserts p) s' = Some (rs, s2) -> calls CRB (inserts (Fin v :: p)) s = Some (OUnit false :: rs, s2).
Proof.
  intros E rs s2 H. change (inserts (Fin v :: p)) with (TInsert (PNum (Fin v)) (Drawn 0) :: inserts p). cbn [calls].
  rewrite (call_ok _ _ _ (OUnit false) s'); [by rewrite H|]. cbn [exec]. by rewrite (bind_ok _ _ _ _ _ E).
Qed.
Definition deep_state (j M : Z) (d e : nat) (T : ptree) : Prop :=
  exists L i1 i2 i3 i4, T = Bin L (nd i1 (6 * j) Black) (Bin (Bin Nil (nd i2 (6 * j + 5) Red) Nil) (nd i3 (6 * j + 6) Black) (Bin Nil (nd i4 M Red) Nil))%Z /\
    colr L = Black /\ path (Fin (-1)) (values (bin_map snd L)) = d /\ bsize L = e.
Definition round (j : Z) : list num := map Fin [6 * j + 3; 6 * j + 2; 6 * j + 1; 6 * j + 12; 6 * j + 11; 6 * j + 4]%Z.
Lemma deep_round j M d e s T : (0 <= j)%Z -> (6 * j + 12 < M)%Z -> rep s T -> increasing (ino T) -> deep_state j M d e T ->
  exists rs s' T', calls CRB (inserts (round j)) s = Some (rs, s') /\ rep s' T' /\ increasing (ino T') /\ deep_state (j + 1) M (d + 4) (e + 6) T'.
Proof.
  intros Hj HM HR HI (L & i1 & i2 & i3 & i4 & -> & HL & Hd & He).
  insert_one (6 * j + 3)%Z. insert_one (6 * j + 2)%Z. insert_one (6 * j + 1)%Z. insert_one (6 * j + 12)%Z. insert_one (6 * j + 11)%Z. insert_one (6 * j + 4)%Z.
  eexists _, _, _. split_and!; [|exact HR|exact HI|].
  - unfold round. cbn [List.map]. repeat (eapply calls_insert; [eassumption|]). reflexivity.
  - unfold deep_state. replace (6 * (j + 1))%Z with (6 * j + 6)%Z by lia. replace (6 * j + 6 + 5)%Z with (6 * j + 11)%Z by lia.
    replace (6 * j + 6 + 6)%Z with (6 * j + 12)%Z by lia. eexists _, _, _, _, _. split_and!; [reflexivity|done| |cbn [bsize]; lia].
    subst d. unfold values. cbn [bin_map snd p_val path]. repeat (rewrite decide_False; [|injection; lia]). rewrite !ltb_t; try lia.
Qed.
(** The whole list: five values, then [n] rounds of six. *)
Definition rounds (n : nat) : list num := flat_map (fun k => round (Z.of_nat k)) (seq 0 n).
Definition zigzag (n : nat) : list num := map Fin [6 * Z.of_nat n + 7; 0; -1; 6; 5]%Z ++ rounds n.
Lemma zigzag_length n : length (zigzag n) = 6 * n + 5.
Proof.
  unfold zigzag, rounds. rewrite app_length. cbn [length List.map]. enough (forall m, length (flat_map (fun k => round (Z.of_nat k)) (seq m n)) = 6 * n) as E by (rewrite E; lia).
  induction n as [|n IH]; intros m; [done|]. cbn [seq flat_map]. rewrite app_length IH. cbn. lia.
Qed.
Lemma calls_app_inv c a b s rs s1 : calls c a s = Some (rs, s1) -> forall rs2 s2, calls c b s1 = Some (rs2, s2) -> calls c (a ++ b) s = Some (rs ++ rs2, s2).
Proof.
  revert s rs. induction a as [|o a IH]; intros s rs H rs2 s2 H2; cbn [calls app] in *; [by injection H as <- <-|].
  destruct (call c o s) as [[r s']|]; [|done]. destruct (calls c a s') as [[rs' s'']|] eqn:E; [|done]. injection H as <- <-. by rewrite (IH _ _ E _ _ H2).
Qed.
Lemma deep_rounds M m : forall n s T d e, (6 * Z.of_nat (n + m) + 6 < M)%Z -> rep s T -> increasing (ino T) -> deep_state (Z.of_nat n) M d e T ->
  exists rs s' T', calls CRB (inserts (flat_map (fun k => round (Z.of_nat k)) (seq n m))) s = Some (rs, s') /\ rep s' T' /\ increasing (ino T') /\
    deep_state (Z.of_nat (n + m)) M (d + 4 * m) (e + 6 * m) T'.
Proof.
  induction m as [|m IH]; intros n s T d e HM HR HI HD.
  - exists [], s, T. replace (n + 0) with n by lia. replace (d + 4 * 0) with d by lia. replace (e + 6 * 0) with e by lia. done.
  - destruct (deep_round (Z.of_nat n) M d e s T) as (rs1 & s1 & T1 & E1 & HR1 & HI1 & HD1); [lia|lia|done..|].
    destruct (IH (S n) s1 T1 (d + 4) (e + 6)) as (rs2 & s2 & T2 & E2 & HR2 & HI2 & HD2); [lia|done|done|by replace (Z.of_nat (S n)) with (Z.of_nat n + 1)%Z by lia|].
    exists (rs1 ++ rs2), s2, T2. split_and!; [|done|done|].
    + cbn [seq flat_map]. unfold inserts. rewrite map_app. by eapply calls_app_inv.
    + replace (n + S m) with (S n + m) by lia. replace (d + 4 * S m) with (d + 4 + 4 * m) by lia. by replace (e + 6 * S m) with (e + 6 + 6 * m) by lia.
Qed.
Lemma zigzag_deep n : exists rs s t, history CRB (inserts (zigzag n)) = Some (rs, s) /\ shape s = Some t /\
  length (inorder t) = 6 * n + 5 /\ path (Fin (-1)) (values t) = 4 * n + 2.
Proof.
  set (M := (6 * Z.of_nat n + 7)%Z). destruct (rep_new_black tst0 (Fin M) rep0) as (i & s0 & E0 & HR).
  assert (tree_insert CRB (PNum (Fin M)) (Drawn 0) tst0 = Ok false s0) as Ec0.
  { cbn [tree_insert]. unfold rb_insert. rewrite (bind_ok (check_number (PNum (Fin M))) _ tst0 (Fin M) tst0 eq_refl).
    by rewrite (bind_ok _ _ _ _ _ (rep_empty tst0 Nil rep0)). }
  assert (increasing (ino (leaf_of i (Pay (Fin M) 0 (Fin 0) Black)))) as HI by (apply inc_cons; by split; [constructor|]).
  unfold leaf_of in *. assert (7 <= M)%Z as HM by lia.
  insert_one 0%Z. insert_one (-1)%Z. insert_one 6%Z. insert_one 5%Z.
  match goal with HR : rep ?s ?T, HI : increasing (ino ?T) |- _ =>
    destruct (deep_rounds M n 0 s T 1 1) as (rs & s' & T' & E & HR' & _ & L & j1 & j2 & j3 & j4 & -> & _ & Hd & He); [lia|exact HR|exact HI| |] end.
  { eexists _, _, _, _, _. split_and!; [reflexivity|done|done|done]. }
  eexists _, s', _. split_and!; [|by apply rep_shape| |].
  - unfold history, zigzag. fold M. cbn [List.map app]. repeat (eapply calls_insert; [eassumption|]). exact E.
  - rewrite -(map_length p_val) inorder_pays ino_length. cbn [bsize]. lia.
  - unfold values in *. cbn [bin_map snd p_val path]. rewrite decide_False; [|injection; lia]. rewrite ltb_t; [|lia]. lia.
Qed.
