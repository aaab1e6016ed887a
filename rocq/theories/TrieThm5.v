(** * Tries: the levels in order, and the nodes of compressed tries *)
From stdpp Require Import gmap.
From Verif Require Import Base TrieModel TrieRep TrieSpec TrieThm TrieThm2 TrieThm3 SuffixModel TrieThm4 SuffixSpec SuffixThm LevelModel.
Local Open Scope py_scope.

(** ** Levels as lists *)
Definition kids (s : ts) (i : nat) : list nat :=
  match t_nodes s !! i with Some n => map snd (n_children n) | None => [] end.
Definition datum (s : ts) (i : nat) : word := match t_nodes s !! i with Some n => n_data n | None => [] end.
Fixpoint lev_list (s : ts) (fuel : nat) (l : list nat) : list (list nat) :=
  match fuel with
  | 0 => []
  | S k => match l with [] => [] | _ => l :: lev_list s k (l ≫= kids s) end
  end.
Fixpoint zapp (a b : list (list nat)) : list (list nat) :=
  match a, b with
  | [], _ => b
  | _, [] => a
  | x :: a', y :: b' => (x ++ y) :: zapp a' b'
  end.
Lemma zapp_nil_r a : zapp a [] = a.
Proof. by destruct a. Qed.
Lemma zapp_assoc a : forall b c, zapp a (zapp b c) = zapp (zapp a b) c.
Proof.
  induction a as [|x a IH]; intros [|y b] [|z c]; cbn; try done. by rewrite IH, (assoc (++)).
Qed.
Lemma lev_list_nil s k : lev_list s k [] = [].
Proof. by destruct k. Qed.
Lemma lev_list_app s k : forall l1 l2, lev_list s k (l1 ++ l2) = zapp (lev_list s k l1) (lev_list s k l2).
Proof.
  induction k as [|k IH]; intros l1 l2; [done|].
  destruct l1 as [|x l1]; [done|]. destruct l2 as [|y l2].
  - rewrite app_nil_r. by destruct (lev_list s (S k) (x :: l1)).
  - change (lev_list s (S k) ((x :: l1) ++ y :: l2)) with (((x :: l1) ++ y :: l2) :: lev_list s k (((x :: l1) ++ y :: l2) ≫= kids s)).
    by rewrite bind_app, IH.
Qed.
Lemma extend_data s l : (forall i, i ∈ l -> exists n, t_nodes s !! i = Some n) ->
  extend_map (fun i => let! n := rd i in ret [n_data n]) l s = Ok (map (datum s) l) s.
Proof.
  induction l as [|i l IH]; intros H; [done|]. destruct (H i) as (n & Hn); [left|].
  change (extend_map ?f (i :: l)) with (bind (f i) (fun r => bind (extend_map f l) (fun r' => ret (r ++ r')))).
  rewrite (bind_ok _ _ _ [n_data n] s) by (by rewrite (bind_ok _ _ _ _ _ (rd_eq _ _ _ Hn))).
  rewrite (bind_ok _ _ _ _ _ (IH ltac:(intros; apply H; by right))). cbn [map app]. unfold datum at 2. by rewrite Hn.
Qed.
Lemma extend_kids s l : (forall i, i ∈ l -> exists n, t_nodes s !! i = Some n) ->
  extend_map (fun i => let! n := rd i in ret (map snd (n_children n))) l s = Ok (l ≫= kids s) s.
Proof.
  induction l as [|i l IH]; intros H; [done|]. destruct (H i) as (n & Hn); [left|].
  change (extend_map ?f (i :: l)) with (bind (f i) (fun r => bind (extend_map f l) (fun r' => ret (r ++ r')))).
  rewrite (bind_ok _ _ _ (map snd (n_children n)) s) by (by rewrite (bind_ok _ _ _ _ _ (rd_eq _ _ _ Hn))).
  rewrite (bind_ok _ _ _ _ _ (IH ltac:(intros; apply H; by right))). cbn. unfold kids at 2. by rewrite Hn.
Qed.
Definition near (L : gmap nat word) (k : nat) (i : nat) : Prop := exists p, L !! i = Some p /\ deeper L (length p) < k.
Lemma near_node s L k i : rep s L -> near L k i -> exists n, t_nodes s !! i = Some n.
Proof. intros R (p & Hp & _). destruct (r_node _ _ R _ _ Hp) as (n & Hn & _). by exists n. Qed.
Lemma near_kids s L k i c : rep s L -> near L (S k) i -> c ∈ kids s i -> near L k c.
Proof.
  intros R (p & Hp & Hd) Hc. destruct (r_node _ _ R _ _ Hp) as (n & Hn & _). unfold kids in Hc. rewrite Hn in Hc.
  destruct (children_part _ _ _ _ _ R Hp Hn) as [_ Hcs]. apply Hcs in Hc as (x & m & r & _ & _ & _ & HL).
  exists (p ++ x :: r). split; [done|]. pose proof (deeper_lt L c _ (length p) HL) as H. rewrite !app_length in *. cbn in *. lia.
Qed.
Lemma near_0 L i : ~ near L 0 i.
Proof. intros (p & _ & ?). lia. Qed.
Lemma level_loop_ok s L : rep s L -> forall k l, (forall i, i ∈ l -> near L k i) ->
  level_loop (S k) l s = Ok (mjoin (map (map (datum s)) (lev_list s (S k) l))) s.
Proof.
  intros R. induction k as [|k IH]; intros l Hl.
  - destruct l as [|i l]; [done|]. destruct (near_0 L i). apply Hl. left.
  - destruct l as [|i l]; [done|]. remember (i :: l) as l0 eqn:El0.
    assert (level_loop (S (S k)) l0 = (let! here := extend_map (fun i => let! n := rd i in ret [n_data n]) l0 in
          let! next_nodes := extend_map (fun i => let! n := rd i in ret (map snd (n_children n))) l0 in
          let! rest := level_loop (S k) next_nodes in
          ret (here ++ rest))) as -> by (by rewrite El0).
    assert (lev_list s (S (S k)) l0 = l0 :: lev_list s (S k) (l0 ≫= kids s)) as -> by (by rewrite El0).
    assert (forall i, i ∈ l0 -> exists n, t_nodes s !! i = Some n) as Hn by (intros; eapply near_node; eauto).
    rewrite (bind_ok _ _ _ _ _ (extend_data _ _ Hn)). rewrite (bind_ok _ _ _ _ _ (extend_kids _ _ Hn)).
    rewrite (bind_ok _ _ _ _ _ (IH (l0 ≫= kids s) ltac:(intros c (j & Hc & Hj)%elem_of_list_bind; eapply near_kids; eauto))). done.
Qed.
Lemma level_each_list s f level k (P : nat -> Prop) :
  (forall c acc, P c -> S level <= length acc ->
     f c (S level) acc s = Ok (take (S level) acc ++ zapp (drop (S level) acc) (lev_list s k [c])) s) ->
  forall cs acc, (forall c, c ∈ cs -> P c) -> S level <= length acc ->
  level_each f level cs acc s = Ok (take (S level) acc ++ zapp (drop (S level) acc) (lev_list s k cs)) s.
Proof.
  intros Hf. induction cs as [|c cs IH]; intros acc Hcs Hl.
  - rewrite lev_list_nil, zapp_nil_r, take_drop. done.
  - change (level_each f level (c :: cs) acc) with (bind (f c (S level) acc) (level_each f level cs)).
    rewrite (bind_ok _ _ _ _ _ (Hf c acc ltac:(apply Hcs; left) Hl)).
    assert (length (take (S level) acc) = S level) as Et by (rewrite take_length; lia).
    rewrite IH; [|intros; apply Hcs; by right|rewrite app_length; lia].
    rewrite take_app_alt, drop_app_alt by done.
    change (c :: cs) with ([c] ++ cs). by rewrite lev_list_app, zapp_assoc.
Qed.
Lemma npl_list s L : rep s L -> forall k i level acc, near L k i -> level <= length acc ->
  nodes_per_level k i level acc s = Ok (take level acc ++ zapp (drop level acc) (lev_list s k [i])) s.
Proof.
  intros R. induction k as [|k IH]; intros i level acc Hi Hl; [by destruct (near_0 L i)|].
  cbn [nodes_per_level]. destruct (near_node _ _ _ _ R Hi) as (n & Hn).
  rewrite (bind_ok _ _ _ _ _ (rd_eq _ _ _ Hn)).
  set (nodes1 := if Nat.eqb level (length acc) then acc ++ [[]] else acc).
  assert (exists l, nodes1 !! level = Some l /\ take level nodes1 = take level acc /\ level < length nodes1 /\
    forall r, (l ++ [i]) :: zapp (drop (S level) nodes1) r = zapp (drop level acc) ([i] :: r)) as (l & El & Et & Hlt & Ez).
  { unfold nodes1. destruct (Nat.eqb_spec level (length acc)) as [->|Hneq].
    - exists []. rewrite lookup_app_r, Nat.sub_diag, app_length by lia. cbn [length]. split; [done|]. split; [|split; [lia|]].
      + by rewrite take_app, take_ge by lia.
      + intros r. rewrite (drop_ge acc) by lia. rewrite drop_ge; [done|]. rewrite app_length. cbn. lia.
    - destruct (lookup_lt_is_Some_2 acc level) as (l & Hl'); [lia|]. exists l. split_and!; try done; [lia|].
      intros r. by rewrite (drop_S _ _ _ Hl'). }
  rewrite El. set (acc1 := <[level := l ++ [i]]> nodes1).
  assert (take (S level) acc1 = take level acc ++ [l ++ [i]] /\ drop (S level) acc1 = drop (S level) nodes1) as [Ht1 Hd1].
  { unfold acc1. split.
    - rewrite (take_S_r _ _ (l ++ [i])) by (by apply list_lookup_insert). by rewrite take_insert, Et by lia.
    - by rewrite drop_insert_gt by lia. }
  fold (level_each (nodes_per_level k) level).
  change ((fix go cs acc0 := match cs with [] => ret acc0 | c :: cs' => let! acc' := nodes_per_level k c (S level) acc0 in go cs' acc' end)
    (map snd (n_children n)) acc1 s) with (level_each (nodes_per_level k) level (map snd (n_children n)) acc1 s).
  assert (map snd (n_children n) = kids s i) as Ek by (unfold kids; by rewrite Hn). rewrite Ek.
  rewrite (level_each_list s (nodes_per_level k) level k (near L k)).
  - rewrite Ht1, Hd1, <- (assoc (++)). cbn [app]. rewrite Ez. cbn [lev_list mbind list_bind app].
    change (mbind (kids s) [i]) with (kids s i ++ []). by rewrite app_nil_r.
  - intros c a Hc Ha. by apply IH.
  - intros c Hc. by eapply near_kids.
  - unfold acc1. rewrite insert_length. lia.
Qed.
(** What a level contains. *)
Lemma lev_list_below s L : rep s L -> forall k l, (forall i, i ∈ l -> near L k i) ->
  forall d x, (exists l', lev_list s k l !! d = Some l' /\ x ∈ l') <-> exists i, i ∈ l /\ below s i x d.
Proof.
  intros R. induction k as [|k IH]; intros l Hl d x.
  - destruct l as [|i l]; [|destruct (near_0 L i); apply Hl; left]. split.
    + intros (l' & E & _). by destruct d.
    + by intros (i & ?%elem_of_nil & _).
  - destruct l as [|i0 l0].
    { cbn. split; [intros (l' & E & _); by destruct d|]. by intros (i & ?%elem_of_nil & _). }
    remember (i0 :: l0) as l eqn:El. assert (lev_list s (S k) l = l :: lev_list s k (l ≫= kids s)) as -> by (by rewrite El).
    assert (forall c, c ∈ l ≫= kids s -> near L k c) as Hk.
    { intros c (j & Hc & Hj)%elem_of_list_bind. eapply near_kids; eauto. }
    destruct d as [|d].
    + cbn. split.
      * intros (l' & [= <-] & Hx). exists x. split; [done|]. apply below_0.
      * intros (i & Hi & Hb). exists l. split; [done|]. by inversion Hb; subst.
    + cbn. rewrite (IH _ Hk). split.
      * intros (c & (i & Hc & Hi)%elem_of_list_bind & Hb). exists i. split; [done|].
        destruct (near_node _ _ _ _ R (Hl _ Hi)) as (n & Hn). unfold kids in Hc. rewrite Hn in Hc.
        apply elem_of_list_fmap in Hc as ([kk c'] & -> & Hin). by eapply below_S.
      * intros (i & Hi & Hb). inversion Hb as [|? n kk c ? ? Hn Hin Hb']; subst. exists c. split; [|done].
        apply elem_of_list_bind. exists i. split; [|done]. unfold kids. rewrite Hn. apply elem_of_list_fmap. by exists (kk, c).
Qed.
Lemma lev_list_ne s : forall k l l', l' ∈ lev_list s k l -> l' <> [].
Proof.
  induction k as [|k IH]; intros l l' H; [by apply elem_of_nil in H|]. destruct l as [|i l]; [by apply elem_of_nil in H|].
  cbn [lev_list] in H. apply elem_of_cons in H as [->|H]; [done|]. by eapply IH.
Qed.
(** The nodes of the levels are pairwise different. *)
Lemma bind_kids_nodup s L k l : rep s L -> (forall i, i ∈ l -> near L k i) -> NoDup l -> NoDup (l ≫= kids s).
Proof.
  intros R. induction l as [|i l IH]; intros Hl Hnd; [constructor|]. apply NoDup_cons in Hnd as [Hi Hnd]. cbn.
  assert (forall j c, j ∈ i :: l -> c ∈ kids s j -> exists m, t_nodes s !! c = Some m /\ n_parent m = Some j) as Hpar.
  { intros j c Hj Hc. destruct (Hl j Hj) as (p & Hp & _). destruct (near_node _ _ _ _ R (Hl _ Hj)) as (n & Hn). unfold kids in Hc. rewrite Hn in Hc.
    apply elem_of_list_fmap in Hc as ([kk c'] & -> & Hin). destruct (child_of _ _ _ _ _ _ _ R Hp Hn Hin) as (m & r & Hm & Hpm & _). by exists m. }
  apply NoDup_app. split; [|split].
  - destruct (Hl i) as (p & Hp & _); [left|]. destruct (near_node _ _ _ _ R (Hl i (elem_of_list_here _ _))) as (n & Hn). unfold kids. rewrite Hn.
    by destruct (children_part _ _ _ _ _ R Hp Hn).
  - intros c Hc (j & Hc' & Hj)%elem_of_list_bind. destruct (Hpar i c) as (m & Hm & Hpm); [left|done|].
    destruct (Hpar j c) as (m' & Hm' & Hpm'); [by right|done|]. rewrite Hm in Hm'. injection Hm' as <-. rewrite Hpm in Hpm'. injection Hpm' as <-. done.
  - apply IH; [|done]. intros j Hj. apply Hl. by right.
Qed.
Lemma lev_list_nodup s L : rep s L -> forall k l, (forall i, i ∈ l -> near L k i) -> NoDup l ->
  forall l', l' ∈ lev_list s k l -> NoDup l'.
Proof.
  intros R. induction k as [|k IH]; intros l Hl Hnd l' H; [by apply elem_of_nil in H|].
  destruct l as [|i l]; [by apply elem_of_nil in H|]. cbn [lev_list] in H. apply elem_of_cons in H as [->|H]; [done|].
  eapply IH; [| |exact H].
  - intros c (j & Hc & Hj)%elem_of_list_bind. eapply near_kids; [done|by apply Hl|done].
  - by eapply bind_kids_nodup.
Qed.

Lemma near_root s L : rep s L -> near L (S (length (t_nodes s))) (t_root s).
Proof. intros R. exists []. split; [apply (r_root _ _ R)|]. pose proof (deeper_le s L (length (@nil N)) R). lia. Qed.
Lemma near_mono L k k' i : near L k i -> k <= k' -> near L k' i.
Proof. intros (p & ? & ?) ?. exists p. split; [done|lia]. Qed.
Definition the_levels (s : ts) : list (list nat) := lev_list s (S (length (t_nodes s))) (kids s (t_root s)).
Lemma near_top s L : rep s L -> forall i, i ∈ kids s (t_root s) -> near L (length (t_nodes s)) i.
Proof. intros R i Hi. eapply near_kids; [done|by apply near_root|done]. Qed.
Lemma levels_ok {fl} s L W : trepg fl s L W (t_root s) -> W <> ∅ ->
  trie_levels s = Ok (map (map (datum s)) (the_levels s)) s /\
  trie_to_list s = Ok (mjoin (map (map (datum s)) (the_levels s))) s.
Proof.
  intros T HW. pose proof (x_rep _ _ _ _ T) as R. unfold trie_levels, trie_to_list.
  pose proof (is_empty_ok s L W T) as He. rewrite bool_decide_eq_false_2 in He by done.
  rewrite !(bind_ok _ _ _ _ _ He), !(bind_ok _ _ _ s s) by done. split.
  - assert (near L (S (S (length (t_nodes s)))) (t_root s)) as Hnr by (eapply near_mono; [by apply near_root|lia]).
    rewrite (bind_ok _ _ _ _ _ (npl_list s L R (S (S (length (t_nodes s)))) (t_root s) 0 [] Hnr (Nat.le_0_l _))).
    cbn [take drop zapp app].
    assert (lev_list s (S (S (length (t_nodes s)))) [t_root s] = [t_root s] :: the_levels s) as ->.
    { unfold the_levels. remember (S (length (t_nodes s))) as K eqn:EK. cbn [lev_list].
      change (mbind (kids s) [t_root s]) with (kids s (t_root s) ++ []). by rewrite app_nil_r. }
    assert (forall ls, (forall l i, l ∈ ls -> i ∈ l -> exists n, t_nodes s !! i = Some n) ->
      data_levels ls s
      = Ok (map (map (datum s)) ls) s) as H.
    { induction ls as [|l ls IH]; intros H; [done|]. cbn [data_levels].
      rewrite (bind_ok _ _ _ _ _ (extend_data s l ltac:(intros i Hi; eapply H; [left|done]))).
      erewrite bind_ok; [|apply IH; intros l' i Hl Hi; eapply H; [by right|done]]. done. }
    assert (forall l i, l ∈ [t_root s] :: the_levels s -> i ∈ l -> exists n, t_nodes s !! i = Some n) as Hall.
    2: { by rewrite (bind_ok _ _ _ _ _ (H _ Hall)). }
    intros l i [->|Hl]%elem_of_cons Hi.
    + apply elem_of_list_singleton in Hi as ->. eapply near_node; [done|by apply near_root].
    + apply elem_of_list_lookup in Hl as (d & Hd).
      assert (exists j, j ∈ kids s (t_root s) /\ below s j i d) as (j & Hj & Hb).
      { apply (lev_list_below s L R (S (length (t_nodes s))) (kids s (t_root s))); [|by exists l].
        intros i' Hi'. eapply near_mono; [by eapply near_top|lia]. }
      destruct (near_top _ _ R _ Hj) as (p & Hp & _). destruct (below_live _ _ _ _ _ _ R Hp Hb) as (t & Ht & _).
      destruct (r_node _ _ R _ _ Ht) as (n & Hn & _). by exists n.
  - destruct (near_node _ _ _ _ R (near_root _ _ R)) as (n & Hn). rewrite (bind_ok _ _ _ _ _ (rd_eq _ _ _ Hn)).
    assert (map snd (n_children n) = kids s (t_root s)) as -> by (unfold kids; by rewrite Hn).
    apply (level_loop_ok s L R). by apply near_top.
Qed.
(** A node is on level [d] (from 0, below the root) when it is [d + 1] steps down. *)
Lemma the_levels_below s L d x : rep s L ->
  (exists l, the_levels s !! d = Some l /\ x ∈ l) <-> below s (t_root s) x (S d).
Proof.
  intros R. unfold the_levels. rewrite (lev_list_below s L R).
  2: { intros i Hi. eapply near_mono; [by eapply near_top|lia]. }
  destruct (near_node _ _ _ _ R (near_root _ _ R)) as (n & Hn). unfold kids. rewrite Hn. split.
  - intros (c & ([k c'] & -> & Hin)%elem_of_list_fmap & Hb). by eapply below_S.
  - intros Hb. inversion Hb as [|? n' kk c ? ? Hn' Hin Hb']; subst. rewrite Hn in Hn'. injection Hn' as <-.
    exists c. split; [|done]. apply elem_of_list_fmap. by exists (kk, c).
Qed.
Lemma the_levels_nodup s L l : rep s L -> l ∈ the_levels s -> NoDup l.
Proof.
  intros R. apply (lev_list_nodup s L R).
  - intros i Hi. eapply near_mono; [by eapply near_top|lia].
  - destruct (near_node _ _ _ _ R (near_root _ _ R)) as (n & Hn). unfold kids. rewrite Hn.
    by destruct (children_part _ _ _ _ _ R (r_root _ _ R) Hn).
Qed.
Lemma height_levels {fl} s L W : trepg fl s L W (t_root s) -> W <> ∅ -> trie_height s = Ok (length (the_levels s)) s /\ trie_depth s = Ok 0%Z s.
Proof.
  intros T HW. pose proof (x_rep _ _ _ _ T) as R. unfold trie_height, trie_depth.
  pose proof (is_empty_ok s L W T) as He. rewrite bool_decide_eq_false_2 in He by done.
  rewrite !(bind_ok _ _ _ _ _ He), !(bind_ok _ _ _ s s) by done.
  destruct (height_ok s L R (S (length (t_nodes s))) (t_root s) []) as (h & E & (j & Hj) & Hmax).
  { apply (r_root _ _ R). } { pose proof (deeper_le s L (length (@nil N)) R). lia. }
  rewrite !(bind_ok _ _ _ _ _ E), Z.sub_diag, E. split; [|done]. f_equal. apply Nat.le_antisymm.
  - destruct h as [|h]; [lia|]. apply (the_levels_below s L h j R) in Hj as (l & Hl & _). by apply lookup_lt_Some in Hl.
  - destruct (length (the_levels s)) as [|d] eqn:Ed; [lia|].
    destruct (lookup_lt_is_Some_2 (the_levels s) d) as (l & Hl); [lia|].
    destruct l as [|x l']; [exfalso; eapply (lev_list_ne s); [by eapply elem_of_list_lookup_2|done]|].
    apply (Hmax x). apply (the_levels_below s L d x R). exists (x :: l'). split; [done|left].
Qed.
(** In a Trie, a node [d] steps down spells [d] characters. *)
Lemma below_single s L i p d : rep s L -> single s L -> L !! i = Some p -> below s (t_root s) i d <-> length p = d.
Proof.
  intros R HS Hi.
  assert (forall d i, below s (t_root s) i d -> forall p, L !! i = Some p -> length p = d) as H.
  { clear i p d Hi. induction d as [|d IH]; intros i Hb p Hi.
    - inversion Hb; subst. rewrite (r_root _ _ R) in Hi. by injection Hi as <-.
    - apply below_last in Hb as (m & n & k & Hb & Hn & Hin). destruct (below_live _ _ _ _ _ _ R (r_root _ _ R) Hb) as (t & Ht & _).
      cbn in Ht. specialize (IH _ Hb _ Ht). destruct (child_of _ _ _ _ _ _ _ R Ht Hn Hin) as (m' & r & Hm' & _ & Hr & HL).
      rewrite HL in Hi. injection Hi as <-. assert (length (n_data m') = 1) as H1 by (eapply HS; [exact HL|done|by destruct t]).
      rewrite Hr in H1. rewrite app_length. cbn in *. lia. }
  split; [intros Hb; by eapply H|]. intros <-. destruct (root_below _ _ _ _ R Hi) as (d & Hd & _). by rewrite (H _ _ Hd _ Hi).
Qed.

(** ** Every point where two live paths part is live *)
Lemma parting_live s L : rep s L -> forall N i q t x y u v a b, length t <= N -> x <> y ->
  L !! i = Some q -> L !! a = Some (q ++ t ++ x :: u) -> L !! b = Some (q ++ t ++ y :: v) -> exists c, L !! c = Some (q ++ t).
Proof.
  intros R. induction N as [|N IH]; intros i q t x y u v a b HN Hxy Hi Ha Hb.
  { destruct t; [|cbn in HN; lia]. rewrite app_nil_r. by exists i. }
  destruct t as [|k t]; [rewrite app_nil_r; by exists i|]. destruct (r_node _ _ R _ _ Hi) as (n & Hn & _).
  destruct (nav _ _ R _ _ _ _ _ _ Hi Hn Ha) as (c & m & Hin & Hm & Hpre).
  destruct (nav _ _ R _ _ _ _ _ _ Hi Hn Hb) as (c' & m' & Hin' & Hm' & Hpre').
  destruct (rep_get _ _ _ _ _ R Hi Hn) as (Hnd & _). rewrite (key_unique _ _ _ _ Hnd Hin' Hin) in Hm'. rewrite Hm in Hm'. injection Hm' as <-.
  destruct (child_of _ _ _ _ _ _ _ R Hi Hn Hin) as (m'' & r & Hm'' & _ & Hr & HL). rewrite Hm in Hm''. injection Hm'' as <-.
  assert (n_data m `prefix_of` k :: t) as [t' Ht'].
  { destruct Hpre as [z Hz], Hpre' as [z' Hz'].
    assert ((k :: t) ++ x :: u = n_data m ++ z) as Hz1 by exact Hz. assert ((k :: t) ++ y :: v = n_data m ++ z') as Hz2 by exact Hz'.
    destruct (prefix_split _ _ _ _ Hz1) as [(w & Hw & _)|(w & Hw & Hw2)]; [by exists w|].
    destruct w as [|x' w]; [exists []; by rewrite app_nil_r in *|]. injection Hw2 as <- _.
    rewrite Hw, <- (assoc (++)) in Hz2. apply app_inv_head in Hz2. by injection Hz2 as ->. }
  rewrite Hr in Ht'. injection Ht' as Ht'. rewrite <- Hr in HL.
  destruct (IH c (q ++ n_data m) t' x y u v a b) as (e & He).
  - subst t. cbn in HN. rewrite app_length in HN. lia.
  - done.
  - done.
  - rewrite Ha, Hr, Ht'. cbn. by rewrite <- !(assoc (++)).
  - rewrite Hb, Hr, Ht'. cbn. by rewrite <- !(assoc (++)).
  - exists e. rewrite He, Hr, Ht'. cbn. by rewrite <- !(assoc (++)).
Qed.
