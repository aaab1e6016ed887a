(** * The work of SuffixTrie (C81): proofs *)
From stdpp Require Import gmap.
From Verif Require Import Base TrieModel TrieRep TrieSpec TrieThm TrieThm2 TrieThm3 SuffixModel SuffixSpec SuffixThm SuffixThm2 SuffixThm4
  WalkModel WalkSpec WalkThm TrieWorkModel TrieWorkThm SuffixWorkModel.
Local Open Scope py_scope.

(** ** The counter changes nothing *)
#[local] Hint Resolve co_follow co_r_insert_node : co.
Lemma co_leaves_from : forall f i, counts (leaves_from_c f i) (leaves_from f i).
Proof.
  induction f; intros; cbn [leaves_from_c leaves_from]; [co|]. apply co_tick. apply co_bind; [apply co_lf|]. intros n.
  destruct (n_children n) as [|c0 cs]; [apply co_ret|]. generalize (map snd (c0 :: cs)). intros l. induction l as [|c l IHl]; [apply co_ret|].
  apply co_bind; [apply IHf|]. intros x. apply co_bind; [apply IHl|]. intros r. apply co_ret.
Qed.
Lemma co_count v f k : match count_occurrences_c v (f_rt f, k) with
  | Ok a p => count_occurrences f v = Ok a p.1
  | Exc e p => count_occurrences f v = Exc e p.1
  | Diverge => count_occurrences f v = Diverge
  end.
Proof.
  assert (forall i, counts (count_leaves_below_c i) (count_leaves_below i)) as H.
  { intros i. unfold count_leaves_below_c, count_leaves_below. apply co_bind; [apply co_lf|]. intros. apply co_leaves_from. }
  unfold count_occurrences. match goal with |- context [?m (f_rt f) = Diverge] => assert (counts (count_occurrences_c v) m) as Hc end.
  { unfold count_occurrences_c. cog. }
  exact (Hc (f_rt f) k).
Qed.
Lemma co_add w i : counts (suffix_add_c w i) (suffix_add w i).
Proof. unfold suffix_add_c, suffix_add. cog. Qed.
Lemma co_loop : forall cnt w i, counts (suffix_loop_c w i cnt) (suffix_loop w i cnt).
Proof. induction cnt; intros; cbn [suffix_loop_c suffix_loop]; [co|]. apply co_bind; [apply co_add|]. intros. apply co_bind; [apply IHcnt|]. intros. apply co_ret. Qed.
#[local] Hint Resolve co_loop : co.
Lemma co_init v : counts (suffix_init_c v) (suffix_init v).
Proof. unfold suffix_init_c, suffix_init. cog. Qed.
Lemma co_ancestors_loop : forall f p, counts (ancestors_loop_c f p) (ancestors_loop f p).
Proof. induction f; intros; cbn [ancestors_loop_c ancestors_loop]; cog. Qed.
#[local] Hint Resolve co_ancestors_loop : co.
Lemma co_ancestors i : counts (ancestors_data_c i) (ancestors_data i).
Proof. unfold ancestors_data_c, ancestors_data. cog. Qed.
#[local] Hint Resolve co_ancestors : co.
Lemma co_lca i j f k : match lowest_common_ancestor_c f i j (f_rt f, k) with
  | Ok a p => lowest_common_ancestor f i j = Ok a p.1
  | Exc e p => lowest_common_ancestor f i j = Exc e p.1
  | Diverge => lowest_common_ancestor f i j = Diverge
  end.
Proof.
  unfold lowest_common_ancestor. match goal with |- context [?m (f_rt f) = Diverge] => assert (counts (lowest_common_ancestor_c f i j) m) as Hc end.
  { unfold lowest_common_ancestor_c. cog. }
  exact (Hc (f_rt f) k).
Qed.

Lemma wpc_and {A} s k (c : M ct A) Q E Q' E' : wpc s k c Q E -> wpc s k c Q' E' ->
  wpc s k c (fun a s' k' => Q a s' k' /\ Q' a s' k') (fun k' => E k' /\ E' k').
Proof. unfold wpc. destruct (c (s, k)); auto. Qed.
Lemma follow_c_mono s w k : wpc s k (follow_path_c w) (fun _ _ k' => k <= k') (fun _ => True).
Proof. unfold follow_path_c. apply wpc_lfb; [done|]. intros ? ? [= <- <-]. apply follow_mono. Qed.

(** ** Construction *)
Lemma r_insert_node_steps s L v k : rep s L ->
  wpc s k (radix_insert_node_c v) (fun _ _ k' => k' <= k + (length v + 2)) (fun k' => k' <= k + (length v + 2)).
Proof.
  intros R. unfold radix_insert_node_c. apply wpc_lfb; [lia|]. intros u s' Hu.
  assert (s' = s) as -> by (unfold py_assert in Hu; destruct (negb _); [by injection Hu|done]).
  apply wpc_bind. eapply wpc_mono; [by eapply follow_c_steps| |cbn; lia]. intros [c r] s' k' (-> & d & -> & _ & Hk & _). cbn [fst snd] in *.
  rewrite app_length. apply wpc_bind. eapply wpc_mono; [apply radix_loop_steps| |].
  - intros a s' k2 Hk2. assert (k2 <= k + (length d + length r + 2)) by (destruct r; cbn in *; lia).
    apply wpc_lfb; [lia|]. intros. apply wpc_lfb; [lia|]. intros. unfold wpc. cbn. lia.
  - intros k2 Hk2. destruct r; cbn in *; lia.
Qed.
Lemma add_steps s L w i k : rep s L ->
  wpc s k (suffix_add_c w i) (fun _ _ k' => k' <= k + (length (label w i) + 2)) (fun k' => k' <= k + (length (label w i) + 2)).
Proof.
  intros R. unfold suffix_add_c. apply wpc_bind. eapply wpc_mono; [by eapply r_insert_node_steps| |done].
  intros x s' k' Hk. apply wpc_lfb; [done|]. intros. unfold wpc. cbn. exact Hk.
Qed.
Fixpoint usize (u : Decimal.uint) : nat :=
  match u with
  | Decimal.Nil => 0
  | Decimal.D0 u | Decimal.D1 u | Decimal.D2 u | Decimal.D3 u | Decimal.D4 u
  | Decimal.D5 u | Decimal.D6 u | Decimal.D7 u | Decimal.D8 u | Decimal.D9 u => S (usize u)
  end.
Lemma digits_size u : length (digits u) = usize u.
Proof. induction u; cbn; congruence. Qed.
Lemma succ_size u : usize (Decimal.Little.succ u) <= S (usize u).
Proof. induction u; cbn; lia. Qed.
Lemma little_size : forall n u, usize (Nat.to_little_uint n u) <= n + usize u.
Proof. induction n as [|n IH]; intros u; cbn; [lia|]. etrans; [apply IH|]. pose proof (succ_size u). lia. Qed.
Lemma revapp_size : forall u v, usize (Decimal.revapp u v) = usize u + usize v.
Proof. induction u; intros v; cbn; [done|rewrite IHu; cbn; lia..]. Qed.
Lemma digits_le n : length (py_str_nat n) <= S n.
Proof.
  unfold py_str_nat, Nat.to_uint, Decimal.rev. rewrite digits_size, revapp_size. cbn. pose proof (little_size n (Decimal.D0 Decimal.Nil)). cbn in *. lia.
Qed.
Lemma label_size w i : i <= length w -> length (label w i) <= length w + 5.
Proof. intros Hi. unfold label. rewrite !app_length, drop_length. pose proof (digits_le i). cbn. lia. Qed.
Lemma loop_steps w : forall cnt idx s L k, idx + cnt <= S (length w) ->
  shape s L (labels_upto w idx) -> branching L (labels_upto w idx) ->
  wpc s k (suffix_loop_c w idx cnt) (fun _ _ k' => k' <= k + cnt * (length w + 7)) (fun k' => k' <= k + cnt * (length w + 7)).
Proof.
  induction cnt as [|cnt IH]; intros idx s L k Hi T HB; cbn [suffix_loop_c]; [unfold wpc; cbn; lia|].
  pose proof (label_size w idx ltac:(lia)) as Hl.
  apply wpc_bind. pose proof (add_steps s L w idx k (x_rep _ _ _ _ T)) as Ha. pose proof (co_add w idx s k) as Hc.
  unfold wpc at 1. unfold wpc in Ha. destruct (suffix_add_c w idx (s, k)) as [x [s' k']|e [s' k']|]; [|cbn in *; lia|done]. cbn [fst snd] in *.
  destruct (suffix_add_ok s L _ w idx T HB) as [(s1 & L1 & y & E & T1 & HB1 & _)|(E & _)]; rewrite E in Hc; [|done]. injection Hc as -> ->.
  rewrite <- labels_S in T1, HB1.
  apply wpc_bind. eapply wpc_mono; [apply (IH (S idx) s' L1 k'); [lia|done|done]| |].
  - intros. unfold wpc. cbn. cbn in *. lia.
  - cbn. intros. lia.
Qed.
Lemma init_steps w : at_most trie_new (suffix_init_c (PStr w)) ((length (strip_dollar w) + 1) * (length (strip_dollar w) + 7)).
Proof.
  apply wpc_at_most. intros k. unfold suffix_init_c. apply wpc_lfb; [lia|]. intros v s' Hv.
  assert (s' = trie_new /\ v = w) as [-> ->]. { destruct w; [done|]. by injection Hv as <- <-. }
  destruct shape_new as [T HB]. apply wpc_bind. eapply wpc_mono; [apply (loop_steps (strip_dollar w) _ 0 trie_new {[0 := []]} k); [lia|done|done]| |].
  - intros. unfold wpc. cbn. cbn in *. lia.
  - cbn. intros. lia.
Qed.
Lemma radix_loop_mono : forall f c n w s k, wpc s k (radix_loop_c f c n w) (fun _ _ k' => k <= k') (fun _ => True).
Proof.
  induction f as [|f IH]; intros c n w s k; [done|]. cbn [radix_loop_c]. destruct w as [|ch w]; [unfold wpc; cbn; lia|]. apply wpc_tick.
  do 3 (apply wpc_lfb; [done|]; intros). destruct (Nat.eqb _ 0).
  { do 3 (apply wpc_lfb; [done|]; intros). eapply wpc_mono; [apply IH|cbn; lia|done]. }
  destruct (_ && _).
  - do 3 (apply wpc_lfb; [done|]; intros). apply wpc_bind. destruct (_ !! _); unfold wpc at 1; cbn [ret raise fst snd]; [|done].
    apply wpc_lfb; [done|]; intros. apply wpc_bind. destruct a1; unfold wpc at 1; cbn [ret raise fst snd]; [done|].
    do 2 (apply wpc_lfb; [done|]; intros). eapply wpc_mono; [apply IH|cbn; lia|done].
  - destruct n; [|done]. eapply wpc_mono; [apply IH|cbn; lia|done].
Qed.
Lemma add_least s w i k : wpc s k (suffix_add_c w i) (fun _ _ k' => k + 1 <= k') (fun _ => True).
Proof.
  unfold suffix_add_c. change (drop i w ++ MARK ++ py_str_nat i) with (label w i). pose proof (label_nil w i) as Hl.
  destruct (label w i) as [|ch l]; [done|]. apply wpc_bind. unfold radix_insert_node_c. apply wpc_lfb; [done|]. intros ? s1 _.
  apply wpc_bind. unfold follow_path_c. apply wpc_lfb; [done|]. intros x s2 _. cbn [follow_loop_c].
  eapply (wpc_mono _ _ _ (fun _ _ k' => k + 1 <= k') _ (fun _ => True)).
  { apply wpc_tick. do 3 (apply wpc_lfb; [done|]; intros). case_bool_decide; [|unfold wpc; cbn; lia]. eapply wpc_mono; [apply follow_mono|cbn; lia|done]. }
  2: done.
  intros [c r] s3 k3 Hk. apply wpc_bind. eapply wpc_mono; [apply radix_loop_mono| |done]. intros o s4 k4 Hk4. cbn beta in *.
  apply wpc_lfb; [done|]. intros. apply wpc_lfb; [done|]. intros. unfold wpc at 1. cbn [ret fst snd].
  apply wpc_lfb; [done|]. intros. unfold wpc. cbn. lia.
Qed.
Lemma loop_least : forall cnt w idx s k, wpc s k (suffix_loop_c w idx cnt) (fun _ _ k' => k + cnt <= k') (fun _ => True).
Proof.
  induction cnt as [|cnt IH]; intros w idx s k; cbn [suffix_loop_c]; [unfold wpc; cbn; lia|].
  apply wpc_bind. eapply wpc_mono; [apply add_least| |done]. intros x s1 k1 H1. apply wpc_bind. eapply wpc_mono; [apply IH| |done].
  intros y s2 k2 H2. unfold wpc. cbn. cbn in *. lia.
Qed.
Lemma init_least w : at_least trie_new (suffix_init_c (PStr w)) (length (strip_dollar w) + 1).
Proof.
  intros k. assert (wpc trie_new k (suffix_init_c (PStr w)) (fun _ _ k' => k + (length (strip_dollar w) + 1) <= k') (fun _ => True)) as H.
  { unfold suffix_init_c. apply wpc_lfb; [done|]. intros v s' Hv.
    assert (v = w) as -> by (destruct w; [done|]; by injection Hv).
    apply wpc_bind. eapply wpc_mono; [apply loop_least| |done]. intros l s2 k2 Hk. unfold wpc, ret. cbn [fst snd]. cbn beta in Hk. lia. }
  unfold wpc in H. by destruct (suffix_init_c (PStr w) (trie_new, k)).
Qed.

Section Work.
Context (f : sfx) (w : word) (L : gmap nat word) (I : sinv f w L).
Notation s := (f_rt f).
Lemma sfx_rep : rep s L. Proof. exact (x_rep _ _ _ _ (i_shape _ _ _ I)). Qed.

(** ** Counting *)
(** A node below the root has no child or at least two. *)
Lemma two_children i p n : L !! i = Some p -> p <> [] -> t_nodes s !! i = Some n -> n_children n = [] \/ 2 <= length (n_children n).
Proof.
  pose proof (i_shape _ _ _ I) as T. pose proof sfx_rep as R. intros Hi Hp Hn.
  destruct (n_children n) as [|kc [|kc' l]] eqn:Ech; [by left| |right; cbn; lia]. exfalso. destruct kc as [k0 c0].
  assert ((k0, c0) ∈ n_children n) as Hin by (rewrite Ech; left).
  destruct (i_branch _ _ _ I _ _ Hi) as [?|[Hl|(x & y & u & v & Hxy & H1 & H2)]]; [done| |].
  - by apply (label_leaf f w L I i p Hi Hl n k0 c0 Hn).
  - destruct (child_of _ _ _ _ _ _ _ R Hi Hn Hin) as (m & r & _ & _ & _ & HL).
    assert (forall z t, p ++ z :: t ∈ labels w -> z = k0) as Hk.
    { intros z t Hz. destruct (x_live _ _ _ _ T _ Hz) as (b & Hb).
      assert (p `prefix_of` p ++ z :: t) as Hpp by by eexists.
      apply (live_below s L i p n b _ R Hi Hn Hb) in Hpp as [->|(c & Hc & qc & Hqc & Hpc)].
      - rewrite Hi in Hb. injection Hb as Hb. apply (f_equal length) in Hb. rewrite app_length in Hb. cbn in Hb. lia.
      - rewrite Ech in Hc. cbn in Hc. apply elem_of_list_singleton in Hc as ->. rewrite HL in Hqc. injection Hqc as <-.
        apply prefix_app_inv in Hpc. by apply prefix_cons_inv_1 in Hpc. }
    apply Hxy. by rewrite (Hk _ _ H1), (Hk _ _ H2).
Qed.
Lemma leaves_steps : forall g i p k, L !! i = Some p -> p <> [] ->
  wpc s k (leaves_from_c g i) (fun r s' k' => s' = s /\ k + r <= k' /\ k' + 1 <= k + 2 * r) (fun _ => False).
Proof.
  pose proof sfx_rep as R. induction g as [|g IH]; intros i p k Hi Hp; [done|]. cbn [leaves_from_c]. apply wpc_tick.
  destruct (r_node _ _ R _ _ Hi) as (n & Hn & _).
  unfold wpc. rewrite (lf_ok _ _ _ _ _ _ (rd_eq _ _ _ Hn)).
  destruct (children_part _ _ _ _ _ R Hi Hn) as [_ Hc]. pose proof (two_children i p n Hi Hp Hn) as H2.
  destruct (n_children n) as [|c0 cs] eqn:Ech; [cbn; split; [done|lia]|]. destruct H2 as [?|H2]; [done|].
  assert (forall l k, (forall c, c ∈ l -> c ∈ map snd (c0 :: cs)) ->
    wpc s k ((fix go l := match l with
                       | [] => ret 0
                       | c :: l' => let! x := leaves_from_c g c in let! r := go l' in ret (x + r)
                       end) l) (fun r s' k' => s' = s /\ k + r <= k' /\ k' + length l <= k + 2 * r) (fun _ => False)) as Hgo.
  { induction l as [|c l IHl]; intros k' Hl; [unfold wpc; cbn; split; [done|lia]|]. apply wpc_bind.
    destruct (proj1 (Hc c) (Hl c ltac:(left))) as (k0 & m & r & _ & _ & _ & HL).
    eapply wpc_mono; [apply (IH c _ k' HL); by destruct p| |done]. intros x s' k1 (-> & Ha & Hb). cbn beta.
    apply wpc_bind. eapply wpc_mono; [apply IHl; intros; apply Hl; by right| |done]. intros r' s' k2 (-> & Ha' & Hb').
    unfold wpc. cbn. split; [done|]. lia. }
  specialize (Hgo (map snd (c0 :: cs)) (S k) ltac:(done)). unfold wpc in Hgo. cbn [n_children] in *.
  match goal with |- match ?t with _ => _ end => destruct t as [r [s' k']|e [s' k']|] end; [|done|done]. cbn [fst snd] in *.
  destruct Hgo as (-> & Ha & Hb). rewrite map_length in Hb. split; [done|]. lia.
Qed.
Lemma count_steps p k :
  wpc s k (count_occurrences_c (PStr p)) (fun r _ k' => k + r <= k' /\ k' <= k + length p + (2 * r - 1)) (fun k' => k' <= k + length p).
Proof.
  pose proof sfx_rep as R. unfold count_occurrences_c. apply wpc_bind. eapply wpc_mono; [apply wpc_and; [by eapply follow_c_steps|apply follow_c_mono]| |by intros k' [? _]].
  intros [c r] s' k' [(-> & d & -> & Hat & Hk & _) Hk0].
  cbn [fst snd] in *. rewrite app_length.
  assert (forall o k1, k <= k1 -> k1 <= k + length d + length r -> (forall i, o = Some i -> exists q, L !! i = Some q) ->
    wpc s k1 (let! s0 := lf get_state in if bool_decide (o = Some (t_root s0)) then ret 0
      else match o with Some i => count_leaves_below_c i | None => raise AssertionError end)
      (fun r0 _ k' => k + r0 <= k' /\ k' <= k + (length d + length r) + (2 * r0 - 1)) (fun k' => k' <= k + (length d + length r))) as Hfin.
  { intros o k1 H1 H2 Ho. apply wpc_lfb; [lia|]. intros ? ? [= <- <-]. case_bool_decide as Hr; [unfold wpc; cbn; lia|].
    destruct o as [i|]; [|unfold wpc; cbn; lia]. destruct (Ho i eq_refl) as (q & Hq).
    assert (q <> []) as Hne. { intros ->. apply Hr. f_equal. apply (r_inj _ _ R _ _ _ Hq (r_root _ _ R)). }
    unfold count_leaves_below_c. apply wpc_lfb; [lia|]. intros ? ? [= <- <-].
    eapply wpc_mono; [by apply (leaves_steps _ _ q)| |done]. intros r0 s' k2 (-> & Ha & Hb). lia. }
  apply wpc_bind. destruct r as [|ch r].
  - unfold wpc at 1. cbn [ret fst snd]. apply Hfin; [lia|cbn in *; lia|]. intros i ->. by exists d.
  - cbn [length] in *. apply wpc_lfb; [lia|]. intros i s' [-> ->]%deref_inv. cbn in Hat.
    apply wpc_lfb; [lia|]. intros child s' [-> (n & Hn & ->)]%get_child_inv.
    apply wpc_lfb; [lia|]. intros cd s' [-> _]%data_or_inv.
    case_bool_decide; unfold wpc at 1; cbn [ret fst snd]; [|unfold wpc; cbn; lia].
    apply Hfin; [lia|lia|]. intros c Hc. apply dget_in in Hc. destruct (child_of _ _ _ _ _ _ _ R Hat Hn Hc) as (m & r' & _ & _ & _ & HL). eauto.
Qed.

(** ** Ancestors *)
Lemma ancestors_steps : forall g j q k, L !! j = Some q ->
  wpc s k (ancestors_loop_c g (Some j)) (fun _ s' k' => s' = s /\ k' <= k + length q) (fun k' => False).
Proof.
  pose proof sfx_rep as R. induction g as [|g IH]; intros j q k Hj; [done|]. cbn [ancestors_loop_c].
  unfold wpc. rewrite (lf_ok _ _ _ s s) by done. case_bool_decide as Hr; [cbn; split; [done|lia]|].
  destruct (r_node _ _ R _ _ Hj) as (n & Hn & _).
  assert (q <> []) as Hne. { intros ->. apply Hr. f_equal. apply (r_inj _ _ R _ _ _ Hj (r_root _ _ R)). }
  destruct (parent_of _ _ _ _ _ R Hj Hn Hne) as (j' & q' & m & k0 & Hpar & Hj' & _ & _ & Hh & Hpq & _).
  change (wpc s k (tick ;; bind (lf (deref (Some j))) (fun p => let! n := lf (rd p) in
        let! rest := ancestors_loop_c g (n_parent n) in
        ret (n_data n :: rest))) (fun _ s' k' => s' = s /\ k' <= k + length q) (fun k' => False)).
  apply wpc_tick. unfold wpc. rewrite (lf_ok _ _ _ j s) by done. rewrite (lf_ok _ _ _ _ _ _ (rd_eq _ _ _ Hn)). rewrite Hpar.
  change (wpc s (S k) (let! rest := ancestors_loop_c g (Some j') in ret (n_data n :: rest)) (fun _ s' k' => s' = s /\ k' <= k + length q) (fun k' => False)).
  apply wpc_bind. eapply wpc_mono; [by apply (IH j' q')| |done]. intros l s' k' [-> Hk]. unfold wpc. cbn. split; [done|].
  rewrite Hpq, app_length. destruct (n_data n); [done|]. cbn. lia.
Qed.
Lemma anc_steps i a k : w <> [] -> i <= length w -> L !! a = Some (label w i) ->
  wpc s k (ancestors_data_c a) (fun _ s' k' => s' = s /\ k' <= k + (length w - i)) (fun k' => False).
Proof.
  pose proof sfx_rep as R. intros Hw Hi Ha. unfold ancestors_data_c, wpc. rewrite (lf_ok _ _ _ s s) by done.
  case_bool_decide as Hr. { cbn. split; [done|lia]. }
  destruct (r_node _ _ R _ _ Ha) as (n & Hn & _).
  destruct (parent_of _ _ _ _ _ R Ha Hn (label_nil w i)) as (j & q & m & k0 & Hpar & Hj & Hm & Hin & Hh & Hpq & _).
  rewrite (lf_ok _ _ _ _ _ _ (rd_eq _ _ _ Hn)), Hpar.
  assert (length q <= length w - i) as Hq.
  { destruct (inner_repeated f w L I j q m k0 a Hw Hj Hm Hin) as (x & y & _ & Hx & _).
    apply occurs_at_drop in Hx as [_ Hx].
    assert (no_dollar q) as Hd. { destruct Hx as [t Ht]. intros Hd. apply (no_dollar_drop _ x (i_dollar _ _ _ I)). rewrite Ht. set_solver. }
    assert (q `prefix_of` label w i) as Hp by (rewrite Hpq; by eexists). apply label_pattern in Hp; [|done].
    apply prefix_length in Hp. rewrite drop_length in Hp. lia. }
  change (wpc s k (let! l := ancestors_loop_c (S (length (t_nodes s))) (Some j) in ret (mjoin (rev l))) (fun _ s' k' => s' = s /\ k' <= k + (length w - i)) (fun k' => False)).
  apply wpc_bind. eapply wpc_mono; [by apply (ancestors_steps _ j q)| |done]. intros l s' k' [-> Hk]. unfold wpc. cbn. split; [done|lia].
Qed.
Lemma lca_steps i j : at_most s (lowest_common_ancestor_c f (PInt (Z.of_nat i)) (PInt (Z.of_nat j))) ((length w - i) + (length w - j)).
Proof.
  apply wpc_at_most. intros k. unfold lowest_common_ancestor_c. rewrite (i_word _ _ _ I).
  rewrite !(proj2 (Z.ltb_ge (Z.of_nat _) 0)) by lia. cbn [orb].
  destruct (Z.leb_spec (Z.of_nat (length w)) (Z.of_nat i)) as [|Hi]; [unfold wpc; cbn; lia|].
  destruct (Z.ltb_spec (Z.of_nat (length w)) (Z.of_nat j)) as [|Hj]; [unfold wpc; cbn; lia|]. cbn [orb].
  assert (w <> []) as Hw by (intros ->; cbn in *; lia).
  destruct (leaf_at f w L I i ltac:(lia)) as (a & Ha & HLa). destruct (leaf_at f w L I j ltac:(lia)) as (b & Hb & HLb).
  assert (forall i a, f_leaves f !! i = Some a -> leaf_node f (Z.of_nat i) s = Ok a s) as Hleaf by (intros ? ? H; unfold leaf_node; by rewrite Nat2Z.id, H).
  unfold wpc. rewrite (lf_ok _ _ _ _ _ _ (Hleaf _ _ Ha)).
  match goal with |- match ?c (s, k) with _ => _ end => change (wpc s k c (fun _ _ k' => k' <= k + (length w - i + (length w - j))) (fun k' => k' <= k + (length w - i + (length w - j)))) end.
  apply wpc_bind. eapply wpc_mono; [apply (anc_steps i a k Hw ltac:(lia) HLa)| |done]. intros x s' k' [-> Hk].
  unfold wpc. rewrite (lf_ok _ _ _ _ _ _ (Hleaf _ _ Hb)).
  match goal with |- match ?c (s, k') with _ => _ end => change (wpc s k' c (fun _ _ k' => k' <= k + (length w - i + (length w - j))) (fun k' => k' <= k + (length w - i + (length w - j)))) end.
  apply wpc_bind. eapply wpc_mono; [apply (anc_steps j b k' Hw ltac:(lia) HLb)| |done]. intros y s' k2 [-> Hk2]. unfold wpc. cbn. lia.
Qed.
End Work.
