(** * The work of Trie and RadixTrie (C79): proofs *)
From stdpp Require Import gmap.
From Verif Require Import Base TrieModel TrieRep TrieSpec TrieThm TrieThm2 WalkModel WalkSpec WalkThm TrieWorkModel.
Local Open Scope py_scope.

(** ** The counter changes nothing *)
Lemma co_follow_loop : forall f c w, counts (follow_loop_c f c w) (follow_loop f c w).
Proof. induction f; intros; cbn [follow_loop_c follow_loop]; [co|]. cog. Qed.
#[local] Hint Resolve co_follow_loop : co.
Lemma co_follow w : counts (follow_path_c w) (follow_path w).
Proof. unfold follow_path_c, follow_path. cog. Qed.
#[local] Hint Resolve co_follow : co.
Lemma co_contains v : counts (contains_c v) (trie_contains v).
Proof. unfold contains_c, trie_contains. cog. Qed.
Lemma co_has_prefix v : counts (has_prefix_c v) (trie_has_prefix v).
Proof. unfold has_prefix_c, trie_has_prefix. cog. Qed.
Lemma co_insert_loop : forall w c, counts (insert_loop_c c w) (insert_loop c w).
Proof. induction w; intros; cbn [insert_loop_c insert_loop]; cog. Qed.
#[local] Hint Resolve co_insert_loop : co.
Lemma co_t_insert v : counts (t_insert_c v) (trie_insert v).
Proof. unfold t_insert_c, trie_insert. cog. Qed.
Lemma co_remove_loop : forall f i, counts (remove_loop_c f i) (remove_loop f i).
Proof. induction f; intros; cbn [remove_loop_c remove_loop]; cog. Qed.
#[local] Hint Resolve co_remove_loop : co.
Lemma co_remove v : counts (remove_c v) (trie_remove v).
Proof. unfold remove_c, trie_remove. cog. Qed.
Lemma co_extend_map {S A B} (f : A -> M (S * nat) (list B)) g : (forall a, counts (f a) (g a)) ->
  forall l, counts (extend_map f l) (extend_map g l).
Proof.
  intros H. induction l as [|x l IH]; [apply co_ret|]. cbn [extend_map]. apply co_bind; [apply H|]. intros o.
  apply co_bind; [exact IH|]. intros r. apply co_ret.
Qed.
Lemma co_candidates : forall f i p, counts (get_candidates_c f i p) (get_candidates f i p).
Proof.
  induction f; intros; cbn [get_candidates_c get_candidates]; [co|]. apply co_tick. apply co_bind; [apply co_lf|]. intros n.
  apply co_bind; [|intros; apply co_ret]. apply co_extend_map. intros. apply IHf.
Qed.
Lemma co_complete c p : counts (complete_from_c c p) (complete_from c p).
Proof.
  unfold complete_from_c, complete_from. do 4 (apply co_bind; [apply co_lf|]; intros).
  apply co_bind; [|intros; apply co_ret]. apply co_extend_map. intros. apply co_candidates.
Qed.
#[local] Hint Resolve co_complete : co.
Lemma co_t_auto v : counts (t_auto_complete_c v) (trie_auto_complete v).
Proof. unfold t_auto_complete_c, trie_auto_complete. cog. Qed.
Lemma co_radix_loop : forall f c n w, counts (radix_loop_c f c n w) (radix_loop f c n w).
Proof. induction f; intros; cbn [radix_loop_c radix_loop]; cog. Qed.
#[local] Hint Resolve co_radix_loop : co.
Lemma co_r_auto v : counts (r_auto_complete_c v) (radix_auto_complete v).
Proof. unfold r_auto_complete_c, radix_auto_complete. cog. Qed.
Lemma co_r_insert_node w : counts (radix_insert_node_c w) (radix_insert_node w).
Proof. unfold radix_insert_node_c, radix_insert_node. cog. Qed.
#[local] Hint Resolve co_r_insert_node : co.
Lemma co_r_insert v : counts (r_insert_c v) (radix_insert v).
Proof. unfold r_insert_c, radix_insert. cog. Qed.

(** ** A small program logic for the counter *)
Definition wpc {A} (s : ts) (k : nat) (c : M ct A) (Q : A -> ts -> nat -> Prop) (E : nat -> Prop) : Prop :=
  match c (s, k) with Ok a p => Q a p.1 p.2 | Exc _ p => E p.2 | Diverge => True end.
Lemma wpc_bind {A B} s k (c : M ct A) (f : A -> M ct B) Q E :
  wpc s k c (fun a s' k' => wpc s' k' (f a) Q E) E -> wpc s k (bind c f) Q E.
Proof. unfold wpc, bind. by destruct (c (s, k)) as [a [s' k']|e [s' k']|]. Qed.
Lemma wpc_lf {A} s k (m : M ts A) (Q : A -> ts -> nat -> Prop) (E : nat -> Prop) :
  E k -> (forall a s', m s = Ok a s' -> Q a s' k) -> wpc s k (lf m) Q E.
Proof. intros HE H. unfold wpc, lf. cbn. destruct (m s) as [a s'|e s'|] eqn:Em; cbn; [by apply H|done|done]. Qed.
Lemma wpc_lfb {A B} s k (m : M ts A) (f : A -> M ct B) Q (E : nat -> Prop) :
  E k -> (forall a s', m s = Ok a s' -> wpc s' k (f a) Q E) -> wpc s k (bind (lf m) f) Q E.
Proof. intros HE H. apply wpc_bind, wpc_lf; done. Qed.
Lemma wpc_tick {A} s k (c : M ct A) Q E : wpc s (S k) c Q E -> wpc s k (tick ;; c) Q E.
Proof. done. Qed.
Lemma wpc_mono {A} s k (c : M ct A) (Q Q' : A -> ts -> nat -> Prop) (E E' : nat -> Prop) :
  wpc s k c Q E -> (forall a s' k', Q a s' k' -> Q' a s' k') -> (forall k', E k' -> E' k') -> wpc s k c Q' E'.
Proof. unfold wpc. intros H HQ HE. destruct (c (s, k)); auto. Qed.
Lemma wpc_at_most {A} s (c : M ct A) n :
  (forall k, wpc s k c (fun _ _ k' => k' <= k + n) (fun k' => k' <= k + n)) -> at_most s c n.
Proof. intros H k. specialize (H k). unfold wpc in H. by destruct (c (s, k)). Qed.

Lemma lf_ok {A B} (m : M ts A) (f : A -> M ct B) s a s' k : m s = Ok a s' -> bind (lf m) f (s, k) = f a (s', k).
Proof. intros H. unfold bind, lf. cbn. by rewrite H. Qed.

(** ** Following a word *)
Lemma get_child_inv s i ch a s' : get_child i ch s = Ok a s' -> s' = s /\ exists n, t_nodes s !! i = Some n /\ a = dget ch (n_children n).
Proof. unfold get_child, rd, bind. destruct (t_nodes s !! i) as [n|] eqn:E; [|done]. intros [= <- <-]. eauto. Qed.
Lemma data_or_inv s c d a s' : data_or c d s = Ok a s' -> s' = s /\
  match c with None => a = d | Some i => exists n, t_nodes s !! i = Some n /\ a = n_data n end.
Proof.
  unfold data_or, rd, bind. destruct c as [i|].
  - destruct (t_nodes s !! i) as [n|] eqn:E; [|done]. intros [= <- <-]. eauto.
  - by intros [= <- <-].
Qed.
Lemma deref_inv {A} (o : option A) (s : ts) a s' : deref o s = Ok a s' -> s' = s /\ o = Some a.
Proof. unfold deref. destruct o; [|done]. by intros [= <- <-]. Qed.
(** Where a path leads. *)
Definition at_node (L : gmap nat word) (c : option nat) (p : word) : Prop :=
  match c with None => True | Some i => L !! i = Some p end.
Lemma follow_steps s L : rep s L -> forall f c p w k, at_node L c p ->
  wpc s k (follow_loop_c f c w)
    (fun x s' k' => s' = s /\ exists d, w = d ++ x.2 /\ at_node L x.1 (p ++ d)
        /\ k' <= k + length d + (if x.2 then 0 else 1)
        /\ (single s L -> k' = k + length d + (if x.2 then 0 else 1)))
    (fun k' => k' <= k + length w).
Proof.
  intros R. induction f as [|f IH]; intros c p w k Hc; [done|]. cbn [follow_loop_c].
  destruct w as [|ch w].
  { unfold wpc. cbn. split; [done|]. exists []. rewrite (app_nil_r p). cbn. split_and!; [done|done|lia|lia]. }
  apply wpc_tick. apply wpc_lfb; [cbn; lia|]. intros i s' [-> Hi]%deref_inv. subst c. cbn in Hc.
  apply wpc_lfb; [cbn; lia|]. intros ch' s' [-> (n & Hn & Hch)]%get_child_inv.
  apply wpc_lfb; [cbn; lia|]. intros d s' [-> Hd]%data_or_inv.
  case_bool_decide as Hpre.
  - assert (exists r, ch :: w = d ++ r /\ r = drop (length d) (ch :: w)) as (r & Hr & <-).
    { eexists. split; [|done]. rewrite Hpre at 1. by rewrite take_drop. }
    assert (d <> [] /\ at_node L ch' (p ++ d) /\ (single s L -> length d = 1)) as (Hne & Hat & Hlen).
    { destruct ch' as [c|]; cbn.
      - destruct Hd as (m & Hm & ->). symmetry in Hch. apply dget_in in Hch.
        destruct (child_of _ _ _ _ _ _ _ R Hc Hn Hch) as (m' & r' & Hm' & _ & Hr' & HL). rewrite Hm in Hm'. injection Hm' as <-.
        rewrite Hr'. split_and!; [done|exact HL|]. intros Hs. rewrite <- Hr'. apply (Hs _ _ _ HL Hm). by destruct p.
      - by subst d. }
    eapply wpc_mono; [apply (IH ch' (p ++ d) r (S k) Hat)| |]; cbn.
    + intros [c x] s' k' (-> & e & -> & Hat' & Hk & Hk'). split; [done|]. exists (d ++ e). rewrite Hr, <- !(assoc_L (++)) in *. cbn in *.
      split_and!; [done|done| |].
      * rewrite app_length. destruct d; [done|]. cbn. lia.
      * intros Hs. specialize (Hk' Hs). rewrite app_length, (Hlen Hs). lia.
    + intros k' Hk'. apply (f_equal length) in Hr. rewrite app_length in Hr. cbn in Hr. destruct d; [done|]. cbn in *. lia.
  - unfold wpc. cbn. split; [done|]. exists []. rewrite (app_nil_r p). cbn. split_and!; [done|done|lia|lia].
Qed.
Lemma follow_c_steps s L w k : rep s L ->
  wpc s k (follow_path_c w)
    (fun x s' k' => s' = s /\ exists d, w = d ++ x.2 /\ at_node L x.1 d
        /\ k' <= k + length d + (if x.2 then 0 else 1)
        /\ (single s L -> k' = k + length d + (if x.2 then 0 else 1)))
    (fun k' => k' <= k + length w).
Proof.
  intros R. unfold follow_path_c. apply wpc_lfb; [lia|]. intros ? s' [= -> ->].
  apply (follow_steps s' L R _ (Some (t_root s')) [] w k). apply (r_root _ _ R).
Qed.
Lemma contains_steps s L v : rep s L -> at_most s (contains_c (PStr v)) (length v).
Proof.
  intros R. apply wpc_at_most. intros k. unfold contains_c. apply wpc_bind.
  eapply wpc_mono; [by eapply follow_c_steps| |done]. intros [c r] s' k' (-> & d & -> & _ & Hk & _). cbn in *.
  rewrite app_length. destruct r; [|unfold wpc; cbn; lia]. apply wpc_lf; cbn; [lia|]. intros. lia.
Qed.
Lemma has_prefix_steps s L v : rep s L -> at_most s (has_prefix_c (PStr v)) (length v).
Proof.
  intros R. apply wpc_at_most. intros k. unfold has_prefix_c. apply wpc_bind.
  eapply wpc_mono; [by eapply follow_c_steps| |done]. intros [c r] s' k' (-> & d & -> & _ & Hk & _). cbn in *.
  rewrite app_length. destruct r; [unfold wpc; cbn; lia|]. do 3 (apply wpc_lfb; [cbn; lia|]; intros). unfold wpc. cbn. lia.
Qed.
Lemma insert_loop_steps : forall w c s k, wpc s k (insert_loop_c c w) (fun _ _ k' => k' = k + length w) (fun k' => k' <= k + length w).
Proof.
  induction w as [|ch w IH]; intros c s k; cbn [insert_loop_c]; [unfold wpc; cbn; lia|]. apply wpc_tick.
  do 4 (apply wpc_lfb; [cbn; lia|]; intros). eapply wpc_mono; [apply IH|cbn; lia..].
Qed.
Lemma t_insert_steps s L v : rep s L -> at_most s (t_insert_c (PStr v)) (length v + 1).
Proof.
  intros R. apply wpc_at_most. intros k. unfold t_insert_c. apply wpc_lfb; [lia|]. intros w s' Hv.
  assert (s' = s /\ w = v) as [-> ->] by (cbn in Hv; destruct (blank v); [done|by injection Hv]).
  apply wpc_bind. eapply wpc_mono; [by eapply follow_c_steps| |cbn; lia]. intros [c r] s' k' (-> & d & -> & _ & Hk & _). cbn in *.
  rewrite app_length. assert (k' + length r <= k + length d + length r + 1) by (destruct r; lia).
  apply wpc_bind. eapply wpc_mono; [apply insert_loop_steps| |cbn; lia].
  intros a s' k2 ->. apply wpc_lfb; [lia|]. intros. apply wpc_lf; [lia|]. intros. lia.
Qed.
(** ** Walking up *)
Fixpoint up (ns : list tnode) (d i : nat) : Prop :=
  match ns !! i with
  | None => True
  | Some n => match n_parent n with
              | None => True
              | Some j => match d with 0 => False | S d' => up ns d' j end
              end
  end.
Lemma up_same ns ns' : (forall i, n_parent <$> ns !! i = n_parent <$> ns' !! i) -> forall d i, up ns d i -> up ns' d i.
Proof.
  intros H. induction d as [|d IH]; intros i; cbn; specialize (H i);
    destruct (ns !! i) as [n|], (ns' !! i) as [n'|]; try done; injection H as ->; [done|]. destruct (n_parent n'); [|done]. apply IH.
Qed.
Lemma up_node s L : rep s L -> forall d i p, L !! i = Some p -> length p <= d -> up (t_nodes s) d i.
Proof.
  intros R. induction d as [|d IH]; intros i p Hi Hd.
  - destruct (r_node _ _ R _ _ Hi) as (n & Hn & _ & _ & Hup). cbn. rewrite Hn.
    destruct Hup as [[_ ->]|(j & q & k & m & Hp & Hj & -> & Hh & _)]; [done|]. exfalso. apply head_cons in Hh as (r & Hr).
    rewrite Hr, app_length in Hd. cbn in Hd. lia.
  - destruct (r_node _ _ R _ _ Hi) as (n & Hn & _ & _ & Hup). cbn. rewrite Hn.
    destruct Hup as [[_ ->]|(j & q & k & m & Hp & Hj & -> & Hh & _)]; [done|]. apply head_cons in Hh as (r & Hr).
    rewrite Hp. apply (IH j q Hj). rewrite Hr, app_length in Hd. cbn in Hd. lia.
Qed.
Lemma wr_parent (ns : list tnode) (i : nat) n n' : ns !! i = Some n -> n_parent n' = n_parent n ->
  forall j, n_parent <$> ns !! j = n_parent <$> <[i:=n']> ns !! j.
Proof.
  intros Hi Hp j. destruct (decide (i = j)) as [<-|Hne].
  - rewrite list_lookup_insert by (by eapply lookup_lt_Some). rewrite Hi. cbn. by rewrite Hp.
  - by rewrite list_lookup_insert_ne.
Qed.
Lemma rd_inv s i n s' : rd i s = Ok n s' -> s' = s /\ t_nodes s !! i = Some n.
Proof. unfold rd. destruct (t_nodes s !! i); [|done]. by intros [= <- <-]. Qed.
Lemma remove_loop_steps : forall f d i s k, up (t_nodes s) d i ->
  wpc s k (remove_loop_c f i) (fun _ _ k' => k' <= k + d + 1) (fun k' => k' <= k + d + 1).
Proof.
  induction f as [|f IH]; intros d i s k Hup; [done|]. cbn [remove_loop_c]. apply wpc_tick.
  apply wpc_lfb; [lia|]. intros n s' [-> Hn]%rd_inv. destruct (negb _ && _); [|unfold wpc; cbn; lia].
  apply wpc_bind. destruct (n_data n) as [|ch dt]; unfold wpc at 1; cbn [ret raise]; [cbn; lia|]. cbn [fst snd].
  apply wpc_lfb; [lia|]. intros p s' [-> Hp]%deref_inv. apply wpc_lfb; [lia|]. intros pn s' [-> Hpn]%rd_inv.
  destruct (dget ch (n_children pn)); [|unfold wpc; cbn; lia].
  apply wpc_lfb; [lia|]. intros ? s' [= _ <-]. apply wpc_lfb; [lia|]. intros ? s' [= _ <-].
  destruct d as [|d]; cbn in Hup; rewrite Hn, Hp in Hup; [done|].
  eapply wpc_mono; [apply (IH d)|cbn; lia|cbn; lia]. cbn. eapply up_same; [|exact Hup]. by eapply wr_parent.
Qed.
Lemma remove_steps s L v : rep s L -> at_most s (remove_c (PStr v)) (2 * length v + 1).
Proof.
  intros R. apply wpc_at_most. intros k. unfold remove_c. destruct v as [|x v]; [unfold wpc; cbn; lia|]. set (w := x :: v).
  apply wpc_bind. eapply wpc_mono; [by eapply follow_c_steps| |cbn; lia]. intros [c r] s' k' (-> & d & -> & Hat & Hk & _). cbn [fst snd] in *.
  rewrite app_length. destruct r as [|y r]; [|unfold wpc; cbn; lia]. cbn [length] in *.
  apply wpc_lfb; [lia|]. intros i s' [-> ->]%deref_inv. cbn [at_node] in Hat.
  apply wpc_lfb; [lia|]. intros u s' Hs'. apply wpc_lfb; [lia|]. intros s2 s3 [= <- <-]. apply wpc_bind.
  assert (up (t_nodes s') (length d) i) as Hup.
  { unfold set_word, rd, bind in Hs'. destruct (t_nodes s !! i) as [n|] eqn:Hn; [|done]. injection Hs' as _ <-. cbn.
    eapply up_same; [|by eapply up_node]. by eapply wr_parent. }
  eapply wpc_mono; [by apply remove_loop_steps| |]; cbn; [intros; unfold wpc; cbn; lia|lia].
Qed.

(** ** RadixTrie._insert *)
Definition chd (s : ts) (j : nat) : option (list (N * nat)) := n_children <$> t_nodes s !! j.
Lemma set_data_chd s c d u s' j : set_data c d s = Ok u s' -> chd s' j = chd s j.
Proof.
  unfold set_data, rd, bind, wr, chd. destruct (t_nodes s !! c) as [n|] eqn:E; [|done]. intros [= _ <-]. cbn.
  destruct (decide (c = j)) as [<-|Hne]; [|by rewrite list_lookup_insert_ne].
  rewrite list_lookup_insert by (by eapply lookup_lt_Some). by rewrite E.
Qed.
Lemma set_child_chd s i ch c u s' j : set_child i ch c s = Ok u s' ->
  chd s' j = if decide (i = j) then dset ch c <$> chd s i else chd s j.
Proof.
  unfold set_child, rd, bind, wr, chd. destruct (t_nodes s !! i) as [n|] eqn:E; [|done]. cbn.
  destruct (<[i:=_]> (t_nodes s) !! c) as [m|] eqn:E'; [|done]. intros [= _ <-]. cbn.
  assert (n_children <$> <[i:=TN (n_data n) (n_parent n) (dset ch c (n_children n)) (n_word n)]> (t_nodes s) !! j
    = if decide (i = j) then dset ch c <$> Some (n_children n) else n_children <$> t_nodes s !! j) as H.
  { destruct (decide (i = j)) as [<-|Hne]; [|by rewrite list_lookup_insert_ne]. by rewrite list_lookup_insert by (by eapply lookup_lt_Some). }
  etrans; [|exact H]. destruct (decide (c = j)) as [<-|Hne]; [|by rewrite list_lookup_insert_ne].
  rewrite list_lookup_insert by (by eapply lookup_lt_Some). by rewrite E'.
Qed.
Lemma radix_leaf_steps f i newn rest s k : (forall k0 r, rest = k0 :: r -> exists l, chd s i = Some l /\ dget k0 l = None) ->
  wpc s k (radix_loop_c f (Some i) newn rest) (fun _ _ k' => k' <= k + 1) (fun k' => k' <= k + 1).
Proof.
  intros H. destruct f as [|f]; [done|]. cbn [radix_loop_c]. destruct rest as [|ch r]; [unfold wpc; cbn; lia|].
  destruct (H ch r eq_refl) as (l & Hl & Hd). apply wpc_tick. apply wpc_lfb; [lia|]. intros i' s' [-> [= <-]]%deref_inv.
  apply wpc_lfb; [lia|]. intros c s' [-> (n & Hn & ->)]%get_child_inv. unfold chd in Hl. rewrite Hn in Hl. injection Hl as <-. rewrite Hd.
  apply wpc_lfb; [lia|]. intros d s' [-> ->]%data_or_inv. rewrite get_lcp_nil. cbn [length Nat.eqb].
  do 3 (apply wpc_lfb; [lia|]; intros). destruct f; [done|]. unfold wpc. cbn. lia.
Qed.
Lemma radix_loop_steps f c rest s k :
  wpc s k (radix_loop_c f c None rest) (fun _ _ k' => k' <= k + (if rest then 0 else 2)) (fun k' => k' <= k + 2).
Proof.
  destruct f as [|f]; [done|]. cbn [radix_loop_c]. destruct rest as [|ch r]; [unfold wpc; cbn; lia|].
  apply wpc_tick. apply wpc_lfb; [lia|]. intros i s' [-> ->]%deref_inv.
  apply wpc_lfb; [lia|]. intros c s' [-> (n & Hn & ->)]%get_child_inv.
  apply wpc_lfb; [lia|]. intros d s' [-> Hd]%data_or_inv.
  destruct (get_lcp_spec d (ch :: r)) as (a' & b' & Ha & Hb & Hdiff). set (l := get_lcp d (ch :: r)) in *.
  destruct (Nat.eqb_spec (length l) 0) as [E|E].
  { do 3 (apply wpc_lfb; [lia|]; intros). destruct f; [done|]. unfold wpc. cbn. lia. }
  destruct (_ && _); [|unfold wpc; cbn; lia].
  apply wpc_lfb; [lia|]. intros b s1 [= <- <-]. apply wpc_lfb; [lia|]. intros cc s1 [-> Hcc]%deref_inv.
  apply wpc_lfb; [lia|]. intros u1 s2 H2. apply wpc_bind. destruct (d !! length l) as [kc|] eqn:Hkc; unfold wpc at 1; cbn [ret raise]; [|cbn; lia]. cbn [fst snd].
  apply wpc_lfb; [lia|]. intros u3 s3 H3. apply wpc_bind. destruct d as [|k0 d0] eqn:Hd0; unfold wpc at 1; cbn [ret raise]; [cbn; lia|]. cbn [fst snd].
  rewrite <- Hd0 in *. apply wpc_lfb; [lia|]. intros u4 s4 H4. apply wpc_lfb; [lia|]. intros u5 s5 [= _ <-].
  eapply wpc_mono; [apply radix_leaf_steps| |]; [|cbn; lia|cbn; lia]. intros k3 r3 Hdrop. unfold chd. cbn.
  fold (chd s4 (length (t_nodes s))). rewrite (set_child_chd _ _ _ _ _ _ _ H4).
  apply lookup_lt_Some in Hn as Hlt. rewrite decide_False by lia.
  rewrite (set_child_chd _ _ _ _ _ _ _ H3). rewrite decide_True by done.
  rewrite (set_data_chd _ _ _ _ _ _ H2). unfold chd. cbn. rewrite lookup_app_r, Nat.sub_diag by lia. cbn.
  exists [(kc, cc)]. split; [done|]. cbn. destruct (N.eqb_spec kc k3) as [->|]; [|done]. exfalso.
  rewrite Hb, drop_app in Hdrop. subst b'. rewrite Ha, lookup_app_r, Nat.sub_diag in Hkc by lia.
  destruct Hdiff as [->|[?|(x & y & u & v & -> & [= <- <-] & Hne)]]; [done|done|]. by injection Hkc.
Qed.
Lemma r_insert_steps s L v : rep s L -> at_most s (r_insert_c (PStr v)) (length v + 2).
Proof.
  intros R. apply wpc_at_most. intros k. unfold r_insert_c. apply wpc_lfb; [lia|]. intros w s' Hv.
  assert (s' = s /\ w = v) as [-> ->] by (cbn in Hv; destruct (blank v); [done|by injection Hv]).
  unfold radix_insert_node_c. apply wpc_bind, wpc_lfb; [lia|]. intros u s' Hu.
  assert (s' = s) as -> by (unfold py_assert in Hu; destruct (negb _); [by injection Hu|done]).
  apply wpc_bind. eapply wpc_mono; [by eapply follow_c_steps| |cbn; lia]. intros [c r] s' k' (-> & d & -> & _ & Hk & _). cbn [fst snd] in *.
  rewrite app_length. apply wpc_bind. eapply wpc_mono; [apply radix_loop_steps| |].
  - intros a s' k2 Hk2. assert (k2 <= k + (length d + length r + 2)) by (destruct r; cbn in *; lia).
    apply wpc_lfb; [lia|]. intros. apply wpc_lfb; [lia|]. intros. unfold wpc. cbn. lia.
  - intros k2 Hk2. destruct r; cbn in *; lia.
Qed.

(** ** Completion *)
Lemma live_below s L i p n j q : rep s L -> L !! i = Some p -> t_nodes s !! i = Some n -> L !! j = Some q ->
  p `prefix_of` q <-> j = i \/ exists c, c ∈ map snd (n_children n) /\ exists qc, L !! c = Some qc /\ qc `prefix_of` q.
Proof.
  intros R Hi Hn Hj. destruct (children_part _ _ _ _ _ R Hi Hn) as [_ Hc]. split.
  - intros [t ->]. destruct t as [|k t]; [left; rewrite app_nil_r in Hj; by eapply (r_inj _ _ R)|]. right.
    destruct (nav _ _ R _ _ _ _ _ _ Hi Hn Hj) as (c & m & Hin & Hm & Hpre).
    destruct (child_of _ _ _ _ _ _ _ R Hi Hn Hin) as (m' & r & Hm' & _ & Hr & HL).
    rewrite Hm in Hm'. injection Hm' as <-. exists c. split.
    + apply elem_of_list_fmap. by exists (k, c).
    + exists (p ++ k :: r). split; [done|]. rewrite <- Hr. by apply prefix_app.
  - intros [->|(c & Hin & qc & Hq & Hpre)]; [rewrite Hi in Hj; by injection Hj as ->|].
    apply Hc in Hin as (k & m & r & Hd & Hm & Hr & HL). rewrite HL in Hq. injection Hq as <-.
    destruct Hpre as [t ->]. exists ((k :: r) ++ t). by rewrite <- (assoc (++)).
Qed.
Lemma extend_map_steps {A B D} (f : A -> M ct (list B)) (l : list A) s (P : D -> A -> Prop) :
  NoDup l -> (forall x y b, P b x -> P b y -> x = y) ->
  (forall x k, x ∈ l -> exists r o, f x (s, k) = Ok r (s, k + length o) /\ NoDup o /\ forall b, b ∈ o <-> P b x) ->
  forall k, exists r o, extend_map f l (s, k) = Ok r (s, k + length o) /\ NoDup o /\ forall b, b ∈ o <-> exists x, x ∈ l /\ P b x.
Proof.
  intros Hnd HP. induction l as [|x l IH]; intros H k.
  - exists [], []. cbn. rewrite Nat.add_0_r. split; [done|]. split; [constructor|]. intros b. split; [by intros ?%elem_of_nil|].
    by intros (x & ?%elem_of_nil & _).
  - apply NoDup_cons in Hnd as [Hx Hnd].
    destruct (H x k) as (r & o & Eo & Hno & Ho); [left|].
    destruct (IH Hnd) with (k := k + length o) as (r' & o' & Er & Hnr & Hr); [intros; apply H; by right|].
    exists (r ++ r'), (o ++ o'). cbn [extend_map]. unfold bind at 1. rewrite Eo. fold (extend_map f). unfold bind. rewrite Er.
    rewrite app_length, Nat.add_assoc. split; [done|]. split.
    + apply NoDup_app. split; [done|]. split; [|done]. intros b Hb%Ho (y & Hy & Hby)%Hr.
      destruct Hx. by rewrite (HP _ _ _ Hb Hby).
    + intros b. rewrite elem_of_app, Ho, Hr. setoid_rewrite elem_of_cons. naive_solver.
Qed.
(** The nodes below the children of a node. *)
Definition strictly_below (L : gmap nat word) (p : word) (j : nat) : Prop :=
  exists q, L !! j = Some q /\ p `prefix_of` q /\ q <> p.
Lemma below_steps s L f i p n prev k : rep s L -> L !! i = Some p -> t_nodes s !! i = Some n ->
  (forall c q m k, c ∈ map snd (n_children n) -> L !! c = Some q -> t_nodes s !! c = Some m -> length p < length q ->
     exists r o, get_candidates_c f c prev (s, k) = Ok r (s, k + length o) /\ NoDup o /\
       forall j, j ∈ o <-> exists q', L !! j = Some q' /\ q `prefix_of` q') ->
  exists r o, extend_map (fun c => get_candidates_c f c prev) (map snd (n_children n)) (s, k) = Ok r (s, k + length o)
    /\ NoDup o /\ forall j, j ∈ o <-> strictly_below L p j.
Proof.
  intros R Hi Hn H. destruct (children_part _ _ _ _ _ R Hi Hn) as [Hnd Hc].
  destruct (extend_map_steps (fun c => get_candidates_c f c prev) (map snd (n_children n)) s
    (fun j c => c ∈ map snd (n_children n) /\ exists q q', L !! c = Some q /\ L !! j = Some q' /\ q `prefix_of` q')) with (k := k) as (r & o & E & Hno & Ho).
  - done.
  - intros x y j (Hx & q & q' & Hq & Hq' & Hp) (Hy & r & r' & Hr & Hr' & Hp'). rewrite Hq' in Hr'. injection Hr' as <-.
    by apply (siblings _ _ _ _ _ _ _ _ _ _ R Hi Hn Hx Hy Hq Hr Hp Hp').
  - intros c k' Hin. pose proof Hin as Hin'. apply Hc in Hin' as (k0 & m & r & Hd & Hm & Hr & HL).
    destruct (H c (p ++ k0 :: r) m k' Hin HL Hm) as (rr & o & E & Hno & Ho). { rewrite app_length. cbn. lia. }
    exists rr, o. split_and!; [done|done|]. intros j. rewrite Ho. split.
    + intros (q' & Hq' & Hp). split; [done|]. by exists (p ++ k0 :: r), q'.
    + intros (_ & q & q' & Hq & Hq' & Hp). rewrite HL in Hq. injection Hq as <-. by exists q'.
  - exists r, o. split_and!; [done|done|]. intros j. rewrite Ho. split.
    + intros (c & Hin & _ & q & q' & Hq & Hq' & Hp). exists q'. split; [done|]. split.
      * eapply live_below; try done. right. exists c. split; [done|]. by exists q.
      * intros ->. apply Hc in Hin as (k0 & m & r0 & Hd & Hm & Hr & HL). rewrite HL in Hq. injection Hq as <-.
        apply prefix_length in Hp. rewrite app_length in Hp. cbn in Hp. lia.
    + intros (q & Hq & Hp & Hne). apply (live_below s L i p n j q R Hi Hn Hq) in Hp as [->|(c & Hin & qc & Hqc & Hpc)].
      * rewrite Hi in Hq. by injection Hq as <-.
      * exists c. split; [done|]. split; [done|]. by exists qc, q.
Qed.
Lemma candidates_steps s L : rep s L -> forall f i p n prev k,
  L !! i = Some p -> t_nodes s !! i = Some n -> deeper L (length p) < f ->
  exists r o, get_candidates_c f i prev (s, k) = Ok r (s, k + length o) /\ NoDup o /\
    forall j, j ∈ o <-> exists q, L !! j = Some q /\ p `prefix_of` q.
Proof.
  intros R. induction f as [|f IH]; intros i p n prev k Hi Hn Hf; [lia|]. cbn [get_candidates_c].
  destruct (below_steps s L f i p n (prev ++ [n_data n]) (S k) R Hi Hn) as (r & o & E & Hno & Ho).
  { intros c q m k' Hin Hq Hm Hlt. apply (IH c q m); try done. pose proof (deeper_lt L c q (length p) Hq Hlt). lia. }
  eexists _, (i :: o). split; [|split].
  - unfold bind at 1, tick. cbn [fst snd]. unfold bind at 1, lf. cbn [fst snd]. rewrite (rd_eq _ _ _ Hn).
    unfold bind. rewrite E. cbn [length]. rewrite Nat.add_succ_r. done.
  - apply NoDup_cons. split; [|done]. intros (q & Hq & _ & Hne)%Ho. congruence.
  - intros j. rewrite elem_of_cons, Ho. split.
    + intros [->|(q & Hq & Hp & _)]; [by exists p|by exists q].
    + intros (q & Hq & Hp). destruct (decide (q = p)) as [->|Hne]; [left; by eapply (r_inj _ _ R)|]. right. by exists q.
Qed.
Lemma complete_steps s L i p pre k : rep s L -> L !! i = Some p ->
  exists r o, complete_from_c (Some i) pre (s, k) = Ok r (s, k + length o) /\ NoDup o /\
    forall j, j ∈ o <-> strictly_below L p j.
Proof.
  intros R Hi. destruct (r_node _ _ R _ _ Hi) as (n & Hn & _).
  destruct (below_steps s L (S (length (t_nodes s))) i p n [pre] k R Hi Hn) as (r & o & E & Hno & Ho).
  { intros c q m k' Hin Hq Hm Hlt. apply (candidates_steps s L R _ c q m); try done. pose proof (deeper_le s L (length q) R). lia. }
  eexists _, o. split; [|done]. unfold complete_from_c.
  assert (is_word (Some i) s = Ok (n_word n) s) as Hw. { unfold is_word. rewrite (bind_ok _ _ _ i s) by done. by rewrite (bind_ok _ _ _ _ _ (rd_eq _ _ _ Hn)). }
  rewrite (lf_ok _ _ _ _ _ _ Hw), (lf_ok _ _ _ i s) by done. rewrite (lf_ok _ _ _ _ _ _ (rd_eq _ _ _ Hn)), (lf_ok _ _ _ s s) by done.
  unfold bind. rewrite E. done.
Qed.

(** ** Limits of completion *)
Lemma below_size s L p o : rep s L -> NoDup o -> (forall j, j ∈ o <-> strictly_below L p j) -> (Z.of_nat (length o) <= t_count s)%Z.
Proof.
  intros R Hno Ho. rewrite (r_count _ _ R). apply inj_le. rewrite <- (size_dom (D:=gset nat) L).
  rewrite <- (size_list_to_set (C:=gset nat) o) by done. apply subseteq_size. intros j. rewrite elem_of_list_to_set, Ho.
  intros (q & Hq & _). by apply elem_of_dom_2 in Hq.
Qed.
Lemma complete_limit s L i p pre k : rep s L -> L !! i = Some p ->
  wpc s k (complete_from_c (Some i) pre) (fun _ _ k' => k' <= k + Z.to_nat (t_count s)) (fun _ => False).
Proof.
  intros R Hi. destruct (complete_steps s L i p pre k R Hi) as (r & o & E & Hno & Ho). unfold wpc. rewrite E. cbn.
  pose proof (below_size s L p o R Hno Ho). lia.
Qed.
Lemma complete_none pre s k E : (E k : Prop) -> wpc s k (complete_from_c None pre) (fun _ _ _ => False) E.
Proof. intros H. done. Qed.
Lemma t_auto_limit s L v : rep s L -> at_most s (t_auto_complete_c (PStr v)) (length v + Z.to_nat (t_count s)).
Proof.
  intros R. apply wpc_at_most. intros k. unfold t_auto_complete_c. apply wpc_lfb; [lia|]. intros w s' [= <- <-].
  apply wpc_bind. eapply wpc_mono; [by eapply follow_c_steps| |cbn; lia]. intros [c r] s' k' (-> & d & -> & Hat & Hk & _). cbn [fst snd] in *.
  rewrite app_length. destruct r; [|unfold wpc; cbn; lia]. cbn [length] in *. destruct c as [i|].
  - eapply wpc_mono; [by eapply complete_limit|cbn; lia|done].
  - eapply wpc_mono; [by apply (complete_none _ _ _ (fun k2 => k2 = k'))|done|cbn; lia].
Qed.
Lemma r_auto_limit s L v : rep s L -> at_most s (r_auto_complete_c (PStr v)) (length v + Z.to_nat (t_count s)).
Proof.
  intros R. apply wpc_at_most. intros k. unfold r_auto_complete_c. apply wpc_lfb; [lia|]. intros w s' [= <- <-].
  apply wpc_bind. eapply wpc_mono; [by eapply follow_c_steps| |cbn; lia]. intros [c r] s' k' (-> & d & -> & Hat & Hk & _). cbn [fst snd] in *.
  rewrite app_length. destruct r as [|ch r]; cbn [length] in *.
  - destruct c as [i|].
    + eapply wpc_mono; [by eapply complete_limit|cbn; lia|done].
    + eapply wpc_mono; [by apply (complete_none _ _ _ (fun k2 => k2 = k'))|done|cbn; lia].
  - apply wpc_lfb; [lia|]. intros i s' [-> ->]%deref_inv. cbn [at_node] in Hat.
    apply wpc_lfb; [lia|]. intros c s' [-> (n & Hn & Hc)]%get_child_inv. apply wpc_lfb; [lia|]. intros x s' [-> Hx]%data_or_inv.
    destruct c as [c|].
    + destruct (_ || _); [unfold wpc; cbn; lia|]. destruct Hx as (m & Hm & ->). symmetry in Hc. apply dget_in in Hc.
      destruct (child_of _ _ _ _ _ _ _ R Hat Hn Hc) as (m' & r' & Hm' & _ & Hr' & HL).
      eapply wpc_mono; [by eapply complete_limit|cbn; lia|done].
    + subst x. cbn. unfold wpc. cbn. lia.
Qed.

(** ** At least one visit for each word found *)
Lemma extend_map_results {A B} (f : A -> M ct (list B)) (l : list A) :
  (forall x s k, wpc s k (f x) (fun r _ k' => k + length r <= k') (fun _ => True)) ->
  forall s k, wpc s k (extend_map f l) (fun r _ k' => k + length r <= k') (fun _ => True).
Proof.
  intros H. induction l as [|x l IH]; intros s k; cbn [extend_map]; [unfold wpc; cbn; lia|]. apply wpc_bind.
  eapply wpc_mono; [apply H| |done]. intros r s' k' Hr. cbn in Hr. apply wpc_bind. eapply wpc_mono; [apply IH| |done].
  intros r2 s2 k2 Hr2. cbn in Hr2. unfold wpc. cbn. rewrite app_length. lia.
Qed.
Lemma candidates_results : forall f i prev s k, wpc s k (get_candidates_c f i prev) (fun r _ k' => k + length r <= k') (fun _ => True).
Proof.
  induction f as [|f IH]; intros i prev s k; [done|]. cbn [get_candidates_c]. apply wpc_tick. apply wpc_lfb; [done|]. intros n s' _.
  apply wpc_bind. eapply wpc_mono; [apply extend_map_results; intros; apply IH| |done]. intros r s2 k2 Hr. cbn in Hr. unfold wpc. cbn.
  rewrite app_length. destruct (n_word n); cbn; lia.
Qed.
Lemma complete_results c pre s k : wpc s k (complete_from_c c pre) (fun r _ k' => k + length r <= k' + 1) (fun _ => True).
Proof.
  unfold complete_from_c. do 4 (apply wpc_lfb; [done|]; intros). apply wpc_bind.
  eapply wpc_mono; [apply extend_map_results; intros; apply candidates_results| |done]. intros r s2 k2 Hr. cbn in Hr. unfold wpc. cbn.
  rewrite app_length. match goal with |- context [if ?b then _ else _] => destruct b end; cbn; lia.
Qed.
Lemma follow_mono : forall f c w s k, wpc s k (follow_loop_c f c w) (fun _ _ k' => k <= k') (fun _ => True).
Proof.
  induction f as [|f IH]; intros c w s k; [done|]. cbn [follow_loop_c]. destruct w; [unfold wpc; cbn; lia|]. apply wpc_tick.
  do 3 (apply wpc_lfb; [done|]; intros). case_bool_decide; [|unfold wpc; cbn; lia]. eapply wpc_mono; [apply IH|cbn; lia|done].
Qed.
Lemma auto_results c v s k : wpc s k (auto_complete_c c v) (fun r _ k' => k + length r <= k' + 1) (fun _ => True).
Proof.
  destruct c; cbn [auto_complete_c].
  - unfold t_auto_complete_c. apply wpc_lfb; [done|]. intros w s' _. apply wpc_bind. unfold follow_path_c. apply wpc_lfb; [done|]. intros x s2 _.
    eapply wpc_mono; [apply follow_mono| |done]. intros [c r] s3 k3 Hk3. cbn in Hk3. destruct r; [|unfold wpc; cbn; lia].
    eapply wpc_mono; [apply complete_results|cbn; lia|done].
  - unfold r_auto_complete_c. apply wpc_lfb; [done|]. intros w s' _. apply wpc_bind. unfold follow_path_c. apply wpc_lfb; [done|]. intros x s2 _.
    eapply wpc_mono; [apply follow_mono| |done]. intros [c r] s3 k3 Hk3. cbn in Hk3. destruct r.
    + eapply wpc_mono; [apply complete_results|cbn; lia|done].
    + do 3 (apply wpc_lfb; [done|]; intros). destruct (_ || _); [unfold wpc; cbn; lia|]. eapply wpc_mono; [apply complete_results|cbn; lia|done].
Qed.

(** ** Exactly, in a Trie *)
Lemma follow_exact s L w i k : rep s L -> single s L -> L !! i = Some w -> follow_path_c w (s, k) = Ok (Some i, []) (s, k + length w).
Proof.
  intros R Hs Hi. pose proof (co_follow w s k) as Hc. pose proof (follow_c_steps s L w k R) as Hw. unfold wpc in Hw.
  destruct (follow_ok s L w R) as [(j & q & rem & E & Hj & -> & Hst)|(q & r & Hf & _)].
  - assert (rem = []) as -> by (by eapply stuck_path). rewrite app_nil_r in *. rewrite E in Hc.
    destruct (follow_path_c q (s, k)) as [[c r] [s' k']|e [s' k']|]; [|done|done]. injection Hc as <- <- <-. cbn in Hw.
    destruct Hw as (_ & d & Hd & _ & _ & Hk). rewrite app_nil_r in Hd. subst d. rewrite (Hk Hs).
    rewrite (r_inj _ _ R _ _ _ Hj Hi), Nat.add_0_r. done.
  - destruct (falls_path s L w q r i [] R Hf). by rewrite app_nil_r.
Qed.
Lemma t_contains_exact s L w i : rep s L -> single s L -> L !! i = Some w -> at_least s (contains_c (PStr w)) (length w).
Proof.
  intros R Hs Hi k. unfold contains_c, bind at 1. rewrite (follow_exact s L w i k R Hs Hi). unfold lf. cbn [fst snd].
  destruct (is_word (Some i) s); cbn; done.
Qed.
Lemma t_insert_exact s L w : rep s L -> single s L -> at_least s (t_insert_c (PStr w)) (length w).
Proof.
  intros R Hs k. assert (wpc s k (t_insert_c (PStr w)) (fun _ _ k' => k + length w <= k') (fun _ => True)) as H.
  { unfold t_insert_c. apply wpc_lfb; [done|]. intros v s' Hv.
    assert (s' = s /\ v = w) as [-> ->] by (cbn in Hv; destruct (blank w); [done|by injection Hv]).
    apply wpc_bind. eapply wpc_mono; [by eapply follow_c_steps| |done]. intros [c r] s' k' (-> & d & -> & _ & _ & Hk). cbn [fst snd] in *.
    specialize (Hk Hs). rewrite app_length. apply wpc_bind. eapply wpc_mono; [apply insert_loop_steps| |done].
    intros a s' k2 ->. apply wpc_lfb; [done|]. intros. apply wpc_lf; [done|]. intros. lia. }
  unfold wpc in H. by destruct (t_insert_c (PStr w) (s, k)).
Qed.
Lemma remove_loop_least : forall f i s k, wpc s k (remove_loop_c f i) (fun _ _ k' => k + 1 <= k') (fun _ => True).
Proof.
  induction f as [|f IH]; intros i s k; [done|]. cbn [remove_loop_c]. apply wpc_tick. apply wpc_lfb; [done|]. intros n s' _.
  destruct (negb _ && _); [|unfold wpc; cbn; lia]. apply wpc_bind. destruct (n_data n); unfold wpc at 1; cbn [ret raise]; [done|]. cbn [fst snd].
  do 2 (apply wpc_lfb; [done|]; intros). destruct (dget _ _); [|done]. do 2 (apply wpc_lfb; [done|]; intros).
  eapply wpc_mono; [apply IH|cbn; lia|done].
Qed.
Lemma t_remove_exact s L w i : rep s L -> single s L -> L !! i = Some w -> w <> [] -> at_least s (remove_c (PStr w)) (length w + 1).
Proof.
  intros R Hs Hi Hne k. destruct w as [|x w']; [done|]. unfold remove_c. set (w := x :: w') in *.
  unfold bind at 1. rewrite (follow_exact s L w i k R Hs Hi).
  rewrite (lf_ok _ _ s i s) by done.
  assert (wpc s (k + length w) (lf (set_word i false);; let! s := lf get_state in (remove_loop_c (S (length (t_nodes s))) i ;; ret false))
    (fun _ _ k' => k + length w + 1 <= k') (fun _ => True)) as H.
  { do 2 (apply wpc_lfb; [done|]; intros). apply wpc_bind. eapply wpc_mono; [apply remove_loop_least| |done]. intros. unfold wpc. cbn in *. lia. }
  unfold wpc in H. destruct ((lf (set_word i false);; _) _); [|done|done]. rewrite Nat.add_assoc. exact H.
Qed.
Lemma t_auto_exact s L W w i : trep s L W -> single s L -> L !! i = Some w ->
  takes s (t_auto_complete_c (PStr w)) (length w + size (filter (fun q => w `prefix_of` q /\ q <> w) (prefixes W))).
Proof.
  intros T Hs Hi. pose proof (x_rep _ _ _ _ T) as R.
  assert (forall k, exists r, t_auto_complete_c (PStr w) (s, k) = Ok r (s, k + (length w + size (filter (fun q => w `prefix_of` q /\ q <> w) (prefixes W))))) as H.
  { intros k. unfold t_auto_complete_c. rewrite (lf_ok _ _ s w s) by done. unfold bind. rewrite (follow_exact s L w i k R Hs Hi).
    destruct (complete_steps s L i w w (k + length w) R Hi) as (r & o & E & Hno & Ho). exists r. rewrite E. do 2 f_equal.
    rewrite <- Nat.add_assoc. do 2 f_equal. 
    assert (list_to_set ((fun j => default [] (L !! j)) <$> o) = filter (fun q => w `prefix_of` q /\ q <> w) (prefixes W)) as <-.
    { apply set_eq. intros p. rewrite elem_of_list_to_set, elem_of_list_fmap, elem_of_filter, elem_of_prefixes. split.
      - intros (j & -> & (q & Hq & Hp & Hne)%Ho). rewrite Hq. cbn. split; [done|].
        destruct (live_prefix _ _ _ _ _ T Hq) as [->|Hpre]; [|split; [|done]].
        + apply prefix_length in Hp. destruct w; [done|cbn in Hp; lia].
        + intros ->. apply prefix_length in Hp. destruct w; [done|cbn in Hp; lia].
      - intros [[Hp Hne] (Hpn & v & Hv & Hpre)]. destruct (x_live _ _ _ _ T _ Hv) as (b & Hb).
        destruct (live_up _ _ R Hs _ _ _ Hb Hpre) as (j & Hj). exists j. rewrite Hj. split; [done|]. apply Ho. by exists p. }
    rewrite size_list_to_set; [by rewrite fmap_length|]. apply NoDup_fmap_2_strong; [|done].
    intros x y (q & Hq & _)%Ho (q' & Hq' & _)%Ho. rewrite Hq, Hq'. cbn. intros ->. by eapply (r_inj _ _ R). }
  split; intros k; destruct (H k) as (r & ->); cbn; lia.
Qed.
