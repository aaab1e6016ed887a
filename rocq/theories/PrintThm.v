(** * Proofs about the printed form of a tree *)
From Coq Require Import Sorted ssreflect.
From Verif Require Import Base TreeModel TreeSpec TreeThm BinThm PrintModel PrintSpec.

Section show.
Context {A : Type} (show : A -> pystr).
Implicit Types t c : tree A.

Definition nilb {B} (l : list B) : bool := match l with [] => true | _ => false end.
Definition cell (b : bool) : pystr := if b then s_blank else s_bar.
Definition arm (b : bool) : pystr := if b then s_last else s_mid.
Definition tip (cs : list (tree A)) : pystr := match cs with [] => s_end | _ => s_inner end.
Fixpoint block (t : tree A) (pre : pystr) (lst : bool) : list pystr :=
  match t with
  | TNode d cs =>
      (pre ++ arm lst ++ tip cs ++ show d) ::
      (fix go (cs : list (tree A)) : list pystr :=
         match cs with [] => [] | c :: cs' => block c (pre ++ cell lst) (nilb cs') ++ go cs' end) cs
  end.
Fixpoint forest (pre : pystr) (cs : list (tree A)) : list pystr :=
  match cs with [] => [] | c :: cs' => block c pre (nilb cs') ++ forest pre cs' end.
Lemma block_eq d cs pre b : block (TNode d cs) pre b = (pre ++ arm b ++ tip cs ++ show d) :: forest (pre ++ cell b) cs.
Proof. cbn [block]. f_equal. induction cs as [|c cs IH]; [done|]. cbn [forest]. by rewrite -IH. Qed.
Fixpoint pchildren (n : nat) (sq : list bool) (idx : nat) (rest : list (tree A)) (lines : list pystr) : list pystr :=
  match rest with
  | [] => lines
  | child :: rest' => pchildren n sq (S idx) rest' (print_subtree show child lines (Nat.eqb idx (n - 1)) sq)
  end.
Lemma print_eq d cs lines b sq :
  print_subtree show (TNode d cs) lines b sq = pchildren (length cs) (sq ++ [b]) 0 cs (lines ++ [node_line show d cs b sq]).
Proof.
  cbn [print_subtree].
  assert (forall n idx rest l, (fix go (idx : nat) (rest : list (tree A)) (lines : list pystr) : list pystr :=
         match rest with
         | [] => lines
         | child :: rest' =>
             go (S idx) rest' (print_subtree show child lines (Nat.eqb idx (n - 1)) (sq ++ [b]))
         end) idx rest l = pchildren n (sq ++ [b]) idx rest l) as H; [|apply (H (length cs) 0 cs)].
  intros n idx rest. revert idx. induction rest as [|c rest IH]; intros idx l; [done|]. apply IH.
Qed.
Lemma print_block t : forall lines b s0 sq, print_subtree show t lines b (s0 :: sq) = lines ++ block t (flat_map cell sq) b.
Proof.
  induction t as [d cs IH] using tree_ind'. intros lines b s0 sq. rewrite print_eq block_eq.
  assert (forall rest idx l, Forall (fun t => forall lines b s0 sq, print_subtree show t lines b (s0 :: sq) = lines ++ block t (flat_map cell sq) b) rest ->
    length cs = idx + length rest ->
    pchildren (length cs) ((s0 :: sq) ++ [b]) idx rest l = l ++ forest (flat_map cell sq ++ cell b) rest) as H.
  { induction rest as [|c rest IHr]; intros idx l HF Hl; cbn [pchildren forest]; [by rewrite app_nil_r|].
    apply Forall_cons in HF as [Hc HF]. cbn [length] in Hl. rewrite (IHr (S idx) _ HF ltac:(lia)). cbn [app]. rewrite Hc. rewrite flat_map_app. cbn [flat_map]. rewrite app_nil_r -app_assoc.
    do 3 f_equal. destruct rest; cbn [nilb length] in *; [apply Nat.eqb_eq|apply Nat.eqb_neq]; lia. }
  rewrite H //. rewrite -app_assoc. f_equal. cbn [app]. f_equal. unfold node_line. cbn [flat_map].
  by rewrite -!app_assoc.
Qed.
Lemma print_root d cs : print_subtree show (TNode d cs) [] false [] = show d :: forest [] cs.
Proof.
  rewrite print_eq. unfold node_line. cbn [app].
  assert (forall rest idx l, length cs = idx + length rest -> pchildren (length cs) [false] idx rest l = l ++ forest [] rest) as H.
  { induction rest as [|c rest IHr]; intros idx l Hl; cbn [pchildren forest]; [by rewrite app_nil_r|].
    cbn [length] in Hl. rewrite (IHr (S idx) _ ltac:(lia)). rewrite print_block. cbn [flat_map]. rewrite -app_assoc.
    do 3 f_equal. destruct rest; cbn [nilb length] in *; [apply Nat.eqb_eq|apply Nat.eqb_neq]; lia. }
  by rewrite H.
Qed.
Lemma repr_lines t : tree_repr show (Some t) = join s_newline (show (get_data t) :: forest [] (get_children t)).
Proof. destruct t as [d [|c cs]]; [done|]. unfold tree_repr. by rewrite print_root. Qed.

(** ** Lines and paths *)
Fixpoint paths (t : tree A) : list (list nat) :=
  match t with
  | TNode _ cs =>
      [] :: (fix go (i : nat) (cs : list (tree A)) : list (list nat) :=
               match cs with [] => [] | c :: cs' => map (cons i) (paths c) ++ go (S i) cs' end) 0 cs
  end.
Fixpoint fpaths (i : nat) (cs : list (tree A)) : list (list nat) :=
  match cs with [] => [] | c :: cs' => map (cons i) (paths c) ++ fpaths (S i) cs' end.
Lemma paths_eq d cs : paths (TNode d cs) = [] :: fpaths 0 cs.
Proof.
  reflexivity.
Qed.
Lemma node_of_app t p q : node_of t (p ++ q) = match node_of t p with Some n => node_of n q | None => None end.
Proof. revert t. induction p as [|i p IH]; intros t; [done|]. cbn. destruct (get_children t !! i); [apply IH|done]. Qed.
Lemma cells_app (T : tree A) q i : forall dn, cells T dn (q ++ [i]) = cells T dn q ++ cell (youngest T (dn ++ q) i).
Proof.
  induction q as [|j q IH]; intros dn; cbn [app cells]; [by rewrite !app_nil_r|]. rewrite IH -!app_assoc. done.
Qed.
Lemma block_lines (T : tree A) t : forall q i, node_of T (q ++ [i]) = Some t ->
  block t (cells T [] q) (youngest T q i) = map (fun p => line_of show T (q ++ i :: p)) (paths t).
Proof.
  induction t as [d cs IH] using tree_ind'. intros q i Hn. rewrite block_eq paths_eq. cbn [map]. f_equal.
  - unfold line_of. rewrite Hn rev_app_distr. cbn [rev app]. by rewrite rev_involutive.
  - change (cells T [] q ++ cell (youngest T q i)) with (cells T [] q ++ cell (youngest T ([] ++ q) i)). rewrite -cells_app.
    assert (forall rest dn, cs = dn ++ rest -> forest (cells T [] (q ++ [i])) rest =
       map (fun p => line_of show T (q ++ i :: p)) (fpaths (length dn) rest)) as H; [|by apply (H cs [])].
    rewrite -> Forall_forall in IH. induction rest as [|c rest IHr]; intros dn E; [done|]. cbn [forest fpaths]. rewrite map_app. f_equal.
    + rewrite map_map. assert (nilb rest = youngest T (q ++ [i]) (length dn)) as ->.
      { unfold youngest. rewrite Hn. cbn [get_children]. rewrite E app_length. symmetry. destruct rest; [apply Nat.eqb_eq|apply Nat.eqb_neq]; cbn; lia. }
      rewrite (IH c ltac:(rewrite E; set_solver)).
      { rewrite node_of_app Hn. cbn. rewrite E list_lookup_middle //. }
      apply map_ext. intros p. by rewrite -app_assoc.
    + rewrite (IHr (dn ++ [c])); [by rewrite -app_assoc|]. by rewrite app_length Nat.add_1_r.
Qed.
Lemma lines_paths t : show (get_data t) :: forest [] (get_children t) = map (line_of show t) (paths t).
Proof.
  destruct t as [d cs]. rewrite paths_eq. cbn [map get_data get_children]. f_equal.
  assert (forall rest dn, cs = dn ++ rest -> forest [] rest = map (line_of show (TNode d cs)) (fpaths (length dn) rest)) as H; [|by apply (H cs [])].
  induction rest as [|c rest IHr]; intros dn E; [done|]. cbn [forest fpaths]. rewrite map_app. f_equal.
  - rewrite map_map. assert (nilb rest = youngest (TNode d cs) [] (length dn)) as ->.
    { unfold youngest. cbn [node_of get_children]. rewrite E app_length. symmetry. destruct rest; [apply Nat.eqb_eq|apply Nat.eqb_neq]; cbn; lia. }
    apply (block_lines (TNode d cs) c [] (length dn)). cbn. rewrite E list_lookup_middle //.
  - rewrite (IHr (dn ++ [c])); [by rewrite -app_assoc|]. by rewrite app_length Nat.add_1_r.
Qed.
Lemma elem_fpaths cs : forall i p, p ∈ fpaths i cs <-> exists j c q, cs !! j = Some c /\ p = (i + j) :: q /\ q ∈ paths c.
Proof.
  induction cs as [|c cs IH]; intros i p; cbn [fpaths].
  - split; [intros H; by apply elem_of_nil in H|]. by intros (j & c & q & H & _).
  - rewrite elem_of_app IH elem_of_map. split.
    + intros [(q & -> & Hq)|(j & c' & q & Hc & -> & Hq)].
      * exists 0, c, q. by rewrite Nat.add_0_r.
      * exists (S j), c', q. by rewrite Nat.add_succ_r.
    + intros ([|j] & c' & q & Hc & -> & Hq); cbn in Hc.
      * injection Hc as ->. left. exists q. by rewrite Nat.add_0_r.
      * right. exists j, c', q. by rewrite Nat.add_succ_r.
Qed.
Lemma paths_complete t : forall p, p ∈ paths t <-> node_of t p <> None.
Proof.
  induction t as [d cs IH] using tree_ind'. intros p. rewrite -> Forall_forall in IH. rewrite paths_eq elem_of_cons elem_fpaths. destruct p as [|i p]; cbn [node_of get_children].
  - split; [done|by left].
  - split.
    + intros [?|(j & c & q & Hc & [= -> ->] & Hq)]; [done|]. cbn. rewrite Hc. apply IH; [by eapply elem_of_list_lookup_2|done].
    + destruct (cs !! i) as [c|] eqn:Hc; [|done]. intros H. right. exists i, c, p. split_and!; [done|done|]. apply IH; [by eapply elem_of_list_lookup_2|done].
Qed.
Lemma paths_sorted t : StronglySorted path_before (paths t).
Proof.
  induction t as [d cs IH] using tree_ind'. rewrite paths_eq. constructor.
  - generalize 0. induction cs as [|c cs IHc]; intros i; cbn [fpaths]; [constructor|]. apply Forall_cons in IH as [Hc IH]. apply SS_app.
    + eapply SS_map; [|exact Hc]. intros a b H. cbn. by right.
    + by apply IHc.
    + intros a b Ha Hb. apply elem_of_map in Ha as (a' & -> & _). apply elem_fpaths in Hb as (j & c' & q & _ & -> & _). cbn. left. lia.
  - apply Forall_forall. intros p Hp. apply elem_fpaths in Hp as (j & c' & q & _ & -> & _). done.
Qed.
Lemma paths_length t : length (paths t) = count_nodes t.
Proof.
  rewrite count_nodes_subtrees. induction t as [d cs IH] using tree_ind'. rewrite paths_eq. cbn [length subtrees]. f_equal.
  generalize 0. induction cs as [|c cs IHc]; intros i; [done|]. apply Forall_cons in IH as [Hc IH]. cbn [fpaths flat_map].
  rewrite !app_length map_length Hc. by rewrite IHc.
Qed.

(** ** The lines determine the tree *)
Lemma block_inj t : forall pre b t' b' r r', block t pre b ++ r = block t' pre b' ++ r' ->
  b = b' /\ tree_map show t = tree_map show t' /\ r = r'.
Proof.
  induction t as [d cs IH] using tree_ind'. intros pre b [d' cs'] b' r r'. rewrite !block_eq. cbn [app]. intros [= E1 E2].
  apply app_inv_head in E1. assert (b = b') as <- by (by destruct b, b').
  apply app_inv_head in E1. assert (nilb cs = nilb cs' /\ show d = show d') as [EN ED].
  { destruct cs, cs'; cbn in E1; by injection E1. }
  split; [done|]. cbn [tree_map]. rewrite ED. clear E1 ED.
  assert (forall cs', nilb cs = nilb cs' -> forest (pre ++ cell b) cs ++ r = forest (pre ++ cell b) cs' ++ r' ->
    map (tree_map show) cs = map (tree_map show) cs' /\ r = r') as H.
  { clear E2 EN cs'. revert IH. generalize (pre ++ cell b). induction cs as [|c cs IHc]; intros q IH [|c' cs'] EN E; try done.
    apply Forall_cons in IH as [Hc IH]. cbn [forest] in E. rewrite -!app_assoc in E. apply Hc in E as (EN' & ET & E).
    destruct (IHc q IH cs' EN' E) as [EM ->]. cbn [map]. by rewrite ET EM. }
  destruct (H cs' EN E2) as [EM ->]. by rewrite EM.
Qed.
Lemma forest_inj pre cs : forall cs', forest pre cs = forest pre cs' -> map (tree_map show) cs = map (tree_map show) cs'.
Proof.
  assert (forall t pre b, block t pre b <> []) as HN by (intros [d l] ? ?; by rewrite block_eq).
  induction cs as [|c cs IH]; intros [|c' cs'] E; cbn [forest] in E; try done.
  - exfalso. specialize (HN c' pre (nilb cs')). by destruct (block c' pre (nilb cs')).
  - exfalso. specialize (HN c pre (nilb cs)). by destruct (block c pre (nilb cs)).
  - apply block_inj in E as (_ & ET & E). cbn [map]. by rewrite ET (IH cs' E).
Qed.
End show.

(** ** Cutting at newlines *)
Lemma split_one s : one_line s -> split_lines s = [s].
Proof.
  induction s as [|c s IH]; [done|]. unfold one_line. intros H. apply not_elem_of_cons in H as [H1 H2]. cbn.
  destruct (N.eqb_spec c 10); [done|]. by rewrite IH.
Qed.
Lemma split_app s r : one_line s -> split_lines (s ++ 10%N :: r) = s :: split_lines r.
Proof.
  induction s as [|c s IH]; [done|]. unfold one_line. intros H. apply not_elem_of_cons in H as [H1 H2]. cbn [app split_lines].
  destruct (N.eqb_spec c 10); [done|]. by rewrite IH.
Qed.
Lemma split_join l : l <> [] -> Forall one_line l -> split_lines (join s_newline l) = l.
Proof.
  intros Hn HF. induction HF as [|x l Hx HF IH]; [done|]. destruct l as [|y l]; [by apply split_one|].
  change (join s_newline (x :: y :: l)) with (x ++ 10%N :: join s_newline (y :: l)). rewrite split_app //. f_equal. by apply IH.
Qed.
Lemma one_line_app s r : one_line (s ++ r) <-> one_line s /\ one_line r.
Proof. unfold one_line. rewrite not_elem_of_app. done. Qed.
Lemma cells_one_line {A} (T : tree A) q : forall dn, one_line (cells T dn q).
Proof.
  induction q as [|i q IH]; intros dn; cbn [cells]; [apply not_elem_of_nil|]. apply one_line_app. split; [|apply IH].
  destruct (youngest T dn i); apply (bool_decide_unpack _); by vm_compute.
Qed.
Lemma line_one_line {A} (show : A -> pystr) T p : texts_one_line show T -> one_line (line_of show T p).
Proof.
  intros H. unfold line_of. specialize (H p). destruct (node_of T p) as [n|]; [|apply not_elem_of_nil].
  specialize (H n eq_refl). destruct (rev p) as [|i q]; [done|]. rewrite !one_line_app. split_and!; [apply cells_one_line| | |done].
  - destruct (youngest T (rev q) i); apply (bool_decide_unpack _); by vm_compute.
  - destruct (get_children n); apply (bool_decide_unpack _); by vm_compute.
Qed.
Lemma node_text_one_line v : one_line (node_text v).
Proof.
  induction v as [|c v IH]; [apply not_elem_of_nil|]. unfold node_text. cbn [flat_map]. apply one_line_app. split; [|exact IH].
  destruct (N.eqb_spec c 10); [apply (bool_decide_unpack _); by vm_compute|]. intros H. by apply elem_of_list_singleton in H.
Qed.
