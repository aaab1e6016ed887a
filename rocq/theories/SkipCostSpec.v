(** * The work of a SkipList (C72): specification

    [towers] (SkipSpec.v): the values in increasing order, each with its number of heads. *)
From Verif Require Import Base ListModel SkipModel SkipSpec.

(** How many entries of [l] are at least as large as everything behind them: the towers one
    sees from the end of the list, looking back. *)
Fixpoint visible (l : list nat) : nat :=
  match l with
  | [] => 0
  | h :: l' => (if bool_decide (Forall (fun h' => h' <= h) l') then 1 else 0) + visible l'
  end.
(** The heads of the values up to [x]. *)
Definition heads_upto (x : num) (A : towers) : list nat := map snd (filter (fun p => num_leb p.1 x = true) A).

(** ** Averages over the coins *)
Definition is_insert (o : skop) : bool := match o with KInsert _ _ => true | _ => false end.
Definition inserts_of (os : list skop) : nat := length (filter (fun o => is_insert o = true) os).
(** The history [os] when the insertions flip [hs] heads. *)
Fixpoint with_heads (os : list skop) (hs : list nat) : list skop :=
  match os with
  | [] => []
  | KInsert v h :: os' =>
      match hs with
      | [] => KInsert v h :: os'
      | q :: hs' => KInsert v q :: with_heads os' hs'
      end
  | o :: os' => o :: with_heads os' hs
  end.
(** All [k]-tuples of numbers below [H]. *)
Fixpoint tuples (H k : nat) : list (list nat) :=
  match k with
  | 0 => [[]]
  | S k' => flat_map (fun p => map (cons p) (tuples H k')) (seq 0 H)
  end.
(** [h] heads and then tails come with probability 1/2^(h+1), independently for every
    insertion.  [chance H hs] is the probability of [hs] times [2^((H+1) k)], with [k] the
    length of [hs]: a whole number, as long as all of [hs] are below [H]. *)
Fixpoint chance (H : nat) (hs : list nat) : nat :=
  match hs with [] => 1 | h :: hs' => 2 ^ (H - h) * chance H hs' end.
(** The expected value of [f] is the limit of
    [(sum of chance H hs * f hs over the tuples hs) / 2^((H+1) k)] for growing [H]; as [f] is
    not negative this grows towards the limit. *)
Definition expectation_at_most (k : nat) (f : list nat -> nat) (bound : nat) : Prop :=
  forall H, sum_list (map (fun hs => chance H hs * f hs) (tuples H k)) <= 2 ^ (S H * k) * bound.
