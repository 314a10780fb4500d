(** What per-feature contributions of a decision tree are made of, for trees with numeric tests. *)
From Coq Require Import List Arith Bool Reals.
From Verif Require Import Base.Num Base.RTac Model.LgbTree Spec.LgbTree.
Import ListNotations.

Section Spec.
Context {N : Num}.
(** The values of the leaves from left to right. *)
Fixpoint leaf_values (t : @btree N) : list N :=
  match t with BLeaf v => [v] | BNode _ l r => leaf_values l ++ leaf_values r end.
(** The features tested on the way of a sample to its leaf. *)
Fixpoint route (pass : @test N -> N -> bool) (t : @btree N) (x : list N) : list nat :=
  match t with
  | BLeaf _ => []
  | BNode q l r => match nth_error x (q_feat q) with
                   | None => []
                   | Some v => q_feat q :: if pass q v then route pass l x else route pass r x
                   end
  end.
Fixpoint height (t : @btree N) : nat :=
  match t with BLeaf _ => 0 | BNode _ l r => S (Nat.max (height l) (height r)) end.
(** A value is sent left if it is at most the threshold. *)
Definition at_most (q : @test N) (v : N) : bool := nle v (q_thr q).
(** The numeric nodes of the array carry no categories. *)
Definition numeric (t : gtree N) : Prop := Forall (fun n => g_cats n = []) (gt_nodes t).
(** The array tree [t] holds the decision tree [T] and the sample has the features it tests. *)
Definition holds (x : list N) (t : gtree N) (T : @btree N) : Prop :=
  stores (gt_nodes t) 0 T /\ numeric t /\ fits x T.
End Spec.

Local Open Scope R_scope.
Notation rtree := (@btree RNum).
Definition mean (T : rtree) : R := Rsum (leaf_values T) / INR (length (leaf_values T)).
(** The value a sample gets from a tree. *)
Definition value (T : rtree) (x : list R) : R := match eval at_most T x with Some v => v | None => 0 end.
Definition distinct (l : list nat) : nat := length (nodup Nat.eq_dec l).
(** Tests on the way per different feature on the way; 0 if nothing is tested. *)
Definition repetition (T : rtree) (x : list R) : R :=
  match route at_most T x with [] => 0 | r => INR (length r) / INR (distinct r) end.
(** The share of feature [j] in the value of a tree for a sample, as the code splits it: the distance
    to the mean leaf times the uses of the feature, over the number of different features. *)
Definition share (T : rtree) (x : list R) (j : nat) : R :=
  let r := route at_most T x in
  (value T x - mean T) * INR (count_occ Nat.eq_dec r j) / INR (distinct r).
