(** Cross-validation folds, stated on index lists. *)
From Coq Require Import List Arith Permutation Bool Reals.
From Verif Require Import Base.Num.
Import ListNotations.

(** Every index below [n] lies in exactly one of the lists, exactly once. *)
Definition partition_of (n : nat) (tests : list (list nat)) : Prop :=
  Permutation (concat tests) (seq 0 n).

(** [tr] holds exactly the indices below [n] that are not in [te]. *)
Definition complement (n : nat) (tr te : list nat) : Prop :=
  Permutation (tr ++ te) (seq 0 n).

Definition near (a b : nat) : Prop := a <= b + 1 /\ b <= a + 1.

Definition rearranges {A} (s : list A -> list A) : Prop := forall l, Permutation l (s l).

(** == on the carrier is symmetric and transitive; it need not be reflexive (NaN). *)
Definition eq_per (N : Num) : Prop :=
  (forall a b : N, neqb a b = true -> neqb b a = true) /\
  (forall a b c : N, neqb a b = true -> neqb b c = true -> neqb a c = true).

(** The number of samples of class [v] among the indices. *)
Definition count_label {N : Num} (y : list N) (v : N) (idx : list nat) : nat :=
  length (filter (fun i => neqb (nth i y n0) v) idx).

(** [vs] lists the different label values occurring in [y] (none of them NaN). *)
Definition label_values {N : Num} (y vs : list N) : Prop :=
  (forall l, In l y -> exists v, In v vs /\ neqb l v = true) /\
  ForallOrdPairs (fun a b => neqb a b = false) vs.
