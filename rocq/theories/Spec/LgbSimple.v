(** What SimplePredictor is expected to compute. *)
From Coq Require Import String List Arith ZArith Bool.
From Verif Require Import Base.Num Model.LgbTree Spec.LgbTree.
Import ListNotations.
Local Open Scope list_scope.

Section Spec.
  Context {N : Num}.
  (** A tested value is missing when it is NaN or when the sample is too short. *)
  Definition lacks (q : test N) (x : list N) : bool :=
    match nth_error x (q_feat q) with Some v => nisnan v | None => true end.
  (** Missing values follow the default direction; other values go left when they are at most the threshold. *)
  Definition goes_left (q : test N) (x : list N) : bool :=
    match nth_error x (q_feat q) with
    | Some v => if nisnan v then q_left q else nle v (q_thr q)
    | None => q_left q
    end.
  (** The value of the leaf a sample reaches *)
  Fixpoint leaf_of (t : btree N) (x : list N) : N :=
    match t with
    | BLeaf v => v
    | BNode q l r => if goes_left q x then leaf_of l x else leaf_of r x
    end.
  (** Does a missing value decide the last test on the way? *)
  Fixpoint ends_missing (t : btree N) (x : list N) : bool :=
    match t with
    | BLeaf _ => false
    | BNode q l r => let c := if goes_left q x then l else r in
                     if inner c then (if goes_left q x then ends_missing l x else ends_missing r x) else lacks q x
    end.
  (** Multiplied by the shrinkage rate if that is positive *)
  Definition times_rate (rate v : N) : N := if nlt n0 rate then nmul v rate else v.
End Spec.
