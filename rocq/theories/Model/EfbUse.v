(** sklearn/lightgbm/efb.go lines 448-476: IsEFBBeneficial *)
From Coq Require Import List Arith Bool.
From Verif Require Import Base.Num Base.Mat Model.Efb.
Import ListNotations.
Local Open Scope num_scope.

Section EfbUse.
  Context {N : Num}.
  (** Lines 458-469: the entries below 1e-10 *)
  Definition zero_elements (X : matrix N) : nat := list_sum (map (fun row => length (filter (fun j => is_zero (nth j row n0)) (seq 0 (mcols X)))) (mrows X)).
  Definition is_beneficial (e : efb N) (X : matrix N) : bool :=
    if (mcols X <? 10)%nat then false else e_ratio e <=? nofnat (zero_elements X) / nofnat (nrows X * mcols X).
End EfbUse.
