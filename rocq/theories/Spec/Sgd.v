(** What gradient descent is expected to do, over the real numbers. *)
From Coq Require Import List Arith Reals.
From Verif Require Import Base.Num Base.RTac.
Import ListNotations.
Local Open Scope R_scope.

(** Penalty terms of one coefficient: half its square, its absolute value, and their mixture. *)
Definition ridge (a w : R) : R := a * (w * w / 2).
Definition lasso (a w : R) : R := a * Rabs w.
Definition mixed (a r w : R) : R := r * lasso a w + (1 - r) * ridge a w.

(** The losses of a margin z: hinge and its relatives, and the logistic loss ln(1 + e^-z). *)
Definition hinge (z : R) : R := Rmax 0 (1 - z).
Definition squared_hinge (z : R) : R := hinge z * hinge z / 2.
Definition perceptron (z : R) : R := Rmax 0 (- z).
Definition modified_huber (z : R) : R := if Rlt_dec z (-1) then - 4 * z else hinge z * hinge z.
Definition logistic (z : R) : R := ln (1 + exp (- z)).

(** All values of a list lie within a distance below tol of each other. *)
Definition settled (tol : R) (l : list R) : Prop := forall a b, In a l -> In b l -> a - b < tol.

(** A double that is infinite or not a number. *)
Definition broken (x : F64) : bool := f64_isnan x || f64_isinf x.
(** The intercept, or a coefficient used for [cols] features, is infinite or not a number. *)
Definition dead_weights (cols : nat) (b : F64) (w : list F64) : Prop :=
  (cols <= length w)%nat /\ (broken b = true \/ exists j v, (j < cols)%nat /\ nth_error w j = Some v /\ broken v = true).
