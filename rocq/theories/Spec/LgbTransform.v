(** The mathematical softmax and logistic functions. *)
From Coq Require Import List Reals.
From Verif Require Import Base.RTac.
Import ListNotations.
Local Open Scope R_scope.

(** Share of the score [v] among the scores [l] *)
Definition softmax_of (l : list R) (v : R) : R := exp v / Rsum (map exp l).
Definition logistic (x : R) : R := 1 / (1 + exp (- x)).
(** The precision of the Predictor, 1e-15 *)
Definition peps_R : R := 1 / 1000000000000000.
