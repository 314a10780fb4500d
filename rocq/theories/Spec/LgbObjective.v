(** What gradients, hessians and initial scores of a training objective are for.  An
    objective is used through four functions of (prediction, target): loss, gradient,
    hessian, and an initial constant prediction computed from all targets. *)
From Coq Require Import Reals List ZArith Permutation.
From Verif Require Import Base.RTac.
Import ListNotations.
Local Open Scope R_scope.

(** [g] is the slope of the function [f] at [p]. *)
Definition slope (f : R -> R) (p g : R) : Prop := derivable_pt_lim f p g.

(** The number [p] is a best constant prediction for the targets: no other has a smaller
    total loss. *)
Definition best_constant (loss : R -> R -> R) (ts : list R) (p : R) : Prop :=
  forall q, Rsum (map (loss p) ts) <= Rsum (map (loss q) ts).

(** [x] is a quantile of level [a] of the targets: at most the fraction [a] of them is
    smaller and at least the fraction [a] is smaller or equal. *)
Definition below (x : R) (ts : list R) : nat := length (filter (fun t => if Rlt_dec t x then true else false) ts).
Definition upto (x : R) (ts : list R) : nat := length (filter (fun t => if Rle_dec t x then true else false) ts).
Definition quantile_of (a : R) (ts : list R) (x : R) : Prop :=
  INR (below x ts) <= a * INR (length ts) <= INR (upto x ts).

(** Textbook losses of a raw score [p] (the linear predictor) *)
(** negative log-likelihood of the Poisson distribution with mean exp p, up to a constant *)
Definition poisson_nll (p t : R) : R := exp p - t * p.
(** negative log-likelihood of a Bernoulli outcome with log-odds p *)
Definition log_loss (p t : R) : R := ln (1 + exp p) - t * p.
(** unit deviance of the gamma distribution with mean exp p *)
Definition gamma_deviance (p t : R) : R := 2 * (ln (exp p / t) + t / exp p - 1).
(** unit deviance of the Tweedie distribution of power v with mean exp p; 0^(2-v) = 0 *)
Definition tweedie_deviance (v p t : R) : R :=
  2 * ((if Req_EM_T t 0 then 0 else Rpower t (2 - v)) / ((1 - v) * (2 - v))
       - t * Rpower (exp p) (1 - v) / (1 - v) + Rpower (exp p) (2 - v) / (2 - v)).
(** negative log-likelihood of class [c] when the scores are [l] *)
Definition softmax_loss (c : nat) (l : list R) : R := ln (Rsum (map exp l)) - nth c l 0.

(** [x] is the linearly interpolated order statistic at position a (n - 1) of the n targets *)
Definition interpolated (a : R) (ts : list R) (x : R) : Prop :=
  exists s lo,
    Permutation ts s /\ (forall i j, (i <= j < length s)%nat -> nth i s 0 <= nth j s 0) /\
    let pos := a * INR (length ts - 1) in
    INR lo <= pos < INR lo + 1 /\ x = nth lo s 0 + (pos - INR lo) * (nth (S lo) s 0 - nth lo s 0).
(** integer parts *)
Definition rounds_down (f : R -> Z) : Prop := forall x, IZR (f x) <= x < IZR (f x) + 1.
Definition rounds_up (f : R -> Z) : Prop := forall x, IZR (f x) - 1 < x <= IZR (f x).
