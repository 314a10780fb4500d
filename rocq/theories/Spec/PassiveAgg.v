(** What a passive-aggressive step should do, over the real numbers. *)
From Coq Require Import List Arith Reals.
From Verif Require Import Base.RTac.
Import ListNotations.
Local Open Scope R_scope.

(** The squared length of x and the squared distance of two vectors. *)
Definition sqnorm (x : list R) : R := Rsum (map (fun v => v * v) x).
Definition sqdist (u w : list R) : R := Rsum (map (fun p => (fst p - snd p) * (fst p - snd p)) (combine u w)).

(** The part of an error beyond the tube of half-width eps. *)
Definition tube_loss (eps e : R) : R := Rmax 0 (Rabs e - eps).

(** The share of the excess that a step takes back: (|x|^2 + 1 if there is an intercept)
    divided by (|x|^2 + 1/(2C)). *)
Definition share (C : R) (icpt : bool) (x : list R) : R :=
  (sqnorm x + if icpt then 1 else 0) / (sqnorm x + 1 / (2 * C)).

(** +1 or -1: the side on which the target lies. *)
Definition side (e : R) : R := if Rlt_dec e 0 then -1 else 1.
