(** Descriptive statistics of a list of reals. *)
From Coq Require Import List Reals.
From Verif Require Import Base.RTac.
Import ListNotations.
Local Open Scope R_scope.

Definition mean_of (l : list R) : R := Rsum l / INR (length l).
(** population variance *)
Definition var_of (l : list R) : R := mean_of (map (fun x => (x - mean_of l) * (x - mean_of l)) l).
Definition std_of (l : list R) : R := sqrt (var_of l).
(** entry j of every row *)
Definition col (j : nat) (rows : list (list R)) : list R := map (fun r => nth j r 0) rows.
