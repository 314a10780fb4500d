(** Drift detection stated on plain histories of outcomes and values. *)
From Coq Require Import List Arith ZArith Reals Lra.
From Verif Require Import Spec.Stats.
Import ListNotations.
Local Open Scope R_scope.

(** A history of predictions: [true] for correct ones, oldest first. *)
Definition errors (h : list bool) : nat := count_occ Bool.bool_dec h false.
Definition rate (h : list bool) : R := INR (errors h) / INR (length h).
Definition dev (h : list bool) : R := sqrt (rate h * (1 - rate h) / INR (length h)).
Definition level (h : list bool) : R := rate h + dev h.

Definition prefix {A} (p h : list A) : Prop := exists t, h = p ++ t.
Definition suffix {A} (s h : list A) : Prop := exists t, h = t ++ s.

(** The prefixes that were examined: non-empty and not shorter than the minimum. *)
Definition examined (m : Z) (p : list bool) : Prop := p <> [] /\ (m <= Z.of_nat (length p))%Z.

(** The reference point of history [h]: the earliest examined prefix of lowest level. *)
Definition reference (m : Z) (h p : list bool) : Prop :=
  prefix p h /\ examined m p /\
  forall q, prefix q h -> examined m q ->
    level p <= level q /\ ((length q < length p)%nat -> level p < level q).

(** * ADWIN on a plain window *)
(** The window after appending a value: at most [maxb] pairs are kept. *)
Definition pairs_of (n : nat) : nat := Nat.div2 (S n).
Definition appended (maxb : Z) (w : list R) (v : R) : list R :=
  if Z.ltb maxb (Z.of_nat (pairs_of (length (w ++ [v])))) then skipn 2 (w ++ [v]) else w ++ [v].

(** The two sides of a cut differ by more than the Hoeffding bound. *)
Definition cut_differs (delta : R) (w : list R) (k : nat) : Prop :=
  Rabs (mean_of (firstn k w) - mean_of (skipn k w)) >
  sqrt (/ 2 * (/ INR k + / INR (length w - k)) * ln (2 / delta)).

(** Cuts are considered at even positions of a window of at least five values. *)
Definition candidate (w : list R) (k : nat) : Prop :=
  (5 <= length w)%nat /\ (0 < k < length w)%nat /\ Nat.Even k.

Definition adwin_step (delta : R) (maxb : Z) (w : list R) (v : R) (w' : list R) (drift : bool) : Prop :=
  let x := appended maxb w v in
  if drift then
    exists k, candidate x k /\ cut_differs delta x k /\
      (forall j, (j < k)%nat -> candidate x j -> ~ cut_differs delta x j) /\ w' = skipn k x
  else w' = x /\ forall k, candidate x k -> ~ cut_differs delta x k.
