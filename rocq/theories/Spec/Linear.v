(** What ordinary least squares means, over the real numbers. *)
From Coq Require Import List Arith Reals.
From Verif Require Import Base.RTac.
Import ListNotations.
Local Open Scope R_scope.

(** b + w1 x1 + w2 x2 + ... *)
Fixpoint linear_value (b : R) (w x : list R) : R :=
  match w, x with
  | wj :: w', xj :: x' => xj * wj + linear_value b w' x'
  | _, _ => b
  end.

(** The sum of the squared differences between the targets and the values of the linear function. *)
Definition residual (rows : list (list R)) (ys : list R) (b : R) (w : list R) : R :=
  Rsum (map (fun p => (snd p - linear_value b w (fst p)) * (snd p - linear_value b w (fst p))) (combine rows ys)).

(** Entry (i, j), and the sum over k < m of a(i,k) b(k,j). *)
Definition entry (A : list (list R)) (i j : nat) : R := nth j (nth i A []) 0.
Definition prod_entry (m : nat) (A B : list (list R)) (i j : nat) : R :=
  Rsum (map (fun k => entry A i k * entry B k j) (seq 0 m)).
Definition square (m : nat) (A : list (list R)) : Prop := length A = m /\ forall row, In row A -> length row = m.

(** B is the inverse of the m by m matrix A. *)
Definition is_inverse (m : nat) (A B : list (list R)) : Prop :=
  square m B
  /\ (forall i j, (i < m)%nat -> (j < m)%nat -> prod_entry m A B i j = if Nat.eqb i j then 1 else 0)
  /\ (forall i j, (i < m)%nat -> (j < m)%nat -> prod_entry m B A i j = if Nat.eqb i j then 1 else 0).

(** An inversion routine that never returns a wrong matrix (it may give up). *)
Definition inverts (inverse : list (list R) -> option (list (list R))) : Prop :=
  forall m A B, square m A -> inverse A = Some B -> is_inverse m A B.

(** A least squares routine that never returns a wrong answer (it may give up): what it
    returns has one entry per column and no vector has a smaller residual. *)
Definition solves (qrsolve : list (list R) -> list R -> option (list R)) : Prop :=
  forall m D ys v, (forall row, In row D -> length row = m) -> length ys = length D -> qrsolve D ys = Some v ->
    length v = m /\ forall u, length u = m -> residual D ys 0 v <= residual D ys 0 u.
Local Open Scope list_scope.

(** Entry by entry: t x + (1 - t) z for two matrices of the same shape. *)
Definition blend (t : R) (a b : list (list R)) : list (list R) :=
  map (fun p => map (fun q => t * fst q + (1 - t) * snd q) (combine (fst p) (snd p))) (combine a b).
