(** Multinomial naive Bayes on a plain list of labelled samples, over the reals. *)
From Coq Require Import List Arith ZArith Reals.
From Verif Require Import Base.Num Base.RTac.
Import ListNotations.
Local Open Scope R_scope.

Definition sample : Type := (list R * Z)%type.

Definition with_label (S : list sample) (c : Z) : list sample := filter (fun s => Z.eqb (snd s) c) S.
(** Number of samples of class [c]. *)
Definition class_total (S : list sample) (c : Z) : R := INR (length (with_label S c)).
(** Total count of feature [j] in class [c]. *)
Definition feature_total (S : list sample) (c : Z) (j : nat) : R :=
  Rsum (map (fun s => nth j (fst s) 0) (with_label S c)).

(** Smoothed probability of feature [j] given class [c], among [nf] features. *)
Definition theta (S : list sample) (a : R) (nf : nat) (c : Z) (j : nat) : R :=
  (feature_total S c j + a) / (Rsum (map (fun i => feature_total S c i) (seq 0 nf)) + INR nf * a).

Fixpoint Rprod (l : list R) : R := match l with [] => 1 | x :: r => x * Rprod r end.

(** Prior times the likelihood of the count vector [x] (up to the multinomial
    coefficient, which does not depend on the class). *)
Definition weight (S : list sample) (a : R) (nf : nat) (prior : Z -> R) (x : list R) (c : Z) : R :=
  prior c * Rprod (map (fun j => Rpower (theta S a nf c j) (nth j x 0)) (seq 0 nf)).

(** Posterior probability of [c] among the classes [cl]. *)
Definition posterior (S : list sample) (a : R) (nf : nat) (prior : Z -> R) (cl : list Z) (x : list R) (c : Z) : R :=
  weight S a nf prior x c / Rsum (map (weight S a nf prior x) cl).

(** The prior used: learned class frequencies, the supplied list by position (missing
    entries count as one), or uniform. *)
Definition is_prior (S : list sample) (cl : list Z) (learned : bool) (supplied : option (list R))
    (prior : Z -> R) : Prop :=
  if learned then forall c, prior c = class_total S c / INR (length S)
  else match supplied with
       | None => forall c, prior c = 1 / INR (length cl)
       | Some pr => forall i c, nth_error cl i = Some c -> prior c = nth i pr 1
       end.
