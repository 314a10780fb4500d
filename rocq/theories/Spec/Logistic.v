(** Regularised logistic regression. *)
From Coq Require Import List Arith ZArith Reals.
From Verif Require Import Base.Num Base.Mat Base.RTac Model.Logistic.
Import ListNotations.
Local Open Scope R_scope.

(** The sum of f 0, ..., f (n - 1) *)
Definition Sum (n : nat) (f : nat -> R) : R := Rsum (map f (seq 0 n)).
(** Intercept plus weighted features *)
Definition score (w : list R) (b : R) (x : list R) : R := b + Sum (length w) (fun j => nth j w 0 * nth j x 0).
(** The probability of the positive class *)
Definition logistic (z : R) : R := exp z / (1 + exp z).
(** The negative log likelihood of the label [y] (0 or 1) at score [z] *)
Definition nll (y z : R) : R := - (y * ln (logistic z) + (1 - y) * ln (1 - logistic z)).
(** A labelled sample: features and label *)
Definition sample := (list R * R)%type.
(** Mean negative log likelihood plus half of lambda times the squared length of the weights *)
Definition risk (lambda : R) (S : list sample) (w : list R) (b : R) : R :=
  Rsum (map (fun s => nll (snd s) (score w b (fst s))) S) / INR (length S)
  + lambda / 2 * Sum (length w) (fun j => nth j w 0 * nth j w 0).
(** At least one sample, each with [n] features and label 0 or 1 *)
Definition sound (n : nat) (S : list sample) : Prop :=
  S <> [] /\ Forall (fun s => length (fst s) = n /\ (snd s = 0 \/ snd s = 1)) S.
(** No probability is within 1e-15 of 0 or 1. *)
Definition moderate (S : list sample) (w : list R) (b : R) : Prop :=
  Forall (fun s => 1 / 1000000000000000 <= logistic (score w b (fst s)) <= 1 - 1 / 1000000000000000) S.
(** [w] moved by [t] times [v] *)
Definition move (t : R) (v w : list R) : list R := map (fun p => fst p + t * snd p) (combine w v).
(** The samples of a training set with label 1 for the class [c] and 0 for all others *)
Definition against (c : Z) (rows : list (list R)) (labels : list Z) : list sample :=
  map (fun p => (fst p, if Z.eqb (snd p) c then 1 else 0)) (combine rows labels).

(** ** Trained models *)
(** A fitted model with one row of weights and one intercept per class, or a single one for two classes. *)
Definition trained {N : Num} {G : Type} (m : @lmodel N G) (units : list (list N * N)) : Prop :=
  l_fitted G m = true /\ l_nc G m = length (l_classes G m) /\ l_coef G m = Some (map fst units) /\ l_b G m = map snd units /\
  Forall (fun u => length (fst u) = l_nf G m) units /\
  length units = (if Nat.eqb (length (l_classes G m)) 2 then 1 else length (l_classes G m))%nat.
(** Position [k] is the first one holding the largest number. *)
Definition first_largest (ss : list R) (k : nat) : Prop :=
  (k < length ss)%nat /\ (forall j, (j < length ss)%nat -> nth j ss 0 <= nth k ss 0) /\ (forall j, (j < k)%nat -> nth j ss 0 < nth k ss 0).
(** The same numbers in the first [n] columns *)
Definition agree {A} (n : nat) (x x' : list A) : Prop := (n <= length x)%nat /\ firstn n x = firstn n x'.
(** [i] steps of gradient descent from [u] *)
Definition descent {N : Num} (h : @lhyper N) (d : data) (u : list N * N) (i : nat) : list N * N :=
  fold_left (fun u k => fst (gd_step h d k (fst u) (snd u))) (seq 0 i) u.
(** The largest gradient entry that step [i] looks at *)
Definition largest {N : Num} (h : @lhyper N) (d : data) (u : list N * N) (i : nat) : N :=
  snd (gd_step h d i (fst (descent h d u i)) (snd (descent h d u i))).
(** [n] successive draws of a generator *)
Fixpoint successive {A G : Type} (draw : G -> A * G) (n : nat) (g : G) : list A :=
  match n with 0%nat => [] | S n' => let (v, g') := draw g in v :: successive draw n' g' end.
