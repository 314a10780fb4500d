(** What is expected of QuickTrain, AutoFit and QuickCrossValidate. *)
From Coq Require Import String List Arith ZArith Bool.
From Verif Require Import Base.Num Base.GoRes Base.Mat Base.ListX Model.ParamMap Model.LgbTree Model.LgbEstimator Model.LgbQuick.
Import ListNotations.
Local Open Scope string_scope.
Local Open Scope list_scope.
Local Open Scope num_scope.

Section LgbQuickSpec.
  Context {N : Num}.
  Variables toint roundint : N -> Z.
  Variable order : list Z -> list Z.
  Variable trainer : settings N -> option N -> option (list N) -> matrix N -> list N -> option (res (gmodel N)).
  Variable fuel : nat.

  Definition targets (y : matrix N) : list N := map (fun r => nth 0 r n0) (mrows y).
  (** The values are integers, and there are at most [limit] different ones. *)
  Definition few_integers (limit : nat) (l : list N) : Prop :=
    (forall v, In v l -> v =? nofZ (toint v) = true)
    /\ exists ks, (List.length ks <= limit)%nat /\ forall v, In v l -> exists k, In k ks /\ v =? k = true.

  (** A classifier and a regressor with the defaults of the package except for number of leaves, learning rate and number of trees *)
  Definition classifier (leaves : Z) (lr : N) (iters : Z) : clf N :=
    mkclf false None [] 0 0
      (mkhyper leaves (-1) lr iters 20 (nlit 1 1000) n1 0 n1 n0 n0 42 "binary" "auto" (-1) false (-1) 0 "" "") [].
  Definition regressor (leaves : Z) (lr : N) (iters : Z) : rgr N :=
    mkrgr false None 0 (mkhyper leaves (-1) lr iters 20 (nlit 1 1000) n1 0 n1 n0 n0 42 "regression" "l2" (-1) false (-1) 0 "gbdt" "gain")
      (nlit 1 2) n1 n1 (nlit 3 2) [].
  (** What Score reports, or zero if it fails *)
  Definition reports (r : option (res N)) (s : N) : Prop := r = Some (Ok s) \/ (exists e, r = Some (Err e)) /\ s = n0.
  (** [m] is the new estimator after a successful Fit, with training score [s]. *)
  Definition trained (cls : bool) (leaves : Z) (lr : N) (iters : Z) (X y : matrix N) (m : qmodel N) (s : N) : Prop :=
    if cls then exists c, m = QClf c /\ clf_fit toint order trainer None None X y (classifier leaves lr iters) = Some (c, Ok tt)
                          /\ reports (clf_score roundint fuel c X y) s
    else exists r, m = QRgr r /\ rgr_fit trainer X y (regressor leaves lr iters) = Some (r, Ok tt)
                   /\ reports (rgr_score roundint fuel r X y) s.
  (** Fit of the new estimator returns an error. *)
  Definition refused (cls : bool) (leaves : Z) (lr : N) (iters : Z) (X y : matrix N) : Prop :=
    if cls then exists c e, clf_fit toint order trainer None None X y (classifier leaves lr iters) = Some (c, Err e)
    else exists r e, rgr_fit trainer X y (regressor leaves lr iters) = Some (r, Err e).
  (** The four settings tried by AutoFit *)
  Definition candidates : list (Z * N * Z) :=
    [(31, nlit 1 10, 100); (50, nlit 1 20, 200); (100, nlit 3 100, 300); (31, nlit 1 5, 50)]%Z.
End LgbQuickSpec.
