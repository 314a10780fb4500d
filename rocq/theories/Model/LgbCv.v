(** CrossValidateRegressor and CrossValidateClassifier of sklearn/lightgbm/cross_validation.go, with
    the training, prediction and scoring of one fold of CrossValidate.  How the scores of the folds
    are combined is in Model/CrossVal.v.  Left out: times, printing, the scores on the training rows
    (a prediction that fails on them ends the fold), and EarlyStopping > 0, which trains with
    FitWithValidation (Model/EarlyStop.v). *)
From Coq Require Import String List Arith Bool ZArith.
From Verif Require Import Base.Num Base.GoRes Base.Mat Base.ListX.
From Verif Require Import Model.LgbTree Model.NaiveBayes Model.ParamMap Model.CrossVal Model.LgbEstimator.
Import ListNotations.
Local Open Scope string_scope.
Local Open Scope list_scope.
Local Open Scope num_scope.

Section LgbCv.
  Context {N : Num}.
  (** CrossValidateRegressor, cross_validation.go lines 486-504: the parameters *)
  Definition rgr_cv_settings (r : rgr N) : settings N :=
    let h := r_h r in
    mkset (h_iters h) (h_lr h) (h_leaves h) (h_depth h) (h_child_samples h) (h_lambda h) (h_alpha h) n0
          (h_subsample h) (h_subsample_freq h) (h_colsample h) 0 0 (h_objective h) 1
          "" n0 n0 n0 n0 (r_cats r) 0 (h_seed h) (h_deterministic h) (h_verbosity h) (h_early h).
  (** Lines 507-509 *)
  Definition rgr_cv_scoring (scoring : string) : string := if String.eqb scoring "" then "l2" else scoring.
  (** CrossValidateClassifier, lines 519-537: the parameters *)
  Definition clf_cv_settings (c : clf N) : settings N :=
    let h := c_h c in
    mkset (h_iters h) (h_lr h) (h_leaves h) (h_depth h) (h_child_samples h) (h_lambda h) (h_alpha h) n0
          (h_subsample h) (h_subsample_freq h) (h_colsample h) 0 0 (h_objective h) (c_numclass c)
          "" n0 n0 n0 n0 (c_cats c) 0 (h_seed h) (h_deterministic h) (h_verbosity h) (h_early h).
  (** Lines 540-546 *)
  Definition clf_cv_scoring (c : clf N) (scoring : string) : string :=
    if String.eqb scoring "" then (if (2 <? c_numclass c)%Z then "accuracy" else "binary_logloss") else scoring.

  (** int(x); 1e308; Trainer.Fit and GetModel; a bound for walks through trees; sort.Ints *)
  Variable toint : N -> Z.
  Variable big : N.
  Variable trainer : settings N -> option N -> option (list N) -> matrix N -> list N -> option (res (gmodel N)).
  Variable fuel : nat.
  Variable sorti : list nat -> list nat.

  (** Model.Predict, model.go lines 217-247.  PredictSingle returns one value per output column. *)
  Definition model_predict (m : gmodel N) (X : matrix N) : option (res (matrix N)) :=
    if negb (Z.of_nat (mcols X) =? m_nfeat m)%Z then Some (Err (EOther 1))
    else match newdense (nrows X) (outputs_count m) with
         | Ok _ => omap (mkmat (outputs_count m)) (sequence (predict_single toint big fuel m) (mrows X))
         | Err e => Some (Err e)
         | Panic => Some Panic
         end.

  (** One fold of CrossValidate, cross_validation.go lines 277-334 *)
  Definition fold_score (s : settings N) (metric : string) (tr te : matrix N * matrix N) : option (res N) :=
    match trainer s None None (fst tr) (column 0 (mrows (snd tr))) with
    | Some (Ok m) =>
        match model_predict m (fst tr) with
        | Some (Ok _) => omap (fun P => evaluate_metric metric (column 0 (mrows (snd te))) (column 0 (mrows P))) (model_predict m (fst te))
        | Some (Err e) => Some (Err (EWrapped e))
        | Some Panic => Some Panic
        | None => None
        end
    | Some (Err e) => Some (Err (EWrapped e))
    | Some Panic => Some Panic
    | None => None
    end.
  Definition fold_outcome (s : settings N) (metric : string) (X y : matrix N) (f : cvfold) : option (res N) :=
    match extract_subset sorti X y (CrossVal.train f) with
    | Ok tr => match extract_subset sorti X y (CrossVal.test f) with
               | Ok te => fold_score s metric tr te
               | Err e => Some (Err e)
               | Panic => Some Panic
               end
    | Err e => Some (Err e)
    | Panic => Some Panic
    end.
  (** The outcomes of the folds, lines 482-512 and 515-549.  The metric is never empty there, so
      lines 256-265 do not apply. *)
  Definition cv_regressor (r : rgr N) (scoring : string) (X y : matrix N) (folds : list cvfold) : list (option (res N)) :=
    map (fold_outcome (rgr_cv_settings r) (rgr_cv_scoring scoring) X y) folds.
  Definition cv_classifier (c : clf N) (scoring : string) (X y : matrix N) (folds : list cvfold) : list (option (res N)) :=
    map (fold_outcome (clf_cv_settings c) (clf_cv_scoring c scoring) X y) folds.
End LgbCv.
