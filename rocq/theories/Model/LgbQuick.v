(** The one-line interface of sklearn/lightgbm (quick.go): QuickTrain, AutoFit, QuickCrossValidate.  Printing and times are
    left out, as are QuickLoadAndPredict (LoadModel and Predict of the estimators) and QuickBenchmark, which only prints. *)
From Coq Require Import String List Arith ZArith Bool.
From Verif Require Import Base.Num Base.GoRes Base.Mat Base.ListX Model.ParamMap Model.LgbTransform Model.LgbTree Model.LgbLeaf
  Model.LgbEstimator Model.LgbText Model.LgbApi.
Import ListNotations.
Local Open Scope string_scope.
Local Open Scope list_scope.
Local Open Scope num_scope.

Section LgbQuick.
  Context {N : Num}.
  (** As in Model/LgbEstimator.v: int(x), int(math.Round(x)), the order of a map iteration, the trainer, a bound for walks *)
  Variables toint roundint : N -> Z.
  Variable order : list Z -> list Z.
  Variable trainer : settings N -> option N -> option (list N) -> matrix N -> list N -> option (res (gmodel N)).
  Variable fuel : nat.

  (** detectTaskType, lines 349-372; the map as the list of its keys, as in Model/LgbApi.v *)
  Definition detect_task (y : matrix N) : bool :=
    match few_keys (Nat.div (nrows y) 4) (first_column y) [] with
    | None => false
    | Some keys => forallb (fun k => k =? nofZ (toint k)) keys && (List.length keys <? 20)%nat
    end.

  (** Model of QuickResult: a pointer to one of the estimators; the nil interface is [None] where a model is stored *)
  Inductive qmodel := QClf (c : clf N) | QRgr (r : rgr N).
  (** QuickResult, lines 13-19 *)
  Record quick := mkq { q_model : option qmodel; q_score : N; q_names : list string; q_class : bool }.

  (** WithNumLeaves, WithLearningRate and WithNumIterations on a new estimator *)
  Definition with_numbers (leaves : Z) (lr : N) (iters : Z) (h : hyper N) : hyper N :=
    mkhyper leaves (h_depth h) lr iters (h_child_samples h) (h_child_weight h) (h_subsample h) (h_subsample_freq h) (h_colsample h)
      (h_alpha h) (h_lambda h) (h_seed h) (h_objective h) (h_metric h) (h_threads h) (h_deterministic h) (h_verbosity h)
      (h_early h) (h_boosting h) (h_importance h).
  Definition fresh_clf (leaves : Z) (lr : N) (iters : Z) : clf N :=
    let c := new_clf in mkclf (c_fitted c) (c_model c) (c_classes c) (c_nfeat c) (c_numclass c) (with_numbers leaves lr iters (c_h c)) (c_cats c).
  Definition fresh_rgr (leaves : Z) (lr : N) (iters : Z) : rgr N :=
    let r := new_rgr in mkrgr (r_fitted r) (r_model r) (r_nfeat r) (with_numbers leaves lr iters (r_h r)) (r_quantile r) (r_huber r) (r_fair r) (r_tweedie r) (r_cats r).

  Definition model_score (m : qmodel) (X y : matrix N) : option (res N) :=
    match m with QClf c => clf_score roundint fuel c X y | QRgr r => rgr_score roundint fuel r X y end.
  Definition fit_fresh (cls : bool) (leaves : Z) (lr : N) (iters : Z) (X y : matrix N) : option (qmodel * res unit) :=
    if cls then option_map (fun cr => (QClf (fst cr), snd cr)) (clf_fit toint order trainer None None X y (fresh_clf leaves lr iters))
    else option_map (fun rr => (QRgr (fst rr), snd rr)) (rgr_fit trainer X y (fresh_rgr leaves lr iters)).
  (** Fit, then "score, _ = Score" if there was no error, e.g. lines 116-136: the estimator, and the score if it was trained *)
  Definition attempt (cls : bool) (leaves : Z) (lr : N) (iters : Z) (X y : matrix N) : option (res (qmodel * option N)) :=
    match fit_fresh cls leaves lr iters X y with
    | None => None
    | Some (m, Ok _) =>
        match model_score m X y with
        | None => None
        | Some (Ok s) => Some (Ok (m, Some s))
        | Some (Err _) => Some (Ok (m, Some n0))
        | Some Panic => Some Panic
        end
    | Some (m, Err _) => Some (Ok (m, None))
    | Some (_, Panic) => Some Panic
    end.

  (** Lines 145-149 *)
  Definition feature_names (X : matrix N) : list string := map (fun i => append "Feature_" (show_int (Z.of_nat i))) (seq 0 (mcols X)).
  (** GetFeatureImportance of the estimators, lgbm_classifier.go lines 647-653 and lgbm_regressor.go lines 528-534; [None] is nil *)
  Definition model_importance (m : qmodel) : res (option (list N)) :=
    let imp (fitted : bool) (gm : option (gmodel N)) :=
      match gm with
      | Some g => if fitted then let* l := importance "gain" g in Ok (Some l) else Ok None
      | None => Ok None
      end in
    match m with QClf c => imp (c_fitted c) (c_model c) | QRgr r => imp (r_fitted r) (r_model r) end.
  (** Lines 46-51 *)
  Definition quick_importance (q : quick) : res (option (list N)) :=
    match q_model q, q_class q with
    | Some (QClf c), true => model_importance (QClf c)
    | Some (QRgr r), false => model_importance (QRgr r)
    | _, _ => Panic
    end.
  (** QuickTrain and QuickFit, lines 106-172; PrintSummary (lines 53-102) asks for the importances *)
  Definition quick_train (X y : matrix N) : option (res quick) :=
    let cls := detect_task y in
    match attempt cls 31 (nlit 1 10) 100 X y with
    | None => None
    | Some (Ok (m, s)) =>
        let q := mkq (Some m) (match s with Some s => s | None => n0 end) (feature_names X) cls in
        Some (let* _ := quick_importance q in Ok q)
    | Some (Err e) => Some (Err e)
    | Some Panic => Some Panic
    end.

  (** AutoFit, lines 176-257 *)
  Definition param_sets : list (Z * N * Z) :=
    [(31, nlit 1 10, 100); (50, nlit 1 20, 200); (100, nlit 3 100, 300); (31, nlit 1 5, 50)]%Z.
  Fixpoint auto_loop (cls : bool) (X y : matrix N) (ps : list (Z * N * Z)) (best : option qmodel * N) : option (res (option qmodel * N)) :=
    match ps with
    | [] => Some (Ok best)
    | (leaves, lr, iters) :: ps =>
        match attempt cls leaves lr iters X y with
        | None => None
        | Some (Ok (m, Some s)) => auto_loop cls X y ps (if s >? snd best then (Some m, s) else best)
        | Some (Ok (_, None)) => auto_loop cls X y ps best
        | Some (Err e) => Some (Err e)
        | Some Panic => Some Panic
        end
    end.
  Definition auto_fit (X y : matrix N) : option (res quick) :=
    let cls := detect_task y in
    omap (fun b => mkq (fst b) (snd b) (feature_names X) cls) (auto_loop cls X y param_sets (None, n0)).

  (** QuickCrossValidate, lines 277-346: the mean, and the variance returned as "std".  NumLeaves keeps its value of 31. *)
  Definition fold_score (cls : bool) (X y : matrix N) : option (res N) :=
    omap (fun ms => match snd ms with Some s => s | None => n0 end) (attempt cls 31 (nlit 1 10) 100 X y).
  Definition cross_validate (X y : matrix N) (folds : Z) : option (res (N * N)) :=
    let n := Z.to_nat (if (folds <? 2)%Z then 5 else folds) in
    let cls := detect_task y in
    omap (fun scores =>
            let mean := nsum scores / nofnat n in
            (mean, nsum (map (fun s => (s - mean) * (s - mean)) scores) / nofnat n))
         (sequence (fun _ => fold_score cls X y) (seq 0 n)).

  (** Predict, PredictProba and Score of QuickResult, lines 22-43: the type assertions panic on a nil model *)
  Definition quick_predict (q : quick) (X : matrix N) : option (res (matrix N)) :=
    match q_model q, q_class q with
    | Some (QClf c), true => clf_predict roundint fuel c X
    | Some (QRgr r), false => rgr_predict roundint fuel r X
    | _, _ => Some Panic
    end.
  Definition quick_proba (q : quick) (X : matrix N) : option (res (matrix N)) :=
    if negb (q_class q) then Some (Err (EOther 1))
    else match q_model q with Some (QClf c) => clf_proba roundint fuel c X | _ => Some Panic end.
  Definition quick_score (q : quick) (X y : matrix N) : option (res N) :=
    match q_model q, q_class q with
    | Some (QClf c), true => clf_score roundint fuel c X y
    | Some (QRgr r), false => rgr_score roundint fuel r X y
    | _, _ => Some Panic
    end.
End LgbQuick.
Arguments qmodel N : clear implicits.
Arguments quick N : clear implicits.
