(** The estimators LGBMClassifier and LGBMRegressor of sklearn/lightgbm: lgbm_classifier.go and
    lgbm_regressor.go, with PredictProba of predictor.go and the parts of trainer.go that turn
    TrainingParams into a model.  GetParams and SetParams are in Model/ParamMap.v.  Left out:
    logging, progress output, NumThreads and Deterministic as far as they choose between the
    sequential and the parallel loop over the rows (Model/Parallel.v), saving, and feature
    importance.  A panic of a prediction goroutine ends the process; it is [Panic] here, like one
    on the calling goroutine. *)
From Coq Require Import String List Arith Bool ZArith.
From Verif Require Import Base.Num Base.GoRes Base.Mat Base.ListX.
From Verif Require Import Model.LgbTransform Model.LgbTree Model.LgbHist Model.LgbTrain Model.LgbObjective.
From Verif Require Import Model.NaiveBayes Model.ParamMap Model.Metrics.
Import ListNotations.
Local Open Scope string_scope.
Local Open Scope list_scope.
Local Open Scope num_scope.

Section LgbEstimator.
  Context {N : Num}.
  (** int(x), int(math.Round(x)); 1e308; the order of a map iteration *)
  Variables toint roundint : N -> Z.
  Variable big : N.
  Variable order : list Z -> list Z.

  (** * Training *)

  (** TrainingParams, trainer.go lines 79-143: the fields set by the estimators.  The others
      keep their zero values. *)
  Record settings := mkset {
    s_iters : Z; s_lr : N; s_leaves : Z; s_depth : Z; s_minleaf : Z; s_l2 : N; s_l1 : N; s_mingain : N;
    s_bagfrac : N; s_bagfreq : Z; s_ffrac : N; s_maxbin : Z; s_minbin : Z; s_obj : string; s_class : Z;
    s_boost : string; s_huber : N; s_quantile : N; s_fair : N; s_tweedie : N; s_cats : list Z; s_onehot : Z;
    s_seed : Z; s_det : bool; s_verb : Z; s_early : Z }.

  (** NewTrainer, trainer.go lines 182-206 *)
  Definition or_int (d z : Z) : Z := if (z =? 0)%Z then d else z.
  Definition or_num (d x : N) : N := if x =? n0 then d else x.
  Definition new_trainer (s : settings) : settings :=
    mkset (or_int 100 (s_iters s)) (or_num (nlit 1 10) (s_lr s)) (or_int 31 (s_leaves s)) (s_depth s) (or_int 20 (s_minleaf s))
          (s_l2 s) (s_l1 s) (s_mingain s) (or_num n1 (s_bagfrac s)) (s_bagfreq s) (or_num n1 (s_ffrac s))
          (or_int 255 (s_maxbin s)) (s_minbin s) (s_obj s) (s_class s) (s_boost s) (s_huber s) (s_quantile s) (s_fair s)
          (s_tweedie s) (s_cats s) (s_onehot s) (s_seed s) (s_det s) (s_verb s) (s_early s).

  (** The fields read by tree growth *)
  Definition growth (s : settings) : tparams N :=
    mktp (s_depth s) (s_leaves s) (s_minleaf s) (s_minleaf s) (s_mingain s) (s_l1 s) (s_l2 s) (s_maxbin s) (s_cats s) (s_lr s)
         (s_ffrac s) [].

  Section Trainer.
    Variable pow : N -> N -> N.
    Variables floori ceili : N -> Z.
    Variables (sortf : list N -> list N) (sortr : list (N * bin N) -> list (N * bin N)).
    (** The rows sampled in the rounds of a run (NewSamplingStrategy and SampleInstances,
        trainer_params.go lines 18-108): feature fraction, bagging fraction and frequency, seed,
        Deterministic, columns, rows, round *)
    Variable sampled : N -> N -> Z -> Z -> bool -> nat -> nat -> nat -> list nat.
    Variable fuel : nat.

    (** Trainer.Fit and GetModel, trainer.go lines 388-545 and 1383-1401, for BoostingType other
        than "goss", without callbacks and class weights.  [init]: SetInitScore (lines 1499-1502);
        [w]: SetSampleWeight (lines 1494-1496), unit weights when not called (lines 491-497).
        With more than two classes the scores used for the gradients are summed up again from all
        trees (getCurrentPrediction, lines 875-899), in the order in which they are otherwise
        accumulated, with the learning rate every tree carries; so both cases are [fit].
        [None]: out of fuel.  EarlyStopping never stops a run (lines 1320-1332). *)
    Definition train (s : settings) (init : option N) (w : option (list N)) (X : matrix N) (y : list N)
        : option (res (gmodel N)) :=
      let s := new_trainer s in
      match create pow floori ceili (s_obj s) (s_huber s) (s_fair s) (s_quantile s) (s_tweedie s) with
      | Ok o =>
          match (match init with Some i => Ok i | None => o_init o y end) with
          | Ok i =>
              let w := match w with Some w => w | None => repeat n1 (nrows X) end in
              let at_ r c := nth c (nth r (mrows X) []) n0 in
              let bags := map (sampled (s_ffrac s) (s_bagfrac s) (s_bagfreq s) (s_seed s) (s_det s) (mcols X) (nrows X))
                              (seq 0 (Z.to_nat (s_iters s))) in
              omap (fun tp => get_model (mcols X) (s_obj s) (s_class s) (growth s) i (fst tp))
                   (fit toint at_ (mcols X) sortf sortr (o_grad o) (o_hess o) y w fuel (growth s) i bags)
          | Err e => Some (Err e)
          | Panic => Some Panic
          end
      | Err e => Some (Err e)
      | Panic => Some Panic
      end.
  End Trainer.

  (** The trainer as used by the estimators: parameters, init score, weights, X, y *)
  Variable trainer : settings -> option N -> option (list N) -> matrix N -> list N -> option (res (gmodel N)).
  (** Bound for the walks through trees with broken child links *)
  Variable fuel : nat.

  (** * Prediction with a model *)

  (** Predictor.Predict, predictor.go lines 47-83 *)
  Definition predict_model (m : gmodel N) (X : matrix N) : option (res (matrix N)) :=
    if negb (Z.of_nat (mcols X) =? m_nfeat m)%Z then Some (Err (EOther 1))
    else match newdense (nrows X) (outputs_count m) with
         | Ok _ => omap (mkmat (outputs_count m))
                     (sequence (fun x => omap (predictor_transform (m_obj m)) (predictor_raw roundint fuel m x)) (mrows X))
         | Err e => Some (Err e)
         | Panic => Some Panic
         end.
  (** Predictor.PredictProba, predictor.go lines 440-475 *)
  Definition proba_matrix (m : gmodel N) (P : matrix N) : matrix N :=
    if is_binary (m_obj m) then mkmat 2 (map (fun r => let p := nth 0 r n0 in [ensure (n1 - p); p]) (mrows P))
    else if String.eqb (m_obj m) "multiclass_logloss" then mkmat (mcols P) (map apply_softmax (mrows P))
    else P.
  Definition proba_model (m : gmodel N) (X : matrix N) : option (res (matrix N)) :=
    omap (proba_matrix m) (predict_model m X).

  (** * LGBMClassifier *)

  (** lgbm_classifier.go lines 15-54.  Predictor always holds Model; nClasses is always
      len(classes).  [c_h] holds the fields that exist in the regressor too. *)
  Record clf := mkclf {
    c_fitted : bool; c_model : option (gmodel N); c_classes : list Z; c_nfeat : Z; c_numclass : Z;
    c_h : hyper N; c_cats : list Z }.
  (** Lines 57-84 *)
  Definition new_clf : clf :=
    mkclf false None [] 0 0
      (mkhyper 31 (-1) (nlit 1 10) 100 20 (nlit 1 1000) n1 0 n1 n0 n0 42 "binary" "auto" (-1) false (-1) 0 "" "") [].

  (** Lines 173-194 (the same in 254-275 and 341-362) *)
  Definition clf_settings (c : clf) : settings :=
    let h := c_h c in
    mkset (h_iters h) (h_lr h) (h_leaves h) (h_depth h) (h_child_samples h) (h_lambda h) (h_alpha h) (nlit 1 10000000)
          (h_subsample h) (h_subsample_freq h) (h_colsample h) 255 3 (h_objective h) (c_numclass c)
          "" n0 n0 n0 n0 [] 0 (h_seed h) (h_deterministic h) (h_verbosity h) (h_early h).

  (** Fit, FitWeighted and FitWithInit, lines 133-420: without weights and init score, with
      weights, with both.  [w = None] is nil. *)
  Definition clf_fit (init : option N) (w : option (list N)) (X y : matrix N) (c : clf) : option (clf * res unit) :=
    if negb (nrows X =? nrows y)%nat then Some (c, Err (EDimension (nrows X) (nrows y)))
    else if negb (mcols y =? 1)%nat then Some (c, Err (EDimension 1 (mcols y)))
    else if (match w with Some w => negb (List.length w =? nrows X)%nat | None => false end)
    then Some (c, Err (EDimension (nrows X) (match w with Some w => List.length w | None => 0%nat end)))
    else
      let cls := extract_classes order (labels_of toint y) in
      let k := Z.of_nat (List.length cls) in
      if (k <? 2)%Z then Some (mkclf (c_fitted c) (c_model c) cls (c_nfeat c) (c_numclass c) (c_h c) (c_cats c), Err (EOther 2))
      else
        let c1 := mkclf (c_fitted c) (c_model c) cls (Z.of_nat (mcols X)) (if (k =? 2)%Z then 1%Z else k)
                    (with_objective (c_h c) (if (k =? 2)%Z then "binary" else "multiclass")) (c_cats c) in
        match trainer (clf_settings c1) init w X (column 0 (mrows y)) with
        | None => None
        | Some (Ok m) => Some (mkclf true (Some m) cls (c_nfeat c1) (c_numclass c1) (c_h c1) (c_cats c1), Ok tt)
        | Some (Err e) => Some (c1, Err (EWrapped e))
        | Some Panic => Some (c1, Err EPanic)
        end.

  (** PredictProba, lines 503-515 *)
  Definition clf_proba (c : clf) (X : matrix N) : option (res (matrix N)) :=
    if negb (c_fitted c) then Some (Err ENotFitted)
    else if negb (Z.of_nat (mcols X) =? c_nfeat c)%Z then Some (Err (EDimension (Z.to_nat (c_nfeat c)) (mcols X)))
    else match c_model c with Some m => proba_model m X | None => Some Panic end.

  (** The multiclass branch of Predict, lines 483-491: running best and its label *)
  Fixpoint pick (classes : list Z) (p : list N) (best : N) (label : Z) : res Z :=
    match classes, p with
    | [], _ => Ok label
    | _ :: _, [] => Panic
    | k :: ks, v :: vs => if v >? best then pick ks vs v k else pick ks vs best label
    end.
  (** Lines 470-492 *)
  Definition label_of (classes : list Z) (p : list N) : res Z :=
    match classes with
    | [a; b] => match nth_error p 1 with Some v => Ok (if v >=? nlit 1 2 then b else a) | None => Panic end
    | _ => pick classes p n0 0
    end.
  (** Predict, lines 452-500 *)
  Definition clf_predict (c : clf) (X : matrix N) : option (res (matrix N)) :=
    match clf_proba c X with
    | Some r => Some (let* P := r in
                      let* _ := newdense (nrows P) 1 in
                      let* ls := mapM (label_of (c_classes c)) (mrows P) in
                      Ok (mkmat 1 (map (fun l => [nofZ l]) ls)))
    | None => None
    end.
  (** PredictLogProba, lines 518-541 *)
  Definition clf_log_proba (c : clf) (X : matrix N) : option (res (matrix N)) :=
    match clf_proba c X with
    | Some r => Some (let* P := r in
                      let* _ := newdense (nrows P) (mcols P) in
                      Ok (mkmat (mcols P) (map (map (fun p => if p <=? n0 then - ninf else nlog p)) (mrows P))))
    | None => None
    end.
  (** Score, lines 544-564: y.At(i, 0) panics when y has fewer rows than there are predictions *)
  Definition clf_score (c : clf) (X y : matrix N) : option (res N) :=
    match clf_predict c X with
    | Some r => Some (let* P := r in
                      if (nrows y <? nrows P)%nat then Panic
                      else Ok (nofnat (List.length (filter (fun ab => fst ab =? snd ab) (combine (column 0 (mrows P)) (column 0 (mrows y)))))
                               / nofnat (nrows P)))
    | None => None
    end.

  (** Model.PredictSingle, model.go lines 251-293 *)
  Definition predict_single (m : gmodel N) (x : list N) : option (res (list N)) :=
    omap (model_transform big (m_obj m)) (model_raw toint fuel m x).
  (** DecisionFunction, lines 739-784 *)
  Definition decision_row (n : nat) (raw : list N) : list N :=
    if (n =? 2)%nat then [nth 0 raw n0] else map (fun j => nth j raw n0) (seq 0 n).
  Definition clf_decision (c : clf) (X : matrix N) : option (res (matrix N)) :=
    let n := List.length (c_classes c) in
    let out := if (n =? 2)%nat then 1%nat else n in
    if negb (c_fitted c) then Some (Err ENotFitted)
    else if negb (Z.of_nat (mcols X) =? c_nfeat c)%Z then Some (Err (EDimension (Z.to_nat (c_nfeat c)) (mcols X)))
    else match newdense (nrows X) out with
         | Ok _ =>
             match c_model c with
             | Some m => omap (fun rs => mkmat out (map (decision_row n) rs)) (sequence (predict_single m) (mrows X))
             | None => Some Panic
             end
         | Err e => Some (Err e)
         | Panic => Some Panic
         end.

  Definition numbered (k : nat) : list Z := map Z.of_nat (seq 0 k).
  (** LoadModel, lines 567-597; [r]: outcome of LoadFromFile.  make([]int, n) panics for n < 0. *)
  Definition clf_load (r : res (gmodel N)) (c : clf) : clf * res unit :=
    match r with
    | Ok m =>
        let st f cls := mkclf f (Some m) cls (m_nfeat m) (m_class m) (c_h c) (c_cats c) in
        if is_binary (m_obj m) then (st true [0; 1]%Z, Ok tt)
        else if String.eqb (m_obj m) "multiclass" then
          if (m_class m <? 0)%Z then (st (c_fitted c) (c_classes c), Panic)
          else (st true (numbered (Z.to_nat (m_class m))), Ok tt)
        else (st true (c_classes c), Ok tt)
    | Err e => (c, Err (EWrapped e))
    | Panic => (c, Panic)
    end.
  (** LoadModelFromString and LoadModelFromJSON, lines 600-650; [r]: outcome of the loader *)
  Definition clf_load_text (r : res (gmodel N)) (c : clf) : clf * res unit :=
    match r with
    | Ok m =>
        (mkclf true (Some m) (if (2 <? m_class m)%Z then numbered (Z.to_nat (m_class m)) else [0; 1]%Z) (m_nfeat m) (c_numclass c)
           (c_h c) (c_cats c), Ok tt)
    | Err e => (c, Err (EWrapped e))
    | Panic => (c, Panic)
    end.

  (** * LGBMRegressor *)

  (** lgbm_regressor.go lines 16-61 *)
  Record rgr := mkrgr {
    r_fitted : bool; r_model : option (gmodel N); r_nfeat : Z; r_h : hyper N;
    r_quantile : N; r_huber : N; r_fair : N; r_tweedie : N; r_cats : list Z }.
  (** Lines 64-97 *)
  Definition new_rgr : rgr := mkrgr false None 0 new_hyper (nlit 1 2) n1 n1 (nlit 3 2) [].

  (** Fit, lines 188-214: no BoostingType *)
  Definition rgr_settings (r : rgr) : settings :=
    let h := r_h r in
    mkset (h_iters h) (h_lr h) (h_leaves h) (h_depth h) (h_child_samples h) (h_lambda h) (h_alpha h) (nlit 1 10000000)
          (h_subsample h) (h_subsample_freq h) (h_colsample h) 255 3 (h_objective h) 1
          "" (r_huber r) (r_quantile r) (r_fair r) (r_tweedie r) (r_cats r) 4
          (h_seed h) (h_deterministic h) (h_verbosity h) (h_early h).
  (** FitWeighted and FitWithInit, lines 273-298 and 363-388: no NumClass, no MaxCatToOnehot *)
  Definition rgr_settings_weighted (r : rgr) : settings :=
    let h := r_h r in
    mkset (h_iters h) (h_lr h) (h_leaves h) (h_depth h) (h_child_samples h) (h_lambda h) (h_alpha h) (nlit 1 10000000)
          (h_subsample h) (h_subsample_freq h) (h_colsample h) 255 3 (h_objective h) 0
          (h_boosting h) (r_huber r) (r_quantile r) (r_fair r) (r_tweedie r) (r_cats r) 0
          (h_seed h) (h_deterministic h) (h_verbosity h) (h_early h).

  (** Lines 216-240 and their copies: training, and what is stored.  nSamples is not used. *)
  Definition rgr_run (s : settings) (init : option N) (w : option (list N)) (X y : matrix N) (r : rgr) : option (rgr * res unit) :=
    let r1 := mkrgr (r_fitted r) (r_model r) (Z.of_nat (mcols X)) (r_h r) (r_quantile r) (r_huber r) (r_fair r) (r_tweedie r) (r_cats r) in
    match trainer s init w X (column 0 (mrows y)) with
    | None => None
    | Some (Ok m) => Some (mkrgr true (Some m) (r_nfeat r1) (r_h r) (r_quantile r) (r_huber r) (r_fair r) (r_tweedie r) (r_cats r), Ok tt)
    | Some (Err e) => Some (r1, Err (EWrapped e))
    | Some Panic => Some (r1, Err EPanic)
    end.
  (** Fit, lines 159-240 *)
  Definition rgr_fit (X y : matrix N) (r : rgr) : option (rgr * res unit) :=
    if negb (nrows X =? nrows y)%nat then Some (r, Err (EDimension (nrows X) (nrows y)))
    else if negb (mcols y =? 1)%nat then Some (r, Err (EDimension 1 (mcols y)))
    else rgr_run (rgr_settings r) None None X y r.
  (** FitWeighted and FitWithInit, lines 245-330 and 333-422 *)
  Definition rgr_fit_weighted (init : option N) (w : option (list N)) (X y : matrix N) (r : rgr) : option (rgr * res unit) :=
    if negb (nrows X =? nrows y)%nat then Some (r, Err (EDimension (nrows X) (nrows y)))
    else if negb (mcols y =? 1)%nat then Some (r, Err (EDimension 1 (mcols y)))
    else if (match w with Some w => negb (List.length w =? nrows X)%nat | None => false end)
    then Some (r, Err (EDimension (nrows X) (match w with Some w => List.length w | None => 0%nat end)))
    else rgr_run (rgr_settings_weighted r) init w X y r.

  (** Predict, lines 425-437 *)
  Definition rgr_predict (r : rgr) (X : matrix N) : option (res (matrix N)) :=
    if negb (r_fitted r) then Some (Err ENotFitted)
    else if negb (Z.of_nat (mcols X) =? r_nfeat r)%Z then Some (Err (EDimension (Z.to_nat (r_nfeat r)) (mcols X)))
    else match r_model r with Some m => predict_model m X | None => Some Panic end.

  (** Targets and predictions of the rows of y: predictions.At(i, 0) panics when y has more rows *)
  Definition compared (y P : matrix N) : res (list N * list N) :=
    if (nrows P <? nrows y)%nat then Panic
    else Ok (column 0 (mrows y), firstn (nrows y) (column 0 (mrows P))).
  Definition judged (metric : option (list N) -> option (list N) -> res N) (r : rgr) (X y : matrix N) : option (res N) :=
    match rgr_predict r X with
    | Some p => Some (let* P := p in
                      let* (t, q) := compared y P in
                      let* _ := newdense (nrows y) 1 in
                      metric (Some t) (Some q))
    | None => None
    end.
  (** Score, GetMSE, GetMAE and GetRMSE, lines 440-460, 737-786 *)
  Definition rgr_score : rgr -> matrix N -> matrix N -> option (res N) := judged r2_score.
  Definition rgr_mse : rgr -> matrix N -> matrix N -> option (res N) := judged mse.
  Definition rgr_mae : rgr -> matrix N -> matrix N -> option (res N) := judged mae.
  Definition rgr_rmse (r : rgr) (X y : matrix N) : option (res N) := omap nsqrt (rgr_mse r X y).
  (** GetResiduals, lines 715-734 *)
  Definition rgr_residuals (r : rgr) (X y : matrix N) : option (res (matrix N)) :=
    match rgr_predict r X with
    | Some p => Some (let* P := p in
                      let* _ := newdense (nrows y) 1 in
                      let* (t, q) := compared y P in
                      Ok (mkmat 1 (map (fun ab => [fst ab - snd ab]) (combine t q))))
    | None => None
    end.

  (** PredictQuantile, lines 666-712: the quantiles one after the other *)
  Definition shifted (q v : N) : N := v + v * (q - nlit 1 2) * nlit 1 10.
  Fixpoint quantiles_of (r : rgr) (X : matrix N) (qs : list N) : option (res (list (matrix N))) :=
    match qs with
    | [] => Some (Ok [])
    | q :: qs =>
        if (q <=? n0) || (q >=? n1) then Some (Err (EOther 3))
        else match rgr_predict r X with
             | Some (Ok P) =>
                 omap (cons (mkmat (mcols P) (map (map (shifted q)) (mrows P)))) (quantiles_of r X qs)
             | Some (Err e) => Some (Err e)
             | Some Panic => Some Panic
             | None => None
             end
    end.
  Definition rgr_quantiles (r : rgr) (X : matrix N) (qs : list N) : option (res (list (matrix N))) :=
    if negb (r_fitted r) then Some (Err ENotFitted)
    else match r_model r with
         | None => Some Panic
         | Some m => if negb (String.eqb (m_obj m) "quantile") then Some (Err (EOther 4)) else quantiles_of r X qs
         end.

  (** LoadModel, lines 463-501 *)
  Definition loaded_objective (o : string) : string :=
    if existsb (String.eqb o) ["regression"; "regression_l1"; "huber"; "fair"; "poisson"; "quantile"; "gamma"; "tweedie"] then o
    else "regression".
  Definition rgr_with (m : gmodel N) (h : hyper N) (r : rgr) : rgr :=
    mkrgr true (Some m) (m_nfeat m) h (r_quantile r) (r_huber r) (r_fair r) (r_tweedie r) (r_cats r).
  Definition rgr_load (l : res (gmodel N)) (r : rgr) : rgr * res unit :=
    match l with
    | Ok m => (rgr_with m (with_objective (r_h r) (loaded_objective (m_obj m))) r, Ok tt)
    | Err e => (r, Err (EWrapped e))
    | Panic => (r, Panic)
    end.
  (** LoadModelFromString and LoadModelFromJSON, lines 504-530 *)
  Definition rgr_load_text (l : res (gmodel N)) (r : rgr) : rgr * res unit :=
    match l with
    | Ok m => (rgr_with m (r_h r) r, Ok tt)
    | Err e => (r, Err (EWrapped e))
    | Panic => (r, Panic)
    end.
End LgbEstimator.
Arguments settings : clear implicits.
Arguments clf : clear implicits.
Arguments rgr : clear implicits.
