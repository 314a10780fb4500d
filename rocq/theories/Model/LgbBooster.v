(** The Booster of sklearn/lightgbm/api/booster.go.  Left out: params and saving as JSON; DumpModel is in LgbDump.v.  The slices
    and maps handed to or returned by a method are taken as copies: a caller who keeps and changes them is not modelled. *)
From Coq Require Import String List Arith ZArith Bool.
From Verif Require Import Base.Num Base.GoRes Base.GoMap Base.Mat Base.ListX
  Model.LgbTransform Model.LgbTree Model.LgbEstimator Model.LgbText Model.LgbLeaf.
Import ListNotations.
Local Open Scope string_scope.
Local Open Scope list_scope.
Local Open Scope num_scope.

Section LgbBooster.
  Context {N : Num}.
  (** int(x), int32(x), int(math.Round(x)); the zero threshold of the leaves format; a bound for walks through broken trees *)
  Variables toint toint32 roundint : N -> Z.
  Variable zthr : N.
  Variable fuel : nat.
  (** fmt %g and strconv.ParseFloat *)
  Variable show_g : N -> string.
  Variable parse_float : string -> option N.

  (** The Models in memory with their FeatureNames; a *Model is a position, [None] is nil.  A Predictor is the
      position of its model: NumThreads and Deterministic do not change the result (Model/Parallel.v). *)
  Definition heap : Type := list (gmodel N * list string).
  (** Booster, lines 13-34 *)
  Record booster := mkb {
    b_model : option nat; b_pred : option nat; b_leaves : option (lmodel N);
    b_num : Z; b_cur : Z; b_best : Z;
    b_evals : @smap (list N); b_names : list string; b_imp : @smap (list N) }.
  (** NewBooster, lines 37-44 *)
  Definition new_booster : booster := mkb None None None 0 0 0 [] [] [].
  (** A read through a pointer *)
  Definition deref (h : heap) (a : option nat) : res (gmodel N * list string) :=
    match a with
    | None => Panic
    | Some i => match nth_error h i with Some c => Ok c | None => Panic end
    end.
  (** InitFromModel, lines 47-53; NewPredictor reads a field of the model *)
  Definition init_from_model (h : heap) (a : option nat) (b : booster) : res booster :=
    let* c := deref h a in
    let n := Z.of_nat (List.length (m_trees (fst c))) in
    Ok (mkb a a (b_leaves b) n n (m_best (fst c)) (b_evals b) (b_names b) (b_imp b)).
  (** InitFromLeavesModel, lines 56-67: a new Model with three fields set *)
  Definition shell (lm : lmodel N) : gmodel N := mkgm (lm_obj lm) (lm_class lm) 0 0 n0 [] (lm_nfeat lm) n0.
  Definition init_from_leaves (h : heap) (lm : lmodel N) (b : booster) : heap * booster :=
    let n := Z.of_nat (List.length (lm_trees lm)) in
    (h ++ [(shell lm, [])],
     mkb (Some (List.length h)) (b_pred b) (Some lm) n n (b_best b) (b_evals b) (b_names b) (b_imp b)).
  (** Update, lines 71-76 *)
  Definition update (b : booster) : booster :=
    mkb (b_model b) (b_pred b) (b_leaves b) (b_num b) (b_cur b + 1) (b_best b) (b_evals b) (b_names b) (b_imp b).

  (** PredictOption, lines 221-239 *)
  Inductive popt := WithNumIteration (n : Z) | WithPredictType (t : string).
  Record popts := mkpo { po_num : Z; po_type : string; po_start : Z }.
  Definition set_opt (o : popts) (p : popt) : popts :=
    match p with
    | WithNumIteration n => mkpo n (po_type o) (po_start o)
    | WithPredictType t => mkpo (po_num o) t (po_start o)
    end.
  (** The options are collected and not used: lines 88-95, 126-133, 165-172, 201-208 *)
  Definition with_options {A : Type} (kind : string) (opts : list popt) (r : A) : A :=
    let _ := fold_left set_opt opts (mkpo (-1) kind 0) in r.
  (** The check of the columns and the result matrix, common to all predictors *)
  Definition by_rows {A} (nfeat : Z) (width : nat) (row : list N -> option (res (list A))) (X : matrix N) : option (res (list (list A))) :=
    if negb (Z.of_nat (mcols X) =? nfeat)%Z then Some (Err (EOther 1))
    else match newdense (nrows X) width with
         | Ok _ => sequence row (mrows X)
         | Err e => Some (Err e)
         | Panic => Some Panic
         end.
  (** LeavesPredictor.Predict, leaves_predictor.go lines 23-58 *)
  Definition leaves_predict (lm : lmodel N) (X : matrix N) : option (res (matrix N)) :=
    omap (mkmat (leaves_count lm)) (by_rows (lm_nfeat lm) (leaves_count lm) (leaves_single toint32 zthr fuel lm) X).
  (** Predictor.PredictRawScore and PredictLeaf, predictor_extended.go lines 14-93; the leaf numbers are stored as floats there *)
  Definition raw_model (m : gmodel N) (X : matrix N) : option (res (matrix N)) :=
    omap (mkmat (outputs_count m)) (by_rows (m_nfeat m) (outputs_count m) (model_raw toint fuel m) X).
  Definition leaf_model (m : gmodel N) (X : matrix N) : option (res (list (list nat))) :=
    by_rows (m_nfeat m) (List.length (m_trees m)) (tree_leaves toint fuel m) X.
  (** Lines 80-84 and 97-108: the leaves predictor first *)
  Definition ask {A} (h : heap) (b : booster) (by_leaves : lmodel N -> option (res A)) (by_model : gmodel N -> option (res A)) : option (res A) :=
    match b_leaves b with
    | Some lm => by_leaves lm
    | None =>
        match b_pred b with
        | None => Some (Err (EOther 2))
        | Some a => match deref h (Some a) with Ok c => by_model (fst c) | Err e => Some (Err e) | Panic => Some Panic end
        end
    end.
  (** Predict, lines 80-111 *)
  Definition predict (opts : list popt) (h : heap) (b : booster) (X : matrix N) : option (res (matrix N)) :=
    with_options "response" opts (ask h b (fun lm => leaves_predict lm X) (fun m => predict_model roundint fuel m X)).
  (** PredictProba, lines 117-149 *)
  Definition predict_proba (opts : list popt) (h : heap) (b : booster) (X : matrix N) : option (res (matrix N)) :=
    with_options "response" opts (ask h b (fun lm => leaves_predict lm X) (fun m => proba_model roundint fuel m X)).
  (** PredictRawScore, lines 153-184 *)
  Definition predict_raw (opts : list popt) (h : heap) (b : booster) (X : matrix N) : option (res (matrix N)) :=
    with_options "raw" opts (ask h b (fun lm => leaves_predict lm X) (fun m => raw_model m X)).
  (** PredictLeaf, lines 188-219 *)
  Definition predict_leaf (opts : list popt) (h : heap) (b : booster) (X : matrix N) : option (res (list (list nat))) :=
    with_options "leaf" opts (ask h b (fun _ => Some (Err (EOther 3))) (fun m => leaf_model m X)).

  (** SaveModel as text, lines 243-266 and 296-303 *)
  Definition save (h : heap) (b : booster) : res string :=
    match b_model b with
    | None => Err (EOther 4)
    | Some a => let* c := deref h (Some a) in Ok (save_text show_g (snd c) (fst c))
    end.
  (** LoadModel, lines 306-322, for the content of an existing file *)
  Definition load (h : heap) (text : string) : option (res (heap * booster)) :=
    match load_leaves_text parse_float text with
    | Some (Ok lm) => Some (Ok (init_from_leaves h lm new_booster))
    | Some (Err e) => Some (Err (EWrapped e))
    | Some Panic => Some Panic
    | None => None
    end.
  (** NumTrees, NumFeatures, CurrentIteration, BestIteration, lines 429-455 *)
  Definition of_model (h : heap) (b : booster) (g : gmodel N -> Z) : res Z :=
    match b_model b with None => Ok 0%Z | Some a => let* c := deref h (Some a) in Ok (g (fst c)) end.
  Definition num_trees (h : heap) (b : booster) : res Z := of_model h b (fun m => Z.of_nat (List.length (m_trees m))).
  Definition num_features (h : heap) (b : booster) : res Z := of_model h b (@m_nfeat N).
  (** SetBestIteration, lines 458-460 *)
  Definition set_best (n : Z) (b : booster) : booster :=
    mkb (b_model b) (b_pred b) (b_leaves b) (b_num b) (b_cur b) n (b_evals b) (b_names b) (b_imp b).
  (** FeatureImportance, lines 464-478 *)
  Definition feature_importance (kind : string) (h : heap) (b : booster) : res (option (list N) * booster) :=
    match b_model b with
    | None => Ok (None, b)
    | Some a =>
        match sget kind (b_imp b) with
        | Some l => Ok (Some l, b)
        | None =>
            let* c := deref h (Some a) in
            let* l := importance kind (fst c) in
            Ok (Some l, mkb (b_model b) (b_pred b) (b_leaves b) (b_num b) (b_cur b) (b_best b) (b_evals b) (b_names b) (sput kind l (b_imp b)))
        end
    end.
  (** SetFeatureNames, lines 486-491 *)
  Definition set_names (names : list string) (h : heap) (b : booster) : heap * booster :=
    (match b_model b with None => h | Some a => upd a (fun c => (fst c, names)) h end,
     mkb (b_model b) (b_pred b) (b_leaves b) (b_num b) (b_cur b) (b_best b) (b_evals b) names (b_imp b)).
  (** AddEvalResult, lines 494-500 *)
  Definition eval_key (dataset metric : string) : string := dataset ++ "-" ++ metric.
  Definition evals_of (key : string) (b : booster) : list N := match sget key (b_evals b) with Some l => l | None => [] end.
  Definition add_eval (dataset metric : string) (v : N) (b : booster) : booster :=
    let key := eval_key dataset metric in
    mkb (b_model b) (b_pred b) (b_leaves b) (b_num b) (b_cur b) (b_best b) (sput key (evals_of key b ++ [v]) (b_evals b)) (b_names b) (b_imp b).
  (** SetModel, lines 508-511 *)
  Definition set_model (h : heap) (a : option nat) (b : booster) : res booster :=
    let* _ := deref h a in
    Ok (mkb a a (b_leaves b) (b_num b) (b_cur b) (b_best b) (b_evals b) (b_names b) (b_imp b)).
  (** Clone, lines 514-553: the maps and slices are copied, the pointers shared, leavesPredictor not set *)
  Definition clone (b : booster) : booster :=
    mkb (b_model b) (b_pred b) None (b_num b) (b_cur b) (b_best b) (b_evals b) (b_names b) (b_imp b).
End LgbBooster.
Arguments booster N : clear implicits.
Arguments heap N : clear implicits.
