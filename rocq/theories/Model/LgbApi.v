(** The Python style interface of sklearn/lightgbm/api: dataset.go, and train.go without early stopping and user
    callbacks (for these see Model/EarlyStop.v).  Printing is left out. *)
From Coq Require Import String List Arith ZArith Bool.
From Verif Require Import Base.Num Base.GoRes Base.GoMap Base.Mat Base.ListX
  Model.Metrics Model.ParamMap Model.LgbTransform Model.LgbTree Model.LgbEstimator Model.LgbText Model.LgbBooster.
Import ListNotations.
Local Open Scope string_scope.
Local Open Scope list_scope.
Local Open Scope num_scope.

Section LgbApi.
  Context {N : Num}.

  (** A value of dynamic type: mat.Matrix other than a vector, *mat.VecDense (possibly nil), []string, []int, int, float64,
      string, bool, anything else *)
  Inductive value :=
  | VMat (m : matrix N) | VVec (v : option (list N)) | VStrs (l : list string) | VInts (l : list Z)
  | VInt (z : Z) | VNum (x : N) | VStr (s : string) | VBool (b : bool) | VOther (k : nat).
  Definition params : Type := @smap value.

  (** Dataset, dataset.go lines 13-36.  Reference and binMappers are not read by anything modelled. *)
  Record dataset := mkds {
    d_data : matrix N; d_label : option (matrix N); d_weight : option (list N);
    d_names : list string; d_cats : list Z; d_params : params;
    d_n : nat; d_f : nat; d_binary : bool; d_classes : Z; d_valid : bool }.

  (** The map of detectBinaryClassification, lines 163-178, as the list of its keys: two keys are the same if they are
      [==], so each NaN is a new key *)
  Definition add_key (v : N) (keys : list N) : list N := if existsb (fun k => v =? k) keys then keys else v :: keys.
  Fixpoint few_keys (limit : nat) (vs keys : list N) : option (list N) :=
    match vs with
    | [] => Some keys
    | v :: r => let keys := add_key v keys in if Nat.ltb limit (List.length keys) then None else few_keys limit r keys
    end.
  (** Lines 163-191; the new value of isBinary *)
  Definition detect (vs : list N) : bool :=
    match few_keys (Nat.div (List.length vs) 4) vs [] with
    | None => false
    | Some keys => forallb (fun k => (k =? n0) || (k =? n1)) keys
    end.
  Definition first_column (m : matrix N) : list N := map (fun r => nth 0 r n0) (mrows m).
  Definition with_label (l : option (matrix N)) (b : bool) (c : Z) (ds : dataset) : dataset :=
    mkds (d_data ds) l (d_weight ds) (d_names ds) (d_cats ds) (d_params ds) (d_n ds) (d_f ds) b c (d_valid ds).
  (** validateLabel, lines 135-161, for a label that is set; isBinary is not reset by a label with several columns,
      nClasses not by a label that is not binary *)
  Definition validate_label (ds : dataset) : dataset * res unit :=
    match d_label ds with
    | None => (ds, Ok tt)
    | Some l =>
        if negb (Nat.eqb (nrows l) (d_n ds)) then (ds, Err (EDimension (d_n ds) (nrows l)))
        else if Nat.eqb (mcols l) 1 then
          let b := detect (first_column l) in
          (with_label (Some l) b (if b then 2%Z else d_classes ds) ds, Ok tt)
        else (with_label (Some l) (d_binary ds) (Z.of_nat (mcols l)) ds, Ok tt)
    end.
  (** DatasetOption, lines 89-132 (WithReference left out) *)
  Inductive doption := WithWeight (w : option (list N)) | WithFeatureNames (l : list string) | WithCategorical (l : list Z) | WithParams (p : params).
  Definition apply_option (ds : dataset) (o : doption) : dataset :=
    match o with
    | WithWeight w => mkds (d_data ds) (d_label ds) w (d_names ds) (d_cats ds) (d_params ds) (d_n ds) (d_f ds) (d_binary ds) (d_classes ds) (d_valid ds)
    | WithFeatureNames l => mkds (d_data ds) (d_label ds) (d_weight ds) l (d_cats ds) (d_params ds) (d_n ds) (d_f ds) (d_binary ds) (d_classes ds) (d_valid ds)
    | WithCategorical l => mkds (d_data ds) (d_label ds) (d_weight ds) (d_names ds) l (d_params ds) (d_n ds) (d_f ds) (d_binary ds) (d_classes ds) (d_valid ds)
    | WithParams p => mkds (d_data ds) (d_label ds) (d_weight ds) (d_names ds) (d_cats ds) (fold_left (fun m kv => sput (fst kv) (snd kv) m) p (d_params ds))
                           (d_n ds) (d_f ds) (d_binary ds) (d_classes ds) (d_valid ds)
    end.
  (** NewDataset, lines 47-87; [None] is nil *)
  Definition new_dataset (data : option (matrix N)) (label : option (matrix N)) (opts : list doption) : res dataset :=
    match data with
    | None => Err EValue
    | Some X =>
        if Nat.eqb (nrows X) 0 || Nat.eqb (mcols X) 0 then Err EValue
        else
          let (ds, r) := validate_label (mkds X label None [] [] [] (nrows X) (mcols X) false 0 true) in
          let* _ := r in
          let ds := fold_left apply_option opts ds in
          Ok (match d_names ds with
              | [] => apply_option ds (WithFeatureNames (map (fun i => append "Column_" (show_int (Z.of_nat i))) (seq 0 (mcols X))))
              | _ => ds
              end)
    end.
  (** GetField, lines 194-216 *)
  Definition get_field (name : string) (ds : dataset) : res (option value) :=
    if String.eqb name "label" then Ok (option_map VMat (d_label ds))
    else if String.eqb name "weight" then Ok (Some (VVec (d_weight ds)))
    else if String.eqb name "data" then Ok (Some (VMat (d_data ds)))
    else if String.eqb name "feature_name" then Ok (Some (VStrs (d_names ds)))
    else if String.eqb name "categorical_feature" then Ok (Some (VInts (d_cats ds)))
    else if String.eqb name "n_samples" then Ok (Some (VInt (Z.of_nat (d_n ds))))
    else if String.eqb name "n_features" then Ok (Some (VInt (Z.of_nat (d_f ds))))
    else match sget name (d_params ds) with Some v => Ok (Some v) | None => Err (EOther 1) end.
  (** SetField, lines 219-249.  A *mat.VecDense is a mat.Matrix with one column; Dims of a nil one panics (the
      dataset that is left behind then is not modelled). *)
  Definition set_field (name : string) (v : value) (ds : dataset) : dataset * res unit :=
    let label m := validate_label (with_label (Some m) (d_binary ds) (d_classes ds) ds) in
    if String.eqb name "label" then
      match v with
      | VMat m => label m
      | VVec (Some l) => label (mkmat 1 (map (fun x => [x]) l))
      | VVec None => (ds, Panic)
      | _ => (ds, Err (EOther 2))
      end
    else if String.eqb name "weight" then
      match v with VVec w => (apply_option ds (WithWeight w), Ok tt) | _ => (ds, Err (EOther 2)) end
    else if String.eqb name "feature_name" then
      match v with VStrs l => (apply_option ds (WithFeatureNames l), Ok tt) | _ => (ds, Err (EOther 2)) end
    else if String.eqb name "categorical_feature" then
      match v with VInts l => (apply_option ds (WithCategorical l), Ok tt) | _ => (ds, Err (EOther 2)) end
    else (mkds (d_data ds) (d_label ds) (d_weight ds) (d_names ds) (d_cats ds) (sput name v (d_params ds)) (d_n ds) (d_f ds) (d_binary ds) (d_classes ds) (d_valid ds), Ok tt).
  (** GetSubset, lines 277-338.  A row or weight that does not exist panics. *)
  Definition take {A} (l : list A) (i : Z) : res A :=
    if (i <? 0)%Z then Panic else match nth_error l (Z.to_nat i) with Some a => Ok a | None => Panic end.
  Definition subset (indices : list Z) (ds : dataset) : res dataset :=
    match indices with
    | [] => Err EValue
    | _ =>
        let* _ := newdense (List.length indices) (d_f ds) in
        let* rows := mapM (fun i => if (i <? 0)%Z || (Z.of_nat (d_n ds) <=? i)%Z then Err (EOther 1) else take (mrows (d_data ds)) i) indices in
        let* label := match d_label ds with
                      | None => Ok None
                      | Some l => let* _ := newdense (List.length indices) (mcols l) in
                                  let* r := mapM (take (mrows l)) indices in Ok (Some (mkmat (mcols l) r))
                      end in
        let* weight := match d_weight ds with
                       | None => Ok None
                       | Some w => let* r := mapM (take w) indices in Ok (Some r)
                       end in
        Ok (mkds (mkmat (d_f ds) rows) label weight (d_names ds) (d_cats ds) (d_params ds) (List.length indices) (d_f ds) (d_binary ds) (d_classes ds) true)
    end.
  (** CreateValidDatasets, lines 342-368; [None] is a nil pointer *)
  Fixpoint valid_sets (i : nat) (l : list (option dataset)) : res (list dataset * list string) :=
    match l with
    | [] => Ok ([], [])
    | None :: r => valid_sets (S i) r
    | Some ds :: r =>
        if negb (d_valid ds) then Err (EOther 1)
        else let* (sets, names) := valid_sets (S i) r in
             Ok (ds :: sets, (match sget "name" (d_params ds) with Some (VStr s) => s | _ => append "valid_" (show_int (Z.of_nat i)) end) :: names)
    end.

  (** * train.go *)

  (** params[k] of dynamic type int, float64, string, bool, []int *)
  Definition int_of (d : Z) (k : string) (p : params) : Z := match sget k p with Some (VInt z) => z | _ => d end.
  Definition num_of (d : N) (k : string) (p : params) : N := match sget k p with Some (VNum x) => x | _ => d end.
  Definition str_of (d : string) (k : string) (p : params) : string := match sget k p with Some (VStr s) => s | _ => d end.
  Definition bool_of (d : bool) (k : string) (p : params) : bool := match sget k p with Some (VBool b) => b | _ => d end.
  Definition ints_of (d : list Z) (k : string) (p : params) : list Z := match sget k p with Some (VInts l) => l | _ => d end.
  (** parseParams, lines 197-291: the settings, TopRate and OtherRate *)
  Definition parse_params (p : params) : settings N * (N * N) :=
    (mkset (int_of 100 "num_iterations" p) (num_of (nlit 1 10) "learning_rate" p) (int_of 31 "num_leaves" p) (int_of (-1) "max_depth" p)
           (int_of 20 "min_data_in_leaf" p) (num_of n0 "lambda_l2" p) (num_of n0 "lambda_l1" p) (num_of (nlit 1 10000000) "min_gain_to_split" p)
           (num_of n1 "bagging_fraction" p) 0 (num_of n1 "feature_fraction" p) (int_of 255 "max_bin" p) (int_of 3 "min_data_in_bin" p)
           (str_of "regression" "objective" p) (int_of 0 "num_class" p) (str_of "" "boosting_type" p) n0 n0 n0 n0
           (ints_of [] "categorical_feature" p) 0 (int_of (int_of 0 "random_state" p) "seed" p) (bool_of false "deterministic" p) (int_of 1 "verbosity" p) 0,
     (num_of n0 "top_rate" p, num_of n0 "other_rate" p)).

  (** Trainer.Fit followed by GetModel *)
  Variable trainer : settings N * (N * N) -> matrix N -> matrix N -> option (res (gmodel N)).
  (** int32(x), int(math.Round(x)), the zero threshold and a bound for walks, as in Model/LgbBooster.v *)
  Variables toint32 roundint : N -> Z.
  Variable zthr : N.
  Variable fuel : nat.

  (** trainOneIteration, lines 294-326; Fit reads the dimensions of a nil label and panics *)
  Definition train_one (s : settings N * (N * N)) (ds : dataset) (st : heap N * booster N) : option (res (heap N * booster N)) :=
    let (h, b) := st in
    match b_model b with
    | Some _ => Some (Ok st)
    | None =>
        match d_label ds with
        | None => Some Panic
        | Some y =>
            match trainer s (d_data ds) y with
            | Some (Ok m) =>
                let a := List.length h in
                let hb := (h ++ [(m, [])], mkb (Some a) (Some a) (b_leaves b) (b_num b) (b_cur b) (b_best b) (b_evals b) (b_names b) (b_imp b)) in
                let (h, b) := match d_names ds with [] => hb | names => set_names names (fst hb) (snd hb) end in
                Some (Ok (h, mkb (b_model b) (b_pred b) (b_leaves b) (b_num b) (m_niter m) (b_best b) (b_evals b) (b_names b) (b_imp b)))
            | Some (Err e) => Some (Err (EWrapped e))
            | Some Panic => Some Panic
            | None => None
            end
        end
    end.
  (** getVecDense, lines 387-397 *)
  Definition vec_of (m : matrix N) : res (option (list N)) :=
    if Nat.eqb (nrows m) 0 || Nat.eqb (mcols m) 0 then Panic else Ok (Some (first_column m)).
  (** calculateAccuracy, lines 400-425; a prediction that does not exist panics *)
  Definition rounded (p : N) : N := if p >? nhalf then n1 else n0.
  Definition hits (yt yp : list N) : nat := List.length (filter (fun tp => fst tp =? rounded (snd tp)) (combine yt yp)).
  Definition accuracy_of (yt : option (matrix N)) (yp : matrix N) : res N :=
    match yt with
    | None => Ok n0
    | Some t =>
        if negb (Nat.eqb (nrows t) 0) && (Nat.eqb (mcols t) 0 || Nat.eqb (mcols yp) 0 || Nat.ltb (nrows yp) (nrows t)) then Panic
        else Ok (nofnat (hits (first_column t) (first_column yp)) / nofnat (nrows t))
    end.
  (** evaluateDataset, lines 329-366; a failed metric leaves the score at 0 *)
  Definition or_zero (r : res N) : res N := match r with Err _ => Ok n0 | r => r end.
  Definition metric_of (objective : string) (label : option (matrix N)) (pred : matrix N) : res N :=
    let vector l := match l with None => Ok None | Some m => vec_of m end in
    let regr (f : option (list N) -> option (list N) -> res N) := let* t := vector label in let* p := vec_of pred in or_zero (f t p) in
    if existsb (String.eqb objective) ["regression"; "regression_l2"; "l2"; "mean_squared_error"; "mse"] then regr mse
    else if existsb (String.eqb objective) ["regression_l1"; "l1"; "mean_absolute_error"; "mae"] then regr mae
    else if existsb (String.eqb objective) ["binary"; "binary_logloss"; "multiclass"; "softmax"; "multiclass_logloss"] then accuracy_of label pred
    else Ok n0.
  Definition evaluate_set (objective : string) (h : heap N) (b : booster N) (ds : option dataset) : option (res N) :=
    match b_model b, ds with
    | Some _, Some ds =>
        match predict toint32 roundint zthr fuel [] h b (d_data ds) with
        | Some (Ok p) => Some (metric_of objective (d_label ds) p)
        | Some (Err _) => Some (Ok n0)
        | Some Panic => Some Panic
        | None => None
        end
    | _, _ => Some (Ok n0)
    end.
  (** getMetricName, lines 369-384 *)
  Definition metric_name (objective : string) : string :=
    if existsb (String.eqb objective) ["regression"; "regression_l2"; "l2"] then "l2"
    else if existsb (String.eqb objective) ["regression_l1"; "l1"] then "l1"
    else if String.eqb objective "binary" then "binary_logloss"
    else if existsb (String.eqb objective) ["multiclass"; "softmax"; "multiclass_logloss"] then "multi_logloss"
    else objective.
  (** Lines 108-118; a set without a name is an index panic *)
  Fixpoint evaluate_sets (objective : string) (h : heap N) (b : booster N) (sets : list (option dataset)) (names : list string) : option (res (booster N)) :=
    match sets with
    | [] => Some (Ok b)
    | ds :: r =>
        match evaluate_set objective h b ds with
        | Some (Ok score) =>
            match names with
            | [] => Some Panic
            | name :: names => evaluate_sets objective h (add_eval name (metric_name objective) score b) r names
            end
        | Some (Err e) => Some (Err e)
        | Some Panic => Some Panic
        | None => None
        end
    end.
  Definition with_cur (n : Z) (b : booster N) : booster N :=
    mkb (b_model b) (b_pred b) (b_leaves b) (b_num b) n (b_best b) (b_evals b) (b_names b) (b_imp b).
  (** Lines 80-128 *)
  Fixpoint rounds (s : settings N * (N * N)) (ds : dataset) (sets : list (option dataset)) (names : list string) (k : nat) (iter : Z)
      (st : heap N * booster N) : option (res (heap N * booster N)) :=
    match k with
    | 0 => Some (Ok st)
    | S k' =>
        match train_one s ds st with
        | Some (Ok (h, b)) =>
            match evaluate_sets (s_obj (fst s)) h b sets names with
            | Some (Ok b) => rounds s ds sets names k' (iter + 1) (h, with_cur (iter + 1) b)
            | Some (Err e) => Some (Err e)
            | Some Panic => Some Panic
            | None => None
            end
        | Some (Err e) => Some (Err (EWrapped e))
        | Some Panic => Some Panic
        | None => None
        end
    end.
  (** Train, lines 24-146: numBoostRound, the sets, WithValidNames, WithInitModel (not read) *)
  Definition train_api (h : heap N) (p : params) (ds : dataset) (num : Z) (sets : list (option dataset)) (names : list string)
      (init : option (booster N)) : option (res (heap N * booster N)) :=
    let names := match names with [] => map (fun i => append "valid_" (show_int (Z.of_nat i))) (seq 0 (List.length sets)) | _ => names end in
    match rounds (parse_params p) ds sets names (Z.to_nat num) 0 (h, new_booster) with
    | Some (Ok (h, b)) => Some (Ok (h, if (b_best b =? 0)%Z then set_best (b_cur b) b else b))
    | r => r
    end.
  (** QuickTrain, lines 429-458: the parameters after the call (the caller's map is changed) and the result; [None] is
      nil, in whose place a new map is filled *)
  Definition quick_params (ds : dataset) (p : params) : params :=
    let p := match sget "objective" p with
             | Some _ => p
             | None => if d_binary ds then sput "objective" (VStr "binary") p
                       else if (2 <? d_classes ds)%Z then sput "num_class" (VInt (d_classes ds)) (sput "objective" (VStr "multiclass") p)
                       else sput "objective" (VStr "regression") p
             end in
    match sget "num_iterations" p with Some _ => p | None => sput "num_iterations" (VInt 100) p end.
  Definition quick_train (h : heap N) (X y : option (matrix N)) (p : option params) : params * option (res (heap N * booster N)) :=
    let p := match p with Some p => p | None => [] end in
    match new_dataset X y [] with
    | Ok ds =>
        let p := quick_params ds p in
        (p, match sget "num_iterations" p with
            | Some (VInt n) => train_api h p ds n [] [] None
            | _ => Some Panic
            end)
    | Err e => (p, Some (Err e))
    | Panic => (p, Some Panic)
    end.
End LgbApi.
Arguments dataset N : clear implicits.
Arguments value N : clear implicits.
Arguments params N : clear implicits.
Arguments doption N : clear implicits.
