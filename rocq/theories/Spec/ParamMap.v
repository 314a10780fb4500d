(** Parameter dictionaries: which names denote the same parameter, what a dictionary says about a
    parameter, and what storing one in an estimator means. *)
From Coq Require Import String Ascii List Bool ZArith.
From Verif Require Import Base.Num Base.GoRes Base.GoMap Model.ParamMap.
Import ListNotations.
Local Open Scope string_scope.
Local Open Scope list_scope.

(** The parameters of the library: the field each one sets, then its documented name, then the other
    names of it. *)
Definition parameters : list (string * (string * list string)) :=
  [("NumIterations", ("n_estimators", ["num_iterations"; "num_iteration"; "num_tree"; "num_trees"; "num_round"; "num_rounds"; "num_boost_round"; "n_iter"]));
   ("LearningRate", ("learning_rate", ["shrinkage_rate"; "eta"]));
   ("NumLeaves", ("num_leaves", ["num_leaf"; "max_leaves"; "max_leaf"]));
   ("MaxDepth", ("max_depth", []));
   ("MinDataInLeaf", ("min_child_samples", ["min_data_in_leaf"; "min_data"]));
   ("MinSumHessianInLeaf", ("min_child_weight", ["min_sum_hessian_in_leaf"; "min_sum_hessian"; "min_hessian"]));
   ("MinGainToSplit", ("min_split_gain", ["min_gain_to_split"]));
   ("MaxBin", ("max_bin", []));
   ("MinDataInBin", ("min_data_in_bin", []));
   ("Alpha", ("reg_alpha", ["lambda_l1"; "l1_regularization"]));
   ("Lambda", ("reg_lambda", ["lambda_l2"; "l2_regularization"; "lambda"]));
   ("BaggingFraction", ("subsample", ["bagging_fraction"; "sub_row"]));
   ("BaggingFreq", ("subsample_freq", ["bagging_freq"]));
   ("FeatureFraction", ("colsample_bytree", ["feature_fraction"; "sub_feature"]));
   ("FeatureFractionByNode", ("colsample_bynode", ["feature_fraction_bynode"]));
   ("Objective", ("objective", ["objective_type"; "app"; "application"; "loss"]));
   ("NumClass", ("num_class", ["num_classes"]));
   ("Metric", ("metric", ["metrics"; "metric_types"]));
   ("Boosting", ("boosting_type", ["boosting"; "boost"]));
   ("Seed", ("random_state", ["seed"; "random_seed"; "data_random_seed"]));
   ("NumThreads", ("n_jobs", ["num_threads"; "num_thread"; "nthread"]));
   ("ImportanceType", ("importance_type", []));
   ("Deterministic", ("deterministic", ["force_row_wise"; "force_col_wise"]));
   ("Verbosity", ("verbosity", ["verbose"]));
   ("EarlyStopping", ("early_stopping_rounds", ["early_stopping_round"; "early_stopping"; "n_iter_no_change"]));
   ("CategoricalFeatures", ("categorical_feature", ["cat_feature"; "categorical_column"; "cat_column"]));
   ("CatSmooth", ("cat_smooth", ["categorical_smooth"]));
   ("CatL2", ("cat_l2", []));
   ("MaxCatToOnehot", ("max_cat_to_onehot", []));
   ("DeviceType", ("device_type", ["device"]));
   ("TreeLearner", ("tree_learner", ["tree_type"; "tree"]));
   ("NumParallelTree", ("num_parallel_tree", []));
   ("MonotoneConstraints", ("monotone_constraints", ["monotone_constraint"]));
   ("InteractionConstraints", ("interaction_constraints", []));
   ("DropRate", ("drop_rate", ["rate_drop"]));
   ("MaxDrop", ("max_drop", ["max_dropout"]));
   ("SkipDrop", ("skip_drop", ["skip_dropout"]));
   ("UniformDrop", ("uniform_drop", []));
   ("XGBoostDartMode", ("xgboost_dart_mode", []));
   ("DropSeed", ("drop_seed", []));
   ("TopRate", ("top_rate", []));
   ("OtherRate", ("other_rate", []));
   ("MaxDeltaStep", ("max_delta_step", []));
   ("ScalePosWeight", ("scale_pos_weight", []));
   ("LinearTree", ("linear_tree", []));
   ("LinearLambda", ("linear_lambda", []));
   ("NumMachines", ("num_machines", ["num_machine"]));
   ("LocalListenPort", ("local_listen_port", ["local_port"]));
   ("TimeOut", ("time_out", ["network_timeout"]));
   ("MachineListFile", ("machine_list_file", ["machine_list_filename"; "machine_list"; "mlist"]))].

(** The parameter a key denotes: the field of the entry that lists the key, and an unlisted key
    denotes a parameter of its own. *)
Definition parameter (key : string) : string :=
  match find (fun g => existsb (String.eqb key) (fst (snd g) :: snd (snd g))) parameters with
  | Some g => fst g
  | None => key
  end.
Definition fields : list string := map fst parameters.
Definition documented : list string := map (fun g => fst (snd g)) parameters.

Section Dictionary.
Context {N : Num}.
Notation dict := (list (string * pval N)).

(** Two maps with the same entries. *)
Definition same_map (a b : dict) : Prop := forall k, sget k a = sget k b.
(** The dictionary gives parameter [p] the value [v], under whatever name. *)
Definition gives (d : dict) (p : string) (v : pval N) : Prop := exists k, parameter k = p /\ In (k, v) d.
(** No two entries give one parameter different values. *)
Definition consistent (d : dict) : Prop := forall p v v', gives d p v -> gives d p v' -> v = v'.

(** Storing [v] in a field that now holds [old]: only a value of the field's type is stored, and
    objective names that are recognised are stored in their canonical form. *)
Definition canonical_objective (o : string) : string := match validate_objective o with Ok c => c | _ => o end.
Definition store (p : string) (old v : pval N) : pval N :=
  match old, v with
  | PBool _, PBool _ => v
  | PInt _, PInt _ => v
  | PFloat _, PFloat _ => v
  | PStr _, PStr s => if (p =? "Objective")%string then PStr (canonical_objective s) else v
  | _, _ => old
  end.
End Dictionary.

(** The objectives and their names. *)
Definition objective_names : list (string * list string) :=
  [("regression", ["regression"; "regression_l2"; "l2"; "mean_squared_error"; "mse"]);
   ("regression_l1", ["regression_l1"; "l1"; "mean_absolute_error"; "mae"]);
   ("huber", ["huber"]); ("fair", ["fair"]); ("poisson", ["poisson"]); ("quantile", ["quantile"]); ("mape", ["mape"]);
   ("gamma", ["gamma"]); ("tweedie", ["tweedie"]);
   ("binary", ["binary"; "binary_logloss"; "binary_crossentropy"]);
   ("multiclass", ["multiclass"; "softmax"]);
   ("multiclassova", ["multiclassova"; "multiclass_ova"; "ova"; "ovr"]);
   ("lambdarank", ["lambdarank"]);
   ("rank_xendcg", ["rank_xendcg"; "xendcg"; "xe_ndcg"; "xe_ndcg_mart"; "xendcg_mart"])].
(** [s] is [t] with some letters of [t] in upper case. *)
Fixpoint capitalised (s t : string) : Prop :=
  match s, t with
  | EmptyString, EmptyString => True
  | String a s, String b t =>
      ((a = b /\ (nat_of_ascii b < 65 \/ 90 < nat_of_ascii b)%nat)
       \/ (65 <= nat_of_ascii a <= 90 /\ nat_of_ascii b = nat_of_ascii a + 32)%nat) /\ capitalised s t
  | _, _ => False
  end.

Section Settings.
Context {N : Num}.
(** The settings of a regressor under their documented names. *)
Definition settings (h : hyper N) : list (string * pval N) :=
  [("num_leaves", PInt (h_leaves h)); ("max_depth", PInt (h_depth h)); ("n_estimators", PInt (h_iters h));
   ("learning_rate", PFloat (h_lr h)); ("min_child_samples", PInt (h_child_samples h));
   ("min_child_weight", PFloat (h_child_weight h)); ("subsample", PFloat (h_subsample h));
   ("subsample_freq", PInt (h_subsample_freq h)); ("colsample_bytree", PFloat (h_colsample h));
   ("reg_alpha", PFloat (h_alpha h)); ("reg_lambda", PFloat (h_lambda h)); ("random_state", PInt (h_seed h));
   ("objective", PStr (h_objective h)); ("metric", PStr (h_metric h)); ("n_jobs", PInt (h_threads h));
   ("deterministic", PBool (h_deterministic h)); ("verbosity", PInt (h_verbosity h));
   ("early_stopping_rounds", PInt (h_early h)); ("boosting_type", PStr (h_boosting h));
   ("importance_type", PStr (h_importance h))].
(** The order in which a range loop visits each map. *)
Definition ranges (ord : list (string * pval N) -> list (string * pval N)) : Prop :=
  forall m, NoDup (skeys m) -> visits m (ord m).
(** The thirteen settings of [h] that the classifier can be told, over a classifier [h']: bagging
    frequency, objective, metric, verbosity, early stopping, boosting type and importance type stay. *)
Definition cls_mix (h h' : hyper N) : hyper N :=
  mkhyper (h_leaves h) (h_depth h) (h_lr h) (h_iters h) (h_child_samples h) (h_child_weight h) (h_subsample h)
    (h_subsample_freq h') (h_colsample h) (h_alpha h) (h_lambda h) (h_seed h) (h_objective h') (h_metric h') (h_threads h)
    (h_deterministic h) (h_verbosity h') (h_early h') (h_boosting h') (h_importance h').
End Settings.
