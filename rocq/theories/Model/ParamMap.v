(** sklearn/lightgbm/parameter_mapping.go, and GetParams and SetParams of lgbm_regressor.go and
    lgbm_classifier.go. *)
From Coq Require Import Ascii String List Arith Bool ZArith.
From Verif Require Import Base.Num Base.GoRes Base.GoMap.
Import ListNotations.
Local Open Scope string_scope.
Local Open Scope list_scope.
Local Open Scope num_scope.

Section ParamMap.
Context {N : Num}.

(** An interface{} value. [POther] stands for any other dynamic type, or nil. *)
Inductive pval : Type :=
| PBool (b : bool)
| PInt (z : Z)
| PFloat (x : N)
| PStr (s : string)
| POther.

(** parameter_mapping.go lines 9-18 *)
Record mapper : Type := mkmapper {
  to_go : smap string; to_py : smap string; alias : smap string; defaults : smap pval }.

(** parameter_mapping.go lines 116-126 (addMapping) *)
Definition add_mapping (pm : mapper) (python go : string) (names : list string) : mapper :=
  fold_left (fun m a => mkmapper (sput a go (to_go m)) (to_py m) (sput a python (alias m)) (defaults m)) names
    (mkmapper (sput python go (to_go pm)) (sput go python (to_py pm)) (alias pm) (defaults pm)).

(** parameter_mapping.go lines 36-113 (initializeMappings): the calls of addMapping in order. *)
Definition mapping_calls : list (string * string * list string) :=
  [("n_estimators", "NumIterations", ["num_iterations"; "num_iteration"; "num_tree"; "num_trees"; "num_round"; "num_rounds"; "num_boost_round"; "n_iter"]);
   ("learning_rate", "LearningRate", ["shrinkage_rate"; "eta"]);
   ("num_leaves", "NumLeaves", ["num_leaf"; "max_leaves"; "max_leaf"]);
   ("max_depth", "MaxDepth", []);
   ("min_child_samples", "MinDataInLeaf", ["min_data_in_leaf"; "min_data"; "min_child_weight"]);
   ("min_split_gain", "MinGainToSplit", ["min_gain_to_split"]);
   ("max_bin", "MaxBin", []);
   ("min_data_in_bin", "MinDataInBin", []);
   ("reg_alpha", "Alpha", ["lambda_l1"; "l1_regularization"]);
   ("reg_lambda", "Lambda", ["lambda_l2"; "l2_regularization"; "lambda"]);
   ("min_child_weight", "MinSumHessianInLeaf", ["min_sum_hessian_in_leaf"; "min_sum_hessian"; "min_hessian"]);
   ("subsample", "BaggingFraction", ["bagging_fraction"; "sub_row"; "subsample_freq"]);
   ("subsample_freq", "BaggingFreq", ["bagging_freq"]);
   ("colsample_bytree", "FeatureFraction", ["feature_fraction"; "sub_feature"; "colsample_bynode"]);
   ("colsample_bynode", "FeatureFractionByNode", ["feature_fraction_bynode"]);
   ("objective", "Objective", ["objective_type"; "app"; "application"; "loss"]);
   ("num_class", "NumClass", ["num_classes"]);
   ("metric", "Metric", ["metrics"; "metric_types"]);
   ("boosting_type", "Boosting", ["boosting"; "boost"]);
   ("random_state", "Seed", ["seed"; "random_seed"; "data_random_seed"]);
   ("n_jobs", "NumThreads", ["num_threads"; "num_thread"; "nthread"]);
   ("importance_type", "ImportanceType", []);
   ("deterministic", "Deterministic", ["force_row_wise"; "force_col_wise"]);
   ("verbosity", "Verbosity", ["verbose"]);
   ("early_stopping_rounds", "EarlyStopping", ["early_stopping_round"; "early_stopping"; "n_iter_no_change"]);
   ("categorical_feature", "CategoricalFeatures", ["cat_feature"; "categorical_column"; "cat_column"]);
   ("cat_smooth", "CatSmooth", ["categorical_smooth"]);
   ("cat_l2", "CatL2", []);
   ("max_cat_to_onehot", "MaxCatToOnehot", []);
   ("device_type", "DeviceType", ["device"]);
   ("tree_learner", "TreeLearner", ["tree_type"; "tree"]);
   ("num_parallel_tree", "NumParallelTree", []);
   ("monotone_constraints", "MonotoneConstraints", ["monotone_constraint"]);
   ("interaction_constraints", "InteractionConstraints", []);
   ("drop_rate", "DropRate", ["rate_drop"]);
   ("max_drop", "MaxDrop", ["max_dropout"]);
   ("skip_drop", "SkipDrop", ["skip_dropout"]);
   ("uniform_drop", "UniformDrop", []);
   ("xgboost_dart_mode", "XGBoostDartMode", []);
   ("drop_seed", "DropSeed", []);
   ("top_rate", "TopRate", []);
   ("other_rate", "OtherRate", []);
   ("max_delta_step", "MaxDeltaStep", []);
   ("scale_pos_weight", "ScalePosWeight", []);
   ("min_gain_to_split", "MinGainToSplit", []);
   ("linear_tree", "LinearTree", []);
   ("linear_lambda", "LinearLambda", []);
   ("num_machines", "NumMachines", ["num_machine"]);
   ("local_listen_port", "LocalListenPort", ["local_port"]);
   ("time_out", "TimeOut", ["network_timeout"]);
   ("machine_list_file", "MachineListFile", ["machine_list_filename"; "machine_list"; "mlist"])].

(** parameter_mapping.go lines 129-189 (initializeDefaults): the assignments in order. *)
Definition default_entries : list (string * pval) :=
  [("n_estimators", PInt 100); ("learning_rate", PFloat (nlit 1 10)); ("num_leaves", PInt 31);
   ("max_depth", PInt (-1)); ("min_child_samples", PInt 20);
   ("min_split_gain", PFloat n0); ("max_bin", PInt 255); ("min_data_in_bin", PInt 3);
   ("reg_alpha", PFloat n0); ("reg_lambda", PFloat n0); ("min_child_weight", PFloat (nlit 1 1000));
   ("subsample", PFloat n1); ("subsample_freq", PInt 0); ("colsample_bytree", PFloat n1); ("colsample_bynode", PFloat n1);
   ("objective", PStr "regression"); ("num_class", PInt 1); ("boosting_type", PStr "gbdt"); ("metric", PStr "");
   ("random_state", PInt 0); ("n_jobs", PInt (-1)); ("importance_type", PStr "gain"); ("deterministic", PBool false);
   ("verbosity", PInt (-1)); ("early_stopping_rounds", PInt 0);
   ("device_type", PStr "cpu"); ("tree_learner", PStr "serial"); ("num_parallel_tree", PInt 1);
   ("drop_rate", PFloat (nlit 1 10)); ("max_drop", PInt 50); ("skip_drop", PFloat (nlit 1 2));
   ("uniform_drop", PBool false); ("xgboost_dart_mode", PBool false); ("drop_seed", PInt 4);
   ("top_rate", PFloat (nlit 1 5)); ("other_rate", PFloat (nlit 1 10));
   ("max_delta_step", PFloat n0); ("scale_pos_weight", PFloat n1); ("linear_tree", PBool false); ("linear_lambda", PFloat n0)].

(** parameter_mapping.go lines 21-33 (NewParameterMapper) *)
Definition new_mapper : mapper :=
  let m := fold_left (fun m c => add_mapping m (fst (fst c)) (snd (fst c)) (snd c)) mapping_calls (mkmapper [] [] [] []) in
  mkmapper (to_go m) (to_py m) (alias m) (fold_left (fun d e => sput (fst e) (snd e) d) default_entries []).

(** parameter_mapping.go lines 195-212: the key under which MapPythonToGo stores an entry, if it
    stores it. *)
Definition go_key (pm : mapper) (key : string) : option string :=
  match sget key (to_go pm) with
  | Some g => Some g
  | None => match sget key (alias pm) with
            | Some c => sget c (to_go pm)
            | None => Some key
            end
  end.
(** parameter_mapping.go lines 192-215 (MapPythonToGo), the entries of pythonParams being visited
    in the order of the list. *)
Definition map_py_to_go (pm : mapper) (params : list (string * pval)) : smap pval :=
  fold_left (fun m e => match go_key pm (fst e) with Some g => sput g (snd e) m | None => m end) params [].

(** parameter_mapping.go lines 341-350 (toSnakeCase), of ASCII strings: strings.ToLower and the
    range over runes are byte by byte. *)
Definition is_upper (c : ascii) : bool := (65 <=? nat_of_ascii c)%nat && (nat_of_ascii c <=? 90)%nat.
Definition lower_char (c : ascii) : ascii := if is_upper c then ascii_of_nat (nat_of_ascii c + 32) else c.
Fixpoint to_lower (s : string) : string :=
  match s with EmptyString => EmptyString | String c r => String (lower_char c) (to_lower r) end.
Fixpoint underscored (i : nat) (s : string) : string :=
  match s with
  | EmptyString => EmptyString
  | String c r => if (0 <? i)%nat && is_upper c then String "_" (String c (underscored (S i) r)) else String c (underscored (S i) r)
  end.
Definition to_snake (s : string) : string := to_lower (underscored 0 s).

(** parameter_mapping.go lines 218-233 (MapGoToPython) *)
Definition py_key (pm : mapper) (key : string) : string :=
  match sget key (to_py pm) with Some p => p | None => to_snake key end.
Definition map_go_to_py (pm : mapper) (params : list (string * pval)) : smap pval :=
  fold_left (fun m e => sput (py_key pm (fst e)) (snd e) m) params [].

(** parameter_mapping.go lines 236-250 (GetDefault) *)
Definition get_default (pm : mapper) (name : string) : option pval :=
  match sget name (defaults pm) with
  | Some v => Some v
  | None => match sget name (alias pm) with Some c => sget c (defaults pm) | None => None end
  end.

(** parameter_mapping.go lines 322-338 (ApplyDefaults), the entries of params and of the defaults
    being visited in the order of the lists. *)
Definition apply_defaults (params defs : list (string * pval)) : smap pval :=
  fold_left (fun m e => match sget (fst e) m with Some _ => m | None => sput (fst e) (snd e) m end) defs
    (fold_left (fun m e => sput (fst e) (snd e) m) params []).

(** parameter_mapping.go lines 258-294 *)
Definition objective_map : smap string :=
  [("regression", "regression"); ("regression_l2", "regression"); ("l2", "regression");
   ("mean_squared_error", "regression"); ("mse", "regression");
   ("regression_l1", "regression_l1"); ("l1", "regression_l1"); ("mean_absolute_error", "regression_l1"); ("mae", "regression_l1");
   ("huber", "huber"); ("fair", "fair"); ("poisson", "poisson"); ("quantile", "quantile"); ("mape", "mape");
   ("gamma", "gamma"); ("tweedie", "tweedie");
   ("binary", "binary"); ("binary_logloss", "binary"); ("binary_crossentropy", "binary");
   ("multiclass", "multiclass"); ("softmax", "multiclass");
   ("multiclassova", "multiclassova"); ("multiclass_ova", "multiclassova"); ("ova", "multiclassova"); ("ovr", "multiclassova");
   ("lambdarank", "lambdarank"); ("rank_xendcg", "rank_xendcg"); ("xendcg", "rank_xendcg"); ("xe_ndcg", "rank_xendcg");
   ("xe_ndcg_mart", "rank_xendcg"); ("xendcg_mart", "rank_xendcg")].
(** parameter_mapping.go lines 253-301 (ValidateObjective) *)
Definition validate_objective (o : string) : res string :=
  match sget (to_lower o) objective_map with Some c => Ok c | None => Err (EOther 1) end.
(** parameter_mapping.go lines 304-319 (ValidateBoostingType) *)
Definition validate_boosting (b : string) : res string :=
  let b := to_lower b in
  if existsb (String.eqb b) ["gbdt"; "dart"; "goss"; "rf"] then Ok b else Err (EOther 2).

(** lgbm_regressor.go lines 16-61, and the fields of the same name of the classifier: the
    hyperparameters that GetParams or SetParams touch. *)
Record hyper : Type := mkhyper {
  h_leaves : Z; h_depth : Z; h_lr : N; h_iters : Z; h_child_samples : Z; h_child_weight : N;
  h_subsample : N; h_subsample_freq : Z; h_colsample : N; h_alpha : N; h_lambda : N; h_seed : Z;
  h_objective : string; h_metric : string; h_threads : Z; h_deterministic : bool; h_verbosity : Z;
  h_early : Z; h_boosting : string; h_importance : string }.

(** lgbm_regressor.go lines 64-89 *)
Definition new_hyper : hyper :=
  mkhyper 31 (-1) (nlit 1 10) 100 20 (nlit 1 1000) n1 0 n1 n0 n0 42 "regression" "l2" (-1) false (-1) 0 "gbdt" "gain".

(** The checked type assertions v, ok := value.(T). *)
Definition as_int (v : pval) (old : Z) : Z := match v with PInt z => z | _ => old end.
Definition as_float (v : pval) (old : N) : N := match v with PFloat x => x | _ => old end.
Definition as_str (v : pval) (old : string) : string := match v with PStr s => s | _ => old end.
Definition as_bool (v : pval) (old : bool) : bool := match v with PBool b => b | _ => old end.

Definition with_leaves h v := mkhyper v (h_depth h) (h_lr h) (h_iters h) (h_child_samples h) (h_child_weight h) (h_subsample h) (h_subsample_freq h) (h_colsample h) (h_alpha h) (h_lambda h) (h_seed h) (h_objective h) (h_metric h) (h_threads h) (h_deterministic h) (h_verbosity h) (h_early h) (h_boosting h) (h_importance h).
Definition with_depth h v := mkhyper (h_leaves h) v (h_lr h) (h_iters h) (h_child_samples h) (h_child_weight h) (h_subsample h) (h_subsample_freq h) (h_colsample h) (h_alpha h) (h_lambda h) (h_seed h) (h_objective h) (h_metric h) (h_threads h) (h_deterministic h) (h_verbosity h) (h_early h) (h_boosting h) (h_importance h).
Definition with_lr h v := mkhyper (h_leaves h) (h_depth h) v (h_iters h) (h_child_samples h) (h_child_weight h) (h_subsample h) (h_subsample_freq h) (h_colsample h) (h_alpha h) (h_lambda h) (h_seed h) (h_objective h) (h_metric h) (h_threads h) (h_deterministic h) (h_verbosity h) (h_early h) (h_boosting h) (h_importance h).
Definition with_iters h v := mkhyper (h_leaves h) (h_depth h) (h_lr h) v (h_child_samples h) (h_child_weight h) (h_subsample h) (h_subsample_freq h) (h_colsample h) (h_alpha h) (h_lambda h) (h_seed h) (h_objective h) (h_metric h) (h_threads h) (h_deterministic h) (h_verbosity h) (h_early h) (h_boosting h) (h_importance h).
Definition with_child_samples h v := mkhyper (h_leaves h) (h_depth h) (h_lr h) (h_iters h) v (h_child_weight h) (h_subsample h) (h_subsample_freq h) (h_colsample h) (h_alpha h) (h_lambda h) (h_seed h) (h_objective h) (h_metric h) (h_threads h) (h_deterministic h) (h_verbosity h) (h_early h) (h_boosting h) (h_importance h).
Definition with_child_weight h v := mkhyper (h_leaves h) (h_depth h) (h_lr h) (h_iters h) (h_child_samples h) v (h_subsample h) (h_subsample_freq h) (h_colsample h) (h_alpha h) (h_lambda h) (h_seed h) (h_objective h) (h_metric h) (h_threads h) (h_deterministic h) (h_verbosity h) (h_early h) (h_boosting h) (h_importance h).
Definition with_subsample h v := mkhyper (h_leaves h) (h_depth h) (h_lr h) (h_iters h) (h_child_samples h) (h_child_weight h) v (h_subsample_freq h) (h_colsample h) (h_alpha h) (h_lambda h) (h_seed h) (h_objective h) (h_metric h) (h_threads h) (h_deterministic h) (h_verbosity h) (h_early h) (h_boosting h) (h_importance h).
Definition with_subsample_freq h v := mkhyper (h_leaves h) (h_depth h) (h_lr h) (h_iters h) (h_child_samples h) (h_child_weight h) (h_subsample h) v (h_colsample h) (h_alpha h) (h_lambda h) (h_seed h) (h_objective h) (h_metric h) (h_threads h) (h_deterministic h) (h_verbosity h) (h_early h) (h_boosting h) (h_importance h).
Definition with_colsample h v := mkhyper (h_leaves h) (h_depth h) (h_lr h) (h_iters h) (h_child_samples h) (h_child_weight h) (h_subsample h) (h_subsample_freq h) v (h_alpha h) (h_lambda h) (h_seed h) (h_objective h) (h_metric h) (h_threads h) (h_deterministic h) (h_verbosity h) (h_early h) (h_boosting h) (h_importance h).
Definition with_alpha h v := mkhyper (h_leaves h) (h_depth h) (h_lr h) (h_iters h) (h_child_samples h) (h_child_weight h) (h_subsample h) (h_subsample_freq h) (h_colsample h) v (h_lambda h) (h_seed h) (h_objective h) (h_metric h) (h_threads h) (h_deterministic h) (h_verbosity h) (h_early h) (h_boosting h) (h_importance h).
Definition with_lambda h v := mkhyper (h_leaves h) (h_depth h) (h_lr h) (h_iters h) (h_child_samples h) (h_child_weight h) (h_subsample h) (h_subsample_freq h) (h_colsample h) (h_alpha h) v (h_seed h) (h_objective h) (h_metric h) (h_threads h) (h_deterministic h) (h_verbosity h) (h_early h) (h_boosting h) (h_importance h).
Definition with_seed h v := mkhyper (h_leaves h) (h_depth h) (h_lr h) (h_iters h) (h_child_samples h) (h_child_weight h) (h_subsample h) (h_subsample_freq h) (h_colsample h) (h_alpha h) (h_lambda h) v (h_objective h) (h_metric h) (h_threads h) (h_deterministic h) (h_verbosity h) (h_early h) (h_boosting h) (h_importance h).
Definition with_objective h v := mkhyper (h_leaves h) (h_depth h) (h_lr h) (h_iters h) (h_child_samples h) (h_child_weight h) (h_subsample h) (h_subsample_freq h) (h_colsample h) (h_alpha h) (h_lambda h) (h_seed h) v (h_metric h) (h_threads h) (h_deterministic h) (h_verbosity h) (h_early h) (h_boosting h) (h_importance h).
Definition with_metric h v := mkhyper (h_leaves h) (h_depth h) (h_lr h) (h_iters h) (h_child_samples h) (h_child_weight h) (h_subsample h) (h_subsample_freq h) (h_colsample h) (h_alpha h) (h_lambda h) (h_seed h) (h_objective h) v (h_threads h) (h_deterministic h) (h_verbosity h) (h_early h) (h_boosting h) (h_importance h).
Definition with_threads h v := mkhyper (h_leaves h) (h_depth h) (h_lr h) (h_iters h) (h_child_samples h) (h_child_weight h) (h_subsample h) (h_subsample_freq h) (h_colsample h) (h_alpha h) (h_lambda h) (h_seed h) (h_objective h) (h_metric h) v (h_deterministic h) (h_verbosity h) (h_early h) (h_boosting h) (h_importance h).
Definition with_deterministic h v := mkhyper (h_leaves h) (h_depth h) (h_lr h) (h_iters h) (h_child_samples h) (h_child_weight h) (h_subsample h) (h_subsample_freq h) (h_colsample h) (h_alpha h) (h_lambda h) (h_seed h) (h_objective h) (h_metric h) (h_threads h) v (h_verbosity h) (h_early h) (h_boosting h) (h_importance h).
Definition with_verbosity h v := mkhyper (h_leaves h) (h_depth h) (h_lr h) (h_iters h) (h_child_samples h) (h_child_weight h) (h_subsample h) (h_subsample_freq h) (h_colsample h) (h_alpha h) (h_lambda h) (h_seed h) (h_objective h) (h_metric h) (h_threads h) (h_deterministic h) v (h_early h) (h_boosting h) (h_importance h).
Definition with_early h v := mkhyper (h_leaves h) (h_depth h) (h_lr h) (h_iters h) (h_child_samples h) (h_child_weight h) (h_subsample h) (h_subsample_freq h) (h_colsample h) (h_alpha h) (h_lambda h) (h_seed h) (h_objective h) (h_metric h) (h_threads h) (h_deterministic h) (h_verbosity h) v (h_boosting h) (h_importance h).
Definition with_boosting h v := mkhyper (h_leaves h) (h_depth h) (h_lr h) (h_iters h) (h_child_samples h) (h_child_weight h) (h_subsample h) (h_subsample_freq h) (h_colsample h) (h_alpha h) (h_lambda h) (h_seed h) (h_objective h) (h_metric h) (h_threads h) (h_deterministic h) (h_verbosity h) (h_early h) v (h_importance h).
Definition with_importance h v := mkhyper (h_leaves h) (h_depth h) (h_lr h) (h_iters h) (h_child_samples h) (h_child_weight h) (h_subsample h) (h_subsample_freq h) (h_colsample h) (h_alpha h) (h_lambda h) (h_seed h) (h_objective h) (h_metric h) (h_threads h) (h_deterministic h) (h_verbosity h) (h_early h) (h_boosting h) v.

(** lgbm_regressor.go lines 537-565 (GetParams); [ord] is the order in which MapGoToPython visits
    the map, whose entries have different keys. *)
Definition reg_go_params (h : hyper) : smap pval :=
  [("NumLeaves", PInt (h_leaves h)); ("MaxDepth", PInt (h_depth h)); ("LearningRate", PFloat (h_lr h));
   ("NumIterations", PInt (h_iters h)); ("MinDataInLeaf", PInt (h_child_samples h));
   ("MinSumHessianInLeaf", PFloat (h_child_weight h)); ("BaggingFraction", PFloat (h_subsample h));
   ("BaggingFreq", PInt (h_subsample_freq h)); ("FeatureFraction", PFloat (h_colsample h)); ("Alpha", PFloat (h_alpha h));
   ("Lambda", PFloat (h_lambda h)); ("Seed", PInt (h_seed h)); ("Objective", PStr (h_objective h)); ("Metric", PStr (h_metric h));
   ("NumThreads", PInt (h_threads h)); ("Deterministic", PBool (h_deterministic h)); ("Verbosity", PInt (h_verbosity h));
   ("EarlyStopping", PInt (h_early h)); ("Boosting", PStr (h_boosting h)); ("ImportanceType", PStr (h_importance h))].
Definition reg_get_params (ord : list (string * pval) -> list (string * pval)) (h : hyper) : smap pval :=
  map_go_to_py new_mapper (ord (reg_go_params h)).

(** lgbm_regressor.go lines 576-660: the switch over the Go name of one entry. *)
Definition reg_switch (h : hyper) (key : string) (v : pval) : hyper :=
  if (key =? "NumLeaves")%string then with_leaves h (as_int v (h_leaves h))
  else if (key =? "MaxDepth")%string then with_depth h (as_int v (h_depth h))
  else if (key =? "LearningRate")%string then with_lr h (as_float v (h_lr h))
  else if (key =? "NumIterations")%string then with_iters h (as_int v (h_iters h))
  else if (key =? "MinDataInLeaf")%string then with_child_samples h (as_int v (h_child_samples h))
  else if (key =? "MinSumHessianInLeaf")%string then with_child_weight h (as_float v (h_child_weight h))
  else if (key =? "BaggingFraction")%string then with_subsample h (as_float v (h_subsample h))
  else if (key =? "BaggingFreq")%string then with_subsample_freq h (as_int v (h_subsample_freq h))
  else if (key =? "FeatureFraction")%string then with_colsample h (as_float v (h_colsample h))
  else if (key =? "Alpha")%string then with_alpha h (as_float v (h_alpha h))
  else if (key =? "Lambda")%string then with_lambda h (as_float v (h_lambda h))
  else if (key =? "Seed")%string then with_seed h (as_int v (h_seed h))
  else if (key =? "Objective")%string then
    match v with
    | PStr s => with_objective h (match validate_objective s with Ok c => c | _ => s end)
    | _ => h
    end
  else if (key =? "Metric")%string then with_metric h (as_str v (h_metric h))
  else if (key =? "NumThreads")%string then with_threads h (as_int v (h_threads h))
  else if (key =? "Deterministic")%string then with_deterministic h (as_bool v (h_deterministic h))
  else if (key =? "Verbosity")%string then with_verbosity h (as_int v (h_verbosity h))
  else if (key =? "EarlyStopping")%string then with_early h (as_int v (h_early h))
  else if (key =? "Boosting")%string then with_boosting h (as_str v (h_boosting h))
  else if (key =? "ImportanceType")%string then with_importance h (as_str v (h_importance h))
  else h.
(** lgbm_regressor.go lines 568-662 (SetParams). The entries of params are visited in the order of
    the list, those of the mapped parameters in the order [ord] gives. The returned error is always
    nil. *)
Definition reg_set_params (ord : list (string * pval) -> list (string * pval)) (h : hyper) (params : list (string * pval))
  : res hyper :=
  Ok (fold_left (fun h e => reg_switch h (fst e) (snd e)) (ord (map_py_to_go new_mapper params)) h).

(** lgbm_classifier.go lines 656-676 (GetParams) *)
Definition cls_get_params (h : hyper) : smap pval :=
  [("num_leaves", PInt (h_leaves h)); ("max_depth", PInt (h_depth h)); ("learning_rate", PFloat (h_lr h));
   ("n_estimators", PInt (h_iters h)); ("min_child_samples", PInt (h_child_samples h));
   ("min_child_weight", PFloat (h_child_weight h)); ("subsample", PFloat (h_subsample h));
   ("subsample_freq", PInt (h_subsample_freq h)); ("colsample_bytree", PFloat (h_colsample h));
   ("reg_alpha", PFloat (h_alpha h)); ("reg_lambda", PFloat (h_lambda h)); ("random_state", PInt (h_seed h));
   ("objective", PStr (h_objective h)); ("metric", PStr (h_metric h)); ("n_jobs", PInt (h_threads h));
   ("deterministic", PBool (h_deterministic h)); ("verbosity", PInt (h_verbosity h))].

(** lgbm_classifier.go lines 679-736 (SetParams) *)
Definition cls_switch (h : hyper) (key : string) (v : pval) : hyper :=
  if (key =? "num_leaves")%string || (key =? "n_leaves")%string then with_leaves h (as_int v (h_leaves h))
  else if (key =? "max_depth")%string then with_depth h (as_int v (h_depth h))
  else if (key =? "learning_rate")%string then with_lr h (as_float v (h_lr h))
  else if (key =? "n_estimators")%string || (key =? "num_iterations")%string then with_iters h (as_int v (h_iters h))
  else if (key =? "min_child_samples")%string then with_child_samples h (as_int v (h_child_samples h))
  else if (key =? "min_child_weight")%string then with_child_weight h (as_float v (h_child_weight h))
  else if (key =? "subsample")%string then with_subsample h (as_float v (h_subsample h))
  else if (key =? "colsample_bytree")%string then with_colsample h (as_float v (h_colsample h))
  else if (key =? "reg_alpha")%string then with_alpha h (as_float v (h_alpha h))
  else if (key =? "reg_lambda")%string then with_lambda h (as_float v (h_lambda h))
  else if (key =? "random_state")%string then with_seed h (as_int v (h_seed h))
  else if (key =? "n_jobs")%string then with_threads h (as_int v (h_threads h))
  else if (key =? "deterministic")%string then with_deterministic h (as_bool v (h_deterministic h))
  else h.
Definition cls_set_params (h : hyper) (params : list (string * pval)) : res hyper :=
  Ok (fold_left (fun h e => cls_switch h (fst e) (snd e)) params h).

End ParamMap.
Arguments pval : clear implicits.
Arguments mapper : clear implicits.
Arguments hyper : clear implicits.
