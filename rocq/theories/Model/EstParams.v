(** GetParams and SetParams of LogisticRegression (sklearn/linear_model/logistic.go lines 885-940), LinearRegression
    (sklearn/linear_model/linear_regression.go lines 273-308), Pipeline (sklearn/pipeline/pipeline.go lines 308-345), and
    StandardScaler with the methods of the embedded BaseEstimator (preprocessing/scaler.go lines 297-302, core/model/base.go lines 209-238). *)
From Coq Require Import String List Bool ZArith.
From Verif Require Import Base.GoMap.
Import ListNotations.
Local Open Scope string_scope.
Local Open Scope list_scope.

(** The dynamic types of parameter values that matter; [VOther]: a value of any other type *)
Inductive ptype : Type := TStr | TFloat | TBool | TInt | TInt64 | TOther.
Section Params.
  Context {F : Type}.
  Inductive pval : Type := VStr (s : string) | VFloat (x : F) | VBool (b : bool) | VInt (z : Z) | VInt64 (z : Z) | VOther (n : nat).
  Definition type_of (v : pval) : ptype :=
    match v with VStr _ => TStr | VFloat _ => TFloat | VBool _ => TBool | VInt _ => TInt | VInt64 _ => TInt64 | VOther _ => TOther end.
  Definition same_type (a b : ptype) : bool :=
    match a, b with TStr, TStr | TFloat, TFloat | TBool, TBool | TInt, TInt | TInt64, TInt64 | TOther, TOther => true | _, _ => false end.
  (** The hyperparameter fields of an estimator, by the name of the parameter.  The field of a parameter always holds a value of its type. *)
  Definition fields : Type := string -> pval.
  Definition assign (k : string) (v : pval) (f : fields) : fields := fun k' => if k' =? k then v else f k'.

  (** * LogisticRegression: the cases of the switch with the type asserted, lines 906-936 *)
  Definition logistic_types : smap ptype :=
    [("penalty", TStr); ("C", TFloat); ("fit_intercept", TBool); ("intercept_scaling", TFloat); ("class_weight", TStr);
     ("random_state", TInt64); ("solver", TStr); ("max_iter", TInt); ("multi_class", TStr); ("verbose", TInt);
     ("warm_start", TBool); ("l1_ratio", TFloat); ("tol", TFloat)].
  (** The parameters and the field randomSeed *)
  Record logistic : Type := mklog { lparams : fields; lseed : Z }.
  (** nil, an error naming the key, or a panic of a type assertion *)
  Inductive outcome : Type := Done | Unknown (k : string) | Panics.
  (** SetParams: the entries in the order of the map iteration; the estimator left behind and the outcome *)
  Fixpoint logistic_set (entries : list (string * pval)) (m : logistic) : logistic * outcome :=
    match entries with
    | [] => (m, Done)
    | (k, v) :: r =>
        match sget k logistic_types with
        | None => (m, Unknown k)
        | Some t =>
            if same_type t (type_of v)
            then logistic_set r (mklog (assign k v (lparams m)) (if k =? "random_state" then match v with VInt64 z => z | _ => lseed m end else lseed m))
            else (m, Panics)
        end
    end.
  (** GetParams, as the entries of the map *)
  Definition logistic_get (m : logistic) : smap pval := map (fun k => (k, lparams m k)) (skeys logistic_types).

  (** * LinearRegression *)
  Definition linear_types : smap ptype :=
    [("fit_intercept", TBool); ("normalize", TBool); ("copy_X", TBool); ("n_jobs", TInt); ("positive", TBool)].
  (** SetParams: one if after the other; a missing entry or one of another type is passed over. *)
  Definition linear_set (params : smap pval) (f : fields) : fields :=
    fold_left (fun f kt => match sget (fst kt) params with
                           | Some v => if same_type (snd kt) (type_of v) then assign (fst kt) v f else f
                           | None => f end) linear_types f.
  (** GetParams: the argument deep is not used. *)
  Definition linear_get (fitted : bool) (model_type version : string) (f : fields) : smap pval :=
    map (fun k => (k, f k)) (skeys linear_types) ++ [("fitted", VBool fitted); ("model_type", VStr model_type); ("version", VStr version)].

  (** * StandardScaler: its own fields and the map of the embedded BaseEstimator (a nil map is an empty one) *)
  Record scaler : Type := mksc { with_mean : bool; with_std : bool; hyper : smap pval }.
  (** The method of BaseEstimator: every entry is stored, whatever its name and type. *)
  Definition scaler_set (entries : list (string * pval)) (s : scaler) : scaler :=
    mksc (with_mean s) (with_std s) (fold_left (fun m e => sput (fst e) (snd e) m) entries (hyper s)).
  (** The method of StandardScaler hides that of BaseEstimator. *)
  Definition scaler_get (s : scaler) : smap pval := [("with_mean", VBool (with_mean s)); ("with_std", VBool (with_std s))].
  (** s.BaseEstimator.GetParams(true) *)
  Definition base_get (s : scaler) : smap pval := hyper s.

  (** * Pipeline *)
  (** What the estimator of a step offers: GetParams() with the entries in the order of the map iteration, GetParams(deep), or neither.
      Only the first is the method that the pipeline asks for. *)
  Inductive getter : Type := GetNow (entries : list (string * pval)) | GetDeep (entries : list (string * pval)) | NoGet.
  (** [psteps] stands for the value of the entry "steps". *)
  Record pipeline : Type := mkpipe { psteps : list (string * getter); pmemory : string; pverbose : bool }.
  Definition nested (name key : string) : string := append name (append "__" key).
  Definition pipeline_get (steps_value : list (string * getter) -> pval) (p : pipeline) : smap pval :=
    fold_left (fun m s => match snd s with
                          | GetNow l => fold_left (fun m e => sput (nested (fst s) (fst e)) (snd e) m) l m
                          | _ => m end)
      (psteps p) (sput "verbose" (VBool (pverbose p)) (sput "memory" (VStr (pmemory p)) (sput "steps" (steps_value (psteps p)) []))).
  (** SetParams always returns nil. *)
  Definition pipeline_set (params : smap pval) (p : pipeline) : pipeline :=
    match sget "verbose" params with Some (VBool b) => mkpipe (psteps p) (pmemory p) b | _ => p end.
End Params.
Arguments pval F : clear implicits.
Arguments fields F : clear implicits.
Arguments logistic F : clear implicits.
Arguments scaler F : clear implicits.
Arguments getter F : clear implicits.
Arguments pipeline F : clear implicits.
