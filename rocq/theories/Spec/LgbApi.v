(** What is expected of datasets, of Train and of QuickTrain. *)
From Coq Require Import String List Arith ZArith Bool.
From Verif Require Import Base.Num Base.GoRes Base.GoMap Base.Mat Base.ListX Model.Metrics Model.LgbTree Model.LgbText Model.LgbEstimator Model.LgbBooster Model.LgbApi.
Import ListNotations.
Local Open Scope string_scope.
Local Open Scope list_scope.
Local Open Scope num_scope.

Section LgbApiSpec.
  Context {N : Num}.
  (** The labels are zeros and ones, and there are enough of them to tell: eight, or four that are all the same *)
  Definition labels (y : matrix N) : list N := map (fun r => nth 0 r n0) (mrows y).
  Definition looks_binary (l : list N) : Prop :=
    (forall v, In v l -> v =? n0 = true \/ v =? n1 = true)
    /\ ((8 <= List.length l)%nat \/ (4 <= List.length l)%nat /\ forall v w, In v l -> In w l -> v =? w = true).
  (** A dataset as NewDataset leaves it, with weights for all rows if any *)
  Definition complete (ds : dataset N) : Prop :=
    List.length (mrows (d_data ds)) = d_n ds /\ (0 < d_f ds)%nat
    /\ (forall l, d_label ds = Some l -> List.length (mrows l) = d_n ds /\ (0 < mcols l)%nat)
    /\ (forall w, d_weight ds = Some w -> List.length w = d_n ds).
  (** [part] consists of the rows of [whole] numbered by the indices *)
  Definition rows_at {A} (indices : list Z) (whole part : list A) : Prop :=
    Forall2 (fun i a => (0 <= i)%Z /\ nth_error whole (Z.to_nat i) = Some a) indices part.
  (** The dataset at a position, with the name it is evaluated under *)
  Definition named (i : nat) (ds : dataset N) : dataset N * string :=
    (ds, match sget "name" (d_params ds) with Some (VStr s) => s | _ => append "valid_" (show_int (Z.of_nat i)) end).
  Definition named_sets (l : list (option (dataset N))) : list (dataset N * string) :=
    flat_map (fun p => match snd p with Some ds => [named (fst p) ds] | None => [] end) (combine (seq 0 (List.length l)) l).
  (** The type of a parameter: int, float64, string, bool or []int *)
  Definition typed (k : string) (v : option (value N)) : option (value N) :=
    match v with
    | Some (VInt _) => if existsb (String.eqb k) ["num_iterations"; "num_leaves"; "max_depth"; "min_data_in_leaf"; "max_bin"; "min_data_in_bin"; "random_state"; "seed"; "verbosity"; "num_class"] then v else None
    | Some (VNum _) => if existsb (String.eqb k) ["learning_rate"; "lambda_l2"; "lambda_l1"; "min_gain_to_split"; "bagging_fraction"; "feature_fraction"; "top_rate"; "other_rate"] then v else None
    | Some (VStr _) => if existsb (String.eqb k) ["objective"; "boosting_type"] then v else None
    | Some (VBool _) => if existsb (String.eqb k) ["deterministic"] then v else None
    | Some (VInts _) => if existsb (String.eqb k) ["categorical_feature"] then v else None
    | _ => None
    end.
  (** The training parameter that carries a name, and its value when the map does not give it *)
  Definition setting (k : string) (s : settings N * (N * N)) : option (value N) :=
    let t := fst s in
    sget k [("num_iterations", VInt (s_iters t)); ("learning_rate", VNum (s_lr t)); ("num_leaves", VInt (s_leaves t)); ("max_depth", VInt (s_depth t));
            ("min_data_in_leaf", VInt (s_minleaf t)); ("lambda_l2", VNum (s_l2 t)); ("lambda_l1", VNum (s_l1 t)); ("min_gain_to_split", VNum (s_mingain t));
            ("bagging_fraction", VNum (s_bagfrac t)); ("feature_fraction", VNum (s_ffrac t)); ("max_bin", VInt (s_maxbin t)); ("min_data_in_bin", VInt (s_minbin t));
            ("objective", VStr (s_obj t)); ("num_class", VInt (s_class t)); ("boosting_type", VStr (s_boost t)); ("seed", VInt (s_seed t));
            ("deterministic", VBool (s_det t)); ("verbosity", VInt (s_verb t)); ("categorical_feature", VInts (s_cats t));
            ("top_rate", VNum (fst (snd s))); ("other_rate", VNum (snd (snd s)))].
  Definition usual (k : string) : option (value N) :=
    sget k [("num_iterations", VInt 100); ("learning_rate", VNum (nlit 1 10)); ("num_leaves", VInt 31); ("max_depth", VInt (-1));
            ("min_data_in_leaf", VInt 20); ("lambda_l2", VNum n0); ("lambda_l1", VNum n0); ("min_gain_to_split", VNum (nlit 1 10000000));
            ("bagging_fraction", VNum n1); ("feature_fraction", VNum n1); ("max_bin", VInt 255); ("min_data_in_bin", VInt 3);
            ("objective", VStr "regression"); ("num_class", VInt 0); ("boosting_type", VStr ""); ("seed", VInt 0);
            ("deterministic", VBool false); ("verbosity", VInt 1); ("categorical_feature", VInts []);
            ("top_rate", VNum n0); ("other_rate", VNum n0)].
  (** A row that counts as correct: label 1 and a first prediction above one half, or label 0 and not *)
  Definition correct (t p : N) : bool := if p >? nlit 1 2 then t =? n1 else t =? n0.
  (** The scores added under a key in one round *)
  Definition under (key metric : string) (names : list string) (scores : list N) : list N :=
    map snd (filter (fun ns => String.eqb (eval_key (fst ns) metric) key) (combine names scores)).
  (** The score of a validation set under a model: what metrics.MSE or metrics.MAE report for the first columns (zero if they
      fail), the share of correct rows, or zero; zero too if the set is nil or the prediction fails *)
  Section Scores.
    Variable predicts : gmodel N -> matrix N -> option (res (matrix N)).
    Definition reported (r : res N) (score : N) : Prop := r = Ok score \/ (exists e, r = Err e) /\ score = n0.
    Definition measured (objective : string) (label : option (matrix N)) (P : matrix N) (score : N) : Prop :=
      if existsb (String.eqb objective) ["regression"; "regression_l2"; "l2"; "mean_squared_error"; "mse"] then
        exists t, label = Some t /\ reported (mse (Some (labels t)) (Some (labels P))) score
      else if existsb (String.eqb objective) ["regression_l1"; "l1"; "mean_absolute_error"; "mae"] then
        exists t, label = Some t /\ reported (mae (Some (labels t)) (Some (labels P))) score
      else if existsb (String.eqb objective) ["binary"; "binary_logloss"; "multiclass"; "softmax"; "multiclass_logloss"] then
        match label with
        | None => score = n0
        | Some t => score = nofnat (List.length (filter (fun tp => correct (fst tp) (snd tp)) (combine (labels t) (labels P)))) / nofnat (List.length (mrows t))
        end
      else score = n0.
    Definition scored (objective : string) (m : gmodel N) (ds : option (dataset N)) (score : N) : Prop :=
      match ds with
      | None => score = n0
      | Some ds => (exists P, predicts m (d_data ds) = Some (Ok P) /\ measured objective (d_label ds) P score)
                   \/ (exists e, predicts m (d_data ds) = Some (Err e)) /\ score = n0
      end.
  End Scores.
  (** What training reads of a dataset *)
  Definition same_input (a b : dataset N) : Prop := d_data a = d_data b /\ d_label a = d_label b.
End LgbApiSpec.
