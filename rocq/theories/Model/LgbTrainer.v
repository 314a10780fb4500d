(** A trainer of sklearn/lightgbm as an object: class weights and repeated calls of Fit (trainer.go).  For objectives with one
    score per row and BoostingType other than "goss"; X and y with the same number of rows; without callbacks and logging. *)
From Coq Require Import String List Arith ZArith Bool.
From Verif Require Import Base.Num Base.GoRes Base.GoMap Base.ListX Model.LgbTree Model.LgbHist Model.LgbTrain Model.LgbObjective Model.LgbText.
Import ListNotations.
Local Open Scope string_scope.
Local Open Scope list_scope.
Local Open Scope num_scope.

Section Trainer.
  Context {N : Num}.
  Variable toint : N -> Z.

  (** * Class weights *)

  (** Maps with int keys: the entries, at most one for each key *)
  Fixpoint zget {V} (k : Z) (m : list (Z * V)) : option V :=
    match m with [] => None | (k', v) :: r => if (k =? k')%Z then Some v else zget k r end.
  Fixpoint zput {V} (k : Z) (v : V) (m : list (Z * V)) : list (Z * V) :=
    match m with [] => [(k, v)] | (k', v') :: r => if (k =? k')%Z then (k, v) :: r else (k', v') :: zput k v r end.

  (** The parameter ClassWeight: nil, a string, map[string]interface{} (entries in the order in which one range loop visits
      them; [None] for a value that is not a float64), map[int]float64, anything else *)
  Inductive class_weight : Type :=
  | CwNil | CwString (s : string) | CwStrings (m : list (string * option N)) | CwInts (m : list (Z * N)) | CwOther.

  (** classCounts, lines 316-320 *)
  Definition bump (m : list (Z * nat)) (c : Z) : list (Z * nat) :=
    zput c (S (match zget c m with Some k => k | None => 0%nat end)) m.
  Definition class_counts (y : list N) : list (Z * nat) := fold_left bump (map toint y) [].
  (** computeClassWeights, lines 305-357; the result [None] is a nil map *)
  Definition class_weights (cw : class_weight) (y : list N) : res (option (list (Z * N))) :=
    match cw, y with
    | CwNil, _ | _, [] => Ok None
    | CwString s, _ =>
        if (s =? "balanced")%string then
          let counts := class_counts y in
          Ok (Some (map (fun e => (fst e, nofnat (List.length y) / (nofnat (List.length counts) * nofnat (snd e)))) counts))
        else Err (EOther 1)
    | CwStrings m, _ =>
        let* m' := foldM (fun acc e =>
          match atoi (fst e) with
          | None => Err (EOther 2)
          | Some c => match snd e with None => Err (EOther 3) | Some w => Ok (zput c w acc) end
          end) [] m in
        Ok (Some m')
    | CwInts m, _ => Ok (Some m)
    | CwOther, _ => Err (EOther 4)
    end.

  (** * Fit *)

  (** The fields of Trainer that outlive a call of Fit, lines 17-76: trees, predictions (nil before the first round), sampleWeight
      (nil before SetSampleWeight and Fit), initScore, initScoreSet; [tr_losses] are the values given to the callbacks as
      "training_loss" (line 516) so far. *)
  Record trainer := mktr {
    tr_trees : list (gtree N); tr_preds : option (list N); tr_weight : option (list N); tr_init : N; tr_initset : bool; tr_losses : list N }.
  (** NewTrainer, lines 150-238 *)
  Definition new_trainer : trainer := mktr [] None None n0 false [].
  (** SetSampleWeight and SetInitScore, lines 1493-1502 *)
  Definition set_weight (w : option (list N)) (t : trainer) : trainer := mktr (tr_trees t) (tr_preds t) w (tr_init t) (tr_initset t) (tr_losses t).
  Definition set_init (s : N) (t : trainer) : trainer := mktr (tr_trees t) (tr_preds t) (tr_weight t) s true (tr_losses t).

  Section Run.
    Variables (X : nat -> nat -> N) (cols : nat) (sortf : list N -> list N) (sortr : list (N * bin N) -> list (N * bin N)).
    Variables (o : @objective N) (fuel : nat) (p : tparams N).
    Variables (y w : list N) (cw : option (list (Z * N))).

    (** calculateGradients, lines 849-872, one component ([f] is the gradient or the hessian of the objective) *)
    Definition reweigh (target v : N) : N :=
      match cw with
      | None => v
      | Some m => match zget (toint target) m with Some c => v * c | None => v end
      end.
    Definition component (f : N -> N -> N) (preds : list N) : res (list N) :=
      mapM (fun i => match nth_error preds i, nth_error y i, nth_error w i with
                     | Some pr, Some t, Some v => Ok (reweigh t (f pr t * v))
                     | _, _, _ => Panic
                     end) (seq 0 (List.length y)).
    (** calculateLoss, lines 1335-1358 *)
    Definition loss (preds : list N) : res N :=
      let* terms := mapM (fun i => match nth_error preds i, nth_error y i, nth_error w i with
                                   | Some pr, Some t, Some v => Ok (o_loss o pr t * v, v)
                                   | _, _, _ => Panic
                                   end) (seq 0 (List.length y)) in
      Ok (nsum (map fst terms) / nsum (map snd terms)).
    (** One round, lines 454-525; [b] are the sampled rows *)
    Definition train_round (b : list nat) (t : trainer) : option (res trainer) :=
      let preds := match tr_preds t with Some ps => ps | None => repeat (tr_init t) (List.length y) end in
      match component (o_grad o) preds, component (o_hess o) preds with
      | Ok gs, Ok hs =>
          match build_tree toint X (fun i => nth i gs n0) (fun i => nth i hs n0) sortf sortr fuel p cols b with
          | Some (Ok tree) =>
              match update_preds toint X cols fuel tree 0 (firstn (List.length y) preds) with
              | Some (Ok head) =>
                  let preds' := head ++ skipn (List.length y) preds in
                  match loss preds' with
                  | Ok l => Some (Ok (mktr (tr_trees t ++ [tree]) (Some preds') (tr_weight t) (tr_init t) (tr_initset t) (tr_losses t ++ [l])))
                  | Err e => Some (Err e)
                  | Panic => Some Panic
                  end
              | Some (Err e) => Some (Err e)
              | Some Panic => Some Panic
              | None => None
              end
          | Some (Err e) => Some (Err e)
          | Some Panic => Some Panic
          | None => None
          end
      | Err e, _ | Ok _, Err e => Some (Err e)
      | Panic, _ | Ok _, Panic => Some Panic
      end.
    Fixpoint train_loop (bags : list (list nat)) (t : trainer) : option (res trainer) :=
      match bags with
      | [] => Some (Ok t)
      | b :: r => match train_round b t with Some (Ok t') => train_loop r t' | x => x end
      end.
  End Run.

  (** Fit, lines 388-545, with initialize (lines 549-606): the weights are only made when there are none, predictions and trees
      are not reset, and the initial score is computed again unless SetInitScore was called.  [bags]: the rows sampled in the
      rounds.  The objective is the one of CreateObjectiveFunction for the parameters. *)
  Definition trainer_fit (X : nat -> nat -> N) (cols : nat) (sortf : list N -> list N) (sortr : list (N * bin N) -> list (N * bin N))
      (o : @objective N) (fuel : nat) (p : tparams N) (cw : class_weight) (bags : list (list nat)) (y : list N) (t : trainer)
      : option (res trainer) :=
    let w := match tr_weight t with Some w => w | None => repeat n1 (List.length y) end in
    match class_weights cw y with
    | Ok m =>
        match (if tr_initset t then Ok (tr_init t) else o_init o y) with
        | Ok i => train_loop X cols sortf sortr o fuel p y w m bags (mktr (tr_trees t) (tr_preds t) (Some w) i (tr_initset t) (tr_losses t))
        | Err e => Some (Err e)
        | Panic => Some Panic
        end
    | Err e => Some (Err e)
    | Panic => Some Panic
    end.
  (** GetModel, lines 1383-1401 *)
  Definition trainer_model (cols : nat) (obj : string) (ncl : Z) (p : tparams N) (t : trainer) : gmodel N :=
    get_model cols obj ncl p (tr_init t) (tr_trees t).

  (** satisfiesMonotoneConstraint, lines 360-385; called by findBestSplitForFeatureWithHistogram only, which no split search of
      Fit calls.  [mono]: MonotoneConstraints; a negative feature would panic. *)
  Definition satisfies_monotone (mono : list Z) (feature : nat) (lg lh rg rh : N) : bool :=
    match nth_error mono feature with
    | None => true
    | Some c =>
        let e := nlit 1 1000000000000000 in
        let l := - lg / (lh + e) in
        let r := - rg / (rh + e) in
        if (c =? 1)%Z then r >=? l else if (c =? -1)%Z then r <=? l else true
    end.
End Trainer.
Arguments class_weight N : clear implicits.
Arguments trainer N : clear implicits.
