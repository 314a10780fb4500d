(** sklearn/pipeline/pipeline.go.
    The estimators are arbitrary Go objects: [W] is the state of everything they
    can read or write (their own fields, objects shared between steps, logs), and
    each method is a transition of [W] with an outcome.  [M] stands for mat.Matrix
    values and [V] for float64 scores.  Logging, the unused [memory] and [verbose]
    settings and the step names inside error texts are not modelled. *)
From Coq Require Import List Bool String.
From Verif Require Import Base.GoRes.
Import ListNotations.

Section Pipeline.
  Context {W M V : Type}.

  (** The [Fit] method of a Go type: a type has at most one method of that name, so
      it satisfies at most one of the interfaces asked for by the pipeline
      (core/model/transformer.go lines 6-15; pipeline.go lines 121-123). *)
  Inductive fit_method : Type :=
  | NoFit
  | FitX (f : M -> W -> W * res unit)
  | FitXY (f : M -> M -> W -> W * res unit).

  (** The method set of an estimator, as far as the pipeline asks for it.
      [e_has_fit_transform]: the type has FitTransform(X); it is required by the
      interface model.Transformer but never called by the pipeline. *)
  Record estimator : Type := MkEst {
    e_fit : fit_method;
    e_transform : option (M -> W -> W * res M);
    e_has_fit_transform : bool;
    e_predict : option (M -> W -> W * res M);
    e_predict_proba : option (M -> W -> W * res M);
    e_score : option (M -> M -> W -> W * res V);
    e_inverse : option (M -> W -> W * res M)
  }.

  (** lines 19-22. *)
  Record step : Type := MkStep { s_name : string; s_est : estimator }.

  (** lines 29-41, without logger and configuration. *)
  Record pipeline : Type := MkPipe { p_steps : list step; p_fitted : bool }.

  (** lines 45-65. *)
  Definition new (steps : list step) : pipeline := MkPipe steps false.

  (** The type assertion [x.(model.Transformer)] (lines 96, 183, 219, 364). *)
  Definition as_transformer (e : estimator)
    : option ((M -> W -> W * res unit) * (M -> W -> W * res M)) :=
    match e_fit e, e_transform e, e_has_fit_transform e with
    | FitX f, Some t, true => Some (f, t)
    | _, _, _ => None
    end.

  (** errors.Wrap(err, ...) *)
  Definition wrap {A} (r : res A) : res A :=
    match r with Err e => Err (EWrapped e) | _ => r end.

  (** Sequencing of calls that may change the world. *)
  Definition andthen {A B} (x : W * res A) (k : A -> W -> W * res B) : W * res B :=
    match x with
    | (w, Ok a) => k a w
    | (w, Err e) => (w, Err e)
    | (w, Panic) => (w, Panic)
    end.
  Definition wrapped {A} (x : W * res A) : W * res A := (fst x, wrap (snd x)).

  (** The loops of lines 92-114 and 217-238: fit and transform through [l]. *)
  Fixpoint fit_transform_through (l : list step) (X : M) (w : W) : W * res M :=
    match l with
    | [] => (w, Ok X)
    | s :: r =>
        match as_transformer (s_est s) with
        | None => (w, Err EValue)
        | Some (f, t) =>
            andthen (wrapped (f X w)) (fun _ w1 =>
            andthen (wrapped (t X w1)) (fun X1 w2 => fit_transform_through r X1 w2))
        end
    end.

  (** The loops of lines 182-196 and 362-377: transform through [l]. *)
  Fixpoint transform_through (l : list step) (X : M) (w : W) : W * res M :=
    match l with
    | [] => (w, Ok X)
    | s :: r =>
        match as_transformer (s_est s) with
        | None => (w, Err EValue)
        | Some (_, t) => andthen (wrapped (t X w)) (fun X1 w1 => transform_through r X1 w1)
        end
    end.

  (** The loop of lines 393-411, over the steps already reversed. *)
  Fixpoint inverse_through (l : list step) (X : M) (w : W) : W * res M :=
    match l with
    | [] => (w, Ok X)
    | s :: r =>
        match e_inverse (s_est s) with
        | None => (w, Err EValue)
        | Some t => andthen (wrapped (t X w)) (fun X1 w1 => inverse_through r X1 w1)
        end
    end.

  (** [p.steps[len(p.steps)-1]]; [None] when there are no steps. *)
  Definition final_step (p : pipeline) : option step :=
    match p_steps p with [] => None | s :: r => Some (last (p_steps p) s) end.
  (** [p.steps[:len(p.steps)-1]] *)
  Definition init_steps (p : pipeline) : list step := removelast (p_steps p).

  Definition set_fitted (p : pipeline) : pipeline := MkPipe (p_steps p) true.

  (** Fit, lines 87-138. *)
  Definition fit (p : pipeline) (X y : M) (w : W) : W * res unit :=
    andthen (fit_transform_through (init_steps p) X w) (fun Xt w1 =>
    match final_step p with
    | None => (w1, Ok tt)
    | Some s =>
        match e_fit (s_est s) with
        | FitXY f => wrapped (f Xt y w1)
        | _ => (w1, Err EValue)
        end
    end).
  (** The pipeline after the call: SetFitted (line 136) is reached exactly when the
      call returns nil. *)
  Definition after_call {A} (p : pipeline) (r : res A) : pipeline :=
    if is_ok r then set_fitted p else p.

  (** FitTransform, lines 212-242 ([y] is ignored). *)
  Definition fit_transform (p : pipeline) (X y : M) (w : W) : W * res M :=
    fit_transform_through (p_steps p) X w.

  (** Predict, lines 141-169. *)
  Definition predict (p : pipeline) (X : M) (w : W) : W * res M :=
    if negb (p_fitted p) then (w, Err ENotFitted)
    else
      andthen (transform_through (init_steps p) X w) (fun Xt w1 =>
      match final_step p with
      | None => (w1, Ok Xt)
      | Some s => match e_predict (s_est s) with
                  | Some f => f Xt w1
                  | None => (w1, Err EValue)
                  end
      end).

  (** PredictProba, lines 245-273. *)
  Definition predict_proba (p : pipeline) (X : M) (w : W) : W * res M :=
    if negb (p_fitted p) then (w, Err ENotFitted)
    else
      andthen (transform_through (init_steps p) X w) (fun Xt w1 =>
      match final_step p with
      | None => (w1, Err (EOther 0))
      | Some s => match e_predict_proba (s_est s) with
                  | Some f => f Xt w1
                  | None => (w1, Err EValue)
                  end
      end).

  (** Score, lines 276-304. *)
  Definition score (p : pipeline) (X y : M) (w : W) : W * res V :=
    if negb (p_fitted p) then (w, Err ENotFitted)
    else
      andthen (transform_through (init_steps p) X w) (fun Xt w1 =>
      match final_step p with
      | None => (w1, Err (EOther 0))
      | Some s => match e_score (s_est s) with
                  | Some f => f Xt y w1
                  | None => (w1, Err EValue)
                  end
      end).

  (** Transform, lines 173-199. *)
  Definition transform (p : pipeline) (X : M) (w : W) : W * res M :=
    if negb (p_fitted p) then (w, Err ENotFitted)
    else transform_through (p_steps p) X w.

  (** InverseTransform, lines 384-414. *)
  Definition inverse_transform (p : pipeline) (X : M) (w : W) : W * res M :=
    if negb (p_fitted p) then (w, Err ENotFitted)
    else inverse_through (rev (p_steps p)) X w.

  (** FitPredict, lines 203-208. *)
  Definition fit_predict (p : pipeline) (X y : M) (w : W) : W * res M :=
    andthen (fit p X y w) (fun _ w1 => predict (set_fitted p) X w1).

  (** NamedSteps, lines 45-49 and 345-347: later steps of the same name win. *)
  Definition named (p : pipeline) (n : string) : option estimator :=
    fold_left (fun acc s => if String.eqb (s_name s) n then Some (s_est s) else acc) (p_steps p) None.
End Pipeline.
Arguments fit_method : clear implicits.
Arguments estimator : clear implicits.
Arguments step : clear implicits.
Arguments pipeline : clear implicits.
