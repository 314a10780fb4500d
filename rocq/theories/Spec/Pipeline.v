(** What it means for data to travel through the steps of a pipeline, written with
    the calls made on the estimators only. *)
From Coq Require Import List.
From Verif Require Import Base.GoRes Model.Pipeline.
Import ListNotations.

Section Spec.
  Context {W M V : Type}.

  (** [trained l X w X' w']: starting in world [w], every step of [l] in turn is
      fitted on the current data and then transforms it, all calls succeeding;
      the data becomes [X'] and the world [w']. *)
  Inductive trained : list (step W M V) -> M -> W -> M -> W -> Prop :=
  | trained_nil X w : trained [] X w X w
  | trained_cons s r f t X w w1 X1 w2 X' w' :
      e_fit (s_est s) = FitX f -> e_transform (s_est s) = Some t ->
      e_has_fit_transform (s_est s) = true ->
      f X w = (w1, Ok tt) -> t X w1 = (w2, Ok X1) ->
      trained r X1 w2 X' w' -> trained (s :: r) X w X' w'.

  (** The same with the Transform calls only. *)
  Inductive transformed : list (step W M V) -> M -> W -> M -> W -> Prop :=
  | transformed_nil X w : transformed [] X w X w
  | transformed_cons s r f t X w X1 w1 X' w' :
      e_fit (s_est s) = FitX f -> e_transform (s_est s) = Some t ->
      e_has_fit_transform (s_est s) = true ->
      t X w = (w1, Ok X1) ->
      transformed r X1 w1 X' w' -> transformed (s :: r) X w X' w'.

  (** The same with the InverseTransform calls. *)
  Inductive inverted : list (step W M V) -> M -> W -> M -> W -> Prop :=
  | inverted_nil X w : inverted [] X w X w
  | inverted_cons s r t X w X1 w1 X' w' :
      e_inverse (s_est s) = Some t -> t X w = (w1, Ok X1) ->
      inverted r X1 w1 X' w' -> inverted (s :: r) X w X' w'.
End Spec.
