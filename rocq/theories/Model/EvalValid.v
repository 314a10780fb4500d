(** sklearn/lightgbm/early_stopping.go lines 213-241: the score on validation data by which FitWithValidation (Model/EarlyStop.v) stops *)
From Coq Require Import List ZArith.
From Verif Require Import Base.Num.
Import ListNotations.
Local Open Scope num_scope.

Section EvalValid.
  Context {N : Num} {X T : Type}.
  (** The objective's CalculateLoss(prediction, target), and model.Predict of a row with the trees so far *)
  Variable loss : N -> N -> N.
  Variable predict : list T -> X -> N.
  (** Lines 228-238: no weights are the empty list, further ones than rows are not used. *)
  Fixpoint add_losses (ts : list T) (acc : N) (rows : list (X * N)) (ws : list N) : N :=
    match rows with
    | [] => acc
    | (x, y) :: r =>
        let a := acc + loss (predict ts x) y in
        match ws with
        | [] => add_losses ts a r []
        | w :: ws' => add_losses ts (a * w) r ws'
        end
    end.
  (** Lines 213-241.  X and Y of the validation data have the same number of rows here, at least one; [fits] tells whether X has the
      number of columns of the training data, without which Predict returns an error (model.go lines 217-221). *)
  Definition evaluate_validation (fits : bool) (rows : list (X * N)) (ws : list N) (ts : list T) : N :=
    if fits then add_losses ts n0 rows ws / nofnat (length rows) else ninf.
End EvalValid.
