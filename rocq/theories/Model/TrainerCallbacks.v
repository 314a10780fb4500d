(** Fit of a lightgbm Trainer with callbacks, sklearn/lightgbm/trainer.go lines 454-548, keeping what stays in the trainer between
    two calls: WithCallbacks (lines 298-302) makes a CallbackList once, and its environment is used by every later Fit, while
    FitWithCallbacks (callbacks.go lines 224-235) makes a new one.  The callbacks and [run_before], [run_after] are those of
    Model/EarlyStop.v; TimeLimit and PrintEvaluation are added here.  Early stopping by EarlyStopping > 0 is left out. *)
From Coq Require Import String List Arith ZArith Bool.
From Verif Require Import Base.Num Base.GoRes Model.EarlyStop.
Import ListNotations.
Local Open Scope list_scope.

Section TrainerCallbacks.
  Context {N : Num} {W T : Type}.
  Variable lr : N.
  Variable leaves : Z.
  Variable grow : list T -> res T.
  Variable loss : list T -> N.
  Variable cbs : list (callback N W).
  (** The loop: the environment of the callback list, the world, the trees of the trainer, and what Fit returns *)
  Fixpoint keep_loop (fuel : nat) (iter : Z) (e : cenv N) (w : W) (ts : list T) : cenv N * W * list T * res unit :=
    match fuel with
    | O => (e, w, ts, Ok tt)
    | S fuel' =>
        match run_before cbs (mkcenv iter lr leaves (c_eval e) (c_stop e)) w with
        | (e2, w2, Err x) => (e2, w2, ts, Err (EWrapped x))
        | (e2, w2, Panic) => (e2, w2, ts, Panic)
        | (e2, w2, Ok _) =>
            if c_stop e2 then (e2, w2, ts, Ok tt)
            else
              match grow ts with
              | Err x => (e2, w2, ts, Err (EWrapped x))
              | Panic => (e2, w2, ts, Panic)
              | Ok t =>
                  match run_after cbs (mkcenv iter lr leaves [("training_loss"%string, loss (ts ++ [t]))] (c_stop e2)) w2 with
                  | (e4, w4, Err x) => (e4, w4, ts ++ [t], Err (EWrapped x))
                  | (e4, w4, Panic) => (e4, w4, ts ++ [t], Panic)
                  | (e4, w4, Ok _) =>
                      if c_stop e4 then (e4, w4, ts ++ [t], Ok tt) else keep_loop fuel' (iter + 1) e4 w4 (ts ++ [t])
                  end
              end
        end
    end.
  (** NewCallbackList, callbacks.go lines 125-132 *)
  Definition new_env : cenv N := mkcenv 0 lr leaves [] false.
  (** Fit of a trainer whose callback list has the environment [e] and that has the trees [ts] *)
  Definition fit_kept (iterations : Z) (e : cenv N) (w : W) (ts : list T) := keep_loop (Z.to_nat iterations) 0 e w ts.
End TrainerCallbacks.

Section MoreCallbacks.
  Context {N : Num} {W : Type}.
  (** TimeLimit, callbacks.go lines 86-95.  The time since TimeLimit was called is read from the world. *)
  Definition time_limit (read : W -> W * Z) (limit : Z) : callback N W :=
    fun e w =>
      let (w, t) := read w in
      (if (limit <? t)%Z then mkcenv (c_iter e) (c_lr e) (c_leaves e) (c_eval e) true else e, w, Ok tt).
  (** PrintEvaluation, callbacks.go lines 25-36: a line with the iteration and the results; a zero period panics. *)
  Definition print_evaluation (put : Z * list (string * N) -> W -> W) (period : Z) : callback N W :=
    fun e w =>
      if (period =? 0)%Z then (e, w, Panic)
      else (e, if (Z.rem (c_iter e) period =? 0)%Z then put (c_iter e, c_eval e) w else w, Ok tt).
End MoreCallbacks.
