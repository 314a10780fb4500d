(** ModelCheckpoint, sklearn/lightgbm/callbacks.go lines 191-222, as the only callback of FitWithCallbacks (callbacks.go lines 224-235,
    trainer.go lines 454-548). *)
From Coq Require Import String List Arith ZArith Bool.
From Verif Require Import Base.Num Base.GoRes Model.EarlyStop.
Import ListNotations.
Local Open Scope list_scope.

Section Checkpoint.
  Context {N : Num} {T : Type}.
  (** The captured bestScore ([None]: +Inf) and the files written, the latest first: the number in the name and the trees.
      A save that fails is taken to write nothing. *)
  Record cp : Type := mkcp { cp_best : option N; cp_files : list (Z * list T) }.
  Variable can_save : list T -> bool.
  Variables (period : Z) (only : bool).
  (** The callback: [evals] is EvalResults, which is empty or has the only entry training_loss. *)
  Definition checkpoint (iter : Z) (model : list T) (evals : option N) (s : cp) : cp * res unit :=
    if (period =? 0)%Z then (s, Panic)
    else if negb (Z.rem iter period =? 0)%Z then (s, Ok tt)
    else
      let '(best, save) :=
        if only then match evals with
                     | Some v => if improves true (cp_best s) v then (Some v, true) else (cp_best s, false)
                     | None => (cp_best s, true) end
        else (cp_best s, true) in
      if save then
        if can_save model then (mkcp best ((iter, model) :: cp_files s), Ok tt) else (mkcp best (cp_files s), Err (EOther 1))
      else (mkcp best (cp_files s), Ok tt).
  (** The content of the file of an iteration *)
  Definition file (k : Z) (s : cp) : option (list T) := option_map snd (find (fun e => (fst e =? k)%Z) (cp_files s)).

  Variable grow : list T -> res T.
  Variable loss : list T -> N.
  (** The loop of Fit: the callback is called before each round with the results of the round before, and after it. *)
  Fixpoint cp_loop (fuel : nat) (iter : Z) (evals : option N) (s : cp) (ts : list T) : cp * res (list T) :=
    match fuel with
    | O => (s, Ok ts)
    | S fuel' =>
        match checkpoint iter ts evals s with
        | (s1, Err e) => (s1, Err (EWrapped e))
        | (s1, Panic) => (s1, Panic)
        | (s1, Ok _) =>
            match grow ts with
            | Err e => (s1, Err (EWrapped e))
            | Panic => (s1, Panic)
            | Ok t =>
                let ts' := ts ++ [t] in
                match checkpoint iter ts' (Some (loss ts')) s1 with
                | (s2, Err e) => (s2, Err (EWrapped e))
                | (s2, Panic) => (s2, Panic)
                | (s2, Ok _) => cp_loop fuel' (iter + 1) (Some (loss ts')) s2 ts'
                end
            end
        end
    end.
  Definition fit_checkpoint (iterations : Z) : cp * res (list T) := cp_loop (Z.to_nat iterations) 0 None (mkcp None []) [].
End Checkpoint.
Arguments cp N T : clear implicits.
