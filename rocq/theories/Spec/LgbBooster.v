(** Histories of a booster. *)
From Coq Require Import String List Arith ZArith Bool.
From Verif Require Import Base.Num Base.GoRes Base.ListX Model.LgbTree Model.LgbBooster.
Import ListNotations.
Local Open Scope list_scope.

Section LgbBoosterSpec.
  Context {N : Num}.
  (** The calls that change a booster; [Load]: InitFromLeavesModel; [Clone]: the copy is used from then on. *)
  Inductive op :=
  | Init (a : nat) | Set_ (a : nat) | Load (lm : lmodel N) | Clone | Update_
  | Best (n : Z) | Eval (d m : string) (v : N) | Names (l : list string) | Importance (kind : string).
  Definition step (o : op) (s : heap N * booster N) : res (heap N * booster N) :=
    let '(h, b) := s in
    match o with
    | Init a => let* b' := init_from_model h (Some a) b in Ok (h, b')
    | Set_ a => let* b' := set_model h (Some a) b in Ok (h, b')
    | Load lm => Ok (init_from_leaves h lm b)
    | Clone => Ok (h, clone b)
    | Update_ => Ok (h, update b)
    | Best n => Ok (h, set_best n b)
    | Eval d m v => Ok (h, add_eval d m v b)
    | Names l => Ok (set_names l h b)
    | Importance k => let* r := feature_importance k h b in Ok (h, snd r)
    end.
  Fixpoint run (ops : list op) (s : heap N * booster N) : res (heap N * booster N) :=
    match ops with [] => Ok s | o :: r => let* s' := step o s in run r s' end.
  (** The newest call comes first in these. *)
  Fixpoint last_given (rev : list op) : option nat :=
    match rev with [] => None | Init a :: _ | Set_ a :: _ => Some a | _ :: r => last_given r end.
  Fixpoint loaded (rev : list op) : option (lmodel N) :=
    match rev with [] => None | Clone :: _ => None | Load lm :: _ => Some lm | _ :: r => loaded r end.
  (** The values added for a dataset and a metric, oldest first *)
  Definition values_for (key : string) (ops : list op) : list N :=
    flat_map (fun o => match o with Eval d m v => if String.eqb (eval_key d m) key then [v] else [] | _ => [] end) ops.
  (** The newest of InitFromModel, SetModel and InitFromLeavesModel: how many trees and features the booster reports *)
  Fixpoint newest (models : list (gmodel N)) (rev : list op) : option (nat * Z) :=
    match rev with
    | [] => None
    | Init a :: _ | Set_ a :: _ => match nth_error models a with Some m => Some (List.length (m_trees m), m_nfeat m) | None => None end
    | Load lm :: _ => Some (0%nat, lm_nfeat lm)
    | _ :: r => newest models r
    end.
End LgbBoosterSpec.
Arguments op N : clear implicits.
