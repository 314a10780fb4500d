(** Losses and weights of rows, over the reals. *)
From Coq Require Import List Reals.
Import ListNotations.
Local Open Scope R_scope.

(** The mean *)
Definition total (ls : list R) : R := fold_right Rplus 0 ls.
Definition mean (ls : list R) : R := total ls / INR (length ls).
(** What the documentation of weights means elsewhere *)
Definition weighted_mean (ls ws : list R) : R := total (map (fun p => fst p * snd p) (combine ls ws)) / total ws.
(** The loss of each row times the weights of that row and of all later rows *)
Fixpoint product (ws : list R) : R := match ws with [] => 1 | w :: r => w * product r end.
Fixpoint compounded (ls ws : list R) : R := match ls with [] => 0 | l :: r => l * product ws + compounded r (tl ws) end.
