(** What is expected of training with callbacks. *)
From Coq Require Import String List Arith ZArith Bool.
From Verif Require Import Base.Num Base.GoRes Model.EarlyStop.
Import ListNotations.
Local Open Scope list_scope.

Section Spec.
  Context {N : Num} {W T : Type}.
  (** Training for [k] rounds without callbacks *)
  Fixpoint plain_rounds (grow : list T -> res T) (k : nat) (ts : list T) : res (list T) :=
    match k with
    | O => Ok ts
    | S k' => match grow ts with Ok t => plain_rounds grow k' (ts ++ [t]) | Err x => Err (EWrapped x) | Panic => Panic end
    end.
  (** A callback that never takes back a request to stop *)
  Definition keeps_stop (c : callback N W) : Prop := forall e w, c_stop e = true -> c_stop (fst (fst (c e w))) = true.
  (** A callback that always returns nil and changes neither the iteration, the results, StopTraining nor the first part of the world *)
  Definition calm {A : Type} (c : callback N (A * W)) : Prop :=
    forall e a u, exists e' u', c e (a, u) = (e', (a, u'), Ok tt) /\ c_iter e' = c_iter e /\ c_eval e' = c_eval e /\ c_stop e' = c_stop e.
  (** The clock, in a world whose first part counts how often it was read: its n-th reading *)
  Definition reading (clock : nat -> Z) (w : nat * W) : (nat * W) * Z := ((S (fst w), snd w), clock (fst w)).
  (** A printer, in a world whose first part is what was printed *)
  Definition printing (l : Z * list (string * N)) (w : list (Z * list (string * N)) * W) := (fst w ++ [l], snd w).
  (** The lines for a round: one before and one after it *)
  Definition two_lines (loss : list T -> N) (before after : list T) (first : bool) (i : Z) : list (Z * list (string * N)) :=
    [(i, if first then [] else [("training_loss"%string, loss before)]); (i, [("training_loss"%string, loss after)])].
End Spec.
