(** What one-hot encoding means. *)
From Coq Require Import String List Sorted.
From Verif Require Import Base.Num.
Import ListNotations.

(** The sorted list of the distinct values of a column. *)
Definition distinct_sorted (column cats : list string) : Prop :=
  StronglySorted (fun a b => String.ltb a b = true) cats /\ (forall v, In v cats <-> In v column).

(** The block of one value: 1 at the position of the value, 0 elsewhere. *)
Definition block {N : Num} (cats : list string) (v : string) : list N :=
  map (fun c => if String.eqb c v then n1 else n0) cats.

(** The encoding of a row: the blocks of its values side by side. *)
Fixpoint encode {N : Num} (cats : list (list string)) (row : list string) : list N :=
  match cats, row with
  | c :: cs, v :: r => block c v ++ encode cs r
  | _, _ => []
  end.
