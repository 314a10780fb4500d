(** Sums of contributions arriving one after the other. *)
From Coq Require Import List.
From Verif Require Import Base.Num.
Import ListNotations.
Local Open Scope list_scope.
Local Open Scope num_scope.

(** [s] is the result of adding the values of [l], in this order, to zero, where each
    partial sum may be replaced by one that compares equal (-0.0 by 0.0).  In particular
    every partial sum but the last compares equal to something: it is not NaN. *)
Inductive added_in_order {N : Num} : list N -> N -> Prop :=
| added_none : added_in_order [] n0
| added_next l (s s' v : N) : added_in_order l s -> (s =? s') = true -> added_in_order (l ++ [v]) (s' + v).
