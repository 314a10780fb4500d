(** Which models ModelCheckpoint leaves in its files.  [score n] is the training loss of the first [n] trees. *)
From Coq Require Import List Arith ZArith Bool.
From Verif Require Import Base.Num.
Import ListNotations.
Local Open Scope num_scope.

Section S.
  Context {N : Num}.
  (** Neither NaN nor +Inf *)
  Definition countable (v : N) : bool := negb (nisnan v) && negb (nisinf v && (n0 <? v)).
  (** [v] is below all losses seen. *)
  Definition new_low (seen : list N) (v : N) : bool := countable v && forallb (fun u => negb (countable u) || (v <? u)) seen.
  Definition due (period : Z) (k : nat) : bool := (Z.of_nat k mod period =? 0)%Z.
  (** The numbers of trees whose losses are looked at before round [k]: at each round due the loss of the round before and its own *)
  Definition looked (period : Z) (k : nat) : list nat :=
    flat_map (fun j => if due period j then match j with O => [1%nat] | _ => [j; S j] end else []) (seq 0 k).
  (** The number of trees in the file of round [k], when only improvements are saved *)
  Definition kept (period : Z) (score : nat -> N) (k : nat) : option nat :=
    if due period k then
      match k with
      | O => Some (if new_low [] (score 1%nat) then 1%nat else O)
      | _ => if new_low (map score (looked period k ++ [k])) (score (S k)) then Some (S k)
             else if new_low (map score (looked period k)) (score k) then Some k else None
      end
    else None.
End S.
