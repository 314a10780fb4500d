(** Early stopping stated on plain score histories. *)
From Coq Require Import String List Arith ZArith Bool.
From Verif Require Import Base.Num.
Import ListNotations.
Local Open Scope num_scope.

Section Spec.
  Context {N : Num}.
  (** [a] is strictly better than [b]. *)
  Definition better (minimize : bool) (a b : N) : bool := if minimize then a <? b else b <? a.
  (** Scores that can be a best score: neither NaN nor the worst infinity. *)
  Definition usable (minimize : bool) (s : N) : Prop :=
    nisnan s = false /\ nisinf s && better minimize n0 s = false.

  (** In the history [h] of (iteration, score) pairs, (it, s) is the first best entry
      and [post] is what came after it. *)
  Definition best_entry (minimize : bool) (h : list (Z * N)) (pre : list (Z * N)) (it : Z) (s : N)
      (post : list (Z * N)) : Prop :=
    h = pre ++ (it, s) :: post /\ usable minimize s /\
    (forall i u, In (i, u) pre -> usable minimize u -> better minimize s u = true) /\
    (forall i u, In (i, u) post -> better minimize u s = false).

  (** The patience [rounds] is used up: that many scores since the first best one, or
      since the start when no score was usable. *)
  Definition exhausted (minimize : bool) (rounds : Z) (h : list (Z * N)) : Prop :=
    ((forall i u, In (i, u) h -> ~ usable minimize u) /\ (rounds <= Z.of_nat (length h))%Z) \/
    (exists pre it s post, best_entry minimize h pre it s post /\ (rounds <= Z.of_nat (length post))%Z).
End Spec.

(** The ensemble after [n] iterations of a deterministic booster. *)
Fixpoint ensemble {T} (next : list T -> T) (n : nat) : list T :=
  match n with
  | O => []
  | S k => ensemble next k ++ [next (ensemble next k)]
  end.

(** Scores of the first [n] iterations of a booster. *)
Definition scores {N : Num} {T} (next : list T -> T) (score : list T -> N) (n : nat) : list (Z * N) :=
  map (fun i => (Z.of_nat i, score (ensemble next (S i)))) (seq 0 n).

(** The metric names for which larger is better. *)
Definition maximised (metric : string) : Prop :=
  In metric ["auc"; "accuracy"; "precision"; "recall"; "f1"; "r2"]%string.
