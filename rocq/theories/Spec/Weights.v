(** What can be seen of a weight record, and which writes concern which storage. *)
From Coq Require Import String List Arith Bool ZArith Permutation.
From Verif Require Import Base.Num Model.Weights.
Import ListNotations.
Local Open Scope list_scope.

Section Spec.
Context {N : Num}.

(** Two records in two states of the heap look the same: scalars, list contents and the value
    under every key (a nil slice or map looks empty). *)
Definition same_map (h : heap N) (r : option nat) (h' : heap N) (r' : option nat) : Prop :=
  forall k, mget k (entries h r) = mget k (entries h' r').
Definition looks_same (h : heap N) (w : weights N) (h' : heap N) (w' : weights N) : Prop :=
  w_type w = w_type w' /\ w_version w = w_version w' /\ w_icept w = w_icept w' /\ w_fitted w = w_fitted w' /\
  floats h (w_coef w) = floats h' (w_coef w') /\ strs h (w_features w) = strs h' (w_features w') /\
  same_map h (w_hyper w) h' (w_hyper w') /\ same_map h (w_meta w) h' (w_meta w').

(** The references of a record are to objects of the heap. *)
Definition inside (h : heap N) (r : option nat) : Prop := match r with None => True | Some a => a < List.length h end.
Definition refs_ok (h : heap N) (w : weights N) : Prop :=
  inside h (w_coef w) /\ inside h (w_features w) /\ inside h (w_hyper w) /\ inside h (w_meta w).
(** Maps have one entry for each key. *)
Definition one_each (m : gomap N) : Prop := NoDup (map fst m).
(** Iteration over a map may take any order. *)
Definition any_order (ord : gomap N -> gomap N) : Prop := forall m, Permutation (ord m) m.

(** A sequence of writes. *)
Definition writes (h : heap N) (ws : list (write N)) : heap N := fold_left do_write ws h.
(** Writes to storage older, and not older, than an allocation mark. *)
Definition older (mark : nat) (w : write N) : bool := (target w <? mark)%nat.

End Spec.
