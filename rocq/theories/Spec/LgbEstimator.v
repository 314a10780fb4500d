(** What C106 to C108 say about the gradient boosting estimators. *)
From Coq Require Import String List Arith Bool ZArith Reals Sorting.
From Verif Require Import Base.Num Base.GoRes Base.Mat Model.ParamMap Model.LgbTree.
Import ListNotations.
Local Open Scope list_scope.
Local Open Scope num_scope.

(** The class names of a training set: the different integer labels in increasing order. *)
Definition names_of (labels classes : list Z) : Prop :=
  StronglySorted Z.lt classes /\ forall k, In k classes <-> In k labels.

(** [label] belongs to the first of the largest probabilities, which is positive. *)
Definition chosen {N : Num} (classes : list Z) (p : list N) (label : Z) : Prop :=
  exists j v, nth_error classes j = Some label /\ nth_error p j = Some v /\ n0 <? v = true
    /\ (forall i u, nth_error p i = Some u -> (i < List.length classes)%nat -> v <? u = false)
    /\ (forall i u, nth_error p i = Some u -> (i < j)%nat -> n0 <? u = true -> u <? v = true).

(** Position [j] holds the first of the largest scores. *)
Definition first_largest (scores : list R) (j : nat) : Prop :=
  (j < List.length scores)%nat
  /\ (forall i, (i < List.length scores)%nat -> (nth i scores 0 <= nth j scores 0)%R)
  /\ (forall i, (i < j)%nat -> (nth i scores 0 < nth j scores 0)%R).

(** The settings of a classifier that its training reads. *)
Definition same_training {N : Num} (h h' : hyper N) : Prop :=
  h_iters h = h_iters h' /\ h_lr h = h_lr h' /\ h_leaves h = h_leaves h' /\ h_depth h = h_depth h'
  /\ h_child_samples h = h_child_samples h' /\ h_lambda h = h_lambda h' /\ h_alpha h = h_alpha h'
  /\ h_subsample h = h_subsample h' /\ h_subsample_freq h = h_subsample_freq h' /\ h_colsample h = h_colsample h'
  /\ h_seed h = h_seed h' /\ h_deterministic h = h_deterministic h' /\ h_verbosity h = h_verbosity h'
  /\ h_early h = h_early h'.

(** A model without trees and with a starting score. *)
Definition constant_model {N : Num} (obj : string) (ncl nfeat : Z) (init : N) : gmodel N :=
  mkgm obj ncl 0 0 (nlit 1 10) [] nfeat init.
