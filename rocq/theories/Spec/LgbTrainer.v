(** What class weights should mean. *)
From Coq Require Import List ZArith Reals.
From Verif Require Import Base.Num Base.RTac Model.LgbTree Model.LgbTrain Model.LgbTrainer.
Import ListNotations.

(** The weight given to class [c] by a list of entries, 1 if there is none *)
Definition given_weight (m : list (Z * R)) (c : Z) : R :=
  match find (fun e => Z.eqb (fst e) c) m with Some e => snd e | None => 1%R end.
(** Sample weights multiplied by the weight of the class of the row *)
Definition combined (toint : R -> Z) (m : list (Z * R)) (w y : list R) : list R :=
  map (fun vt => fst vt * given_weight m (toint (snd vt)))%R (combine w y).
(** The classes of the targets, and the total weight of the rows of a class *)
Definition classes_of (toint : R -> Z) (y : list R) : list Z := nodup Z.eq_dec (map toint y).
Definition class_total (toint : R -> Z) (m : list (Z * R)) (y : list R) (c : Z) : R :=
  Rsum (map (fun t => given_weight m (toint t)) (filter (fun t => Z.eqb (toint t) c) y)).

(** The weights in force when Fit is called *)
Definition in_force {N : Num} (t : trainer N) (y : list N) : list N :=
  match tr_weight t with Some w => w | None => repeat n1 (List.length y) end.
(** The part of a trainer that GetModel and further training depend on, apart from the weights *)
Definition learnt {N : Num} (t : trainer N) : list (gtree N) * option (list N) * N := (tr_trees t, tr_preds t, tr_init t).
(** The scores of the training rows *)
Definition scores {N : Num} (t : trainer N) (y : list N) : list N :=
  match tr_preds t with Some ps => ps | None => repeat (tr_init t) (List.length y) end.
(** The parameters with other MonotoneConstraints *)
Definition with_mono {N : Num} (mono : list Z) (p : tparams N) : tparams N :=
  mktp (tp_maxdepth p) (tp_leaves p) (tp_mindata p) (tp_findmin p) (tp_mingain p) (tp_l1 p) (tp_l2 p) (tp_maxbin p) (tp_cats p) (tp_lr p) (tp_ffrac p) mono.
