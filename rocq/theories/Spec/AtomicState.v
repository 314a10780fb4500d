(** The atomic (one-operation-at-a-time) fitted-state object, and the
    linearizability specification: an implementation is linearizable when every
    visible history of invocations and responses is a history of the automaton
    below, in which each call takes effect at one instant between its invocation
    and its response. *)
From Coq Require Import List ZArith Bool.
Import ListNotations.

Record st : Type := mkst { fitted : bool; nfeatures : Z; nsamples : Z }.

Inductive op : Type :=
| IsFitted | SetFitted | Reset
| SetDimensions (nf ns : Z) | GetDimensions
| RequireFitted | GetState | SetState (b : bool) (nf ns : Z).

Inductive ret : Type :=
| RUnit
| RBool (b : bool)
| RDims (nf ns : Z)
| RState (b : bool) (nf ns : Z)
| RErr (failed : bool).     (* true: "model has not been fitted yet" *)

(** The meaning of each operation when it runs alone. *)
Definition atomic (o : op) (s : st) : st * ret :=
  match o with
  | IsFitted => (s, RBool (fitted s))
  | SetFitted => (mkst true (nfeatures s) (nsamples s), RUnit)
  | Reset => (mkst false 0 0, RUnit)
  | SetDimensions nf ns => (mkst (fitted s) nf ns, RUnit)
  | GetDimensions => (s, RDims (nfeatures s) (nsamples s))
  | RequireFitted => (s, RErr (negb (fitted s)))
  | GetState => (s, RState (fitted s) (nfeatures s) (nsamples s))
  | SetState b nf ns => (mkst b nf ns, RUnit)
  end.

(** Visible events of thread [t]. *)
Inductive event : Type :=
| Inv (t : nat) (o : op)
| Ret (t : nat) (o : op) (r : ret).

Inductive phase : Type :=
| Idle
| Pending (o : op)              (* invoked, has not taken effect *)
| Effected (o : op) (r : ret).  (* has taken effect, not yet returned *)

Definition phases := nat -> phase.
Definition setp {A} (ph : nat -> A) (t : nat) (p : A) : nat -> A :=
  fun u => if Nat.eqb u t then p else ph u.

Inductive spec_step : st * phases -> option event -> st * phases -> Prop :=
| spec_inv s ph t o : ph t = Idle ->
    spec_step (s, ph) (Some (Inv t o)) (s, setp ph t (Pending o))
| spec_effect s ph t o : ph t = Pending o ->
    spec_step (s, ph) None (fst (atomic o s), setp ph t (Effected o (snd (atomic o s))))
| spec_ret s ph t o r : ph t = Effected o r ->
    spec_step (s, ph) (Some (Ret t o r)) (s, setp ph t Idle).

(** Histories of a labelled transition system: visible events only. *)
Inductive history {C : Type} (step : C -> option event -> C -> Prop) : C -> list event -> C -> Prop :=
| hist_nil c : history step c [] c
| hist_tau c c' c'' h : step c None c' -> history step c' h c'' -> history step c h c''
| hist_vis c e c' c'' h : step c (Some e) c' -> history step c' h c'' -> history step c (e :: h) c''.

Definition linearizable {C : Type} (step : C -> option event -> C -> Prop) (c0 : C) (s0 : st) : Prop :=
  forall h c, history step c0 h c ->
  exists a, history spec_step (s0, fun _ => Idle) h a.
