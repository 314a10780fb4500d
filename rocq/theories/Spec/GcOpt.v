(** Rate limit and end of the GC optimizer. *)
From Coq Require Import List ZArith.
From Verif Require Import Model.GcOpt.
Import ListNotations.
Local Open Scope Z_scope.

(** Collections, the latest first, each beginning more than [pause] after the end of the one before *)
Fixpoint spaced (pause : Z) (l : list (Z * Z)) : Prop :=
  match l with
  | (b, e) :: (((b', e') :: _) as r) => b <= e /\ pause < b - e' /\ spaced pause r
  | [(b, e)] => b <= e
  | [] => True
  end.
(** The calls of Start before the first Stop; the trace has the latest label first. *)
Fixpoint starts (t : list label) : nat :=
  match t with
  | [] => 0
  | LStop :: r => starts r
  | LStart :: r => if existsb (fun l => match l with LStop => true | _ => false end) r then starts r else S (starts r)
  | _ :: r => starts r
  end.
(** A goroutine that will not force another collection after Stop *)
Definition settled (m : monitor) : Prop := m = MWait \/ m = MDone.
(** The steps of goroutines in a trace *)
Fixpoint monitor_steps (t : list label) : nat :=
  match t with [] => 0 | LMonitor :: r => S (monitor_steps r) | _ :: r => monitor_steps r end.
