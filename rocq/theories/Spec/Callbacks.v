(** What is expected of locks that are held while foreign code runs. *)
From Coq Require Import List Arith.
From Verif Require Import Spec.AtomicState Model.Callbacks.
Import ListNotations.

(** An access to the fields without a method *)
Definition direct (a : act) : Prop := match a with ADirect _ => True | _ => False end.
Definition reading (a : act) : Prop := match a with ADirect g => forall s, g s = s | _ => False end.
(** Callbacks do not use methods of the manager. *)
Definition quiet (a : act) : Prop := match a with AWith b | AWithMut b => Forall direct b | _ => True end.
(** Besides, fields are only accessed in callbacks and only changed in callbacks of WithStateMut. *)
Definition careful (a : act) : Prop :=
  match a with ADirect _ => False | AWith b => Forall reading b | AWithMut b => Forall direct b | _ => True end.
(** A method that changes the state *)
Definition writes (a : act) : Prop := match a with ASet _ | AWithMut _ => True | _ => False end.
(** No such method, in callbacks neither *)
Fixpoint reads_only (a : act) : Prop :=
  match a with
  | AGet | ADirect _ => True
  | ASet _ | AWithMut _ => False
  | AWith b => (fix all l := match l with [] => True | x :: r => reads_only x /\ all r end) b
  end.
(** Nobody can continue. *)
Definition stuck (c : conf) : Prop := forall t c', ~ step t c c'.

(** A handler that does not use the warnings *)
Definition harmless (l : list wact) : Prop := Forall (fun a => a = WOther) l.
(** The handler is never set to nil; nothing is set at all. *)
Definition keeps_handler (a : wact) : Prop := a <> WSetHandler None.
Definition sets_nothing (a : wact) : Prop := match a with WSetHandler _ | WSetZerolog _ => False | _ => True end.
(** The warnings of a program, and those given to handlers by a goroutine *)
Definition warnings (l : list wact) : list nat := flat_map (fun a => match a with WWarn w => [w] | _ => [] end) l.
Definition given (t : nat) (d : list (nat * nat * nat)) : list nat := map snd (filter (fun e => Nat.eqb (fst (fst e)) t) d).
(** The warnings still to be given *)
Definition coming (l : list winstr) : list nat := flat_map (fun i => match i with JDeliver w => [w] | _ => [] end) l.
(** A goroutine inside Warn or a setter: it will release the lock before it takes it again. *)
Definition inside (l : list winstr) : Prop := exists d rest, l = d ++ JUnlock :: rest /\ ~ In JLock d.
