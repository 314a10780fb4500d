(** Locks held while foreign code runs: WithState and WithStateMut of core/model/state_manager.go (lines 104-116) together with
    the other methods (see Model/StateManager.v for their results), and Warn of pkg/errors/errors.go (lines 18-66). *)
From Coq Require Import List Arith ZArith Bool.
From Verif Require Import Spec.AtomicState.
Import ListNotations.

(** ** StateManager *)
(** What a goroutine does with a manager: a method under RLock (lines 28-32, 59-71, 83-92), a method under Lock that changes the
    fields by [g] (lines 35-56, 95-102), a direct access to the exported fields, WithState and WithStateMut with the callback given
    by what it does.  A callback that panics is not modelled. *)
Inductive act : Type :=
| AGet | ASet (g : st -> st) | ADirect (g : st -> st) | AWith (body : list act) | AWithMut (body : list act).

(** sync.RWMutex: Lock waits until no writer is active or waiting ([IAnnounce]), from then on no reader gets in, and the
    lock is taken when the readers have left ([IAcquire]). *)
Inductive instr : Type :=
| IRLock | IRUnlock | IAnnounce | IAcquire | IUnlock | IMem (g : st -> st).
Fixpoint code (a : act) : list instr :=
  match a with
  | AGet => [IRLock; IMem (fun s => s); IRUnlock]
  | ASet g => [IAnnounce; IAcquire; IMem g; IUnlock]
  | ADirect g => [IMem g]
  | AWith body => IRLock :: flat_map code body ++ [IRUnlock]
  | AWithMut body => IAnnounce :: IAcquire :: flat_map code body ++ [IUnlock]
  end.
Definition program (l : list act) : list instr := flat_map code l.

Record rwmutex : Type := mkrw { readers : list nat; writer : option nat; waiting : option nat }.
Record conf : Type := mkc { fields : st; mu : rwmutex; left_to_do : nat -> list instr }.
(** A reader leaves: one entry less. *)
Fixpoint leave (t : nat) (l : list nat) : list nat :=
  match l with [] => [] | u :: r => if Nat.eqb t u then r else u :: leave t r end.
(** One instruction of goroutine [t]; [None] when it blocks *)
Definition exec (t : nat) (i : instr) (s : st) (m : rwmutex) : option (st * rwmutex) :=
  match i with
  | IRLock => match writer m, waiting m with None, None => Some (s, mkrw (t :: readers m) None None) | _, _ => None end
  | IRUnlock => if existsb (Nat.eqb t) (readers m) then Some (s, mkrw (leave t (readers m)) (writer m) (waiting m)) else None
  | IAnnounce => match writer m, waiting m with None, None => Some (s, mkrw (readers m) None (Some t)) | _, _ => None end
  | IAcquire => match waiting m, readers m with
                | Some u, [] => if Nat.eqb t u then Some (s, mkrw [] (Some t) None) else None
                | _, _ => None
                end
  | IUnlock => match writer m with
               | Some u => if Nat.eqb t u then Some (s, mkrw (readers m) None (waiting m)) else None
               | None => None
               end
  | IMem g => Some (g s, m)
  end.
Inductive step (t : nat) : conf -> conf -> Prop :=
| step_intro s m th i rest s' m' : th t = i :: rest -> exec t i s m = Some (s', m') ->
    step t (mkc s m th) (mkc s' m' (setp th t rest)).
Definition start (s : st) (progs : nat -> list act) : conf := mkc s (mkrw [] None None) (fun t => program (progs t)).
Inductive steps : conf -> conf -> Prop :=
| steps_refl c : steps c c
| steps_next c t c' c'' : steps c c' -> step t c' c'' -> steps c c''.

(** ** Warn *)
(** What a goroutine, or a handler, does with the warnings: Warn (lines 52-66), SetWarningHandler (lines 38-42), SetZerologWarnFunc
    (lines 45-49), anything else.  Handlers are numbers; [None] is nil. *)
Inductive wact : Type := WWarn (w : nat) | WSetHandler (h : option nat) | WSetZerolog (h : option nat) | WOther.
Inductive winstr : Type := JLock | JUnlock | JDeliver (w : nat) | JSetHandler (h : option nat) | JSetZerolog (h : option nat) | JOther.
Definition wcode (a : wact) : list winstr :=
  match a with
  | WWarn w => [JLock; JDeliver w; JUnlock]
  | WSetHandler h => [JLock; JSetHandler h; JUnlock]
  | WSetZerolog h => [JLock; JSetZerolog h; JUnlock]
  | WOther => [JOther]
  end.
Definition wprogram (l : list wact) : list winstr := flat_map wcode l.
Section Warn.
  (** What the handlers do *)
  Variable body : nat -> list wact.
  (** [delivered]: goroutine, handler and warning of every call of a handler, the oldest first *)
  Record wconf : Type := mkw { lock : option nat; handler : option nat; zerolog : option nat;
                               delivered : list (nat * nat * nat); todo : nat -> list winstr }.
  (** The handler that a warning is given to, lines 57-65 *)
  Definition receiver (h z : option nat) : option nat := match z with Some z => Some z | None => h end.
  Inductive wstep (t : nat) : wconf -> wconf -> Prop :=
  | w_lock h z d th rest : th t = JLock :: rest -> wstep t (mkw None h z d th) (mkw (Some t) h z d (setp th t rest))
  | w_unlock h z d th rest : th t = JUnlock :: rest -> wstep t (mkw (Some t) h z d th) (mkw None h z d (setp th t rest))
  | w_call l h z d th w rest k : th t = JDeliver w :: rest -> receiver h z = Some k ->
      wstep t (mkw l h z d th) (mkw l h z (d ++ [(t, k, w)]) (setp th t (wprogram (body k) ++ rest)))
  | w_drop l h z d th w rest : th t = JDeliver w :: rest -> receiver h z = None ->
      wstep t (mkw l h z d th) (mkw l h z d (setp th t rest))
  | w_handler l h z d th h' rest : th t = JSetHandler h' :: rest -> wstep t (mkw l h z d th) (mkw l h' z d (setp th t rest))
  | w_zerolog l h z d th z' rest : th t = JSetZerolog z' :: rest -> wstep t (mkw l h z d th) (mkw l h z' d (setp th t rest))
  | w_other l h z d th rest : th t = JOther :: rest -> wstep t (mkw l h z d th) (mkw l h z d (setp th t rest)).
  Definition wstart (h z : option nat) (progs : nat -> list wact) : wconf := mkw None h z [] (fun t => wprogram (progs t)).
  Inductive wsteps : wconf -> wconf -> Prop :=
  | wsteps_refl c : wsteps c c
  | wsteps_next c t c' c'' : wsteps c c' -> wstep t c' c'' -> wsteps c c''.
End Warn.
