(** core/model/state_manager.go as a concurrent program: every method is the
    sequence of its lock operations and field accesses, each one an atomic step;
    any number of goroutines run methods concurrently. *)
From Coq Require Import List ZArith Bool.
From Verif Require Import Spec.AtomicState.
Import ListNotations.

(** Atomic instructions.  Field reads go to the goroutine's local result
    registers. *)
Inductive instr : Type :=
| RLock | RUnlock | Lock | Unlock
| RdFitted | RdNFeatures | RdNSamples
| WrFitted (b : bool) | WrNFeatures (z : Z) | WrNSamples (z : Z).

(** The method bodies.  [defer mu.Unlock()] runs after the result has been
    computed, hence last. *)
Definition code (o : op) : list instr :=
  match o with
  (* state_manager.go lines 28-32 *)
  | IsFitted => [RLock; RdFitted; RUnlock]
  (* state_manager.go lines 35-39 *)
  | SetFitted => [Lock; WrFitted true; Unlock]
  (* state_manager.go lines 42-48 *)
  | Reset => [Lock; WrFitted false; WrNFeatures 0; WrNSamples 0; Unlock]
  (* state_manager.go lines 51-56 *)
  | SetDimensions nf ns => [Lock; WrNFeatures nf; WrNSamples ns; Unlock]
  (* state_manager.go lines 59-63 *)
  | GetDimensions => [RLock; RdNFeatures; RdNSamples; RUnlock]
  (* state_manager.go lines 66-71: calls IsFitted *)
  | RequireFitted => [RLock; RdFitted; RUnlock]
  (* state_manager.go lines 83-92 *)
  | GetState => [RLock; RdFitted; RdNFeatures; RdNSamples; RUnlock]
  (* state_manager.go lines 95-102 *)
  | SetState b nf ns => [Lock; WrFitted b; WrNFeatures nf; WrNSamples ns; Unlock]
  end.

(** The returned value, from the local registers. *)
Definition result (o : op) (loc : st) : ret :=
  match o with
  | IsFitted => RBool (fitted loc)
  | GetDimensions => RDims (nfeatures loc) (nsamples loc)
  | RequireFitted => RErr (negb (fitted loc))
  | GetState => RState (fitted loc) (nfeatures loc) (nsamples loc)
  | SetFitted | Reset | SetDimensions _ _ | SetState _ _ _ => RUnit
  end.

(** sync.RWMutex: free, held by a (non-empty) set of readers, or by one writer.
    Real RWMutexes also block new readers while a writer waits; that only removes
    schedules. *)
Inductive lock : Type :=
| LFree
| LRead (holders : list nat)
| LWrite (holder : nat).

Inductive tstate : Type :=
| TIdle
| TRun (o : op) (rest : list instr) (loc : st).

Record conf : Type := mkconf { fields : st; lk : lock; threads : nat -> tstate }.

Definition exec_mem (i : instr) (f loc : st) : st * st :=
  match i with
  | RdFitted => (f, mkst (fitted f) (nfeatures loc) (nsamples loc))
  | RdNFeatures => (f, mkst (fitted loc) (nfeatures f) (nsamples loc))
  | RdNSamples => (f, mkst (fitted loc) (nfeatures loc) (nsamples f))
  | WrFitted b => (mkst b (nfeatures f) (nsamples f), loc)
  | WrNFeatures z => (mkst (fitted f) z (nsamples f), loc)
  | WrNSamples z => (mkst (fitted f) (nfeatures f) z, loc)
  | _ => (f, loc)
  end.

Definition is_mem (i : instr) : bool :=
  match i with RLock | RUnlock | Lock | Unlock => false | _ => true end.

(** Lock transitions: [None] when the instruction blocks. *)
Definition exec_lock (i : instr) (t : nat) (l : lock) : option lock :=
  match i, l with
  | RLock, LFree => Some (LRead [t])
  | RLock, LRead hs => Some (LRead (t :: hs))
  | Lock, LFree => Some (LWrite t)
  | RUnlock, LRead hs =>
      Some (match remove Nat.eq_dec t hs with [] => LFree | hs' => LRead hs' end)
  | Unlock, LWrite _ => Some LFree
  | _, _ => None
  end.

Definition loc0 : st := mkst false 0 0.

Inductive step : conf -> option event -> conf -> Prop :=
| step_inv f l th t o : th t = TIdle ->
    step (mkconf f l th) (Some (Inv t o)) (mkconf f l (setp th t (TRun o (code o) loc0)))
| step_mem f l th t o i rest loc f' loc' :
    th t = TRun o (i :: rest) loc -> is_mem i = true -> exec_mem i f loc = (f', loc') ->
    step (mkconf f l th) None (mkconf f' l (setp th t (TRun o rest loc')))
| step_lock f l th t o i rest loc l' :
    th t = TRun o (i :: rest) loc -> is_mem i = false -> exec_lock i t l = Some l' ->
    step (mkconf f l th) None (mkconf f l' (setp th t (TRun o rest loc)))
| step_ret f l th t o loc :
    th t = TRun o [] loc ->
    step (mkconf f l th) (Some (Ret t o (result o loc))) (mkconf f l (setp th t TIdle)).

(** state_manager.go lines 21-25: NewStateManager, no caller yet. *)
Definition init : conf := mkconf (mkst false 0 0) LFree (fun _ => TIdle).
