(** C02 - core/model/state_manager.go. *)
From Coq Require Import List ZArith.
From Verif Require Import Spec.AtomicState Model.StateManager Proofs.StateManagerP.
Import ListNotations.

(** C02: every history of concurrent calls is a history of the atomic object. *)
Theorem C02_linearizable : linearizable step init (mkst false 0 0).
Proof. exact state_manager_linearizable. Qed.
Print Assumptions C02_linearizable.

(** C02: the lock protocol cannot deadlock: in every reachable configuration with
    a running call some goroutine can take a step. *)
Theorem C02_no_deadlock : forall c t o rest loc,
  reachable c -> threads c t = TRun o rest loc -> exists e c', step c e c'.
Proof. exact running_can_step. Qed.
Print Assumptions C02_no_deadlock.

(** A concrete concurrent history: while goroutine 1 is inside SetState, goroutine
    0's GetState has been invoked; the reader returns the complete new state. *)
Example C02_example : exists c,
  history step init
    [Inv 1 (SetState true 3 5); Inv 0 GetState;
     Ret 1 (SetState true 3 5) RUnit; Ret 0 GetState (RState true 3 5)] c.
Proof.
  eexists. unfold init.
  eapply hist_vis; [apply step_inv; reflexivity|].
  eapply hist_tau; [eapply (step_lock _ _ _ 1); reflexivity|].
  eapply hist_tau; [eapply (step_mem _ _ _ 1); reflexivity|].
  eapply hist_vis; [apply step_inv; reflexivity|].
  eapply hist_tau; [eapply (step_mem _ _ _ 1); reflexivity|].
  eapply hist_tau; [eapply (step_mem _ _ _ 1); reflexivity|].
  eapply hist_tau; [eapply (step_lock _ _ _ 1); reflexivity|].
  eapply hist_vis; [eapply (step_ret _ _ _ 1 (SetState true 3 5)); reflexivity|].
  eapply hist_tau; [eapply (step_lock _ _ _ 0); reflexivity|].
  eapply hist_tau; [eapply (step_mem _ _ _ 0); reflexivity|].
  eapply hist_tau; [eapply (step_mem _ _ _ 0); reflexivity|].
  eapply hist_tau; [eapply (step_mem _ _ _ 0); reflexivity|].
  eapply hist_tau; [eapply (step_lock _ _ _ 0); reflexivity|].
  eapply hist_vis; [eapply (step_ret _ _ _ 0 GetState (mkst true 3 5)); reflexivity|].
  apply hist_nil.
Qed.
