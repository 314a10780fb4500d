(** C125: WithState and WithStateMut; C126: warnings and their handlers. *)
From Coq Require Import List Arith ZArith.
From Verif Require Import Spec.AtomicState Model.Callbacks Spec.Callbacks Proofs.CallbacksP.
Import ListNotations.

(** ** C125 *)
(** With callbacks that do not use the manager, somebody can always continue as long as there is something to do. *)
Theorem C125_quiet_no_deadlock : forall s progs c t,
  (forall t, Forall quiet (progs t)) -> steps (start s progs) c -> left_to_do c t <> [] -> exists u c', step u c c'.
Proof. apply no_deadlock. Qed.

(** If fields are only accessed in callbacks and only changed in those of WithStateMut, then whoever changes the fields holds the
    write lock, and nobody is inside WithState or a getter. *)
Theorem C125_exclusive : forall s progs c u c',
  (forall t, Forall careful (progs t)) -> steps (start s progs) c -> step u c c' -> fields c' <> fields c ->
  writer (mu c) = Some u /\ readers (mu c) = [].
Proof. apply exclusive. Qed.

(** A callback of WithStateMut that uses any method of the manager never gets past that call: it and all that follows is left. *)
Theorem C125_mut_callback_never_returns : forall s progs t pre d a rest post c,
  Forall direct d -> ~ direct a -> progs t = pre ++ AWithMut (d ++ a :: rest) :: post -> steps (start s progs) c ->
  exists x, left_to_do c t = x ++ program (a :: rest) ++ IUnlock :: program post.
Proof. intros s progs t pre d a rest post c Hd Ha Hp H. exact (reenter_never s progs t pre d rest post a Hd Ha _ eq_refl Hp c H). Qed.

(** Once it has reached that call it has the write lock forever, and no other goroutine gets the lock in any way. *)
Theorem C125_mut_callback_blocks_all : forall s progs t pre d a rest post c c',
  Forall direct d -> ~ direct a -> progs t = pre ++ AWithMut (d ++ a :: rest) :: post -> steps (start s progs) c ->
  left_to_do c t = program (a :: rest) ++ IUnlock :: program post -> steps c c' ->
  left_to_do c' t = left_to_do c t /\ mu c' = mkrw [] (Some t) None.
Proof.
  intros s progs t pre d a rest post c c' Hd Ha Hp H E H'.
  destruct (reenter_holds s progs t pre d rest post a Hd Ha _ eq_refl Hp c c' H E H') as (E1 & W & M). split; [now rewrite E|].
  pose proof (steps_sane _ _ _ (steps_trans _ _ _ H H')) as S. destruct (mu c') as [r w p]. cbn in W. subst w. destruct (S ltac:(discriminate)) as [S1 S2]. cbn in S1, S2. now subst.
Qed.

(** A callback of WithState that uses a method that changes the state never gets past that call. *)
Theorem C125_read_callback_writing_never_returns : forall s progs t pre d a rest post c,
  Forall direct d -> writes a -> progs t = pre ++ AWith (d ++ a :: rest) :: post -> steps (start s progs) c ->
  exists x, left_to_do c t = x ++ skipn 1 (program (a :: rest) ++ IRUnlock :: program post).
Proof. intros s progs t pre d a rest post c Hd Ha Hp H. exact (rw_never s progs t pre d rest post a Hd Ha _ eq_refl Hp c H). Qed.

(** If nobody uses such methods, callbacks of WithState may use the others, however deeply: nobody is ever blocked. *)
Theorem C125_nested_reads : forall s progs c t,
  (forall t, Forall reads_only (progs t)) -> steps (start s progs) c -> left_to_do c t <> [] -> exists c', step t c c'.
Proof. apply nested_reads. Qed.

(** But a getter called in a callback of WithState and a single setter elsewhere can block each other forever. *)
Theorem C125_nested_read_refuted : exists progs c,
  progs 0 = [AWith [AGet]] /\ progs 1 = [ASet (fun s => s)] /\ steps (start (mkst false 0 0) progs) c /\ stuck c
  /\ left_to_do c 0 <> [] /\ left_to_do c 1 <> [].
Proof. exists clash. destruct (clash_stuck (mkst false 0 0)) as (c & H1 & H2 & H3 & H4). exists c. repeat split; assumption. Qed.

(** ** C126 *)
(** A handler gets every warning of a goroutine exactly once and in their order, whatever the other goroutines do, as long as
    handlers do not use the warnings and the handler is not set to nil: what was given, followed by what is still to be given, is
    what the program raises. *)
Theorem C126_exactly_once : forall body h z progs c t,
  (forall k, harmless (body k)) -> h <> None -> (forall t, Forall keeps_handler (progs t)) -> wsteps body (wstart h z progs) c ->
  given t (delivered c) ++ coming (todo c t) = warnings (progs t).
Proof. intros. eapply once_reach; eassumption. Qed.

(** Handlers run one at a time, and somebody can always continue. *)
Theorem C126_one_at_a_time : forall body h z progs c t u,
  (forall k, harmless (body k)) -> wsteps body (wstart h z progs) c -> inside (todo c t) -> inside (todo c u) -> t = u.
Proof. intros. eapply one_inside; eassumption. Qed.
Theorem C126_no_deadlock : forall body h z progs c t,
  (forall k, harmless (body k)) -> wsteps body (wstart h z progs) c -> todo c t <> [] -> exists u c', wstep body u c c'.
Proof. intros. eapply warn_progress; eassumption. Qed.

(** A handler that itself raises a warning or sets a handler is called at most once in the life of the program: that call does not
    return, and the lock stays with it, so that no other warning is ever given and no handler ever replaced. *)
Theorem C126_handler_reenters : forall body h z progs k o a rest c,
  body k = o ++ a :: rest -> harmless o -> a <> WOther -> receiver h z = Some k -> (forall t, Forall sets_nothing (progs t)) ->
  wsteps body (wstart h z progs) c ->
  delivered c = [] \/
  exists t w, forall c', wsteps body c c' -> delivered c' = [(t, k, w)] /\ lock c' = Some t /\ In JLock (todo c' t).
Proof.
  intros body h z progs k o a rest c Hb Ho Ha Hr Hs H. destruct (handler_reach body k o rest a Hb Ho Ha h z progs c Hr Hs H) as [B|(t & w & B & D)].
  - left. apply B.
  - right. exists t, w. intros c' H'. destruct (held_steps body t c c' B H') as [((n & l & E) & L & _) D']. split; [congruence|]. split; [exact L|].
    rewrite E. apply in_or_app. right. now left.
Qed.

(** ** Examples *)
Definition setf : st -> st := fun s => mkst true 3 (nsamples s).
Definition demo (t : nat) : list act :=
  match t with 0 => [AWithMut [ADirect setf; ADirect (fun s => s)]; AGet] | 1 => [AWith [ADirect (fun s => s)]; ASet setf] | _ => [] end.
Example demo_careful : (forall t, Forall careful (demo t)) /\ (forall t, Forall quiet (demo t)).
Proof. split; intros [|[|t]]; repeat constructor. Qed.
(** The first goroutine changes the fields while holding the lock. *)
Example demo_run : exists c c', steps (start (mkst false 0 0) demo) c /\ step 0 c c' /\ fields c = mkst false 0 0 /\ fields c' = mkst true 3 0.
Proof.
  eexists. eexists. split; [|split].
  - eapply steps_next; [eapply steps_next; [apply steps_refl|]|].
    + apply (step_intro 0) with (i := IAnnounce) (rest := [IAcquire; IMem setf; IMem (fun s => s); IUnlock; IRLock; IMem (fun s => s); IRUnlock]); reflexivity.
    + apply (step_intro 0) with (i := IAcquire) (rest := [IMem setf; IMem (fun s => s); IUnlock; IRLock; IMem (fun s => s); IRUnlock]); reflexivity.
  - apply (step_intro 0) with (i := IMem setf) (rest := [IMem (fun s => s); IUnlock; IRLock; IMem (fun s => s); IRUnlock]); reflexivity.
  - split; reflexivity.
Qed.
(** A callback that calls a setter, reached: the lock is held and the setter is still to come. *)
Definition bad (t : nat) : list act := match t with 0 => [AGet] ++ AWithMut ([] ++ ASet setf :: []) :: [AGet] | 1 => [AGet] | _ => [] end.
Example bad_shape : bad 0 = [AGet] ++ AWithMut ([] ++ ASet setf :: []) :: [AGet] /\ ~ direct (ASet setf).
Proof. split; [reflexivity|]. intros []. Qed.
Example bad_reached : exists c, steps (start (mkst false 0 0) bad) c /\ left_to_do c 0 = program [ASet setf] ++ IUnlock :: program [AGet] /\ left_to_do c 1 <> [].
Proof.
  pose (idm := IMem (fun s => s)). pose (K := program [ASet setf] ++ IUnlock :: program [AGet]).
  eexists. split; [|split].
  - eapply steps_next; [eapply steps_next; [eapply steps_next; [eapply steps_next; [eapply steps_next; [apply steps_refl|]|]|]|]|].
    + apply (step_intro 0) with (i := IRLock) (rest := idm :: IRUnlock :: IAnnounce :: IAcquire :: K); reflexivity.
    + apply (step_intro 0) with (i := idm) (rest := IRUnlock :: IAnnounce :: IAcquire :: K); reflexivity.
    + apply (step_intro 0) with (i := IRUnlock) (rest := IAnnounce :: IAcquire :: K); reflexivity.
    + apply (step_intro 0) with (i := IAnnounce) (rest := IAcquire :: K); reflexivity.
    + apply (step_intro 0) with (i := IAcquire) (rest := K); reflexivity.
  - reflexivity.
  - cbn. discriminate.
Qed.
Example deep_reads : reads_only (AWith [AGet; AWith [AGet; AWith []]]) /\ ~ reads_only (AWith [AGet; AWith [ASet setf]]).
Proof. split; [cbn; tauto|]. cbn. tauto. Qed.
Example read_then_write : let p := [] ++ AWith ([ADirect (fun s => s)] ++ ASet setf :: [AGet]) :: [AGet] in
  program p = [IRLock; IMem (fun s => s)] ++ program (ASet setf :: [AGet]) ++ IRUnlock :: program [AGet].
Proof. reflexivity. Qed.

(** Two warnings, given to the zerolog function although a handler is set *)
Definition talk (t : nat) : list wact := match t with 0 => [WWarn 7; WOther; WWarn 8] | 1 => [WSetHandler (Some 2)] | _ => [] end.
Example talk_runs : exists c, wsteps (fun _ => [WOther]) (wstart (Some 1) (Some 5) talk) c /\ given 0 (delivered c) = [7] /\ coming (todo c 0) = [8]
  /\ warnings (talk 0) = [7; 8] /\ delivered c = [(0, 5, 7)].
Proof.
  eexists. split.
  - eapply wsteps_next; [eapply wsteps_next; [apply wsteps_refl|]|].
    + apply w_lock with (t := 0) (rest := [JDeliver 7; JUnlock; JOther; JLock; JDeliver 8; JUnlock]). reflexivity.
    + apply w_call with (t := 0) (w := 7) (k := 5) (rest := [JUnlock; JOther; JLock; JDeliver 8; JUnlock]); reflexivity.
  - repeat split.
Qed.
Example talk_keeps : (forall t, Forall keeps_handler (talk t)) /\ inside (JDeliver 7 :: JUnlock :: wprogram [WWarn 8]) /\ ~ inside (wprogram [WWarn 8]).
Proof.
  split; [intros [|[|t]]; repeat constructor; discriminate|]. split.
  - exists [JDeliver 7], (wprogram [WWarn 8]). split; [reflexivity|]. cbn. intuition discriminate.
  - intros (d & r & E & N). destruct d as [|i d]; cbn in E; [discriminate|]. injection E as <- _. apply N. now left.
Qed.
(** A handler that raises a warning about a warning *)
Example echo_stuck : exists c, wsteps (fun _ => [WOther; WWarn 9]) (wstart (Some 1) None (fun t => [WWarn t])) c /\ delivered c = [(3, 1, 3)]
  /\ Forall sets_nothing [WWarn 3] /\ receiver (Some 1) None = Some 1.
Proof.
  eexists. split.
  - eapply wsteps_next; [eapply wsteps_next; [apply wsteps_refl|]|].
    + apply w_lock with (t := 3) (rest := [JDeliver 3; JUnlock]). reflexivity.
    + apply w_call with (t := 3) (w := 3) (k := 1) (rest := [JUnlock]); reflexivity.
  - repeat split. repeat constructor.
Qed.

Print Assumptions C125_quiet_no_deadlock.
Print Assumptions C125_exclusive.
Print Assumptions C125_mut_callback_never_returns.
Print Assumptions C125_mut_callback_blocks_all.
Print Assumptions C125_read_callback_writing_never_returns.
Print Assumptions C125_nested_reads.
Print Assumptions C125_nested_read_refuted.
Print Assumptions C126_exactly_once.
Print Assumptions C126_one_at_a_time.
Print Assumptions C126_no_deadlock.
Print Assumptions C126_handler_reenters.
