(** C01, C40 - parallel loops (core/parallel/parallel.go, sklearn/lightgbm/predictor.go). *)
From Coq Require Import List Arith Lia.
From Verif Require Import Base.Interleave Base.ListX Model.Parallel Spec.Parallel Proofs.ParallelP.
Import ListNotations.

(** C01: for every CPU count and item count the callback ranges enumerate the
    items exactly once, in order, and no callback gets an empty or out-of-bounds
    range. *)
Theorem C01_ranges_partition : forall ncpu items, 1 <= ncpu ->
  covers_exactly_once items (parallelize_ranges ncpu items) /\
  all_nonempty_in_bounds items (parallelize_ranges ncpu items) /\
  length (parallelize_ranges ncpu items) <= ncpu.
Proof.
  intros ncpu items H.
  exact (conj (parallelize_covers ncpu items H)
        (conj (parallelize_bounds ncpu items) (parallelize_worker_count ncpu items))).
Qed.
Print Assumptions C01_ranges_partition.

Theorem C01_threshold_partition : forall ncpu items threshold, 1 <= ncpu ->
  covers_exactly_once items (parallelize_threshold_ranges ncpu items threshold).
Proof. exact threshold_covers. Qed.
Print Assumptions C01_threshold_partition.

(** C01: every complete interleaving of the goroutines leaves the slice in the
    state of the sequential loop. *)
Theorem C01_schedule_independent : forall (A : Type) (g : nat -> A -> A) ncpu before after ps,
  1 <= ncpu ->
  isteps (slot_body g) (before, range_workers (parallelize_ranges ncpu (length before))) (after, ps) ->
  all_done ps ->
  sequential_result g before after.
Proof. intros A. exact parallelize_schedule_independent. Qed.
Print Assumptions C01_schedule_independent.

(** C01: the loop cannot get stuck: from every start some complete execution
    exists, and every step shortens the remaining work. *)
Theorem C01_terminates : forall (A : Type) (g : nat -> A -> A) ncpu before,
  (exists after ps,
     isteps (slot_body g) (before, range_workers (parallelize_ranges ncpu (length before))) (after, ps)
     /\ all_done ps) /\
  (forall c c', istep (slot_body g) c c' ->
     length (concat (snd c)) = S (length (concat (snd c')))).
Proof.
  intros A g ncpu before.
  exact (conj (exists_complete (slot_body g) _ before) (istep_measure (slot_body g))).
Qed.
Print Assumptions C01_terminates.

Example C01_example :
  parallelize_ranges 4 10 = [(0,3);(3,6);(6,9);(9,10)] /\
  parallelize_ranges 4 9 = [(0,3);(3,6);(6,9)] /\
  parallelize_ranges 8 3 = [(0,1);(1,2);(2,3)].
Proof. repeat split. Qed.

(** One interleaving of two workers, not the sequential order. *)
Example C01_schedule_example :
  isteps (slot_body (fun i x => x + 10 * i)) ([1;2;3], [[0;1];[2]]) ([1;12;23], [[];[]])
  /\ range_workers (parallelize_ranges 2 3) = [[0;1];[2]].
Proof.
  split; [|reflexivity].
  eapply isteps_step; [exact (istep_intro _ _ [[0;1]] 2 [] [])|]. cbn.
  eapply isteps_step; [exact (istep_intro _ _ [] 0 [1] [[]])|]. cbn.
  eapply isteps_step; [exact (istep_intro _ _ [] 1 [] [[]])|]. cbn.
  apply isteps_refl.
Qed.

(** C40: predictParallel with any positive number of threads and any
    interleaving computes the result of predictSequential. *)
Theorem C40_parallel_eq_sequential :
  forall (X Y : Type) (pred : X -> Y) threads (rows : list X) (before after : list (option Y)) ps,
  1 <= threads -> rows <> [] -> length before = length rows ->
  isteps (slot_body (fun i _ => option_map pred (nth_error rows i)))
     (before, range_workers (predict_parallel_ranges threads (length rows))) (after, ps) ->
  all_done ps ->
  after = map Some (predict_sequential pred rows).
Proof. intros X Y. exact predict_parallel_eq_sequential. Qed.
Print Assumptions C40_parallel_eq_sequential.

Example C40_example :
  predict_parallel_ranges 4 5 = [(0,2);(2,4);(4,5);(6,5)] /\
  range_workers (predict_parallel_ranges 4 5) = [[0;1];[2;3];[4];[]].
Proof. repeat split. Qed.
