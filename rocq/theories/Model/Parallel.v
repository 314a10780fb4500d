(** core/parallel/parallel.go and the worker pool of
    sklearn/lightgbm/predictor.go. *)
From Coq Require Import List Arith.
From Verif Require Import Base.Interleave Base.ListX.
Import ListNotations.

(** Number of workers and chunk size: parallel.go lines 16-22 (the same
    arithmetic as predictor.go lines 109-114).  [ncpu] is runtime.NumCPU(). *)
Definition num_workers (ncpu items : nat) : nat :=
  if items <? ncpu then items else ncpu.
Definition chunk_size (items workers : nat) : nat := (items + workers - 1) / workers.

(** The raw range of worker [i]: parallel.go lines 28-32, predictor.go lines 119-123. *)
Definition worker_range (chunk items i : nat) : nat * nat :=
  let start := i * chunk in
  let stop := start + chunk in
  (start, if items <? stop then items else stop).

(** The callback ranges of Parallelize, parallel.go lines 10-44.  [items] is a
    Go int; negative values start no worker (the loop of line 27 does not run)
    and are not represented. *)
Definition parallelize_ranges (ncpu items : nat) : list (nat * nat) :=
  if items =? 0 then []
  else
    let w := num_workers ncpu items in
    let c := chunk_size items w in
    filter (fun r => negb (snd r <=? fst r)) (map (worker_range c items) (seq 0 w)).

(** parallel.go lines 52-61: the ranges of ParallelizeWithThreshold (one call
    [fn(0, items)] at or below the threshold). *)
Definition parallelize_threshold_ranges (ncpu items threshold : nat) : list (nat * nat) :=
  if items <=? threshold then [(0, items)] else parallelize_ranges ncpu items.

(** The indices handled by a callback [for i := start; i < end; i++]. *)
Definition range_items (r : nat * nat) : list nat := seq (fst r) (snd r - fst r).

(** One goroutine per range (parallel.go lines 40-43); each performs one atomic
    slot update per index. *)
Definition range_workers (rs : list (nat * nat)) : list (list nat) := map range_items rs.

(** A loop body that reads and writes only slot [i] of the shared slice. *)
Definition slot_body {A} (g : nat -> A -> A) (i : nat) (cells : list A) : list A :=
  upd i (g i) cells.

(** predictor.go lines 105-141: ranges of predictParallel.  All workers are
    started, also those with an empty range; numThreads >= 1 (predictor.go lines
    23-42), rows >= 1. *)
Definition predict_parallel_ranges (threads rows : nat) : list (nat * nat) :=
  let w := num_workers threads rows in
  let c := chunk_size rows w in
  map (worker_range c rows) (seq 0 w).

(** predictor.go lines 90-102: the sequential loop. *)
Definition predict_sequential {X Y} (pred : X -> Y) (rows : list X) : list Y :=
  map pred rows.
