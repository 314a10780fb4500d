(** performance/memory_optimizer.go lines 225-337: GCOptimizer.  Methods and monitoring goroutines as steps, with time. *)
From Coq Require Import List Arith ZArith Bool.
Import ListNotations.
Local Open Scope Z_scope.

(** A goroutine running monitor, lines 311-337: waiting for the ticker; past the check of enabled; about to call ForceGC; ended *)
Inductive monitor : Type := MWait | MChecked | MForcing | MDone.
(** The fields enabled, lastGC ([None]: the zero time) and gcCount (uint32), the settings of the Go runtime that the methods change
    ([None]: unchanged), the time in nanoseconds, the goroutines, and the collections so far, the latest first, with the times of
    their begin and end.  totalPause is never changed. *)
Record gc : Type := mkgc {
  enabled : bool; last_gc : option Z; gc_count : Z; percent : option Z; limit : option Z;
  now : Z; monitors : list monitor; collections : list (Z * Z) }.
Section Gc.
  (** gcPercent and maxPause *)
  Variables pct pause : Z.
  (** NewGCOptimizer, lines 238-245 *)
  Definition new_gc (t : Z) : gc := mkgc true None 0 None None t [] [].
  Definition mem_limit : Z := 2 ^ 30.
  (** time.Since saturates at the largest Duration, which is reached for the zero time. *)
  Definition since (g : gc) : Z := match last_gc g with None => 2 ^ 63 - 1 | Some t => Z.min (now g - t) (2 ^ 63 - 1) end.
  (** ForceGC, lines 276-285, under the lock; [d] is the duration of the collection *)
  Definition force (d : Z) (g : gc) : gc :=
    if pause <? since g
    then mkgc (enabled g) (Some (now g + d)) ((gc_count g + 1) mod 2 ^ 32) (percent g) (limit g) (now g + d) (monitors g) ((now g, now g + d) :: collections g)
    else g.
  (** Start, lines 248-265 *)
  Definition start (g : gc) : gc :=
    if enabled g then mkgc true (last_gc g) (gc_count g) (Some pct) (Some mem_limit) (now g) (monitors g ++ [MWait]) (collections g) else g.
  (** Stop, lines 268-274 *)
  Definition stop (g : gc) : gc := mkgc false (last_gc g) (gc_count g) (Some 100) (limit g) (now g) (monitors g) (collections g).
  Definition set_monitors (l : list monitor) (g : gc) : gc :=
    mkgc (enabled g) (last_gc g) (gc_count g) (percent g) (limit g) (now g) l (collections g).
  Definition pass (d : Z) (g : gc) : gc :=
    mkgc (enabled g) (last_gc g) (gc_count g) (percent g) (limit g) (now g + d) (monitors g) (collections g).
  (** Lines 328-334; the limit is positive. *)
  Definition threshold : Z := mem_limit * 9 / 10.
  Inductive label : Type := LStart | LStop | LForce | LTime | LMonitor.
  Inductive step : label -> gc -> gc -> Prop :=
  | s_start g : step LStart g (start g)
  | s_stop g : step LStop g (stop g)
  | s_force d g : 0 <= d -> step LForce g (force d g)
  | s_time d g : 0 <= d -> step LTime g (pass d g)
  | m_tick g a b : monitors g = a ++ MWait :: b -> step LMonitor g (set_monitors (a ++ (if enabled g then MChecked else MDone) :: b) g)
  | m_measure g a b heap : monitors g = a ++ MChecked :: b ->
      step LMonitor g (set_monitors (a ++ (if threshold <? heap then MForcing else MWait) :: b) g)
  | m_force g a b d : 0 <= d -> monitors g = a ++ MForcing :: b -> step LMonitor g (set_monitors (a ++ MWait :: b) (force d g)).
  (** Executions with their labels, the latest first *)
  Inductive exec (g : gc) : list label -> gc -> Prop :=
  | e_nil : exec g [] g
  | e_step t l g' g'' : exec g t g' -> step l g' g'' -> exec g (l :: t) g''.
End Gc.
