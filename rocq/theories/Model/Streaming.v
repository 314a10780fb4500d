(** performance/large_scale.go lines 247-338: StreamingPipeline.  Channels and goroutines as steps; any number of calls of Run on
    one pipeline, which share its metrics. *)
From Coq Require Import List Arith ZArith Bool.
From Verif Require Import Base.GoInt.
Import ListNotations.

Section Streaming.
  (** The matrices and their Dims *)
  Variable item : Type.
  Variables rows cols : item -> Z.

  (** StreamMetrics, lines 261-267, without Throughput and Latency, which nothing sets *)
  Record metrics : Type := mkmet { samples : Z; bytes : Z }.
  Definition u64 (z : Z) : Z := (z mod 2 ^ 64)%Z.
  (** The bytes of one matrix, lines 317-324: the product is computed in int64, and the comparison with the largest int64 never holds *)
  Definition item_bytes (a : item) : Z :=
    let b := wrap (wrap (rows a * cols a) * 8) in if (b <? 0)%Z then (2 ^ 63 - 1)%Z else b.
  (** updateMetrics, lines 306-325, one step as it holds the lock *)
  Definition update_metrics (m : metrics) (a : item) : metrics :=
    if (rows a <? 0)%Z || (cols a <? 0)%Z then m
    else mkmet (u64 (samples m + rows a)) (u64 (bytes m + item_bytes a)).

  (** A channel: the buffered elements, the oldest first, and whether it is closed *)
  Record chan : Type := mkch { queue : list item; closed : bool }.
  (** A goroutine between two channels: it receives an element [a], then sends the elements of [fn a] one by one on a channel with
      capacity [cap], and closes it when its input is closed and empty.  [pending]: what is left to send.  Stages of users are
      assumed to be of this kind. *)
  Record stage : Type := mkstage { fn : item -> list item; cap : nat; pending : list item; out : chan }.
  Definition new_stage (f : item -> list item) (c : nat) : stage := mkstage f c [] (mkch [] false).
  (** The goroutine of Run, lines 293-299, is the last stage: it sends every element unchanged and counts it before. *)
  Definition meter (c : nat) : stage := new_stage (fun a => [a]) c.

  (** One step of a chain of stages behind the channel [c]; the label is the element received by the last stage, if any.
      [c_meet]: on an unbuffered channel sending and receiving are one step. *)
  Definition counted (a : item) (below : list stage) : option item := match below with [] => Some a | _ => None end.
  Inductive cstep : chan -> list stage -> option item -> chan -> list stage -> Prop :=
  | c_take a q cl f k o ss : cstep (mkch (a :: q) cl) (mkstage f k [] o :: ss) (counted a ss) (mkch q cl) (mkstage f k (f a) o :: ss)
  | c_put c f k a p q ss : length q < k ->
      cstep c (mkstage f k (a :: p) (mkch q false) :: ss) None c (mkstage f k p (mkch (q ++ [a]) false) :: ss)
  | c_close f k q ss : cstep (mkch [] true) (mkstage f k [] (mkch q false) :: ss) None (mkch [] true) (mkstage f k [] (mkch q true) :: ss)
  | c_meet c f a p g k o ss : cstep c (mkstage f 0 (a :: p) (mkch [] false) :: mkstage g k [] o :: ss) (counted a ss)
      c (mkstage f 0 p (mkch [] false) :: mkstage g k (g a) o :: ss)
  | c_down c f k p o ss l o' ss' : cstep o ss l o' ss' -> cstep c (mkstage f k p o :: ss) l c (mkstage f k p o' :: ss').

  (** The caller receives an element from the channel that Run returned, the channel of the last stage. *)
  Inductive receive : list stage -> item -> list stage -> Prop :=
  | r_queue f k p a q cl : receive [mkstage f k p (mkch (a :: q) cl)] a [mkstage f k p (mkch q cl)]
  | r_meet f a p : receive [mkstage f 0 (a :: p) (mkch [] false)] a [mkstage f 0 p (mkch [] false)]
  | r_down s ss a ss' : receive ss a ss' -> receive (s :: ss) a (s :: ss').

  (** A call of Run: the input channel, the stages with the meter last, and what the caller has received *)
  Record run : Type := mkrun { source : chan; chain : list stage; received : list item }.
  (** Run, lines 284-302, on a channel that holds the elements [l] and is closed *)
  Definition start_run (fs : list ((item -> list item) * nat)) (size : nat) (l : list item) : run :=
    mkrun (mkch l true) (map (fun f => new_stage (fst f) (snd f)) fs ++ [meter size]) [].
  Record state : Type := mkstate { met : metrics; runs : list run }.
  Definition count_item (m : metrics) (l : option item) : metrics := match l with Some a => update_metrics m a | None => m end.
  Inductive pstep : state -> state -> Prop :=
  | p_internal m pre c ss g post l c' ss' : cstep c ss l c' ss' ->
      pstep (mkstate m (pre ++ mkrun c ss g :: post)) (mkstate (count_item m l) (pre ++ mkrun c' ss' g :: post))
  | p_receive m pre c ss g post a ss' : receive ss a ss' ->
      pstep (mkstate m (pre ++ mkrun c ss g :: post)) (mkstate m (pre ++ mkrun c ss' (g ++ [a]) :: post)).
  Inductive psteps : state -> state -> Prop :=
  | ps_refl s : psteps s s
  | ps_next s s' s'' : psteps s s' -> pstep s' s'' -> psteps s s''.
End Streaming.
Arguments mkmet _ _ : assert.
Arguments mkch {item}.
Arguments mkstage {item}.
Arguments mkrun {item}.
Arguments mkstate {item}.
Arguments queue {item}.
Arguments closed {item}.
Arguments fn {item}.
Arguments cap {item}.
Arguments pending {item}.
Arguments out {item}.
Arguments source {item}.
Arguments chain {item}.
Arguments received {item}.
Arguments met {item}.
Arguments runs {item}.
Arguments new_stage {item}.
Arguments meter {item}.
Arguments counted {item}.
Arguments cstep {item}.
Arguments receive {item}.
Arguments start_run {item}.
