(** C132: the GC optimizer. *)
From Coq Require Import List Arith ZArith Bool Lia.
From Verif Require Import Model.GcOpt Spec.GcOpt Proofs.GcOptP.
Import ListNotations.
Local Open Scope Z_scope.

(** Whoever calls ForceGC, and however many goroutines monitor the heap: a collection begins more than maxPause after the end of the one
    before, and gcCount is their number modulo 2^32. *)
Theorem C132_spaced : forall pct pause t0 tr g, exec pct pause (new_gc t0) tr g ->
  spaced pause (collections g) /\ gc_count g = Z.of_nat (length (collections g)) mod 2 ^ 32.
Proof. intros pct pause t0 tr g H. destruct (good_reach _ _ _ _ _ H) as (A & B & _). auto. Qed.

(** A call of ForceGC collects exactly if there was none or more than maxPause has passed (for a maxPause below the largest Duration). *)
Theorem C132_forces : forall pct pause t0 tr g d, exec pct pause (new_gc t0) tr g -> pause < 2 ^ 63 - 1 -> 0 <= d ->
  collections (force pause d g) =
    if match collections g with [] => true | (_, e) :: _ => pause <? now g - e end then (now g, now g + d) :: collections g else collections g.
Proof.
  intros pct pause t0 tr g d H Hp Hd. destruct (good_reach _ _ _ _ _ H) as (_ & _ & C). unfold force, since.
  destruct (collections g) as [|[b e] r] eqn:Q.
  - rewrite C. destruct (Z.ltb_spec pause (2 ^ 63 - 1)); [|lia]. reflexivity.
  - destruct C as [-> C2]. destruct (Z.ltb_spec pause (Z.min (now g - e) (2 ^ 63 - 1))), (Z.ltb_spec pause (now g - e)); try lia; try reflexivity; exact Q.
Qed.

(** Every Start before the first Stop begins one more monitoring goroutine; a later Start does nothing. *)
Theorem C132_goroutines : forall pct pause t0 tr g, exec pct pause (new_gc t0) tr g -> length (monitors g) = starts tr.
Proof. intros. eapply counts; eauto. Qed.
Theorem C132_no_restart : forall pct pause t0 tr g, exec pct pause (new_gc t0) tr g -> In LStop tr -> start pct g = g.
Proof.
  intros pct pause t0 tr g H Hs. destruct (counts _ _ _ _ _ H) as [E _]. unfold start. rewrite E.
  replace (has_stop tr) with true; auto. symmetry. apply existsb_exists. exists LStop. auto.
Qed.

(** After Stop the GC percentage stays 100 and the memory limit as it is; a goroutine that waits for its ticker forces no
    collection any more. *)
Theorem C132_stopped : forall pct pause g tr g', exec pct pause (stop g) tr g' ->
  percent g' = Some 100 /\ limit g' = limit g /\ length (monitors g') = length (monitors g)
  /\ forall i m, nth_error (monitors g) i = Some m -> settled m -> exists m', nth_error (monitors g') i = Some m' /\ settled m'.
Proof.
  intros pct pause g tr g' H. destruct (stopped_exec _ _ _ _ _ H eq_refl) as (A & B & C & D & F). repeat split; auto.
  intros i m E S. apply F. exists m. auto.
Qed.
(** The goroutines all end: after Stop they take at most three steps each, and one that has not ended can take a step. *)
Theorem C132_ends : forall pct pause g tr g', exec pct pause (stop g) tr g' -> (monitor_steps tr <= 3 * length (monitors g))%nat.
Proof. intros pct pause g tr g' H. pose proof (weight_exec _ _ _ _ _ H eq_refl) as W. pose proof (weight_bound (monitors g)) as B. cbn [monitors stop] in W. lia. Qed.
Theorem C132_goes_on : forall pct pause g m, In m (monitors g) -> m <> MDone -> exists g', step pct pause LMonitor g g'.
Proof.
  intros pct pause g m H N. destruct (in_split _ _ H) as (a & b & E). destruct m.
  - eexists. apply (m_tick pct pause g a b E).
  - eexists. apply (m_measure pct pause g a b 0 E).
  - eexists. apply (m_force pct pause g a b 0 (Z.le_refl 0) E).
  - now destruct N.
Qed.

(** Stop undoes the percentage but not the memory limit, and a collection can still follow. *)
Theorem C132_stop_refuted : exists tr g b e, exec 50 10 (new_gc 0) tr g /\ hd_error tr = Some LMonitor /\ nth_error tr 1 = Some LTime /\ nth_error tr 2 = Some LStop
  /\ limit g = Some (2 ^ 30) /\ percent g = Some 100 /\ collections g = [(b, e)].
Proof.
  exists [LMonitor; LTime; LStop; LMonitor; LMonitor; LStart]. do 3 eexists. split.
  - eapply e_step; [eapply e_step; [eapply e_step; [eapply e_step; [eapply e_step; [eapply e_step; [apply e_nil|]|]|]|]|]|].
    + apply s_start.
    + apply (m_tick 50 10 _ [] []). reflexivity.
    + apply (m_measure 50 10 _ [] [] (2 ^ 30)). reflexivity.
    + apply s_stop.
    + apply (s_time 50 10 7). lia.
    + apply (m_force 50 10 _ [] [] 3); [lia|reflexivity].
  - vm_compute. repeat split; reflexivity.
Qed.

(** ** Examples *)
(** Two Starts are two goroutines; a Start after Stop is none. *)
Example C132_starts : starts [LStart; LStop; LTime; LStart; LStart] = 2%nat.
Proof. reflexivity. Qed.
Example C132_rate : spaced 10 [(25, 26); (3, 5)] /\ ~ spaced 10 [(15, 26); (3, 5)].
Proof. cbn. split; [lia|]. intros (_ & H & _). lia. Qed.
(** The first call collects, one at distance 10 does not, one at distance 11 does. *)
Example C132_forced : map (fun d => length (collections (force 10 1 (pass d (force 10 2 (new_gc 100)))))) [10; 11] = [1; 2]%nat.
Proof. reflexivity. Qed.

Print Assumptions C132_spaced.
Print Assumptions C132_forces.
Print Assumptions C132_goroutines.
Print Assumptions C132_no_restart.
Print Assumptions C132_stopped.
Print Assumptions C132_ends.
Print Assumptions C132_goes_on.
Print Assumptions C132_stop_refuted.
