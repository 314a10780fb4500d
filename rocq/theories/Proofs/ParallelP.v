From Coq Require Import List Arith Lia Bool ZifyBool ZifyNat.
From Verif Require Import Base.Interleave Base.ListX Model.Parallel Spec.Parallel.
Import ListNotations.

Lemma chunk_covers items w : 1 <= w -> items <= w * chunk_size items w.
Proof.
  intros Hw. unfold chunk_size.
  pose proof (Nat.div_mod (items + w - 1) w ltac:(lia)) as H.
  pose proof (Nat.mod_upper_bound (items + w - 1) w ltac:(lia)). lia.
Qed.

Lemma num_workers_pos ncpu items : 1 <= ncpu -> 1 <= items -> 1 <= num_workers ncpu items.
Proof. unfold num_workers; destruct (Nat.ltb_spec items ncpu); lia. Qed.

Lemma worker_range_eq c items i :
  worker_range c items i = (i * c, Nat.min items (i * c + c)).
Proof. unfold worker_range. destruct (Nat.ltb_spec items (i * c + c)); f_equal; lia. Qed.

Lemma ranges_prefix c items k :
  concat (map (fun r => seq (fst r) (snd r - fst r)) (map (worker_range c items) (seq 0 k)))
  = seq 0 (Nat.min items (k * c)).
Proof.
  induction k as [|k IH].
  - simpl. now rewrite Nat.min_0_r.
  - rewrite seq_S, !map_app, concat_app, IH. cbn [map concat plus]. rewrite app_nil_r.
    rewrite worker_range_eq. cbn [fst snd].
    destruct (Nat.le_gt_cases items (k * c)).
    + replace (Nat.min items (k * c + c) - k * c) with 0 by lia.
      cbn [seq]. rewrite app_nil_r. f_equal. lia.
    + replace (Nat.min items (k * c)) with (k * c) by lia.
      replace (k * c) with (0 + k * c) at 2 by lia.
      rewrite <- seq_app. f_equal. lia.
Qed.

Lemma filter_ranges_concat rs :
  concat (map (fun r => seq (fst r) (snd r - fst r))
     (filter (fun r : nat * nat => negb (snd r <=? fst r)) rs))
  = concat (map (fun r => seq (fst r) (snd r - fst r)) rs).
Proof.
  induction rs as [|[a b] rs IH]; [reflexivity|]. cbn [filter fst snd].
  destruct (Nat.leb_spec b a); cbn [negb map concat fst snd].
  - replace (b - a) with 0 by lia. exact IH.
  - now rewrite IH.
Qed.

Lemma parallelize_covers ncpu items :
  1 <= ncpu -> covers_exactly_once items (parallelize_ranges ncpu items).
Proof.
  intros Hc. unfold covers_exactly_once, parallelize_ranges.
  destruct (Nat.eqb_spec items 0) as [->|Hi]; [reflexivity|].
  rewrite filter_ranges_concat, ranges_prefix. f_equal.
  assert (1 <= items) as Hi' by lia.
  pose proof (chunk_covers items (num_workers ncpu items) (num_workers_pos _ _ Hc Hi')). lia.
Qed.

Lemma parallelize_bounds ncpu items :
  all_nonempty_in_bounds items (parallelize_ranges ncpu items).
Proof.
  intros r Hr. unfold parallelize_ranges in Hr.
  destruct (Nat.eqb_spec items 0); [easy|].
  apply filter_In in Hr as [Hr Hb]. apply in_map_iff in Hr as (i & <- & Hi).
  rewrite worker_range_eq in *. cbn [fst snd] in *. lia.
Qed.

Lemma parallelize_worker_count ncpu items :
  length (parallelize_ranges ncpu items) <= ncpu.
Proof.
  unfold parallelize_ranges. destruct (Nat.eqb_spec items 0); [simpl; lia|].
  etransitivity; [apply filter_length_le|]. rewrite map_length, seq_length.
  unfold num_workers. destruct (Nat.ltb_spec items ncpu); lia.
Qed.

Lemma threshold_covers ncpu items threshold :
  1 <= ncpu -> covers_exactly_once items (parallelize_threshold_ranges ncpu items threshold).
Proof.
  intros Hc. unfold parallelize_threshold_ranges.
  destruct (Nat.leb_spec items threshold).
  - unfold covers_exactly_once. simpl. rewrite app_nil_r. f_equal. lia.
  - now apply parallelize_covers.
Qed.

Lemma slot_body_comm {A} (g : nat -> A -> A) i j :
  i <> j -> forall s, slot_body g i (slot_body g j s) = slot_body g j (slot_body g i s).
Proof. intros H s. unfold slot_body. now apply upd_comm. Qed.

Lemma mapi_sequential {A} (g : nat -> A -> A) l : sequential_result g l (mapi_from 0 g l).
Proof.
  split; [apply mapi_from_length|].
  intros i x Hx. rewrite nth_error_mapi_from, Hx. reflexivity.
Qed.

(** Any set of ranges covering the items exactly once gives the sequential
    result under every interleaving. *)
Lemma covering_ranges_sequential {A} (g : nat -> A -> A) ranges before after ps :
  covers_exactly_once (length before) ranges ->
  isteps (slot_body g) (before, range_workers ranges) (after, ps) ->
  all_done ps ->
  sequential_result g before after.
Proof.
  intros Hc Hs Hd.
  assert (Hcat : concat (range_workers ranges) = seq 0 (length before)) by exact Hc.
  apply interleave_sequential in Hs; auto.
  - rewrite Hcat in Hs. subst after. unfold exec, slot_body.
    pose proof (fold_upd_seq g before []) as E. cbn [app length] in E.
    rewrite E. apply mapi_sequential.
  - rewrite Hcat. apply seq_NoDup.
  - intros a b _ _ Hab. now apply slot_body_comm.
Qed.

Lemma sequential_result_unique {A} (g : nat -> A -> A) b a1 a2 :
  sequential_result g b a1 -> sequential_result g b a2 -> a1 = a2.
Proof.
  intros [L1 H1] [L2 H2]. apply nth_error_ext. intros i.
  destruct (nth_error b i) as [x|] eqn:E.
  - now rewrite (H1 _ _ E), (H2 _ _ E).
  - apply nth_error_None in E.
    transitivity (@None A); [apply nth_error_None; lia|symmetry; apply nth_error_None; lia].
Qed.

Lemma parallelize_schedule_independent {A} (g : nat -> A -> A) ncpu before after ps :
  1 <= ncpu ->
  isteps (slot_body g) (before, range_workers (parallelize_ranges ncpu (length before))) (after, ps) ->
  all_done ps -> sequential_result g before after.
Proof. intros Hc. apply covering_ranges_sequential. now apply parallelize_covers. Qed.

(** * predictParallel *)
Lemma predict_ranges_cover threads rows :
  1 <= threads -> 1 <= rows -> covers_exactly_once rows (predict_parallel_ranges threads rows).
Proof.
  intros Ht Hr. unfold covers_exactly_once, predict_parallel_ranges.
  rewrite ranges_prefix. f_equal.
  pose proof (chunk_covers rows (num_workers threads rows) (num_workers_pos _ _ Ht Hr)). lia.
Qed.

Lemma sequential_map {X Y} (pred : X -> Y) (rows : list X) (before after : list (option Y)) :
  length before = length rows ->
  sequential_result (fun i _ => option_map pred (nth_error rows i)) before after ->
  after = map (fun x => Some (pred x)) rows.
Proof.
  intros Hl [Ha H]. apply nth_error_ext. intros i. rewrite nth_error_map.
  destruct (nth_error before i) as [b|] eqn:E.
  - rewrite (H _ _ E).
    assert (i < length rows) by (rewrite <- Hl; apply nth_error_Some; congruence).
    destruct (nth_error rows i) as [x|] eqn:Ex; [reflexivity|].
    apply nth_error_None in Ex. lia.
  - apply nth_error_None in E.
    assert (nth_error rows i = None) as -> by (apply nth_error_None; lia).
    apply nth_error_None. lia.
Qed.

Lemma predict_parallel_eq_sequential {X Y} (pred : X -> Y) threads (rows : list X)
      (before after : list (option Y)) ps :
  1 <= threads -> rows <> [] -> length before = length rows ->
  isteps (slot_body (fun i _ => option_map pred (nth_error rows i)))
     (before, range_workers (predict_parallel_ranges threads (length rows))) (after, ps) ->
  all_done ps ->
  after = map Some (predict_sequential pred rows).
Proof.
  intros Ht Hr Hl Hs Hd.
  unfold predict_sequential. rewrite map_map.
  apply (sequential_map pred rows before); [exact Hl|].
  eapply covering_ranges_sequential; eauto.
  rewrite Hl. apply predict_ranges_cover; [exact Ht|].
  destruct rows; [easy|simpl; lia].
Qed.
