(** C58 - output transformations of sklearn/lightgbm. *)
From Coq Require Import List Arith ZArith Bool Lia Reals Lra.
From Verif Require Import Base.Num Base.RTac Model.LgbTransform Spec.LgbTransform Proofs.LgbTransformP.
Import ListNotations.
Local Open Scope R_scope.

(** The softmax of the compact predictor is the mathematical one (reals). *)
Theorem C58_leaves_softmax : forall l : list R, l <> [] -> @leaves_softmax RNum l = map (softmax_of l) l.
Proof. exact leaves_softmax_R. Qed.

(** The mathematical one: positive, sums to one, strictly increasing in the score. *)
Theorem C58_softmax_probabilities : forall l : list R, l <> [] ->
  (forall v, 0 < softmax_of l v) /\ Rsum (map (softmax_of l) l) = 1
  /\ forall v w, v < w -> softmax_of l v < softmax_of l w.
Proof.
  intros l H. assert (HS : 0 < Rsum (map exp l)) by (apply Rsum_pos; [exact H|intros; apply exp_pos]).
  split; [|split].
  - intros v. apply Rdiv_lt_0_compat; [apply exp_pos|exact HS].
  - unfold softmax_of. rewrite <- (map_map exp (fun e => e / Rsum (map exp l))), Rsum_div. field. lra.
  - intros v w Hvw. unfold softmax_of, Rdiv. apply Rmult_lt_compat_r; [now apply Rinv_0_lt_compat|now apply exp_increasing].
Qed.

(** The Predictor's softmax: numbers in [0,1], one per score, each within (n+2) * 1e-15 of
    the mathematical value, with sum between 1 - n * 1e-15 and 1, never inverting the order
    of two scores. *)
Theorem C58_stable_softmax : forall l : list R, l <> [] ->
  exists g : R -> R, @stable_softmax RNum l = map g l
  /\ (forall v, In v l -> 0 <= g v <= 1 /\ Rabs (g v - softmax_of l v) <= (INR (List.length l) + 2) * peps_R)
  /\ 1 - INR (List.length l) * peps_R <= Rsum (@stable_softmax RNum l) <= 1
  /\ (forall v w, In v l -> In w l -> v <= w -> g v <= g w).
Proof.
  intros l H. exists (fun v => @ensure RNum (@stable_exp RNum (v - @slice_max RNum l) / Rsum (map (fun v => @stable_exp RNum (v - @slice_max RNum l)) l))).
  rewrite (stable_softmax_R l H). split; [reflexivity|]. split; [|split].
  - intros v Hv. split; [now apply out_bounds|now apply out_close].
  - now apply out_sum.
  - intros v w Hv Hw. now apply out_mono.
Qed.
Example C58_example : 0 < softmax_of [1; 2; 3] 1 < softmax_of [1; 2; 3] 3.
Proof.
  destruct (C58_softmax_probabilities [1; 2; 3]) as [H1 [_ H2]]; [discriminate|]. split; [apply H1|apply H2; lra].
Qed.

(** The logistic function: strictly between 0 and 1, strictly increasing. *)
Theorem C58_logistic : (forall x, 0 < logistic x < 1) /\ (forall x y, x < y -> logistic x < logistic y)
  /\ logistic 0 = 1 / 2.
Proof.
  split; [exact logistic_bounds|]. split; [exact logistic_increasing|]. unfold logistic. rewrite Ropp_0, exp_0. lra.
Qed.
(** The compact predictor's sigmoid equals it on [-500, 500] and is 0 or 1 outside; the
    Predictor's is everywhere within 1e-15 of it, in [0,1] and never decreasing. *)
Theorem C58_leaves_sigmoid : forall x : R,
  (-500 <= x <= 500 -> @leaves_sigmoid RNum x = logistic x)
  /\ (500 < x -> @leaves_sigmoid RNum x = 1) /\ (x < -500 -> @leaves_sigmoid RNum x = 0).
Proof.
  intros x. unfold leaves_sigmoid. rewrite (sigmoid_with_R (fun x => x)).
  destruct (Rltb_spec 500 x); [repeat split; intros; lra|]. destruct (Rltb_spec x (-500)); repeat split; intros; lra.
Qed.
Theorem C58_stable_sigmoid : forall x y : R,
  0 <= @stable_sigmoid RNum x <= 1
  /\ Rabs (@stable_sigmoid RNum x - logistic x) <= peps_R
  /\ (x <= y -> @stable_sigmoid RNum x <= @stable_sigmoid RNum y).
Proof.
  assert (B : forall x : R, 0 <= @stable_sigmoid RNum x <= 1 /\ Rabs (@stable_sigmoid RNum x - logistic x) <= peps_R).
  { intros x. unfold stable_sigmoid. rewrite sigmoid_with_R. pose proof (logistic_bounds x). pose proof peps_pos.
    destruct (Rltb_spec 500 x) as [H1|H1].
    - pose proof (logistic_far x H1). split; [lra|]. apply Rabs_le. lra.
    - destruct (Rltb_spec x (-500)) as [H2|H2].
      + pose proof (logistic_near x H2). split; [lra|]. apply Rabs_le. lra.
      + destruct (ensure_bounds (logistic x)) as [H3 H4]; [lra|]. split; [lra|]. apply Rabs_le. lra. }
  intros x y. destruct (B x) as [B1 B2]. split; [exact B1|]. split; [exact B2|]. intros H.
  destruct (B y) as [C1 _]. revert B1 C1. unfold stable_sigmoid. rewrite !sigmoid_with_R. intros B1 C1.
  destruct (Rltb_spec 500 x) as [H1|H1]; destruct (Rltb_spec 500 y) as [H2|H2]; try lra.
  destruct (Rltb_spec x (-500)) as [H3|H3]; destruct (Rltb_spec y (-500)) as [H4|H4]; try lra.
  apply ensure_mono; [left; apply logistic_bounds|]. destruct H as [H| ->]; [left; now apply logistic_increasing|lra].
Qed.

(** Model's own transformation uses a degree-20 polynomial for exp: the probability of raw
    score 30 is below one half and below that of raw score 1; and of two classes with raw
    scores 0 and -30 the second gets the larger share. *)
Lemma taylor_30 : @taylor RNum (-30) > 1.
Proof.
  unfold taylor. cbn [seq fold_left taylor_step fst snd]. unfold taylor_step. cbn [fst snd]. rewrite !nofnat_R.
  rewrite !INR_IZR_INZ. cbn -[Rgt IZR]. lra.
Qed.
Lemma taylor_1 : 0 < @taylor RNum (-1) < 1.
Proof.
  unfold taylor. cbn [seq fold_left taylor_step fst snd]. unfold taylor_step. cbn [fst snd]. rewrite !nofnat_R.
  rewrite !INR_IZR_INZ. cbn -[Rlt IZR]. lra.
Qed.
Lemma half_above : forall a : R, 0 < a < 1 -> 1 / 2 < 1 / (1 + a).
Proof. intros a H. apply Rmult_lt_reg_r with (1 + a); [lra|]. unfold Rdiv at 2. rewrite Rmult_assoc, Rinv_l by lra. lra. Qed.
Lemma half_below : forall a : R, a > 1 -> 1 / (1 + a) < 1 / 2.
Proof. intros a H. apply Rmult_lt_reg_r with (1 + a); [lra|]. unfold Rdiv at 1. rewrite Rmult_assoc, Rinv_l by lra. lra. Qed.
Theorem C58_polynomial_exponential_refuted : forall big : R,
  (exists x y, x < y /\ 1 / 2 < @model_sigmoid RNum big x /\ @model_sigmoid RNum big y < 1 / 2)
  /\ (exists v w a b, v < w /\ @model_softmax RNum big [w; v] = [a; b] /\ a < b).
Proof.
  intros big.
  assert (L : forall x, -700 <= x <= 700 -> @model_exp RNum big x = @taylor RNum x).
  { intros x H. unfold model_exp. rewrite !nlit_R. cbn [nlt RNum].
    destruct (Rltb_spec (700 / 1) x); [lra|]. destruct (Rltb_spec x (-700 / 1)); [lra|]. reflexivity. }
  pose proof taylor_30 as T30. pose proof taylor_1 as T1.
  assert (T0 : @taylor RNum 0 = 1).
  { unfold taylor. cbn [seq fold_left taylor_step fst snd]. unfold taylor_step. cbn [fst snd]. rewrite !nofnat_R.
    rewrite !INR_IZR_INZ. cbn -[IZR]. unfold Rdiv. ring. }
  split.
  - exists 1, 30. split; [lra|]. unfold model_sigmoid. cbn [n1 nadd ndiv nneg RNum]. rewrite !L by lra.
    replace (- (1)) with (-1) by lra. replace (- (30)) with (-30) by lra.
    split; [now apply half_above|now apply half_below].
  - set (t := @taylor RNum (-30) : R) in *.
    assert (E : @model_softmax RNum big [0; -30] = [1 / (1 + t); t / (1 + t)]).
    { unfold model_softmax. assert (EM : @slice_max RNum [0; -30] = 0).
      { unfold slice_max, max_from. cbn [fold_left nlt RNum]. destruct (Rltb_spec 0 (-30)); [lra|reflexivity]. }
      rewrite EM. cbn [map]. cbn [nsub RNum]. replace (0 - 0) with 0 by lra. replace (-30 - 0) with (-30) by lra.
      rewrite !L by lra. rewrite T0. rewrite nsum_R. cbn [Rsum ndiv RNum]. fold t. rewrite Rplus_0_r. reflexivity. }
    exists (-30), 0, (1 / (1 + t)), (t / (1 + t)). split; [lra|]. split; [exact E|].
    unfold Rdiv. apply Rmult_lt_compat_r; [apply Rinv_0_lt_compat; lra|exact T30].
Qed.

Print Assumptions C58_leaves_softmax.
Print Assumptions C58_softmax_probabilities.
Print Assumptions C58_stable_softmax.
Print Assumptions C58_logistic.
Print Assumptions C58_leaves_sigmoid.
Print Assumptions C58_stable_sigmoid.
Print Assumptions C58_polynomial_exponential_refuted.
