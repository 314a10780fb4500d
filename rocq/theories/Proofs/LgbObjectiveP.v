(** Proofs about the objectives: derivatives, minimisers. *)
From Coq Require Import String List Arith ZArith Bool Reals Lra Lia Permutation.
From Coquelicot Require Import Coquelicot.
From Verif Require Import Base.Num Base.GoRes Base.ListX Base.RTac Model.LgbTree Model.LgbHist Model.LgbObjective
  Spec.LgbObjective Proofs.LgbTreeP Proofs.LgbHistP.
Import ListNotations.
Local Open Scope R_scope.

Lemma slope_derive f p g : is_derive f p g -> slope f p g.
Proof. intros K. apply is_derive_Reals. exact K. Qed.
Lemma slope_local (f g : R -> R) p l e :
  0 < e -> (forall q, Rabs (q - p) < e -> f q = g q) -> slope g p l -> slope f p l.
Proof.
  intros He Hq Hg eps Heps. destruct (Hg eps Heps) as [d Hd].
  assert (Hm : 0 < Rmin d e) by (apply Rmin_pos; [apply cond_pos|exact He]).
  exists (mkposreal _ Hm). intros h Hh Hhd. cbn in Hhd.
  assert (Rabs h < d) by (eapply Rlt_le_trans; [exact Hhd|apply Rmin_l]).
  assert (Rabs h < e) by (eapply Rlt_le_trans; [exact Hhd|apply Rmin_r]).
  rewrite (Hq (p + h)) by (replace (p + h - p) with h by lra; assumption).
  rewrite (Hq p) by (replace (p - p) with 0 by lra; rewrite Rabs_R0; lra).
  apply Hd; assumption.
Qed.
Ltac rleb := match goal with |- context [Rleb ?a ?b] => destruct (Rleb_spec a b) end.
(** Two functions with the same slope at a joint *)
Lemma slope_glue (f g1 g2 : R -> R) p l e :
  0 < e ->
  (forall q, Rabs (q - p) < e -> q <= p -> f q = g1 q) ->
  (forall q, Rabs (q - p) < e -> p <= q -> f q = g2 q) ->
  slope g1 p l -> slope g2 p l -> slope f p l.
Proof.
  intros He H1 H2 D1 D2 eps Heps.
  destruct (D1 eps Heps) as [d1 Hd1]. destruct (D2 eps Heps) as [d2 Hd2].
  assert (Hm : 0 < Rmin (Rmin d1 d2) e) by (repeat apply Rmin_pos; try apply cond_pos; exact He).
  exists (mkposreal _ Hm). intros h Hh Hhd. cbn in Hhd.
  pose proof (Rmin_l (Rmin d1 d2) e). pose proof (Rmin_r (Rmin d1 d2) e).
  pose proof (Rmin_l d1 d2). pose proof (Rmin_r d1 d2).
  assert (E0 : Rabs (p - p) < e) by (replace (p - p) with 0 by lra; rewrite Rabs_R0; lra).
  assert (Eh : Rabs (p + h - p) < e) by (replace (p + h - p) with h by lra; lra).
  destruct (Rle_lt_dec h 0).
  - rewrite (H1 (p + h)), (H1 p) by (assumption || lra). apply Hd1; [exact Hh|lra].
  - rewrite (H2 (p + h)), (H2 p) by (assumption || lra). apply Hd2; [exact Hh|lra].
Qed.

(** * Reading the model at the reals *)
Lemma gomin_R (a b : R) : @gomin RNum a b = Rmin a b.
Proof.
  unfold gomin, Rmin. cbn. rcase; destruct (Rle_dec a b); lra.
Qed.
Lemma gomax_R (a b : R) : @gomax RNum a b = Rmax a b.
Proof. unfold gomax, Rmax. cbn. rcase; destruct (Rle_dec a b); lra. Qed.
Lemma cap_R : @cap RNum = 700.
Proof. unfold cap. cbn. lra. Qed.
Lemma tiny_R : @tiny RNum = / 10000000000000000.
Proof. unfold tiny. cbn. lra. Qed.
Lemma tiny_pos : 0 < @tiny RNum.
Proof. rewrite tiny_R. lra. Qed.
Lemma clamp_R (p : R) : Rabs p <= 700 -> @clamp RNum p = p.
Proof.
  intros K. unfold clamp. rewrite gomax_R, gomin_R, cap_R. cbn.
  apply Rabs_le_between in K. rewrite Rmin_left by lra. apply Rmax_right. lra.
Qed.
Lemma half_R : @half RNum = / 2.
Proof. unfold half. cbn. lra. Qed.
Lemma two_R : @two RNum = 2.
Proof. unfold two. cbn. lra. Qed.

(** * Derivatives *)
Lemma l2_slope (p t : R) : slope (fun q => @l2_loss RNum q t) p (@l2_grad RNum p t).
Proof.
  apply slope_derive. unfold l2_loss, l2_grad. rewrite half_R. cbn. auto_derive; [easy|lra].
Qed.
Lemma l2_slope2 (p t : R) : slope (fun q => @l2_grad RNum q t) p (@l2_hess RNum p t).
Proof. apply slope_derive. unfold l2_grad, l2_hess. cbn. auto_derive; [easy|lra]. Qed.

Lemma huber_slope (dl p t : R) : 0 < dl -> slope (fun q => @huber_loss RNum dl q t) p (@huber_grad RNum dl p t).
Proof.
  intros Hd. unfold huber_loss, huber_grad. rewrite half_R. cbn.
  set (mid := fun q => / 2 * (q - t) * (q - t)).
  set (up := fun q => dl * ((q - t) - / 2 * dl)).
  set (dn := fun q => dl * (- (q - t) - / 2 * dl)).
  assert (Dm : slope mid p (p - t)) by (apply slope_derive; unfold mid; auto_derive; [easy|lra]).
  assert (Du : slope up p dl) by (apply slope_derive; unfold up; auto_derive; [easy|lra]).
  assert (Dd : slope dn p (- dl)) by (apply slope_derive; unfold dn; auto_derive; [easy|lra]).
  destruct (Rlt_le_dec (p - t) (- dl)) as [L|L]; [|destruct (Rle_lt_dec (p - t) (- dl)) as [L1|L1];
    [|destruct (Rlt_le_dec (p - t) dl) as [U|U]; [|destruct (Rle_lt_dec (p - t) dl) as [U1|U1]]]].
  - (* below *)
    rewrite Rabs_left by lra. rleb; [lra|]. rcase; [lra|].
    apply slope_local with (g := dn) (e := - dl - (p - t)); [lra| |exact Dd].
    intros q Hq. apply Rabs_def2 in Hq. rewrite Rabs_left by lra. rcase; [lra|]. unfold dn. lra.
  - (* lower joint *)
    assert (E : p - t = - dl) by lra. rewrite Rabs_left by lra. rleb; [|lra].
    apply slope_glue with (g1 := dn) (g2 := mid) (e := dl); [lra| | |rewrite E; exact Dd|exact Dm].
    + intros q Hq Hle. apply Rabs_def2 in Hq. rewrite Rabs_left by lra.
      rcase; unfold dn; [|lra]. replace q with p by lra. rewrite E. field.
    + intros q Hq Hle. apply Rabs_def2 in Hq. rleb; [reflexivity|].
      exfalso. match goal with Hx : dl < _ |- _ => revert Hx end. apply Rle_not_lt. apply Rabs_le. lra.
  - (* middle *)
    assert (K : Rabs (p - t) <= dl) by (apply Rabs_le; lra). rleb; [|lra].
    apply slope_local with (g := mid) (e := Rmin (p - t + dl) (dl - (p - t))); [apply Rmin_pos; lra| |exact Dm].
    intros q Hq. pose proof (Rmin_l (p - t + dl) (dl - (p - t))). pose proof (Rmin_r (p - t + dl) (dl - (p - t))).
    apply Rabs_def2 in Hq. rleb; [reflexivity|]. exfalso. match goal with Hx : dl < _ |- _ => revert Hx end. apply Rle_not_lt. apply Rabs_le. lra.
  - (* upper joint *)
    assert (E : p - t = dl) by lra. rewrite Rabs_pos_eq by lra. rleb; [|lra].
    apply slope_glue with (g1 := mid) (g2 := up) (e := dl); [lra| | |exact Dm|rewrite E; exact Du].
    + intros q Hq Hle. apply Rabs_def2 in Hq. rleb; [reflexivity|].
      exfalso. match goal with Hx : dl < _ |- _ => revert Hx end. apply Rle_not_lt. apply Rabs_le. lra.
    + intros q Hq Hle. apply Rabs_def2 in Hq. rewrite Rabs_pos_eq by lra.
      rcase; unfold up; [|lra]. replace q with p by lra. rewrite E. field.
  - (* above *)
    rewrite Rabs_pos_eq by lra. rleb; [lra|]. rcase; [|lra].
    apply slope_local with (g := up) (e := p - t - dl); [lra| |exact Du].
    intros q Hq. apply Rabs_def2 in Hq. rewrite Rabs_pos_eq by lra. rcase; [lra|]. reflexivity.
Qed.
Lemma huber_slope2 (dl p t : R) :
  Rabs (p - t) < dl -> slope (fun q => @huber_grad RNum dl q t) p (@huber_hess RNum dl p t).
Proof.
  intros K. unfold huber_grad, huber_hess. cbn. rleb; [|lra].
  apply slope_local with (g := fun q => q - t) (e := dl - Rabs (p - t)); [lra| |].
  - intros q Hq. rleb; [reflexivity|]. exfalso. pose proof (Rabs_triang (q - p) (p - t)).
    replace (q - p + (p - t)) with (q - t) in * by lra. lra.
  - apply slope_derive. auto_derive; [easy|lra].
Qed.

Lemma fair_slope (c p t : R) : 0 < c -> slope (fun q => @fair_loss RNum c q t) p (@fair_grad RNum c p t).
Proof.
  intros Hc. unfold fair_loss, fair_grad. cbn.
  set (up := fun q => c * c * ((q - t) / c - ln (1 + (q - t) / c))).
  set (dn := fun q => c * c * ((t - q) / c - ln (1 + (t - q) / c))).
  assert (Du : t <= p -> slope up p (c * (p - t) / (p - t + c))).
  { intros L. apply slope_derive. unfold up.
    assert (0 <= (p - t) / c) by (apply Rmult_le_pos; [lra|apply Rlt_le, Rinv_0_lt_compat; lra]).
    auto_derive; [unfold Rdiv in *; lra|]. field. split; lra. }
  assert (Dd : p <= t -> slope dn p (c * (p - t) / (t - p + c))).
  { intros L. apply slope_derive. unfold dn.
    assert (0 <= (t - p) / c) by (apply Rmult_le_pos; [lra|apply Rlt_le, Rinv_0_lt_compat; lra]).
    auto_derive; [unfold Rdiv in *; lra|]. field. split; lra. }
  destruct (Rtotal_order p t) as [L|[E|L]].
  - replace (Rabs (p - t)) with (t - p) by (rewrite Rabs_left by lra; lra).
    apply slope_local with (g := dn) (e := t - p); [lra| |apply Dd; lra].
    intros q Hq. apply Rabs_def2 in Hq. replace (Rabs (q - t)) with (t - q) by (rewrite Rabs_left by lra; lra). reflexivity.
  - subst t. replace (p - p) with 0 by lra. rewrite Rabs_R0.
    apply slope_glue with (g1 := dn) (g2 := up) (e := 1); [lra| | | |].
    + intros q _ Hq. replace (Rabs (q - p)) with (p - q) by (rewrite Rabs_left1 by lra; lra). reflexivity.
    + intros q _ Hq. rewrite Rabs_pos_eq by lra. reflexivity.
    + assert (K := Dd (Rle_refl p)). replace (p - p) with 0 in K by lra. exact K.
    + assert (K := Du (Rle_refl p)). replace (p - p) with 0 in K by lra. exact K.
  - rewrite (Rabs_pos_eq (p - t)) by lra.
    apply slope_local with (g := up) (e := p - t); [lra| |apply Du; lra].
    intros q Hq. apply Rabs_def2 in Hq. rewrite Rabs_pos_eq by lra. reflexivity.
Qed.
Lemma fair_slope2 (c p t : R) : 0 < c -> slope (fun q => @fair_grad RNum c q t) p (@fair_hess RNum c p t).
Proof.
  intros Hc. unfold fair_grad, fair_hess. cbn.
  set (up := fun q => c * (q - t) / (q - t + c)).
  set (dn := fun q => c * (q - t) / (t - q + c)).
  assert (Du : t <= p -> slope up p (c * c / ((p - t + c) * (p - t + c)))).
  { intros L. apply slope_derive. unfold up. auto_derive; [lra|]. field. lra. }
  assert (Dd : p <= t -> slope dn p (c * c / ((t - p + c) * (t - p + c)))).
  { intros L. apply slope_derive. unfold dn. auto_derive; [lra|]. field. lra. }
  destruct (Rtotal_order p t) as [L|[E|L]].
  - replace (Rabs (p - t)) with (t - p) by (rewrite Rabs_left by lra; lra).
    apply slope_local with (g := dn) (e := t - p); [lra| |apply Dd; lra].
    intros q Hq. apply Rabs_def2 in Hq. replace (Rabs (q - t)) with (t - q) by (rewrite Rabs_left by lra; lra). reflexivity.
  - subst t. replace (p - p) with 0 by lra. rewrite Rabs_R0.
    apply slope_glue with (g1 := dn) (g2 := up) (e := 1); [lra| | | |].
    + intros q _ Hq. replace (Rabs (q - p)) with (p - q) by (rewrite Rabs_left1 by lra; lra). reflexivity.
    + intros q _ Hq. rewrite Rabs_pos_eq by lra. reflexivity.
    + assert (K := Dd (Rle_refl p)). replace (p - p) with 0 in K by lra. exact K.
    + assert (K := Du (Rle_refl p)). replace (p - p) with 0 in K by lra. exact K.
  - rewrite (Rabs_pos_eq (p - t)) by lra.
    apply slope_local with (g := up) (e := p - t); [lra| |apply Du; lra].
    intros q Hq. apply Rabs_def2 in Hq. rewrite Rabs_pos_eq by lra. reflexivity.
Qed.

Lemma l1_slope (p t : R) : / 10000000 < Rabs (p - t) -> slope (fun q => Rabs (q - t)) p (@l1_grad RNum p t).
Proof.
  intros K. unfold l1_grad. cbn. rcase; [lra|]. rcase.
  - apply slope_local with (g := fun q => q - t) (e := p - t); [lra| |apply slope_derive; auto_derive; [easy|lra]].
    intros q Hq. apply Rabs_def2 in Hq. apply Rabs_pos_eq. lra.
  - assert (p - t < 0). { destruct H0; [lra|]. exfalso. rewrite H0, Rabs_R0 in K. lra. }
    apply slope_local with (g := fun q => t - q) (e := t - p); [lra| |apply slope_derive; auto_derive; [easy|lra]].
    intros q Hq. apply Rabs_def2 in Hq. rewrite Rabs_left by lra. lra.
Qed.
Lemma quantile_slope (a p t : R) : p <> t -> slope (fun q => @quantile_loss RNum a q t) p (@quantile_grad RNum a p t).
Proof.
  intros K. unfold quantile_loss, quantile_grad. cbn. rcase; [|rcase; [|exfalso; apply K; lra]].
  - apply slope_local with (g := fun q => a * (q - t)) (e := p - t); [lra| |apply slope_derive; auto_derive; [easy|lra]].
    intros q Hq. apply Rabs_def2 in Hq. rcase; [reflexivity|lra].
  - apply slope_local with (g := fun q => (a - 1) * (q - t)) (e := t - p); [lra| |apply slope_derive; auto_derive; [easy|lra]].
    intros q Hq. apply Rabs_def2 in Hq. rcase; [lra|reflexivity].
Qed.

Lemma poisson_loss_R (p t : R) : p <= 700 -> @poisson_loss RNum p t = poisson_nll p t.
Proof. intros K. unfold poisson_loss. rewrite gomin_R, cap_R, Rmin_left by lra. reflexivity. Qed.
Lemma poisson_grad_R (p t : R) : p <= 700 -> @poisson_grad RNum p t = exp p - t.
Proof. intros K. unfold poisson_grad. rewrite gomin_R, cap_R, Rmin_left by lra. reflexivity. Qed.
Lemma poisson_slope (p t : R) : p < 700 -> slope (fun q => @poisson_loss RNum q t) p (@poisson_grad RNum p t).
Proof.
  intros K. rewrite poisson_grad_R by lra.
  apply slope_local with (g := fun q => poisson_nll q t) (e := 700 - p); [lra| |].
  - intros q Hq. apply Rabs_def2 in Hq. apply poisson_loss_R. lra.
  - apply slope_derive. unfold poisson_nll. auto_derive; [easy|lra].
Qed.
Lemma poisson_slope2 (p t : R) : p < 700 -> slope (fun q => @poisson_grad RNum q t) p (@poisson_hess RNum p t).
Proof.
  intros K. unfold poisson_hess. rewrite gomin_R, cap_R, Rmin_left by lra. cbn.
  apply slope_local with (g := fun q => exp q - t) (e := 700 - p); [lra| |].
  - intros q Hq. apply Rabs_def2 in Hq. apply poisson_grad_R. lra.
  - apply slope_derive. auto_derive; [easy|lra].
Qed.
Lemma poisson_slope_high (p t : R) : 700 < p -> slope (fun q => @poisson_loss RNum q t) p (- t).
Proof.
  intros K. apply slope_local with (g := fun q => exp 700 - t * q) (e := p - 700); [lra| |].
  - intros q Hq. apply Rabs_def2 in Hq. unfold poisson_loss. rewrite gomin_R, cap_R, Rmin_right by lra. reflexivity.
  - apply slope_derive. auto_derive; [easy|lra].
Qed.

Lemma within e (p q : R) : Rabs p < 700 -> Rabs (q - p) < e -> e = 700 - Rabs p -> Rabs q <= 700.
Proof.
  intros H1 H2 ->. pose proof (Rabs_triang (q - p) p). replace (q - p + p) with q in H by lra. lra.
Qed.
Lemma gamma_loss_R (p t : R) : Rabs p <= 700 -> 0 < t -> @gamma_loss RNum p t = gamma_deviance p t.
Proof.
  intros K Ht. unfold gamma_loss. rewrite clamp_R by exact K. rewrite two_R. cbn. rcase; [lra|]. reflexivity.
Qed.
Lemma gamma_dev_slope (p t : R) : 0 < t -> slope (fun q => gamma_deviance q t) p (2 * (1 - t * exp (- p))).
Proof.
  intros Ht. apply slope_derive. unfold gamma_deviance. pose proof (exp_pos p).
  assert (0 < exp p / t) by (apply Rdiv_lt_0_compat; lra).
  auto_derive.
  - split; [exact H0|]. split; [apply Rgt_not_eq; lra|easy].
  - rewrite exp_Ropp. field. split; lra.
Qed.
Lemma gamma_slope (p t : R) : Rabs p < 700 -> 0 < t -> slope (fun q => @gamma_loss RNum q t) p (@gamma_grad RNum p t).
Proof.
  intros K Ht. unfold gamma_grad. rewrite clamp_R, two_R by lra. cbn.
  apply slope_local with (g := fun q => gamma_deviance q t) (e := 700 - Rabs p); [lra| |now apply gamma_dev_slope].
  intros q Hq. apply gamma_loss_R; [|exact Ht]. eapply within; eauto.
Qed.
Lemma gamma_slope2 (p t : R) : Rabs p < 700 -> @tiny RNum <= 2 * t * exp (- p) ->
  slope (fun q => @gamma_grad RNum q t) p (@gamma_hess RNum p t).
Proof.
  intros K Hm. unfold gamma_hess. rewrite clamp_R, two_R by lra. rewrite gomax_R. cbn [nmul nneg nexp RNum].
  rewrite Rmax_right by exact Hm.
  apply slope_local with (g := fun q => 2 * (1 - t * exp (- q))) (e := 700 - Rabs p); [lra| |].
  - intros q Hq. unfold gamma_grad. rewrite clamp_R, two_R; [reflexivity|]. eapply within; eauto.
  - apply slope_derive. auto_derive; [easy|]. lra.
Qed.

(** * Binary log loss *)
Lemma sigmoid_R (p : R) : Rabs p <= 700 -> @sigmoid RNum p = 1 / (1 + exp (- p)).
Proof. intros K. unfold sigmoid. now rewrite clamp_R. Qed.
Lemma log_loss_slope (p t : R) : slope (fun q => log_loss q t) p (1 / (1 + exp (- p)) - t).
Proof.
  apply slope_derive. unfold log_loss. pose proof (exp_pos p). auto_derive; [lra|].
  rewrite exp_Ropp. field. lra.
Qed.
Lemma binary_slope (p t : R) : Rabs p <= 700 -> slope (fun q => log_loss q t) p (@binary_grad RNum p t).
Proof. intros K. unfold binary_grad. rewrite sigmoid_R by exact K. apply log_loss_slope. Qed.
Lemma binary_slope2 (p t : R) : Rabs p < 700 -> @tiny RNum <= @sigmoid RNum p * (1 - @sigmoid RNum p) ->
  slope (fun q => @binary_grad RNum q t) p (@binary_hess RNum p t).
Proof.
  intros K Hm. unfold binary_hess. rewrite gomax_R. cbn [nmul nsub n1 RNum] in *. rewrite Rmax_right by exact Hm.
  rewrite sigmoid_R by lra.
  apply slope_local with (g := fun q => 1 / (1 + exp (- q)) - t) (e := 700 - Rabs p); [lra| |].
  - intros q Hq. unfold binary_grad. rewrite sigmoid_R; [reflexivity|]. eapply within; eauto.
  - pose proof (exp_pos (- p)). apply slope_derive. auto_derive; [lra|]. field. lra.
Qed.
Lemma log_loss_neg (p : R) : ln (1 + exp p) = p + ln (1 + exp (- p)).
Proof.
  rewrite <- (ln_exp p) at 2. pose proof (exp_pos p). pose proof (exp_pos (- p)).
  rewrite <- ln_mult by lra. f_equal. rewrite exp_Ropp. field. lra.
Qed.
Lemma binary_loss_R (p t : R) : Rabs p <= 700 ->
  @binary_loss RNum p t = log_loss p t + (if Rle_dec 0 p then (2 * t - 1) * p else 0).
Proof.
  intros K. unfold binary_loss. rewrite clamp_R by exact K. cbn.
  unfold log_loss. rcase; destruct (Rle_dec 0 p); try lra.
  rewrite (log_loss_neg p). lra.
Qed.

(** * Tweedie *)
Section Tweedie.
  Variables (pow : R -> R -> R) (v : R).
  Hypothesis Hpow : forall x y, 0 < x -> pow x y = Rpower x y.
  Hypothesis Hv : 1 < v < 2.
  Lemma clamped (p : R) : Rabs p <= 700 -> Rabs ((2 - v) * p) <= 700 /\ Rabs ((1 - v) * p) <= 700.
  Proof.
    intros K. pose proof (Rabs_pos p). rewrite !Rabs_mult. rewrite (Rabs_pos_eq (2 - v)), (Rabs_left (1 - v)) by lra.
    split; nra.
  Qed.
  Lemma tweedie_loss_R (p t : R) : Rabs p <= 700 -> 0 <= t ->
    @tweedie_loss RNum pow v p t = tweedie_deviance v p t.
  Proof.
    intros K Ht. unfold tweedie_loss. rewrite clamp_R, two_R by exact K. cbn.
    unfold tweedie_deviance. pose proof (exp_pos p).
    rcase; destruct (Req_EM_T t 0); try contradiction.
    - subst. rewrite Hpow by lra. field. lra.
    - rewrite !Hpow by lra. reflexivity.
  Qed.
  Lemma power_exp p y : Rpower (exp p) y = exp (y * p).
  Proof. unfold Rpower. now rewrite ln_exp. Qed.
  Lemma tweedie_dev_slope (p t : R) :
    slope (fun q => tweedie_deviance v q t) p (2 * (exp ((2 - v) * p) - t * exp ((1 - v) * p))).
  Proof.
    unfold tweedie_deviance. set (k := if Req_EM_T t 0 then 0 else Rpower t (2 - v)).
    apply slope_local with (e := 1)
      (g := fun q => 2 * (k / ((1 - v) * (2 - v)) - t * exp ((1 - v) * q) / (1 - v) + exp ((2 - v) * q) / (2 - v))).
    - lra.
    - intros q _. now rewrite !power_exp.
    - apply slope_derive. auto_derive; [easy|]. field. lra.
  Qed.
  Lemma tweedie_grad_R (p t : R) : Rabs p <= 700 ->
    @tweedie_grad RNum v p t = 2 * (exp ((2 - v) * p) - t * exp ((1 - v) * p)).
  Proof.
    intros K. destruct (clamped p K) as [K1 K2]. unfold tweedie_grad. rewrite two_R. cbn [nmul nsub nexp n1 RNum].
    rewrite !clamp_R by assumption. reflexivity.
  Qed.
  Lemma tweedie_slope (p t : R) : Rabs p < 700 -> 0 <= t ->
    slope (fun q => @tweedie_loss RNum pow v q t) p (@tweedie_grad RNum v p t).
  Proof.
    intros K Ht. rewrite tweedie_grad_R by lra.
    apply slope_local with (g := fun q => tweedie_deviance v q t) (e := 700 - Rabs p); [lra| |apply tweedie_dev_slope].
    intros q Hq. apply tweedie_loss_R; [|exact Ht]. eapply within; eauto.
  Qed.
  Lemma tweedie_slope2 (p t : R) : Rabs p < 700 -> 0 <= t ->
    @tiny RNum <= 2 * ((2 - v) * exp ((2 - v) * p) - (1 - v) * t * exp ((1 - v) * p)) ->
    slope (fun q => @tweedie_grad RNum v q t) p (@tweedie_hess RNum v p t).
  Proof.
    intros K Ht Hm. unfold tweedie_hess. rewrite gomax_R, two_R. cbn [nmul nsub nexp n1 nabs RNum].
    destruct (clamped p) as [K1 K2]; [lra|]. rewrite !clamp_R by assumption.
    pose proof tiny_pos as Hp. rewrite Rabs_pos_eq by lra.
    rewrite Rmax_right by exact Hm.
    apply slope_local with (g := fun q => 2 * (exp ((2 - v) * q) - t * exp ((1 - v) * q))) (e := 700 - Rabs p); [lra| |].
    - intros q Hq. apply tweedie_grad_R. eapply within; eauto.
    - apply slope_derive. auto_derive; [easy|]. lra.
  Qed.
End Tweedie.

(** * Positive hessians *)
Lemma Rmax_tiny (x : R) : 0 < Rmax (@tiny RNum) x.
Proof. eapply Rlt_le_trans; [apply tiny_pos|apply Rmax_l]. Qed.
Lemma hess_positive pow floori ceili (o : string) (hd fc qa tv : R) ob :
  @create RNum pow floori ceili o hd fc qa tv = Ok ob -> forall p t : R, 0 < o_hess ob p t.
Proof.
  assert (P1 : forall p t : R, 0 < @l2_hess RNum p t) by (intros; unfold l2_hess; cbn; lra).
  intros K p t. unfold create in K.
  repeat match type of K with
  | (if any _ _ then _ else _) = _ => match type of K with (if ?c then _ else _) = _ => destruct c end; [injection K as <-|]
  end; try discriminate; cbn [o_hess l2 l1 huber fair poisson quantile_obj gamma tweedie lambdarank binary adapter]; try apply P1.
  - unfold huber_hess. cbn. rleb; lra.
  - set (c := fair_c _). assert (Hc : 0 < c).
    { unfold c, fair_c. cbn. repeat rcase; lra. }
    clearbody c. unfold fair_hess. cbn. pose proof (Rabs_pos (p - t)).
    change (num RNum) with R in *. apply Rdiv_lt_0_compat; nra.
  - apply exp_pos.
  - unfold gamma_hess. rewrite gomax_R. apply Rmax_tiny.
  - unfold tweedie_hess. rewrite gomax_R. apply Rmax_tiny.
  - unfold binary_hess. rewrite gomax_R. apply Rmax_tiny.
  - unfold binary_hess. rewrite gomax_R. apply Rmax_tiny.
Qed.

(** * Multiclass *)
Lemma Rsum_exp_pos (l : list R) : l <> [] -> 0 < Rsum (map exp l).
Proof.
  destruct l as [|x r]; [easy|]. intros _. cbn. pose proof (exp_pos x).
  assert (0 <= Rsum (map exp r)); [|lra]. apply Rsum_nonneg. intros y Hy. apply in_map_iff in Hy.
  destruct Hy as (z & <- & _). apply Rlt_le, exp_pos.
Qed.
Lemma Rsum_exp_shift (m : R) (l : list R) : Rsum (map (fun v => exp (v - m)) l) = exp (- m) * Rsum (map exp l).
Proof.
  rewrite <- Rsum_map_scal. apply Rsum_map_ext. intros x _. rewrite <- exp_plus. f_equal. lra.
Qed.
Lemma multi_loss_R c (l : list R) : (c < length l)%nat -> @multi_loss RNum c l = Ok (softmax_loss c l).
Proof.
  intros K. unfold multi_loss. cbn [nexp nsub nadd nlog nneg RNum].
  destruct (nth_error l c) as [v|] eqn:E; [|apply nth_error_None in E; lia].
  rewrite nsum_R. set (m := @top RNum l). unfold softmax_loss.
  rewrite (nth_error_nth l c 0 E).
  change (map (fun v0 : num RNum => exp (v0 - m)) l) with (map (fun v0 : R => exp (v0 - m)) l).
  rewrite Rsum_exp_shift.
  assert (l <> []) by (intros ->; cbn in K; lia).
  rewrite ln_mult by (apply exp_pos || now apply Rsum_exp_pos). rewrite ln_exp.
  change (@nth_error (num RNum) l c) with (@nth_error R l c). rewrite E. f_equal. unR. lra.
Qed.
Lemma softmax_R (l : list R) : l <> [] -> @softmax RNum l = map (fun v => exp v / Rsum (map exp l)) l.
Proof.
  intros Hl. unfold softmax. cbn [nexp nsub nlt ndiv n0 RNum]. rewrite nsum_R. set (m := @top RNum l).
  change (map (fun v0 : num RNum => exp (v0 - m)) l) with (map (fun v0 : R => exp (v0 - m)) l).
  pose proof (Rsum_exp_pos l Hl) as Hs. pose proof (exp_pos (- m)) as Hm.
  rewrite Rsum_exp_shift. rcase.
  - rewrite map_map. apply map_ext. intros v. replace (v - m) with (- m + v) by lra. rewrite exp_plus. field. lra.
  - exfalso. revert H. apply Rlt_not_le. now apply Rmult_lt_0_compat.
Qed.
Lemma Rsum_upd k (l : list R) (f : R -> R) v :
  (k < length l)%nat -> Rsum (map f (upd k (fun _ => v) l)) = Rsum (map f l) - f (nth k l 0) + f v.
Proof.
  revert l; induction k as [|k IH]; intros [|x r] K; cbn in K; try lia; cbn [upd map Rsum nth].
  - lra.
  - rewrite IH by lia. lra.
Qed.
Lemma nth_upd_same k (l : list R) v : (k < length l)%nat -> nth k (upd k (fun _ => v) l) 0 = v.
Proof. revert l; induction k as [|k IH]; intros [|x r] K; cbn in K; try lia; cbn; [reflexivity|apply IH; lia]. Qed.
Lemma nth_upd_other k c (l : list R) v : k <> c -> nth c (upd k (fun _ => v) l) 0 = nth c l 0.
Proof.
  revert c l; induction k as [|k IH]; intros [|c] [|x r] K; cbn; try lia; try reflexivity. apply IH. lia.
Qed.
Lemma softmax_loss_slope c k (l : list R) :
  (k < length l)%nat ->
  slope (fun v => softmax_loss c (upd k (fun _ => v) l)) (nth k l 0)
        (exp (nth k l 0) / Rsum (map exp l) - (if Nat.eqb k c then 1 else 0)).
Proof.
  intros Hk. assert (Hl : l <> []) by (intros ->; cbn in Hk; lia).
  pose proof (Rsum_exp_pos l Hl) as Hs. set (S := Rsum (map exp l)) in *. set (x := nth k l 0) in *.
  destruct (Nat.eqb_spec k c) as [->|Hne].
  - apply slope_local with (e := 1) (g := fun v => ln (S - exp x + exp v) - v); [lra| |].
    + intros q _. unfold softmax_loss. rewrite Rsum_upd, nth_upd_same by exact Hk. reflexivity.
    + apply slope_derive. auto_derive; [lra|]. field. lra.
  - apply slope_local with (e := 1) (g := fun v => ln (S - exp x + exp v) - nth c l 0); [lra| |].
    + intros q _. unfold softmax_loss. rewrite Rsum_upd by exact Hk. rewrite nth_upd_other by exact Hne. reflexivity.
    + apply slope_derive. auto_derive; [lra|]. field. lra.
Qed.
Lemma multi_grad_R c k (l : list R) :
  (k < length l)%nat ->
  nth_error (@multi_grad RNum c l) k = Some (exp (nth k l 0) / Rsum (map exp l) - (if Nat.eqb k c then 1 else 0)).
Proof.
  intros Hk. assert (Hl : l <> []) by (intros ->; cbn in Hk; lia).
  unfold multi_grad, mapi. rewrite nth_error_mapi_from. cbn [Nat.add]. rewrite softmax_R by exact Hl.
  unR. rewrite nth_error_map. rewrite (nth_error_nth' l 0 Hk). cbn. destruct (Nat.eqb k c); f_equal; lra.
Qed.
Lemma multi_hess_R k (l : list R) :
  (k < length l)%nat ->
  let p := exp (nth k l 0) / Rsum (map exp l) in
  nth_error (@multi_hess RNum l) k = Some (Rmax (@tiny RNum) (p * (1 - p))).
Proof.
  intros Hk p. assert (Hl : l <> []) by (intros ->; cbn in Hk; lia).
  unfold multi_hess. rewrite softmax_R by exact Hl. unR. rewrite !nth_error_map.
  rewrite (nth_error_nth' l 0 Hk). cbn [option_map]. fold p. f_equal. cbn [nlt nmul nsub n1 RNum].
  unfold Rmax. rcase; destruct (Rle_dec _ _); lra.
Qed.
Lemma softmax_slope2 k (l : list R) :
  (k < length l)%nat ->
  let p := exp (nth k l 0) / Rsum (map exp l) in
  slope (fun v => exp v / Rsum (map exp (upd k (fun _ => v) l))) (nth k l 0) (p * (1 - p)).
Proof.
  intros Hk p. assert (Hl : l <> []) by (intros ->; cbn in Hk; lia).
  pose proof (Rsum_exp_pos l Hl) as Hs. unfold p. set (S := Rsum (map exp l)) in *. set (x := nth k l 0) in *.
  apply slope_local with (e := 1) (g := fun v => exp v / (S - exp x + exp v)); [lra| |].
  - intros q _. now rewrite Rsum_upd.
  - apply slope_derive. auto_derive; [lra|]. field. lra.
Qed.

(** * Counting targets *)
Lemma upto_sum x (ts : list R) : INR (upto x ts) = Rsum (map (fun t => if Rle_dec t x then 1 else 0) ts).
Proof.
  unfold upto. induction ts as [|t ts IH]; [reflexivity|]. cbn [filter map Rsum].
  destruct (Rle_dec t x); cbn [length]; [rewrite S_INR|]; lra.
Qed.
Lemma below_sum x (ts : list R) : INR (below x ts) = Rsum (map (fun t => if Rlt_dec t x then 1 else 0) ts).
Proof.
  unfold below. induction ts as [|t ts IH]; [reflexivity|]. cbn [filter map Rsum].
  destruct (Rlt_dec t x); cbn [length]; [rewrite S_INR|]; lra.
Qed.
Lemma length_sum {A} (ts : list A) : INR (length ts) = Rsum (map (fun _ => 1) ts).
Proof. rewrite Rsum_map_const. lra. Qed.
(** a point above [p] (below [p]) with no target strictly between *)
Lemma next_above p (ts : list R) : exists q, p < q /\ forall t, In t ts -> t <= p \/ q <= t.
Proof.
  induction ts as [|t ts (q & Hq & IH)]; [exists (p + 1); split; [lra|easy]|].
  destruct (Rle_lt_dec t p).
  - exists q. split; [exact Hq|]. intros u [<-|Hu]; [now left|auto].
  - exists (Rmin q t). split; [now apply Rmin_glb_lt|]. intros u [<-|Hu]; [right; apply Rmin_r|].
    destruct (IH u Hu); [now left|right]. eapply Rle_trans; [apply Rmin_l|assumption].
Qed.
Lemma next_below p (ts : list R) : exists q, q < p /\ forall t, In t ts -> t <= q \/ p <= t.
Proof.
  induction ts as [|t ts (q & Hq & IH)]; [exists (p - 1); split; [lra|easy]|].
  destruct (Rle_lt_dec p t).
  - exists q. split; [exact Hq|]. intros u [<-|Hu]; [now right|auto].
  - exists (Rmax q t). split; [now apply Rmax_lub_lt|]. intros u [<-|Hu]; [left; apply Rmax_r|].
    destruct (IH u Hu); [left|now right]. eapply Rle_trans; [eassumption|apply Rmax_l].
Qed.
Lemma quantile_total a (p q : R) ts : 0 <= a <= 1 ->
  (p <= q -> (forall t, In t ts -> t <= p \/ q <= t) ->
   Rsum (map (@quantile_loss RNum a q) ts) - Rsum (map (@quantile_loss RNum a p) ts)
   = (q - p) * (INR (upto p ts) - (1 - a) * INR (length ts)))
  /\ (p <= q -> Rsum (map (@quantile_loss RNum a q) ts) - Rsum (map (@quantile_loss RNum a p) ts)
      >= (q - p) * (INR (upto p ts) - (1 - a) * INR (length ts)))
  /\ (q <= p -> (forall t, In t ts -> t <= q \/ p <= t) ->
   Rsum (map (@quantile_loss RNum a q) ts) - Rsum (map (@quantile_loss RNum a p) ts)
   = (p - q) * ((1 - a) * INR (length ts) - INR (below p ts)))
  /\ (q <= p -> Rsum (map (@quantile_loss RNum a q) ts) - Rsum (map (@quantile_loss RNum a p) ts)
      >= (p - q) * ((1 - a) * INR (length ts) - INR (below p ts))).
Proof.
  intros Ha. rewrite upto_sum, below_sum, length_sum. unfold quantile_loss. cbn.
  induction ts as [|t ts (I1 & I2 & I3 & I4)]; cbn [map Rsum].
  - repeat split; intros; lra.
  - repeat split.
    + intros Hq Ht. assert (E := I1 Hq (fun u Hu => Ht u (or_intror Hu))).
      destruct (Ht t (or_introl eq_refl)); repeat rcase; destruct (Rle_dec t p); try lra; nra.
    + intros Hq. assert (E := I2 Hq). repeat rcase; destruct (Rle_dec t p); try lra; nra.
    + intros Hq Ht. assert (E := I3 Hq (fun u Hu => Ht u (or_intror Hu))).
      destruct (Ht t (or_introl eq_refl)); repeat rcase; destruct (Rlt_dec t p); try lra; nra.
    + intros Hq. assert (E := I4 Hq). repeat rcase; destruct (Rlt_dec t p); try lra; nra.
Qed.
Lemma quantile_best a (p : R) ts : 0 <= a <= 1 ->
  best_constant (@quantile_loss RNum a) ts p <-> quantile_of (1 - a) ts p.
Proof.
  intros Ha. split.
  - intros K. unfold quantile_of.
    destruct (next_above p ts) as (q & Hq & Nq). destruct (next_below p ts) as (r & Hr & Nr).
    destruct (quantile_total a p q ts Ha) as (I1 & _). destruct (quantile_total a p r ts Ha) as (_ & _ & I3 & _).
    assert (E1 := I1 (Rlt_le _ _ Hq) Nq). assert (E3 := I3 (Rlt_le _ _ Hr) Nr).
    set (Lp := Rsum (map (@quantile_loss RNum a p) ts)) in *. set (Lq := Rsum (map (@quantile_loss RNum a q) ts)) in *.
    set (Lr := Rsum (map (@quantile_loss RNum a r) ts)) in *. assert (K1 : Lp <= Lq) by exact (K q). assert (K3 : Lp <= Lr) by exact (K r). clearbody Lp Lq Lr. split.
    + assert (G : 0 <= (1 - a) * INR (length ts) - INR (below p ts)); [|lra].
      apply Rmult_le_reg_l with (p - r); [lra|]. rewrite Rmult_0_r. eapply Rle_trans; [|apply Req_le, E3]. lra.
    + assert (G : 0 <= INR (upto p ts) - (1 - a) * INR (length ts)); [|lra].
      apply Rmult_le_reg_l with (q - p); [lra|]. rewrite Rmult_0_r. eapply Rle_trans; [|apply Req_le, E1]. lra.
  - intros [K1 K2] q. destruct (quantile_total a p q ts Ha) as (_ & I2 & _ & I4).
    destruct (Rle_lt_dec p q) as [L|L].
    + assert (E := I2 L).
      assert (0 <= (q - p) * (INR (upto p ts) - (1 - a) * INR (length ts))) by (apply Rmult_le_pos; lra). 
      set (Lp := Rsum (map (@quantile_loss RNum a p) ts)) in *. set (Lq := Rsum (map (@quantile_loss RNum a q) ts)) in *.
      change (Lp <= Lq). clearbody Lp Lq. lra.
    + assert (E := I4 (Rlt_le _ _ L)).
      assert (0 <= (p - q) * ((1 - a) * INR (length ts) - INR (below p ts))) by (apply Rmult_le_pos; lra). 
      set (Lp := Rsum (map (@quantile_loss RNum a p) ts)) in *. set (Lq := Rsum (map (@quantile_loss RNum a q) ts)) in *.
      change (Lp <= Lq). clearbody Lp Lq. lra.
Qed.
Lemma abs_quantile (p t : R) : Rabs (p - t) = 2 * @quantile_loss RNum (/ 2) p t.
Proof. unfold quantile_loss. cbn. rcase; [rewrite Rabs_pos_eq by lra|rewrite Rabs_left1 by lra]; lra. Qed.

(** * The exchange sorts *)
Lemma pass_step_seq (pre : list R) : forall todo m done,
  (forall y, In y done -> m <= y) ->
  let i := length pre in
  exists m' rest,
    fold_left (fun l j => if @nlt RNum (nth j l 0) (nth i l 0) then exch i j l else l)
      (seq (S (i + length done)) (length todo)) (pre ++ m :: done ++ todo) = pre ++ m' :: rest
    /\ Permutation (m :: done ++ todo) (m' :: rest) /\ (forall y, In y rest -> m' <= y).
Proof.
  induction todo as [|y todo IH]; intros m done Hd i.
  - cbn [length seq fold_left]. rewrite app_nil_r. exists m, done. auto.
  - cbn [length seq fold_left].
    assert (E1 : nth i (pre ++ m :: done ++ y :: todo) 0 = m).
    { unfold i. rewrite app_nth2, Nat.sub_diag by lia. reflexivity. }
    assert (E2 : nth (S (i + length done)) (pre ++ m :: done ++ y :: todo) 0 = y).
    { unfold i. rewrite app_nth2 by lia. replace (S (length pre + length done) - length pre)%nat with (S (length done)) by lia.
      cbn. rewrite app_nth2, Nat.sub_diag by lia. reflexivity. }
    rewrite E1, E2. cbn [nlt RNum]. destruct (Rltb_spec y m) as [L|L].
    + replace (S (i + length done)) with (length pre + S (length done))%nat by (unfold i; lia).
      rewrite (exch_split pre done todo m y : exch i _ _ = _).
      destruct (IH y (done ++ [m])) as (m' & rest & F & P & B).
      { intros z Hz. apply in_app_iff in Hz. destruct Hz as [Hz|[<-|[]]]; [apply Hd in Hz; lra|lra]. }
      fold i in F. rewrite app_length in F. cbn [length] in F. rewrite <- app_assoc in F. cbn [app] in F.
      replace (S (length pre + S (length done))) with (S (i + (length done + 1))) by (unfold i; lia).
      exists m', rest. split; [exact F|]. split; [|exact B].
      eapply Permutation_trans; [|exact P]. rewrite <- app_assoc. cbn [app].
      change (m :: done ++ y :: todo) with ((m :: done) ++ y :: todo).
      eapply Permutation_trans; [apply Permutation_sym, Permutation_middle|].
      constructor. cbn [app]. apply Permutation_middle.
    + destruct (IH m (done ++ [y])) as (m' & rest & F & P & B).
      { intros z Hz. apply in_app_iff in Hz. destruct Hz as [Hz|[<-|[]]]; [now apply Hd|lra]. }
      fold i in F. rewrite app_length in F. cbn [length] in F. rewrite <- app_assoc in F. cbn [app] in F.
      replace (S (S (i + length done))) with (S (i + (length done + 1))) by lia.
      exists m', rest. split; [exact F|]. split; [|exact B].
      rewrite <- app_assoc in P. cbn [app] in P. exact P.
Qed.
Lemma pass_R (pre : list R) x rest :
  exists m rest', @pass RNum (pre ++ x :: rest) (length pre) = pre ++ m :: rest'
    /\ Permutation (x :: rest) (m :: rest') /\ (forall y, In y rest' -> m <= y).
Proof.
  destruct (pass_step_seq pre rest x [] (fun _ H => match H with end)) as (m & rest' & F & P & B).
  exists m, rest'. split; [|auto]. rewrite <- F. unfold pass. cbn [app length]. rewrite Nat.add_0_r.
  unR. rewrite app_length. cbn [length]. replace (length pre + S (length rest) - S (length pre))%nat with (length rest) by lia.
  reflexivity.
Qed.
(** the first [k] elements are in place *)
Definition front (k : nat) (s : list R) : Prop :=
  forall i j, (i < k)%nat -> (i <= j < length s)%nat -> nth i s 0 <= nth j s 0.
Lemma front_pass k (s : list R) : front k s -> (k < length s)%nat ->
  Permutation s (@pass RNum s k) /\ front (S k) (@pass RNum s k).
Proof.
  intros F Hk. destruct (nth_error s k) as [x|] eqn:E; [|apply nth_error_None in E; lia].
  apply nth_error_split in E. destruct E as (pre & rest & -> & Hl). subst k.
  destruct (pass_R pre x rest) as (m & rest' & E & P & B). unR. rewrite E.
  split; [now apply Permutation_app_head|].
  assert (Hlen : length rest = length rest') by (apply Permutation_length in P; cbn in P; lia).
  intros i j Hi Hj. rewrite app_length in Hj. cbn [length] in Hj.
  assert (G : forall j, (length pre <= j < length pre + S (length rest'))%nat -> In (nth j (pre ++ m :: rest') 0) (x :: rest)).
  { intros j' Hj'. rewrite app_nth2 by lia. eapply Permutation_in; [apply Permutation_sym, P|]. apply nth_In. cbn. lia. }
  destruct (Nat.eq_dec i (length pre)) as [->|Hne].
  - rewrite app_nth2, Nat.sub_diag by lia. cbn [nth].
    destruct (Nat.eq_dec j (length pre)) as [->|Hn]; [rewrite app_nth2, Nat.sub_diag by lia; cbn; lra|].
    rewrite app_nth2 by lia. destruct (j - length pre)%nat as [|d] eqn:Ed; [lia|]. cbn. apply B. apply nth_In. lia.
  - rewrite app_nth1 by lia.
    assert (Ei : nth i pre 0 = nth i (pre ++ x :: rest) 0) by (rewrite app_nth1 by lia; reflexivity).
    destruct (Nat.lt_ge_cases j (length pre)) as [Hj1|Hj1].
    + rewrite app_nth1 by lia. rewrite Ei. replace (nth j pre 0) with (nth j (pre ++ x :: rest) 0) by (rewrite app_nth1 by lia; reflexivity).
      apply F; [lia|]. rewrite app_length. cbn. lia.
    + assert (Hin : In (nth j (pre ++ m :: rest') 0) (x :: rest)) by (apply G; lia).
      apply In_nth with (d := 0) in Hin. destruct Hin as (d & Hd & Ed). rewrite <- Ed, Ei.
      replace (nth d (x :: rest) 0) with (nth (length pre + d) (pre ++ x :: rest) 0)
        by (rewrite app_nth2 by lia; f_equal; lia).
      apply F; [lia|]. rewrite app_length. cbn in *. lia.
Qed.
Lemma passes_R (ts : list R) m : (m <= length ts)%nat ->
  Permutation ts (fold_left (@pass RNum) (seq 0 m) ts) /\ front m (fold_left (@pass RNum) (seq 0 m) ts).
Proof.
  induction m as [|m IH]; intros Hm.
  - cbn. split; [reflexivity|]. intros i j Hi. lia.
  - rewrite seq_S, fold_left_app. cbn [fold_left Nat.add]. destruct IH as [P F]; [lia|].
    destruct (front_pass m _ F) as [P' F']; [apply Permutation_length in P; unR; lia|].
    split; [eapply Permutation_trans; [exact P|exact P']|exact F'].
Qed.
Lemma front_last (s : list R) : front (length s - 1) s -> front (length s) s.
Proof.
  intros F i j Hi Hj. destruct (Nat.eq_dec i (length s - 1)) as [->|Hn].
  - replace j with (length s - 1)%nat by lia. lra.
  - apply F; lia.
Qed.

Lemma below_perm x (a b : list R) : Permutation a b -> below x a = below x b.
Proof.
  intros P. apply INR_eq. rewrite !below_sum. apply Rsum_perm. now apply Permutation_map.
Qed.
Lemma upto_perm x (a b : list R) : Permutation a b -> upto x a = upto x b.
Proof.
  intros P. apply INR_eq. rewrite !upto_sum. apply Rsum_perm. now apply Permutation_map.
Qed.
Lemma below_bound x k (s : list R) : (forall j, (k <= j < length s)%nat -> x <= nth j s 0) -> (below x s <= k)%nat.
Proof.
  revert k; induction s as [|y s IH]; intros k H; [cbn; lia|]. unfold below. cbn [filter].
  destruct k as [|k].
  - assert (x <= y) by (apply (H 0%nat); cbn; lia). destruct (Rlt_dec y x); [lra|].
    apply (IH 0%nat). intros j Hj. apply (H (S j)). cbn. lia.
  - assert (below x s <= k)%nat by (apply IH; intros j Hj; apply (H (S j)); cbn; lia). unfold below in *.
    destruct (Rlt_dec y x); cbn; lia.
Qed.
Lemma upto_bound x k (s : list R) : (k <= length s)%nat -> (forall j, (j < k)%nat -> nth j s 0 <= x) -> (k <= upto x s)%nat.
Proof.
  revert k; induction s as [|y s IH]; intros k Hk H; [cbn in Hk; lia|]. unfold upto. cbn [filter].
  destruct k as [|k]; [lia|].
  assert (y <= x) by (apply (H 0%nat); lia). destruct (Rle_dec y x); [|lra]. cbn in *.
  assert (k <= upto x s)%nat by (apply IH; [lia|]; intros j Hj; apply (H (S j)); lia). unfold upto in *. lia.
Qed.
Lemma median_quantile (ts : list R) : ts <> [] -> quantile_of (/ 2) ts (@median RNum ts).
Proof.
  intros Hne. unfold median. destruct ts as [|t0 tr] eqn:Ets; [easy|]. rewrite <- Ets in *. clear t0 tr Ets.
  set (n := length ts). set (k := Nat.div n 2). unR. fold n.
  assert (Hn : (0 < n)%nat) by (unfold n; destruct ts; [easy|cbn; lia]).
  destruct (passes_R ts (Nat.min (n - 1) (S k))) as [P F]; [fold n; lia|].
  unR. set (s := fold_left _ _ ts) in *. clearbody s.
  assert (Hs : length s = n) by (symmetry; now apply Permutation_length).
  assert (Hk : (n = 2 * k \/ n = 2 * k + 1)%nat).
  { unfold k. pose proof (Nat.div_mod n 2). pose proof (Nat.mod_upper_bound n 2). lia. }
  assert (F' : front (S k) s).
  { destruct (Nat.min_spec (n - 1) (S k)) as [[L E]|[L E]].
    - rewrite E in F. rewrite <- Hs in F. apply front_last in F. intros i j Hi Hj. apply F; lia.
    - now rewrite E in F. }
  unfold quantile_of. rewrite (below_perm _ _ _ P), (upto_perm _ _ _ P). fold n.
  assert (En : Nat.odd n = true /\ (n = 2 * k + 1)%nat \/ Nat.odd n = false /\ (n = 2 * k)%nat).
  { destruct Hk as [E|E]; [right|left]; split; auto; rewrite E; [|rewrite Nat.add_comm].
    - rewrite Nat.odd_mul. reflexivity.
    - rewrite Nat.odd_add, Nat.odd_mul. reflexivity. }
  destruct En as [[-> En]|[-> En]].
  - fold k. cbn [n0 RNum]. set (x := nth k s 0). clearbody k. assert (B : (below x s <= k)%nat).
    { apply below_bound. intros j Hj. apply F'; lia. }
    assert (U : (S k <= upto x s)%nat).
    { apply upto_bound; [lia|]. intros j Hj. apply F'; lia. }
    apply le_INR in B, U. rewrite S_INR in U. rewrite En, plus_INR, mult_INR. cbn [INR] in *. lra.
  - fold k. rewrite two_R. cbn [nadd ndiv n0 RNum]. clearbody k.
    assert (A : nth (k - 1) s 0 <= nth k s 0) by (apply F'; lia).
    set (x := (nth (k - 1) s 0 + nth k s 0) / 2).
    assert (B : (below x s <= k)%nat).
    { apply below_bound. intros j Hj. assert (nth k s 0 <= nth j s 0) by (apply F'; lia). unfold x. lra. }
    assert (U : (k <= upto x s)%nat).
    { apply upto_bound; [lia|]. intros j Hj. assert (nth j s 0 <= nth (k - 1) s 0) by (apply F'; lia). unfold x. lra. }
    apply le_INR in B, U. rewrite En, mult_INR. cbn [INR] in *. lra.
Qed.

Section QuantileInit.
  Variables floori ceili : R -> Z.
  Hypothesis Hfl : rounds_down floori.
  Hypothesis Hce : rounds_up ceili.
  Lemma quantile_interpolated (a : R) (ts : list R) : ts <> [] -> 0 <= a <= 1 ->
    exists x, @quantile RNum floori ceili ts a = Ok x /\ interpolated a ts x.
  Proof.
    intros Hne Ha. unfold quantile. destruct ts as [|t0 tr] eqn:Ets; [easy|]. rewrite <- Ets in *. clear t0 tr Ets.
    set (n := length ts). unR. fold n.
    assert (Hn : (0 < n)%nat) by (unfold n; destruct ts; [easy|cbn; lia]).
    destruct (passes_R ts (n - 1)) as [P F]; [fold n; lia|].
    unR. set (s := fold_left _ _ ts) in *. clearbody s.
    assert (Hs : length s = n) by (symmetry; now apply Permutation_length).
    rewrite <- Hs in F. apply front_last in F.
    rewrite nofnat_R. cbn [nmul RNum]. set (pos := a * INR (n - 1)).
    pose proof (Hfl pos) as Fl. pose proof (Hce pos) as Ce.
    assert (Hpos : 0 <= pos <= INR (n - 1)).
    { pose proof (pos_INR (n - 1)). unfold pos. split; nra. }
    rewrite INR_IZR_INZ in Hpos.
    assert (L0 : (0 <= floori pos)%Z). { assert (-1 < floori pos)%Z; [|lia]. apply lt_IZR. lra. }
    assert (U0 : (ceili pos <= Z.of_nat (n - 1))%Z).
    { assert (ceili pos < Z.of_nat (n - 1) + 1)%Z; [|lia]. apply lt_IZR. rewrite plus_IZR. lra. }
    assert (LU : (floori pos <= ceili pos)%Z) by (apply le_IZR; lra).
    assert (UL : (ceili pos <= floori pos + 1)%Z).
    { assert (ceili pos < floori pos + 2)%Z; [|lia]. apply lt_IZR. rewrite plus_IZR. lra. }
    set (lo := Z.to_nat (floori pos)). set (up := Z.to_nat (ceili pos)).
    assert (El : floori pos = Z.of_nat lo) by (unfold lo; lia).
    assert (Eu : ceili pos = Z.of_nat up) by (unfold up; lia).
    rewrite El, Eu, !getZ_nat.
    rewrite (@nth_error_nth' _ s lo 0), (@nth_error_nth' _ s up 0) by lia.
    eexists. split; [reflexivity|]. exists s, lo. split; [exact P|]. split; [intros i j Hij; apply F; lia|].
    cbv zeta. fold n. fold pos. rewrite INR_IZR_INZ, <- El. split; [lra|].
    rewrite nofZ_R. cbn [nsub nmul nadd n1 RNum]. destruct (Z.eqb_spec (floori pos) (Z.of_nat up)) as [E|E].
    - assert (E' : pos = IZR (floori pos)) by (apply Rle_antisym; [rewrite E, <- Eu|]; lra).
      rewrite <- E'. lra.
    - replace up with (S lo) by lia. lra.
  Qed.
End QuantileInit.

(** * Best constants *)
Lemma best_by_slopes (loss : R -> R -> R) (g : R -> R) ts p :
  (forall q t, In t ts -> loss p t + g t * (q - p) <= loss q t) -> Rsum (map g ts) = 0 -> best_constant loss ts p.
Proof.
  intros K S q.
  assert (E : Rsum (map (fun t => loss p t + (q - p) * g t) ts) <= Rsum (map (loss q) ts)).
  { apply Rsum_le. intros t Ht. rewrite (Rmult_comm (q - p)). now apply K. }
  rewrite Rsum_map_plus, Rsum_map_scal, S in E.
  change (fun x => loss p x) with (loss p) in E. lra.
Qed.
Lemma mean_R (ts : list R) : @mean RNum ts = Rsum ts / INR (length ts).
Proof. unfold mean. rewrite nsum_R, nofnat_R. reflexivity. Qed.
Lemma len_pos (ts : list R) : ts <> [] -> 0 < INR (length ts).
Proof. intros H. apply lt_0_INR. destruct ts; [easy|cbn; lia]. Qed.
Lemma exp_tangent p q : exp p + exp p * (q - p) <= exp q.
Proof.
  replace q with (p + (q - p)) at 2 by lra. rewrite exp_plus.
  pose proof (exp_pos p). assert (1 + (q - p) <= exp (q - p)); [|nra].
  destruct (Req_dec (q - p) 0) as [->|Hne]; [rewrite exp_0; lra|]. left. now apply exp_ineq1.
Qed.
Lemma l2_best (ts : list R) : ts <> [] -> best_constant (@l2_loss RNum) ts (@mean RNum ts).
Proof.
  intros Hne. pose proof (len_pos ts Hne). rewrite mean_R. set (p := _ / _).
  apply best_by_slopes with (g := fun t => p - t).
  - intros q t _. unfold l2_loss. rewrite half_R. cbn. clearbody p. unR. pose proof (sq_nonneg (q - p)). lra.
  - rewrite Rsum_map_minus, Rsum_map_const, map_id. unfold p. field. lra.
Qed.
Lemma l1_best (ts : list R) : ts <> [] -> best_constant (fun p t => Rabs (p - t)) ts (@median RNum ts).
Proof.
  intros Hne q. assert (K := median_quantile ts Hne). replace (/ 2) with (1 - / 2) in K by lra.
  apply quantile_best in K; [|lra]. specialize (K q).
  rewrite !(Rsum_map_ext (fun t => Rabs (_ - t)) (fun t => 2 * @quantile_loss RNum (/ 2) _ t)) by (intros; apply abs_quantile).
  rewrite !Rsum_map_scal. apply Rmult_le_compat_l; [lra|exact K].
Qed.
Lemma poisson_best (ts : list R) : ts <> [] -> 0 < Rsum ts -> best_constant poisson_nll ts (ln (Rsum ts / INR (length ts))).
Proof.
  intros Hne Hs. pose proof (len_pos ts Hne). set (m := _ / _).
  assert (Hm : 0 < m) by (now apply Rdiv_lt_0_compat).
  apply best_by_slopes with (g := fun t => exp (ln m) - t).
  - intros q t _. unfold poisson_nll. pose proof (exp_tangent (ln m) q). nra.
  - rewrite exp_ln by exact Hm. rewrite Rsum_map_minus, Rsum_map_const, map_id. unfold m. field. lra.
Qed.
Lemma gamma_tangent p q t : 0 < t -> gamma_deviance p t + 2 * (1 - t * exp (- p)) * (q - p) <= gamma_deviance q t.
Proof.
  intros Ht. unfold gamma_deviance, Rdiv. pose proof (Rinv_0_lt_compat t Ht).
  rewrite !ln_mult by (assumption || apply exp_pos). rewrite !ln_exp.
  rewrite <- !exp_Ropp. pose proof (exp_tangent (- p) (- q)). nra.
Qed.
Lemma gamma_best (ts : list R) : ts <> [] -> (forall t, In t ts -> 0 < t) ->
  best_constant gamma_deviance ts (ln (Rsum ts / INR (length ts))).
Proof.
  intros Hne Hpos. pose proof (len_pos ts Hne) as Hl. set (m := _ / _).
  assert (Hs : 0 < Rsum ts).
  { destruct ts as [|t r]; [easy|]. cbn. assert (0 < t) by (apply Hpos; now left).
    assert (0 <= Rsum r); [|lra]. apply Rsum_nonneg. intros x Hx. apply Rlt_le, Hpos. now right. }
  assert (Hm : 0 < m) by (now apply Rdiv_lt_0_compat).
  apply best_by_slopes with (g := fun t => 2 * (1 - t * exp (- ln m))).
  - intros q t Ht. apply gamma_tangent. now apply Hpos.
  - rewrite exp_Ropp, exp_ln by exact Hm. rewrite Rsum_map_scal, Rsum_map_minus, Rsum_map_const.
    rewrite (Rsum_map_ext (fun x => x * / m) (fun x => / m * x)) by (intros; lra).
    rewrite Rsum_map_scal, map_id. unfold m. field. lra.
Qed.
Lemma tweedie_tangent v p q t : 1 < v < 2 -> 0 <= t ->
  tweedie_deviance v p t + 2 * (exp ((2 - v) * p) - t * exp ((1 - v) * p)) * (q - p) <= tweedie_deviance v q t.
Proof.
  intros Hv Ht. unfold tweedie_deviance. rewrite !power_exp. set (k := _ / ((1 - v) * (2 - v))).
  assert (A := exp_tangent ((2 - v) * p) ((2 - v) * q)). assert (B := exp_tangent ((1 - v) * p) ((1 - v) * q)).
  set (ap := exp ((2 - v) * p)) in *. set (aq := exp ((2 - v) * q)) in *.
  set (bp := exp ((1 - v) * p)) in *. set (bq := exp ((1 - v) * q)) in *.
  assert (A' : ap / (2 - v) + ap * (q - p) <= aq / (2 - v)).
  { apply Rmult_le_reg_l with (2 - v); [lra|]. field_simplify; [|lra|lra]. nra. }
  assert (B' : bp / (v - 1) - bp * (q - p) <= bq / (v - 1)).
  { apply Rmult_le_reg_l with (v - 1); [lra|]. field_simplify; [|lra|lra]. nra. }
  assert (E : forall x, t * x / (1 - v) = - (t * (x / (v - 1)))) by (intros x; field; lra).
  rewrite !E. assert (t * (bp / (v - 1) - bp * (q - p)) <= t * (bq / (v - 1))) by (now apply Rmult_le_compat_l). lra.
Qed.
Lemma tweedie_best v (ts : list R) : 1 < v < 2 -> ts <> [] -> (forall t, In t ts -> 0 <= t) -> 0 < Rsum ts ->
  best_constant (tweedie_deviance v) ts (ln (Rsum ts / INR (length ts))).
Proof.
  intros Hv Hne Hpos Hs. pose proof (len_pos ts Hne) as Hl. set (m := _ / _).
  assert (Hm : 0 < m) by (now apply Rdiv_lt_0_compat).
  apply best_by_slopes with (g := fun t => 2 * (exp ((2 - v) * ln m) - t * exp ((1 - v) * ln m))).
  - intros q t Ht. apply tweedie_tangent; auto.
  - rewrite Rsum_map_scal, Rsum_map_minus, Rsum_map_const. set (b := exp ((1 - v) * ln m)).
    replace ((2 - v) * ln m) with (ln m + (1 - v) * ln m) by lra. rewrite exp_plus, exp_ln by exact Hm. fold b.
    rewrite (Rsum_map_ext (fun x => x * b) (fun x => b * x)) by (intros; lra).
    rewrite Rsum_map_scal, map_id. unfold m. field. lra.
Qed.
Lemma log_loss_tangent p q t : log_loss p t + (exp p / (1 + exp p) - t) * (q - p) <= log_loss q t.
Proof.
  unfold log_loss. pose proof (exp_pos p) as Hp. pose proof (exp_pos q) as Hq.
  set (s := exp p / (1 + exp p)).
  assert (Hs : 0 <= s <= 1).
  { unfold s. split; [apply Rlt_le, Rdiv_lt_0_compat; lra|]. apply Rmult_le_reg_l with (1 + exp p); [lra|]. field_simplify; lra. }
  set (u := q - p).
  assert (J : exp (s * u) <= 1 - s + s * exp u).
  { assert (A := exp_tangent (s * u) u). assert (B := exp_tangent (s * u) 0). rewrite exp_0 in B. nra. }
  assert (Em : (1 + exp p) * (1 - s + s * exp u) = 1 + exp q).
  { unfold s, u. replace q with (p + (q - p)) at 2 by lra. rewrite exp_plus. field. lra. }
  assert (K : ln ((1 + exp p) * exp (s * u)) <= ln (1 + exp q)).
  { apply ln_le; [apply Rmult_lt_0_compat; [lra|apply exp_pos]|]. rewrite <- Em. apply Rmult_le_compat_l; lra. }
  rewrite ln_mult, ln_exp in K by (lra || apply exp_pos). unfold u in *. lra.
Qed.
Lemma binary_best (ts : list R) : ts <> [] ->
  let m := Rsum ts / INR (length ts) in
  0 < m < 1 -> best_constant log_loss ts (ln (m / (1 - m))).
Proof.
  intros Hne m Hm. pose proof (len_pos ts Hne) as Hl.
  assert (Ho : 0 < m / (1 - m)) by (apply Rdiv_lt_0_compat; lra).
  apply best_by_slopes with (g := fun t => m - t).
  - intros q t _. assert (K := log_loss_tangent (ln (m / (1 - m))) q t). rewrite exp_ln in K by exact Ho.
    replace (m / (1 - m) / (1 + m / (1 - m))) with m in K; [exact K|]. field. lra.
  - rewrite Rsum_map_minus, Rsum_map_const, map_id. unfold m. field. lra.
Qed.
