From Coq Require Import List Arith Bool ZArith Reals Lra Lia Psatz.
From Coquelicot Require Import Coquelicot.
From Verif Require Import Base.Num Base.GoRes Base.Mat Base.ListX Base.RTac Model.Numerical Model.Linear Model.NaiveBayes Model.PassiveAgg Model.Sgd
  Spec.Linear Spec.PassiveAgg Spec.LgbObjective Spec.Sgd Proofs.LinearP Proofs.PassiveAggP Proofs.LgbObjectiveP.
Import ListNotations.
Local Open Scope list_scope.
Local Open Scope R_scope.

Lemma shalf_R : @Sgd.half RNum = / 2.
Proof. unfold Sgd.half. cbn. lra. Qed.
Lemma sgn_R (x : R) : @sgn RNum x = if Rlt_dec 0 x then 1 else if Rlt_dec x 0 then -1 else 0.
Proof. unfold sgn. cbn. destruct (Rlt_dec 0 x), (Rlt_dec x 0); repeat rcase; lra. Qed.

(** *** Slopes of the regressor's losses *)
Lemma squared_slope (eps p y : R) : slope (fun q => fst (@reg_loss RNum SquaredError eps q y)) p (snd (@reg_loss RNum SquaredError eps p y)).
Proof. apply slope_derive. unfold reg_loss. rewrite shalf_R. cbn. auto_derive; [easy|lra]. Qed.
Lemma huber_reg_slope (eps p y : R) : 0 < eps -> slope (fun q => fst (@reg_loss RNum Huber eps q y)) p (snd (@reg_loss RNum Huber eps p y)).
Proof.
  intros He.
  pose proof (huber_slope eps p y He) as H.
  assert (E1 : forall q, fst (@reg_loss RNum Huber eps q y) = @LgbObjective.huber_loss RNum eps q y).
  { intros q. unfold reg_loss, LgbObjective.huber_loss. rewrite shalf_R, half_R. cbn. destruct (Rleb _ _); reflexivity. }
  assert (E2 : snd (@reg_loss RNum Huber eps p y) = @LgbObjective.huber_grad RNum eps p y).
  { unfold reg_loss, LgbObjective.huber_grad. rewrite sgn_R. cbn. destruct (Rleb_spec (Rabs (p - y)) eps) as [L|L]; [reflexivity|]. cbn [snd].
    destruct (Rlt_dec 0 (p - y)); [rcase; lra|]. destruct (Rlt_dec (p - y) 0); [rcase; lra|].
    exfalso. assert (p - y = 0) as K by lra. rewrite K, Rabs_R0 in *. lra. }
  rewrite E2. eapply slope_local with (e := 1); [lra| |exact H]. intros q _. apply E1.
Qed.
Lemma tube_slope (eps p y : R) : 0 <= eps -> Rabs (p - y) <> eps ->
  slope (fun q => fst (@reg_loss RNum EpsInsensitive eps q y)) p (snd (@reg_loss RNum EpsInsensitive eps p y)).
Proof.
  intros He Hn. unfold reg_loss. cbn [nsub nabs nle RNum].
  destruct (Rle_lt_dec (Rabs (p - y)) eps) as [L|L].
  - rewrite (proj2 (Rleb_true _ _) L). cbn [snd].
    eapply slope_local with (g := fun _ => 0) (e := eps - Rabs (p - y)); [lra| |].
    + intros q Hq. assert (Rabs (q - y) <= eps).
      { replace (q - y) with ((q - p) + (p - y)) by ring. eapply Rle_trans; [apply Rabs_triang|]. lra. }
      rewrite (proj2 (Rleb_true _ _) H). reflexivity.
    + apply slope_derive. auto_derive; [easy|]. reflexivity.
  - rewrite (proj2 (Rleb_false _ _) L). cbn [snd]. rewrite sgn_R.
    assert (Hb : forall q, Rabs (q - p) < Rabs (p - y) - eps -> eps < Rabs (q - y)).
    { intros q Hq. assert (Rabs (p - y) <= Rabs (p - q) + Rabs (q - y)) by (replace (p - y) with ((p - q) + (q - y)) by ring; apply Rabs_triang).
      rewrite (Rabs_minus_sym p q) in H. lra. }
    destruct (Rlt_dec 0 (p - y)) as [P|P]; [|destruct (Rlt_dec (p - y) 0) as [Q|Q]].
    + rewrite (Rabs_right (p - y)) in * by lra.
      eapply slope_local with (g := fun q => q - y - eps) (e := p - y - eps); [lra| |apply slope_derive; auto_derive; [easy|lra]].
      intros q Hq. rewrite (proj2 (Rleb_false _ _) (Hb q Hq)). cbn. apply Rabs_def2 in Hq. rewrite Rabs_right by lra. reflexivity.
    + rewrite (Rabs_left (p - y)) in * by lra.
      eapply slope_local with (g := fun q => - (q - y) - eps) (e := - (p - y) - eps); [lra| |apply slope_derive; auto_derive; [easy|lra]].
      intros q Hq. rewrite (proj2 (Rleb_false _ _) (Hb q Hq)). cbn. apply Rabs_def2 in Hq. rewrite Rabs_left by lra. reflexivity.
    + exfalso. assert (p - y = 0) as K by lra. rewrite K, Rabs_R0 in L. lra.
Qed.

(** *** Clipping and the step *)
Lemma sqnorm_scal c g : sqnorm (map (fun v => v * c) g) = c * c * sqnorm g.
Proof. unfold sqnorm. rewrite map_map. rewrite <- Rsum_map_scal. apply Rsum_map_ext. intros; ring. Qed.
Lemma l2norm_R g : @l2norm RNum g = sqrt (sqnorm g).
Proof.
  unfold l2norm. cbn [nsqrt RNum]. f_equal. etransitivity; [apply (fold_left_sum (fun x : R => x * x))|]. change (@n0 RNum) with 0. unfold sqnorm. apply Rplus_0_l.
Qed.
Lemma clip_R (g : list R) m : 0 < m -> exists c, 0 < c <= 1 /\ @clip_gradient RNum g m = map (fun v => v * c) g /\
  sqnorm (map (fun v => v * c) g) <= m * m /\ (sqnorm g <= m * m -> c = 1).
Proof.
  intros Hm. unfold clip_gradient. rewrite l2norm_R. cbn [nlt RNum].
  pose proof (sqnorm_nonneg g) as Hn. pose proof (sqrt_sqrt _ Hn) as Hs. pose proof (sqrt_pos (sqnorm g)) as Hp.
  destruct (Rltb_spec m (sqrt (sqnorm g))) as [L|L].
  - exists (m / sqrt (sqnorm g)). assert (0 < sqrt (sqnorm g)) by lra. assert (0 < m / sqrt (sqnorm g)) by (apply Rdiv_lt_0_compat; lra).
    split; [split; [assumption|]|split; [reflexivity|split]].
    + apply (Rmult_le_reg_r (sqrt (sqnorm g))); [assumption|]. unfold Rdiv. rewrite Rmult_assoc, Rinv_l by lra. lra.
    + rewrite sqnorm_scal. rewrite <- Hs at 3. right. field. lra.
    + intros K. exfalso. assert (m * m < sqrt (sqnorm g) * sqrt (sqnorm g)) by (apply Rmult_le_0_lt_compat; lra). lra.
  - exists 1. split; [lra|]. split; [|split; [|reflexivity]].
    + symmetry. etransitivity; [|apply map_id]. apply map_ext. intros; apply Rmult_1_r.
    + rewrite sqnorm_scal. assert (sqrt (sqnorm g) * sqrt (sqnorm g) <= m * m) by (apply Rmult_le_compat; lra). lra.
Qed.
Lemma descend_R lr (gs w : list R) : length gs = length w -> @descend RNum lr gs w = map (fun q => snd q - lr * fst q) (combine gs w).
Proof.
  revert w. induction gs as [|a gs IH]; intros [|b w] H; cbn in H; try discriminate; [reflexivity|]. cbn [descend combine map fst snd].
  rewrite IH by congruence. reflexivity.
Qed.
Lemma nth_descend lr (gs w : list R) i : length gs = length w -> nth i (@descend RNum lr gs w) 0 = nth i w 0 - lr * nth i gs 0.
Proof.
  intros H. rewrite descend_R by exact H. revert w i H. induction gs as [|a gs IH]; intros [|b w] i H; cbn in H; try discriminate; cbn [combine map fst snd].
  - destruct i; cbn; ring.
  - destruct i; cbn [nth]; [reflexivity|]. apply IH. congruence.
Qed.
Lemma descend_length {N : Num} lr (gs w : list N) : length (descend lr gs w) = length w.
Proof. revert w. induction gs as [|a gs IH]; intros [|b w]; cbn; auto. Qed.
Lemma descend_dist lr (gs w : list R) : length gs = length w -> sqdist (@descend RNum lr gs w) w = lr * lr * sqnorm gs.
Proof.
  intros H. rewrite descend_R by exact H. unfold sqdist, sqnorm. revert w H. induction gs as [|a gs IH]; intros [|b w] H; cbn in H; try discriminate; cbn [combine map fst snd Rsum]; [ring|].
  rewrite IH by congruence. ring.
Qed.
Lemma descend_value lr b (x gs w : list R) c : length w = length x -> gs = map (fun v => c * v) x ->
  linear_value b (@descend RNum lr gs w) x = linear_value b w x - lr * c * sqnorm x.
Proof.
  intros H ->. unfold sqnorm. revert w H. induction x as [|a x IH]; intros [|wi w] H; cbn in H; try discriminate; cbn [map descend linear_value Rsum]; [ring|].
  change (@unstable RNum ?v) with false. rewrite IH by congruence. cbn. ring.
Qed.

(** *** Penalties *)
Lemma ridge_slope a w : slope (ridge a) w (a * w).
Proof. apply slope_derive. unfold ridge. auto_derive; [easy|lra]. Qed.
Lemma abs_slope w : w <> 0 -> slope Rabs w (@sgn RNum w).
Proof.
  intros H. rewrite sgn_R. destruct (Rlt_dec 0 w) as [L|L].
  - eapply slope_local with (g := fun q => q) (e := w); [lra| |apply slope_derive; auto_derive; [easy|lra]].
    intros q Hq. apply Rabs_def2 in Hq. apply Rabs_right. lra.
  - destruct (Rlt_dec w 0); [|lra].
    eapply slope_local with (g := fun q => - q) (e := - w); [lra| |apply slope_derive; auto_derive; [easy|lra]].
    intros q Hq. apply Rabs_def2 in Hq. apply Rabs_left. lra.
Qed.
Lemma lasso_slope a w : w <> 0 -> slope (lasso a) w (a * @sgn RNum w).
Proof. intros H. unfold lasso, slope in *. apply (derivable_pt_lim_scal Rabs a w). apply abs_slope, H. Qed.
Lemma mixed_slope a r w : w <> 0 -> slope (mixed a r) w (a * (r * @sgn RNum w + (1 - r) * w)).
Proof.
  intros H. unfold mixed. replace (a * (r * @sgn RNum w + (1 - r) * w)) with (r * (a * @sgn RNum w) + (1 - r) * (a * w)) by (cbn; ring).
  apply (derivable_pt_lim_plus (fun w => r * lasso a w) (fun w => (1 - r) * ridge a w)).
  - apply (derivable_pt_lim_scal (lasso a) r w). apply lasso_slope, H.
  - apply (derivable_pt_lim_scal (ridge a) (1 - r) w). apply ridge_slope.
Qed.

(** *** Slopes of the classifier's losses, for a target of 1 or -1 *)
Definition target (t : R) : Prop := t = 1 \/ t = -1.
Lemma slope_value f x a b : a = b -> slope f x a -> slope f x b.
Proof. intros ->; auto. Qed.
Lemma near_lt t q s (c : R) e : target t -> Rabs (q - s) < e -> Rabs (t * q - t * s) < e.
Proof. intros [-> | ->] H; unfold Rabs in *; repeat destruct (Rcase_abs _); lra. Qed.
Lemma hinge_slope t s : target t -> t * s <> 1 -> slope (fun q => hinge (t * q)) s (snd (@class_loss RNum Hinge t s)).
Proof.
  intros T H. unfold class_loss, hinge. cbn [nmul nlt n1 n0 RNum nsub nneg]. destruct (Rltb_spec (t * s) 1) as [L|L]; cbn [snd].
  - eapply slope_local with (g := fun q => 1 - t * q) (e := 1 - t * s); [lra| |apply slope_derive; auto_derive; [easy|lra]].
    intros q Hq. apply (near_lt t) in Hq; [|exact 0|exact T]. apply Rabs_def2 in Hq. apply Rmax_right. lra.
  - eapply slope_local with (g := fun q => 0) (e := t * s - 1); [lra| |apply slope_derive; auto_derive; [easy|lra]].
    intros q Hq. apply (near_lt t) in Hq; [|exact 0|exact T]. apply Rabs_def2 in Hq. apply Rmax_left. lra.
Qed.
Lemma perceptron_slope t s : target t -> t * s <> 0 -> slope (fun q => perceptron (t * q)) s (snd (@class_loss RNum Perceptron t s)).
Proof.
  intros T H. unfold class_loss, perceptron. cbn [nmul nlt n1 n0 RNum nsub nneg nle]. destruct (Rleb_spec (t * s) 0) as [L|L]; cbn [snd].
  - eapply slope_local with (g := fun q => - (t * q)) (e := - (t * s)); [lra| |apply slope_derive; auto_derive; [easy|lra]].
    intros q Hq. apply (near_lt t) in Hq; [|exact 0|exact T]. apply Rabs_def2 in Hq. apply Rmax_right. lra.
  - eapply slope_local with (g := fun q => 0) (e := t * s); [lra| |apply slope_derive; auto_derive; [easy|lra]].
    intros q Hq. apply (near_lt t) in Hq; [|exact 0|exact T]. apply Rabs_def2 in Hq. apply Rmax_left. lra.
Qed.
Lemma squared_hinge_slope t s : target t -> slope (fun q => squared_hinge (t * q)) s (snd (@class_loss RNum SquaredHinge t s)).
Proof.
  intros T. unfold class_loss. rewrite shalf_R. cbn [nmul nlt n1 n0 RNum nsub nneg].
  destruct (Req_dec (t * s) 1) as [E|E].
  - rewrite E. replace (Rltb 1 1) with false by (symmetry; apply Rltb_false; lra). cbn [snd].
    (* at the joint the quotient is bounded by |h| *)
    intros e He. exists (mkposreal e He). intros h Hh Hd. cbn in Hd.
    unfold squared_hinge, hinge. rewrite Rmult_plus_distr_l, E.
    assert (K : Rmax 0 (1 - 1) = 0) by (apply Rmax_left; lra). rewrite K.
    assert (B : Rabs (Rmax 0 (1 - (1 + t * h))) <= Rabs h).
    { destruct T as [-> | ->]; unfold Rmax, Rabs; repeat destruct (Rle_dec _ _); repeat destruct (Rcase_abs _); lra. }
    set (m := Rmax 0 (1 - (1 + t * h))) in *.
    replace ((m * m / 2 - 0 * 0 / 2) / h - 0) with (m * m / 2 / h) by (field; assumption).
    unfold Rdiv. rewrite !Rabs_mult, !Rabs_inv. rewrite (Rabs_right 2) by lra.
    assert (0 < Rabs h) by (apply Rabs_pos_lt, Hh). pose proof (Rabs_pos m).
    assert (Rabs m * Rabs m * / 2 * / Rabs h <= Rabs h * / 2).
    { apply (Rmult_le_reg_r (Rabs h)); [assumption|]. rewrite (Rmult_assoc _ (/ Rabs h)), Rinv_l, Rmult_1_r by lra.
      assert (Rabs m * Rabs m <= Rabs h * Rabs h) by (apply Rmult_le_compat; lra). lra. }
    lra.
  - destruct (Rltb_spec (t * s) 1) as [L|L]; cbn [snd].
    + eapply slope_local with (g := fun q => (1 - t * q) * (1 - t * q) / 2) (e := 1 - t * s); [lra| |apply slope_derive; auto_derive; [easy|lra]].
      intros q Hq. apply (near_lt t) in Hq; [|exact 0|exact T]. apply Rabs_def2 in Hq. unfold squared_hinge, hinge. rewrite Rmax_right by lra. reflexivity.
    + eapply slope_local with (g := fun q => 0) (e := t * s - 1); [lra| |apply slope_derive; auto_derive; [easy|lra]].
      intros q Hq. apply (near_lt t) in Hq; [|exact 0|exact T]. apply Rabs_def2 in Hq. unfold squared_hinge, hinge. rewrite Rmax_left by lra. lra.
Qed.
(** Modified Huber's loss has no kink at -1 and its square part joins at 1. *)
Lemma modified_huber_slope t s : target t -> t * s <> -1 -> slope (fun q => modified_huber (t * q)) s (snd (@class_loss RNum ModifiedHuber t s)).
Proof.
  intros T H. unfold class_loss. cbn [nmul nlt n1 n0 RNum nsub nneg].
  rewrite !nofZ_R. destruct (Rltb_spec (t * s) (-(1))) as [L|L]; cbn [snd].
  - eapply slope_local with (g := fun q => - 4 * (t * q)) (e := - 1 - t * s); [lra| |apply slope_derive; auto_derive; [easy|lra]].
    intros q Hq. apply (near_lt t) in Hq; [|exact 0|exact T]. apply Rabs_def2 in Hq. unfold modified_huber. destruct (Rlt_dec (t * q) (-1)); [reflexivity|lra].
  - assert (slope (fun q => 2 * squared_hinge (t * q)) s (2 * snd (@class_loss RNum SquaredHinge t s))) as S1.
    { apply (derivable_pt_lim_scal (fun q => squared_hinge (t * q)) 2 s). apply squared_hinge_slope, T. }
    eapply slope_value; [|eapply slope_local with (e := t * s + 1); [lra| |exact S1]].
    + unfold class_loss. cbn [nmul nlt n1 n0 RNum nsub nneg]. destruct (Rltb (t * s) 1); cbn [snd]; lra.
    + intros q Hq. apply (near_lt t) in Hq; [|exact 0|exact T]. apply Rabs_def2 in Hq. unfold modified_huber, squared_hinge.
      destruct (Rlt_dec (t * q) (-1)); lra.
Qed.
Lemma logistic_slope t s : slope (fun q => logistic (t * q)) s (- t * exp (- (t * s)) / (1 + exp (- (t * s)))).
Proof.
  apply slope_derive. unfold logistic. auto_derive.
  - pose proof (exp_pos (- (t * s))). lra.
  - pose proof (exp_pos (- (t * s))). field. lra.
Qed.

(** The loss values are the ones named. *)
Lemma class_values t s : target t ->
  fst (@class_loss RNum Hinge t s) = hinge (t * s) /\ fst (@class_loss RNum SquaredHinge t s) = squared_hinge (t * s) /\
  fst (@class_loss RNum ModifiedHuber t s) = modified_huber (t * s) /\ fst (@class_loss RNum Perceptron t s) = perceptron (t * s) /\
  fst (@class_loss RNum LogLoss t s) = logistic (t * s).
Proof.
  intros T. unfold class_loss. rewrite !nofZ_R, shalf_R. cbn [nmul nlt n1 n0 RNum nsub nneg nle nadd nlog nexp].
  unfold squared_hinge, modified_huber, hinge, perceptron, logistic, Rmax.
  split; [|split; [|split; [|split]]].
  - destruct (Rltb_spec (t * s) 1); destruct (Rle_dec 0 (1 - t * s)); cbn [fst]; lra.
  - destruct (Rltb_spec (t * s) 1); destruct (Rle_dec 0 (1 - t * s)); cbn [fst]; try lra. replace (t * s) with 1 by lra. lra.
  - destruct (Rltb_spec (t * s) (-(1))); [cbn [fst]; destruct (Rlt_dec (t * s) (-1)); lra|]. destruct (Rlt_dec (t * s) (-1)); [lra|].
    destruct (Rltb_spec (t * s) 1); destruct (Rle_dec 0 (1 - t * s)); cbn [fst]; try lra. replace (t * s) with 1 by lra. lra.
  - destruct (Rleb_spec (t * s) 0); destruct (Rle_dec 0 (- (t * s))); cbn [fst]; lra.
  - destruct (Rltb_spec 0 (t * s)); cbn [fst]; [reflexivity|].
    replace (exp (- (t * s))) with (/ exp (t * s)) by (rewrite exp_Ropp; reflexivity).
    pose proof (exp_pos (t * s)). replace (1 + / exp (t * s)) with ((1 + exp (t * s)) * / exp (t * s)) by (field; lra).
    rewrite ln_mult; [|lra|apply Rinv_0_lt_compat; lra]. rewrite ln_Rinv, ln_exp by lra. lra.
Qed.
(** The slope used for the logistic loss. *)
Lemma log_slope_used t s : snd (@class_loss RNum LogLoss t s) = - t * exp (- Rabs (t * s)) / (1 + exp (- Rabs (t * s))).
Proof.
  unfold class_loss. cbn [nmul nlt n1 n0 RNum nsub nneg nle nadd nlog nexp ndiv].
  destruct (Rltb_spec 0 (t * s)); cbn [snd].
  - rewrite Rabs_right by lra. reflexivity.
  - replace (Rabs (t * s)) with (- (t * s)); [rewrite Ropp_involutive; reflexivity|]. unfold Rabs; destruct (Rcase_abs _); lra.
Qed.

(** *** Bookkeeping of training *)
Section Book.
Context {N : Num}.
Variable pow : N -> N -> N.
Variable G : Type.
Variable shuffle : nat -> G -> list nat * G.
Lemma reg_update_keeps k p (s : sreg N G) x y s' v : reg_update pow G k p s x y = Ok (s', v) ->
  g_niter G s' = g_niter G s /\ g_hist G s' = g_hist G s /\ g_conv G s' = g_conv G s /\ g_nfeat G s' = g_nfeat G s /\ g_fitted G s' = g_fitted G s /\ g_rng G s' = g_rng G s.
Proof.
  unfold reg_update. destruct (score _ _ _) as [pred| |]; cbn [bind]; try discriminate. destruct (unstable pred).
  - intros H; injection H as <- _. cbn. auto 10.
  - destruct (reg_loss _ _ _ _) as [l d]. intros H; injection H as <- _. cbn. auto 10.
Qed.
Lemma reg_pass_keeps k p (s : sreg N G) acc l s' v : spass (reg_update pow G k p) s acc l = (s', v, Ok tt) ->
  g_niter G s' = g_niter G s /\ g_hist G s' = g_hist G s /\ g_conv G s' = g_conv G s /\ g_nfeat G s' = g_nfeat G s /\ g_fitted G s' = g_fitted G s.
Proof.
  revert s acc. induction l as [|[x [y|]] l IH]; intros s acc; cbn [spass].
  - intros H; injection H as <- _. auto 10.
  - destruct (reg_update pow G k p s x y) as [[s1 w]| |] eqn:E; try discriminate. intros H. apply IH in H. apply reg_update_keeps in E.
    destruct H as (A & B & C & D & F), E as (A' & B' & C' & D' & F' & _). repeat split; congruence.
  - discriminate.
Qed.
Lemma check_conv_recent p (h : list N) : check_conv p h = Ok true -> (sp_nochange p < length h)%nat.
Proof. unfold check_conv. destruct (Nat.ltb_spec (length h) (sp_nochange p + 1)); [discriminate|]. intros _. lia. Qed.
Lemma reg_epochs_book k p n (s : sreg N G) l s' : reg_epochs pow G shuffle k p n s l = (s', Ok tt) ->
  exists new, (length new <= n)%nat /\ g_niter G s' = (g_niter G s + length new)%nat /\ g_hist G s' = g_hist G s ++ new /\
    g_nfeat G s' = g_nfeat G s /\
    ((g_conv G s' = true /\ check_conv p (g_hist G s') = Ok true /\ (0 < length new)%nat) \/ (length new = n /\ g_conv G s' = g_conv G s)).
Proof.
  revert s. induction n as [|n IH]; intros s; cbn [reg_epochs].
  - intros H; injection H as <-. exists []. rewrite app_nil_r. cbn. split; [lia|]. split; [lia|]. split; [reflexivity|]. split; [reflexivity|]. right. split; reflexivity.
  - destruct (if sp_shuffle p then shuffle (length l) (g_rng G s) else (seq 0 (length l), g_rng G s)) as [idx g].
    destruct (spass (reg_update pow G k p) (with_rng G g s) n0 (in_order idx l)) as [[s1 total] r] eqn:E. destruct r as [[]| |]; try discriminate.
    apply reg_pass_keeps in E. cbn [with_rng g_niter g_hist g_conv g_nfeat g_fitted] in E. destruct E as (A & B & C & D & _).
    set (s2 := recorded G s1 total (length l)). assert (Hh : g_hist G s2 = g_hist G s ++ [ndiv total (nofnat (length l))]) by (cbn; rewrite B; reflexivity).
    destruct (check_conv p (g_hist G s2)) as [[|]| |] eqn:K; try discriminate.
    + intros H; injection H as <-. exists [ndiv total (nofnat (length l))]. cbn [with_conv g_niter g_hist g_conv g_nfeat length] in *.
      split; [lia|]. split; [cbn; lia|]. split; [exact Hh|]. split; [exact D|]. left. split; [reflexivity|]. split; [exact K|lia].
    + intros H. apply IH in H. destruct H as (new & L & I & Hn & F & O). exists (ndiv total (nofnat (length l)) :: new). cbn [length].
      split; [lia|]. split; [cbn in I; lia|]. split; [rewrite Hn, Hh, <- app_assoc; reflexivity|]. split; [rewrite F; exact D|].
      destruct O as [(O1 & O2 & O3)|(O1 & O2)]; [left; split; [exact O1|]; split; [exact O2|lia]|right; split; [lia|]]. rewrite O2. exact C.
Qed.
End Book.

(** The criterion, over the real numbers: the last losses lie within tol of each other. *)
Lemma spread_R (l : list R) a : let m := fold_left (fun m v => (if Rltb (fst m) v then v else fst m, if Rltb v (snd m) then v else snd m)) l a in
  fst a <= fst m /\ snd m <= snd a /\ (forall v, In v l -> snd m <= v <= fst m) /\ (fst m = fst a \/ In (fst m) l) /\ (snd m = snd a \/ In (snd m) l).
Proof.
  revert a. induction l as [|v l IH]; intros [hi lo]; cbn [fold_left fst snd].
  - cbn. split; [lra|]. split; [lra|]. split; [intros v []|]. split; left; reflexivity.
  - specialize (IH (if Rltb hi v then v else hi, if Rltb v lo then v else lo)). cbn [fst snd] in IH. cbv zeta in IH.
    destruct IH as (A & B & C & D & F). set (m := fold_left _ _ _) in *.
    assert (hi <= (if Rltb hi v then v else hi) /\ v <= (if Rltb hi v then v else hi)) by (destruct (Rltb_spec hi v); lra).
    assert ((if Rltb v lo then v else lo) <= lo /\ (if Rltb v lo then v else lo) <= v) by (destruct (Rltb_spec v lo); lra).
    split; [lra|]. split; [lra|]. split; [|split].
    + intros u [<-|Hu]; [lra|apply C, Hu].
    + destruct D as [D|D]; [|right; right; exact D]. rewrite D. destruct (Rltb hi v); [right; left; reflexivity|left; reflexivity].
    + destruct F as [F|F]; [|right; right; exact F]. rewrite F. destruct (Rltb v lo); [right; left; reflexivity|left; reflexivity].
Qed.
Lemma check_conv_R (p : sparams RNum) (h : list R) : (1 <= sp_nochange p)%nat ->
  exists b, check_conv p h = Ok b /\ (b = true <-> (sp_nochange p < length h)%nat /\ settled (sp_tol p) (skipn (length h - sp_nochange p) h)).
Proof.
  intros Hn. unfold check_conv. change (num RNum) with R. destruct (Nat.ltb_spec (length h) (sp_nochange p + 1)).
  - exists false. split; [reflexivity|]. split; [discriminate|]. intros [K _]. lia.
  - unfold recent. change (num RNum) with R. set (r := skipn (length h - sp_nochange p) h).
    assert (Hr : length r = sp_nochange p) by (unfold r; rewrite skipn_length; lia).
    destruct r as [|a r'] eqn:E; [cbn in Hr; lia|]. cbv zeta. eexists. split; [reflexivity|].
    unfold spread. pose proof (spread_R (a :: r') (a, a)) as S0. cbv zeta in S0. cbn [nlt nsub RNum] in *.
    set (m := fold_left _ (a :: r') (a, a)) in *. destruct S0 as (_ & _ & S1 & S2 & S3). cbn [fst snd] in S2, S3.
    assert (In (fst m) (a :: r')) by (destruct S2 as [->|S2]; [left; reflexivity|exact S2]).
    assert (In (snd m) (a :: r')) by (destruct S3 as [->|S3]; [left; reflexivity|exact S3]).
    rewrite Rltb_true. split.
    + intros L. split; [lia|]. intros u v Hu Hv. apply S1 in Hu. apply S1 in Hv. eapply Rle_lt_trans; [|exact L].
      assert (W : forall a b c d : R, a <= b -> c <= d -> a - d <= b - c) by (clear; intros; lra). apply W; [apply Hu|apply Hv].
    + intros [_ S]. apply S; assumption.
Qed.

(** *** Probabilities *)
Lemma soft_R (vs : list R) : vs <> [] -> let ps := @soft RNum vs in
  length ps = length vs /\ (forall v, In v ps -> 0 < v) /\ Rsum ps = 1 /\
  (forall i j vi vj pi pj, nth_error vs i = Some vi -> nth_error vs j = Some vj -> nth_error ps i = Some pi -> nth_error ps j = Some pj -> vi < vj <-> pi < pj).
Proof.
  intros Hne ps. unfold ps, soft. rewrite nsum_R. cbn [nexp ndiv RNum]. set (es := map exp vs).
  assert (Hp : forall v, In v es -> 0 < v) by (intros v Hv; apply in_map_iff in Hv; destruct Hv as (u & <- & _); apply exp_pos).
  assert (Hs : 0 < Rsum es).
  { unfold es. destruct vs as [|v vs]; [congruence|]. cbn [map Rsum]. assert (0 <= Rsum (map exp vs)); [|pose proof (exp_pos v); lra].
    clear. induction vs as [|v vs IH]; cbn [map Rsum]; [lra|]. pose proof (exp_pos v). lra. }
  split; [|split; [|split]].
  - unfold es. rewrite !map_length. reflexivity.
  - intros v Hv. apply in_map_iff in Hv. destruct Hv as (e & <- & He). apply Rdiv_lt_0_compat; [apply Hp, He|exact Hs].
  - assert (E : forall (l : list R) c, Rsum (map (fun e => e / c) l) = Rsum l / c).
    { clear. induction l as [|e l IH]; intros c; cbn [map Rsum]; [unfold Rdiv; ring|]. rewrite IH. unfold Rdiv. ring. }
    etransitivity; [apply E|]. apply Rinv_r. apply Rgt_not_eq, Hs.
  - intros i j vi vj pi pj Hi Hj Pi Pj. unfold es in Pi, Pj.
    assert (Q : forall k v q, nth_error vs k = Some v -> nth_error (map (fun e => e / Rsum (map exp vs)) (map exp vs)) k = Some q -> q = exp v / Rsum (map exp vs)).
    { intros k v q Hv Hq. rewrite map_map in Hq. rewrite (map_nth_error _ _ _ Hv) in Hq. congruence. }
    rewrite (Q _ _ _ Hi Pi), (Q _ _ _ Hj Pj). fold es. split.
    + intros L. apply Rmult_lt_compat_r; [apply Rinv_0_lt_compat, Hs|]. apply exp_increasing, L.
    + intros L. apply Rmult_lt_reg_r in L; [|apply Rinv_0_lt_compat, Hs]. apply exp_lt_inv, L.
Qed.
Lemma nth_mapi {A B} (g : nat -> A -> B) l i d d' : (i < length l)%nat -> nth i (mapi g l) d' = g i (nth i l d).
Proof.
  unfold mapi. intros H. enough (E : forall k, nth i (mapi_from k g l) d' = g (k + i)%nat (nth i l d)) by (rewrite E; reflexivity).
  revert i H. induction l as [|a l IH]; intros i H k; [cbn in H; lia|]. destruct i as [|i]; cbn [mapi_from nth].
  - f_equal. lia.
  - rewrite IH by (cbn in H; lia). f_equal. lia.
Qed.
Lemma sub_step_length {N : Num} (lr : N) gs w : length (sub_step lr gs w) = length w.
Proof. revert w. induction gs as [|a gs IH]; intros [|b w]; cbn; auto. Qed.
Lemma nth_sub_step_list lr (gs w : list R) i : length gs = length w -> nth i (@sub_step RNum lr gs w) 0 = nth i w 0 - lr * nth i gs 0.
Proof.
  revert w i. induction gs as [|a gs IH]; intros [|b w] i H; cbn in H; try discriminate; cbn [sub_step].
  - destruct i; cbn; ring.
  - destruct i; cbn [nth]; [reflexivity|]. apply IH. congruence.
Qed.
Lemma nth_sub_step lr (x w : list R) (h : nat -> R -> R) i : length w = length x -> (i < length x)%nat ->
  nth i (@sub_step RNum lr (mapi h x) w) 0 = nth i w 0 - lr * h i (nth i x 0).
Proof.
  intros H Hi. rewrite nth_sub_step_list by (etransitivity; [apply mapi_from_length|symmetry; exact H]). f_equal. f_equal. apply nth_mapi, Hi.
Qed.
Lemma foldM_ext {A B} (g h : A -> B -> res A) l a : (forall a b, g a b = h a b) -> foldM g a l = foldM h a l.
Proof. intros H. revert a. induction l as [|b l IH]; intros a; [reflexivity|]. cbn [foldM]. rewrite H. destruct (h a b); cbn [bind]; auto. Qed.
(** The sum as written in Predict. *)
Lemma sum_R (b : R) (w x : list R) : length w = length x ->
  foldM (fun acc q => match nth_error w (fst q) with None => Panic | Some wj => Ok (@nadd RNum acc (@nmul RNum (snd q) wj)) end) b (combine (seq 0 (length x)) x) = Ok (linear_value b w x).
Proof.
  intros H. rewrite <- (score_R b w x H). unfold score. apply foldM_ext. intros a [i v]. cbn [fst snd]. change (num RNum) with R in *. destruct (@nth_error R w i); [|reflexivity]. f_equal. f_equal. apply Rmult_comm.
Qed.

Lemma cls_pass_keeps {N : Num} pow (G : Type) toint k p (s : scls N G) acc l s' v : spass (cls_update pow G toint k p) s acc l = (s', v, Ok tt) ->
  k_niter G s' = k_niter G s /\ k_hist G s' = k_hist G s /\ k_conv G s' = k_conv G s /\ k_classes G s' = k_classes G s /\ k_nfeat G s' = k_nfeat G s.
Proof.
  revert s acc. induction l as [|[x [y|]] l IH]; intros s acc; cbn [spass].
  - intros H; injection H as <- _. auto 10.
  - destruct (cls_update pow G toint k p s x y) as [[s1 w]| |] eqn:E; try discriminate. intros H. apply IH in H.
    unfold cls_update in E. destruct (class_index _ _); [|injection E as <- _; exact H].
    destruct (mapM _ _) as [r| |]; cbn [bind] in E; try discriminate. injection E as <- _. exact H.
  - discriminate.
Qed.
Lemma cls_epochs_book {N : Num} pow (G : Type) shuffle toint k p n (s : scls N G) l s' : cls_epochs pow G shuffle toint k p n s l = (s', Ok tt) ->
  exists new, (length new <= n)%nat /\ k_niter G s' = (k_niter G s + length new)%nat /\ k_hist G s' = k_hist G s ++ new /\
    k_classes G s' = k_classes G s /\ k_nfeat G s' = k_nfeat G s /\
    ((k_conv G s' = true /\ check_conv p (k_hist G s') = Ok true /\ (0 < length new)%nat) \/ (length new = n /\ k_conv G s' = k_conv G s)).
Proof.
  revert s. induction n as [|n IH]; intros s; cbn [cls_epochs].
  - intros H; injection H as <-. exists []. rewrite app_nil_r. cbn. repeat (split; [auto with arith; lia|]). right. split; reflexivity.
  - destruct (if sp_shuffle p then shuffle (length l) (k_rng G s) else (seq 0 (length l), k_rng G s)) as [idx g].
    destruct (spass (cls_update pow G toint k p) (cwith_rng G g s) n0 (in_order idx l)) as [[s1 total] r] eqn:E. destruct r as [[]| |]; try discriminate.
    apply cls_pass_keeps in E. cbn [cwith_rng k_niter k_hist k_conv k_nfeat k_fitted k_classes] in E. destruct E as (A & B & C & D & F).
    set (s2 := crecorded G true s1 total (length l)). assert (Hh : k_hist G s2 = k_hist G s ++ [ndiv total (nofnat (length l))]) by (cbn; rewrite B; reflexivity).
    destruct (check_conv p (k_hist G s2)) as [[|]| |] eqn:K; try discriminate.
    + intros H; injection H as <-. exists [ndiv total (nofnat (length l))]. cbn [cwith_conv k_niter k_hist k_conv k_nfeat k_classes length] in *.
      split; [lia|]. split; [cbn; lia|]. split; [exact Hh|]. split; [exact D|]. split; [exact F|]. left. split; [reflexivity|]. split; [exact K|lia].
    + intros H. apply IH in H. destruct H as (new & L & I & Hn & P & Q & O). exists (ndiv total (nofnat (length l)) :: new). cbn [length].
      split; [lia|]. split; [cbn in I; lia|]. split; [rewrite Hn, Hh, <- app_assoc; reflexivity|]. split; [rewrite P; exact D|]. split; [rewrite Q; exact F|].
      destruct O as [(O1 & O2 & O3)|(O1 & O2)]; [left; split; [exact O1|]; split; [exact O2|lia]|right; split; [lia|]]. rewrite O2. exact C.
Qed.
