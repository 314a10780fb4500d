(** C98 - C101: sklearn/linear_model/sgd_regressor.go and sgd_classifier.go. *)
From Coq Require Import List Arith Bool ZArith Reals Lra Lia QArith.
From Flocq Require Import Core IEEE754.BinarySingleNaN.
From Verif Require Import Base.Num Base.GoRes Base.Mat Base.ListX Base.RTac Model.Numerical Model.Linear Model.NaiveBayes Model.PassiveAgg Model.Sgd
  Spec.Linear Spec.PassiveAgg Spec.LgbObjective Spec.Sgd Proofs.LinearP Proofs.PassiveAggP Proofs.SgdP Proofs.SgdFP.
Import ListNotations.
Close Scope Q_scope.
Local Open Scope list_scope.
Local Open Scope R_scope.

(** ** C98: a step of the regressor follows the slope of the loss and the penalty *)
(** The second value used in training is the slope of the loss in the prediction: everywhere for
    the squared error and Huber's loss, away from the corners for the tube. *)
Theorem C98_loss_slopes : forall eps p y,
  slope (fun q => fst (@reg_loss RNum SquaredError eps q y)) p (snd (@reg_loss RNum SquaredError eps p y)) /\
  (0 < eps -> slope (fun q => fst (@reg_loss RNum Huber eps q y)) p (snd (@reg_loss RNum Huber eps p y))) /\
  (0 <= eps -> Rabs (p - y) <> eps -> slope (fun q => fst (@reg_loss RNum EpsInsensitive eps q y)) p (snd (@reg_loss RNum EpsInsensitive eps p y))).
Proof. intros eps p y. split; [apply squared_slope|]. split; [apply huber_reg_slope|apply tube_slope]. Qed.
(** The losses are the ones named: half the squared residual, Huber's loss, the distance to the tube. *)
Theorem C98_loss_values : forall eps p y,
  fst (@reg_loss RNum SquaredError eps p y) = (p - y) * (p - y) / 2 /\
  fst (@reg_loss RNum Huber eps p y) = (if Rle_dec (Rabs (p - y)) eps then (p - y) * (p - y) / 2 else eps * (Rabs (p - y) - eps / 2)) /\
  fst (@reg_loss RNum EpsInsensitive eps p y) = Rmax 0 (Rabs (p - y) - eps).
Proof.
  intros eps p y. unfold reg_loss. rewrite shalf_R. cbn [nsub nabs nle nmul RNum n0]. split; [|split].
  - cbn [fst]. lra.
  - destruct (Rleb_spec (Rabs (p - y)) eps), (Rle_dec (Rabs (p - y)) eps); cbn [fst]; lra.
  - unfold Rmax. destruct (Rleb_spec (Rabs (p - y)) eps), (Rle_dec 0 (Rabs (p - y) - eps)); cbn [fst]; lra.
Qed.
(** What the penalty adds to a gradient is the slope of the penalty term. *)
Definition penalty_term (p : sparams RNum) : R -> R :=
  match sp_pen p with NoPenalty => fun _ => 0 | L2 => ridge (sp_alpha p) | L1 => lasso (sp_alpha p) | Elastic => mixed (sp_alpha p) (sp_l1 p) end.
Theorem C98_penalty : forall (p : sparams RNum) (w gr : R), (sp_pen p = L1 \/ sp_pen p = Elastic -> w <> 0) ->
  exists d : R, slope (penalty_term p) w d /\ with_penalty p w gr = gr + d.
Proof.
  intros p w gr H. unfold penalty_term, with_penalty. destruct (sp_pen p).
  - exists 0. split; [apply derivable_pt_lim_const|]. symmetry. apply Rplus_0_r.
  - exists (sp_alpha p * w). split; [apply ridge_slope|reflexivity].
  - exists (sp_alpha p * @sgn RNum w). split; [apply lasso_slope; auto|reflexivity].
  - exists (sp_alpha p * (sp_l1 p * @sgn RNum w + (1 - sp_l1 p) * w)). split; [apply mixed_slope; auto|reflexivity].
Qed.
(** A step: every coefficient moves against the gradient of loss and penalty, all by the same
    factor; the factor is the learning rate unless the gradient is longer than 10, and the
    gradient used is never longer.  The intercept moves by the slope times the learning rate. *)
Theorem C98_update : forall (pow : R -> R -> R) (G : Type) k (p : sparams RNum) (s : sreg RNum G) (w x : list R) (y : R),
  g_coef G s = Some w -> length w = length x ->
  let pred := linear_value (g_icept G s) w x in
  let lr := @rate RNum pow p (g_eta G s) (g_t G s) (g_hist G s) in
  let d := snd (@reg_loss RNum k (sp_eps p) pred y) in
  exists (s' : sreg RNum G) (w' g : list R) (c : R),
    @reg_update RNum pow G k p s x y = Ok (s', fst (@reg_loss RNum k (sp_eps p) pred y)) /\
    g_coef G s' = Some w' /\ length w' = length w /\ length g = length x /\
    (forall i, (i < length x)%nat -> nth i g 0 = with_penalty p (nth i w 0) (d * nth i x 0)) /\
    0 < c <= 1 /\ (sqnorm g <= 100 -> c = 1) /\ sqnorm (map (fun v => v * c) g) <= 100 /\
    (forall i, nth i w' 0 = nth i w 0 - lr * (nth i g 0 * c)) /\
    g_icept G s' = (if sp_icpt p then g_icept G s - lr * d else g_icept G s) /\ g_t G s' = S (g_t G s).
Proof.
  intros pow G k p s w x y Hw Hl pred lr d. unfold reg_update. rewrite Hw. rewrite score_R by exact Hl. cbn [bind]. fold pred.
  change (@unstable RNum pred) with false. cbv iota.
  assert (Hd : d = snd (@reg_loss RNum k (sp_eps p) pred y)) by reflexivity. clearbody d.
  destruct (@reg_loss RNum k (sp_eps p) pred y) as [loss d']. cbn [fst]. cbn [snd] in Hd. subst d'. fold lr.
  set (g := mapi (fun i (xi : R) => @with_penalty RNum p (nth i w 0) (d * xi)) x).
  assert (Hg : length g = length x) by apply mapi_from_length.
  rewrite nofZ_R. destruct (clip_R g 10 ltac:(lra)) as (c & Hc & Ec & Bc & Oc).
  match goal with |- context [clip_gradient ?a 10] => change a with g end. rewrite Ec.
  eexists. exists (@descend RNum lr (map (fun v => v * c) g) w), g, c.
  assert (Hlen : length (map (fun v => v * c) g) = length w) by (rewrite map_length; etransitivity; [exact Hg|symmetry; exact Hl]).
  split; [reflexivity|]. split; [reflexivity|]. split; [apply (@descend_length RNum)|]. split; [exact Hg|]. split; [|split; [exact Hc|split; [|split; [|split; [|split; reflexivity]]]]].
  - intros i Hi. exact (nth_mapi (fun i (xi : R) => @with_penalty RNum p (nth i w 0) (d * xi)) x i 0 0 Hi).
  - intros L. apply Oc. lra.
  - lra.
  - intros i. etransitivity; [exact (nth_descend lr _ w i Hlen)|]. f_equal. f_equal. transitivity (nth i (map (fun v => v * c) g) (0 * c)); [f_equal; ring|].
    apply (map_nth (fun v => v * c)).
Qed.
(** However large the residual, the coefficients move by at most ten times the learning rate. *)
Theorem C98_bounded : forall (pow : R -> R -> R) (G : Type) k (p : sparams RNum) (s s' : sreg RNum G) (w w' x : list R) (y loss : R),
  g_coef G s = Some w -> length w = length x -> @reg_update RNum pow G k p s x y = Ok (s', loss) -> g_coef G s' = Some w' ->
  sqdist w' w <= (10 * @rate RNum pow p (g_eta G s) (g_t G s) (g_hist G s)) * (10 * @rate RNum pow p (g_eta G s) (g_t G s) (g_hist G s)).
Proof.
  intros pow G k p s s' w w' x y loss Hw Hl H Hw'. unfold reg_update in H. rewrite Hw in H. rewrite score_R in H by exact Hl. cbn [bind] in H.
  set (pred := linear_value (g_icept G s) w x) in *. change (@unstable RNum pred) with false in H. cbv iota in H.
  destruct (reg_loss k (sp_eps p) pred y) as [l0 d]. apply (f_equal (fun r => match r with Ok (a, _) => g_coef G a | _ => None end)) in H.
  cbn [g_coef] in H. rewrite Hw' in H. set (lr := rate _ _ _ _ _) in *. set (g := mapi (fun i (xi : R) => @with_penalty RNum p (nth i w 0) (d * xi)) x).
  match type of H with context [clip_gradient ?a _] => change a with g in H end. rewrite nofZ_R in H.
  destruct (clip_R g 10 ltac:(lra)) as (c & Hc & Ec & Bc & Oc). rewrite Ec in H.
  assert (H' : w' = @descend RNum lr (map (fun v => v * c) g) w) by (injection H; auto). subst w'.
  assert (Hlen : length (map (fun v => v * c) g) = length w) by (rewrite map_length; etransitivity; [apply mapi_from_length|symmetry; exact Hl]).
  eapply Rle_trans; [right; exact (descend_dist lr _ w Hlen)|].
  pose proof (sqnorm_nonneg (map (fun v => v * c) g)). assert (0 <= lr * lr) by apply sq_nonneg.
  replace (10 * lr * (10 * lr)) with (lr * lr * (10 * 10)) by ring. apply Rmult_le_compat_l; assumption.
Qed.
(** For the squared error without penalty the residual of the sample itself is multiplied by
    1 - lr (|x|^2 + 1) (without the 1 if there is no intercept), as long as nothing is cut; so it
    shrinks exactly when lr (|x|^2 + 1) lies between 0 and 2. *)
Theorem C98_residual : forall (pow : R -> R -> R) (G : Type) (p : sparams RNum) (s : sreg RNum G) (w x : list R) (y : R),
  g_coef G s = Some w -> length w = length x -> sp_pen p = NoPenalty ->
  let r := linear_value (g_icept G s) w x - y in
  let f := @rate RNum pow p (g_eta G s) (g_t G s) (g_hist G s) * (sqnorm x + (if sp_icpt p then 1 else 0)) in
  r * r * sqnorm x <= 100 ->
  exists s' w', @reg_update RNum pow G SquaredError p s x y = Ok (s', r * r / 2) /\ g_coef G s' = Some w' /\
    linear_value (g_icept G s') w' x - y = r * (1 - f) /\
    (r <> 0 -> Rabs (linear_value (g_icept G s') w' x - y) < Rabs r <-> 0 < f < 2).
Proof.
  intros pow G p s w x y Hw Hl Hp r f Hc. unfold reg_update. rewrite Hw. rewrite score_R by exact Hl. cbn [bind].
  change (@unstable RNum ?a) with false. cbv iota. unfold reg_loss. rewrite shalf_R.
  set (lr := rate _ _ _ _ _) in *. cbn [nsub nmul RNum].
  fold r. set (g := mapi (fun i (xi : R) => @with_penalty RNum p (nth i w 0) (r * xi)) x).
  assert (Eg : g = map (fun v => r * v) x).
  { unfold g, mapi. unfold with_penalty. rewrite Hp. clearbody r. clear. generalize 0%nat. induction x as [|v x IH]; intros n; [reflexivity|]. cbn [mapi_from map]. f_equal. apply IH. }
  rewrite nofZ_R. destruct (clip_R g 10 ltac:(lra)) as (c & Hcc & Ec & Bc & Oc).
  assert (c = 1) as ->.
  { apply Oc. rewrite Eg. assert (E : sqnorm (map (fun v => r * v) x) = r * r * sqnorm x).
    { rewrite <- sqnorm_scal. f_equal. apply map_ext. intros; ring. }
    rewrite E. lra. }
  assert (Ec' : map (fun v => v * 1) g = map (fun v => r * v) x) by (rewrite Eg, map_map; apply map_ext; intros; ring).
  rewrite Ec' in Ec. match goal with |- context [clip_gradient ?a 10] => change a with g end. rewrite Ec.
  assert (F : forall b' w', b' = (if sp_icpt p then g_icept G s - lr * r else g_icept G s) -> w' = @descend RNum lr (map (fun v => r * v) x) w ->
     linear_value b' w' x - y = r * (1 - f)).
  { intros b' w' -> ->. rewrite (descend_value lr _ x _ w r Hl eq_refl).
    assert (S : forall a b, linear_value (a + b) w x = linear_value a w x + b) by (intros; apply linear_value_shift).
    destruct (sp_icpt p).
    - replace (g_icept G s - lr * r) with (g_icept G s + - (lr * r)) by ring. rewrite S. unfold f, r. ring.
    - unfold f, r. ring. }
  eexists. exists (@descend RNum lr (map (fun v => r * v) x) w). split; [f_equal; f_equal; lra|]. split; [reflexivity|]. split.
  - apply F; reflexivity.
  - intros Hr. match goal with |- Rabs ?a < _ <-> _ => replace a with (r * (1 - f)) by (symmetry; apply F; reflexivity) end. rewrite Rabs_mult. assert (0 < Rabs r) by (apply Rabs_pos_lt, Hr).
    rewrite <- (Rmult_1_r (Rabs r)) at 2. split.
    + intros L. apply Rmult_lt_reg_l in L; [|assumption]. apply Rabs_def2 in L. lra.
    + intros L. apply Rmult_lt_compat_l; [assumption|]. apply Rabs_def1; lra.
Qed.
(** Only the coefficients are held back: the intercept can move by any amount in one step. *)
Theorem C98_intercept_unbounded : forall B : R, exists (pow : R -> R -> R) (p : sparams RNum) (s s' : sreg RNum unit) (y loss : R),
  g_eta unit s = 1 /\ @reg_update RNum pow unit SquaredError p s [0] y = Ok (s', loss) /\ B < Rabs (g_icept unit s' - g_icept unit s).
Proof.
  intros B. pose (p := @mksp RNum NoPenalty 0 0 true 1 0 false 0 Constant 0 false 5).
  exists (fun a _ => a), p. pose (y := Rabs B + 1).
  pose (s := @mksr RNum unit (Some [0]) 0 1 1 0 0 [] false false tt). exists s.
  destruct (C98_update (fun a _ => a) unit SquaredError p s [0] [0] y eq_refl eq_refl) as (s' & w' & g & c & E & _ & _ & _ & _ & _ & _ & _ & _ & I & _).
  exists s', y. eexists. split; [reflexivity|]. split; [exact E|].
  replace (g_icept unit s') with y.
  - cbn [g_icept s]. unfold s. cbn [g_icept]. rewrite Rminus_0_r. unfold y. pose proof (Rabs_pos B). pose proof (Rle_abs B). rewrite (Rabs_right (Rabs B + 1)) by lra. lra.
  - rewrite I. cbn [sp_icpt p g_icept s rate sp_sched g_eta reg_loss snd linear_value]. cbn. unfold p, s. cbn. ring.
Qed.
Example C98_example : exists s' w',
  let p := @mksp RNum NoPenalty 0 0 true 1 0 false 0 Constant 0 false 5 in
  let s := @mksr RNum unit (Some [1; 2]) 0 (1/4) 2 0 0 [] false false tt in
  @reg_update RNum (fun a _ => a) unit SquaredError p s [1; 1] 1 = Ok (s', 2) /\ g_coef unit s' = Some w' /\
  linear_value (g_icept unit s') w' [1; 1] - 1 = 1 / 2.
Proof.
  pose (p := @mksp RNum NoPenalty 0 0 true 1 0 false 0 Constant 0 false 5).
  pose (s := @mksr RNum unit (Some [1; 2]) 0 (1/4) 2 0 0 [] false false tt).
  destruct (C98_residual (fun a _ => a) unit p s [1; 2] [1; 1] 1 eq_refl eq_refl eq_refl) as (s' & w' & E & W & R & _).
  { unfold sqnorm. cbn. lra. }
  exists s', w'. cbv zeta. fold p s. split; [|split; [exact W|]].
  - etransitivity; [exact E|]. f_equal. f_equal. cbn. lra.
  - etransitivity; [exact R|]. unfold sqnorm. cbn. lra.
Qed.

(** ** C99: weights that stop being finite stay so, unnoticed *)
Section C99.
Variables fexp flog : F64 -> F64.
Variable pow : F64 -> F64 -> F64.
Variable G : Type.
Variable normal : G -> F64 * G.
Variable shuffle : nat -> G -> list nat * G.
Notation FN := (FNum fexp flog).
Notation finite := (fun x => negb (broken x)).

(** Taking a step back (the repair in the code) never repairs: a coefficient that the step makes
    infinite or NaN is infinite or NaN afterwards. *)
Theorem C99_rollback : forall lr grads w j wj gj v, nth_error w j = Some wj -> nth_error grads j = Some gj ->
  nth_error (@descend FN lr grads w) j = Some v ->
  broken v = broken (f64_minus wj (f64_mult lr gj)) /\ (broken v = false -> v = f64_minus wj (f64_mult lr gj)).
Proof.
  intros lr grads w j wj gj v Hw Hg Hv. destruct (descend_broken fexp flog lr grads w j v Hv) as (wj' & Hw' & O).
  assert (wj' = wj) as -> by congruence. destruct O as [(gj' & Hg' & O)|[O _]].
  - assert (gj' = gj) as -> by congruence. destruct O as [->|[-> ->]]; split; auto. discriminate.
  - apply nth_error_None in O. congruence.
Qed.
(** Once the intercept or one coefficient is not finite, no prediction is, whatever the sample. *)
Theorem C99_predict : forall (s : sreg FN G) (w : list F64) (X : matrix FN),
  g_coef G s = Some w -> dead_weights (mcols X) (g_icept G s) w -> wf X -> g_fitted G s = true -> g_nfeat G s = mcols X -> (0 < nrows X)%nat ->
  exists ps : list F64, @reg_predict FN G s X = Ok ps /\ length ps = nrows X /\ Forall (fun v => broken v = true) ps.
Proof.
  intros s w X Hw D Hwf Hf Hn Hr. unfold reg_predict. rewrite Hf, Hn, Nat.eqb_refl. cbn [negb].
  unfold newdense. destruct (Nat.eqb_spec (nrows X) 0); [lia|]. cbn [Nat.eqb orb bind].
  apply mapM_forall. intros row Hrow. rewrite Hw. apply (dead_sum (g_icept G s) w row). exact (eq_ind_r (fun n => dead_weights n (g_icept G s) w) D (Hwf row Hrow)).
Qed.
(** PartialFit on such weights succeeds, changes no weight and records a loss of zero. *)
Theorem C99_partial_fit : forall k (p : sparams FN) (s : sreg FN G) (w : list F64) (X y : matrix FN),
  g_coef G s = Some w -> dead_weights (mcols X) (g_icept G s) w -> wf X -> g_nfeat G s = mcols X -> (0 < nrows X)%nat -> (nrows X <= nrows y)%nat ->
  exists s', @reg_partial FN pow G normal k p s X y = (s', Ok tt) /\ g_coef G s' = Some w /\ g_icept G s' = g_icept G s /\ g_fitted G s' = true /\ reg_loss_of G s' = Some f64_zero.
Proof.
  intros k p s w X y Hw D Hwf Hn Hr Hy. unfold reg_partial. rewrite Hw, Hn, Nat.eqb_refl. cbn [negb].
  destruct (dead_pass fexp flog pow G k p (samples X y) s) as (s1 & E & A1 & A2 & A3 & A4 & A5 & A6 & A7 & A8).
  { intros x o Hi. pose proof (samples_in X y x o Hi) as Hx. split; [|intros ->; exact (samples_some X y x Hy Hi)].
    unfold dead, weights_of. rewrite Hw. exact (eq_ind_r (fun n => dead_weights n (g_icept G s) w) D (Hwf x Hx)). }
  change (@n0 FN) with f64_zero. change (num FN) with F64 in *. rewrite E. eexists. split; [reflexivity|]. cbn [with_fitted recorded g_coef g_icept g_fitted].
  split; [congruence|]. split; [exact A2|]. split; [reflexivity|]. unfold reg_loss_of. cbn [with_fitted recorded g_hist]. rewrite rev_unit. f_equal. exact (zero_mean fexp flog (nrows X) Hr).
Qed.
(** Fit with a warm start on such weights succeeds, changes no weight, and reports that it
    converged with a loss of zero. *)
Theorem C99_fit : forall k (p : sparams FN) (s : sreg FN G) (w : list F64) (X y : matrix FN),
  g_coef G s = Some w -> dead_weights (mcols X) (g_icept G s) w -> wf X -> (0 < nrows X)%nat -> (nrows X <= nrows y)%nat ->
  (forall n g, Forall (fun i => (i < n)%nat) (fst (shuffle n g))) ->
  sp_warm p = true -> (1 <= sp_nochange p)%nat -> Bltb f64_zero (sp_tol p) = true -> (sp_nochange p < sp_maxiter p)%nat ->
  exists s', @reg_fit FN pow G normal shuffle k p s X y = (s', Ok tt) /\ g_coef G s' = Some w /\ g_icept G s' = g_icept G s /\ g_conv G s' = true /\ reg_loss_of G s' = Some f64_zero.
Proof.
  intros k p s w X y Hw D Hwf Hr Hy SH Hwarm Hn Ht Hm. unfold reg_fit. rewrite Hwarm, Hw. cbn [negb orb]. rewrite Hw.
  set (s1 := @mksr FN G (Some w) (g_icept G s) (g_eta G s) (mcols X) (g_niter G s) (g_t G s) (g_hist G s) (g_conv G s) (g_fitted G s) (g_rng G s)).
  destruct (dead_epochs fexp flog pow G shuffle k p (samples X y) (sp_maxiter p) s1 0 (g_hist G s)) as (s2 & j & E & C & H & J & A1 & A2 & A3 & A4).
  - exact SH.
  - rewrite samples_length. exact Hr.
  - intros x o Hi. pose proof (samples_in X y x o Hi) as Hx. split; [|intros ->; exact (samples_some X y x Hy Hi)].
    unfold dead, weights_of, s1. cbn [g_coef g_icept]. exact (eq_ind_r (fun n => dead_weights n (g_icept G s) w) D (Hwf x Hx)).
  - exact Hn.
  - exact Ht.
  - cbn [repeat]. rewrite app_nil_r. reflexivity.
  - lia.
  - lia.
  - exists (with_fitted G s2). split; [exact (f_equal (fun r : sreg FN G * res unit => match r with (s2, Ok _) => (with_fitted G s2, Ok tt) | (s2, Err e) => (s2, Err e) | (s2, Panic) => (s2, Panic) end) E)|]. cbn [with_fitted g_coef g_icept g_conv]. split; [exact A1|]. split; [exact A2|]. split; [exact C|].
    unfold reg_loss_of. cbn [with_fitted g_hist]. rewrite H. rewrite Nat.add_0_l. replace j with ((j - 1) + 1)%nat by lia. rewrite repeat_app. cbn [repeat]. rewrite app_assoc, rev_unit. reflexivity.
Qed.
End C99.

(** A fresh regressor with a constant learning rate of 4, one feature that is zero and one sample:
    the intercept swings ever wider until it is infinite; Fit then reports convergence with a loss
    of zero.  A second Fit on the same data is different: the learning rate has been lowered and
    stays lowered. *)
Definition w99_p : sparams F0 := @mksp F0 NoPenalty (f 0 1) (f 0 1) true 1000 (f 1 1000) false (f 1 10) Constant (f 1 4) false 5.
Definition w99_s : sreg F0 unit := @mksr F0 unit None (f 0 1) (f 4 1) 0 0 0 [] false false tt.
Definition w99_X : matrix F0 := mkmat 1 [[f 0 1]].
Definition w99_y : matrix F0 := mkmat 1 [[f 1 1]].
Definition w99_fit (s : sreg F0 unit) : sreg F0 unit * res unit := @reg_fit F0 (fun a _ => a) unit (fun g => (f 1 1, g)) (fun n g => (seq 0 n, g)) SquaredError w99_p s w99_X w99_y.
Definition w99_1 : sreg F0 unit * res unit := w99_fit w99_s.
Definition w99_2 : sreg F0 unit * res unit := w99_fit (fst w99_1).
Definition w99_ok (r : sreg F0 unit * res unit) : bool := match snd r with Ok _ => true | _ => false end.
Definition w99_loss (s : sreg F0 unit) : option SpecFloat.spec_float := option_map fs (reg_loss_of unit s).
Definition w99_pred (s : sreg F0 unit) : option bool := match reg_predict unit s w99_X with Ok [v] => Some (broken v) | _ => None end.
Theorem C99_diverged_refuted : w99_ok w99_1 = true /\ g_conv unit (fst w99_1) = true /\ w99_loss (fst w99_1) = Some (fs (f 0 1)) /\ w99_pred (fst w99_1) = Some true
  /\ (g_niter unit (fst w99_1) < 1000)%nat.
Proof. split; [vm_compute; reflexivity|]. split; [vm_compute; reflexivity|]. split; [vm_compute; reflexivity|]. split; [vm_compute; reflexivity|]. apply Nat.ltb_lt. vm_compute. reflexivity. Qed.
Theorem C99_refit_refuted : w99_ok w99_2 = true /\ w99_pred (fst w99_1) = Some true /\ w99_pred (fst w99_2) = Some false.
Proof. split; [vm_compute; reflexivity|]. split; vm_compute; reflexivity. Qed.

(** ** C100: the classifier's losses, their slopes, and the probabilities *)
(** The values recorded are the losses named, of the margin t * score. *)
Theorem C100_loss_values : forall t s, t = 1 \/ t = -1 ->
  fst (@class_loss RNum Hinge t s) = hinge (t * s) /\ fst (@class_loss RNum SquaredHinge t s) = squared_hinge (t * s) /\
  fst (@class_loss RNum ModifiedHuber t s) = modified_huber (t * s) /\ fst (@class_loss RNum Perceptron t s) = perceptron (t * s) /\
  fst (@class_loss RNum LogLoss t s) = logistic (t * s).
Proof. exact class_values. Qed.
(** Except for the log loss, the steps use the slope of the loss in the score, wherever it has one. *)
Theorem C100_slopes : forall t s, t = 1 \/ t = -1 ->
  (t * s <> 1 -> slope (fun q => hinge (t * q)) s (snd (@class_loss RNum Hinge t s))) /\
  slope (fun q => squared_hinge (t * q)) s (snd (@class_loss RNum SquaredHinge t s)) /\
  (t * s <> -1 -> slope (fun q => modified_huber (t * q)) s (snd (@class_loss RNum ModifiedHuber t s))) /\
  (t * s <> 0 -> slope (fun q => perceptron (t * q)) s (snd (@class_loss RNum Perceptron t s))).
Proof.
  intros t s T. split; [apply hinge_slope, T|]. split; [apply squared_hinge_slope, T|]. split; [apply modified_huber_slope, T|apply perceptron_slope, T].
Qed.
(** For the log loss the step uses the slope times e^min(0,z): right for samples on the correct
    side, too small by the factor e^z for samples on the wrong side - the worse the sample is
    classified, the less it counts. *)
Theorem C100_log_slope : forall t s, exists d,
  slope (fun q => logistic (t * q)) s d /\ snd (@class_loss RNum LogLoss t s) = exp (Rmin 0 (t * s)) * d.
Proof.
  intros t s. exists (- t * exp (- (t * s)) / (1 + exp (- (t * s)))). split; [apply logistic_slope|]. rewrite log_slope_used.
  destruct (Rle_lt_dec 0 (t * s)) as [L|L].
  - rewrite Rmin_left, exp_0, Rabs_right by lra. lra.
  - rewrite Rmin_right, Rabs_left, Ropp_involutive by lra. rewrite exp_Ropp.
    assert (W : forall a t : R, 0 < a -> - t * a / (1 + a) = a * (- t * / a / (1 + / a))) by (clear; intros; field; lra). apply W, exp_pos.
Qed.
Theorem C100_log_slope_refuted : exists t s, (t = 1 \/ t = -1) /\ ~ slope (fun q => logistic (t * q)) s (snd (@class_loss RNum LogLoss t s)).
Proof.
  exists 1, (-1). split; [left; reflexivity|]. intros H. destruct (C100_log_slope 1 (-1)) as (d & Hd & E). rewrite E in H.
  pose proof (uniqueness_limite _ _ _ _ H Hd) as K. rewrite Rmin_right in K by lra. replace (1 * -1) with (- (1)) in K by ring.
  assert (d <> 0).
  { pose proof (uniqueness_limite _ _ _ _ Hd (logistic_slope 1 (-1))) as ->. replace (- (1 * -1)) with 1 by ring. pose proof (exp_pos 1).
    intros Z. assert (0 < exp 1 / (1 + exp 1)) by (apply Rdiv_lt_0_compat; lra). unfold Rdiv in *. lra. }
  assert (exp (- (1)) < 1) by (pose proof (exp_increasing (- (1)) 0 ltac:(lra)) as Q; rewrite exp_0 in Q; exact Q).
  assert ((exp (- (1)) - 1) * d = 0) as M by lra. apply Rmult_integral in M. lra.
Qed.
(** A step of the classifier: for a known label every class moves against the gradient of its
    own one-against-the-rest loss and penalty, with target 1 for the label's class and -1 for the
    others, and the loss given back is their mean. *)
Theorem C100_update : forall (pow : R -> R -> R) (G : Type) (toint : R -> Z) k (p : sparams RNum) (s : scls RNum G) (ws : list (list R * R)) cs (x : list R) (y : R) c0,
  k_coef G s = Some ws -> k_classes G s = Some cs -> nth_error cs c0 = Some (toint y) -> NoDup cs -> (forall w b, In (w, b) ws -> length w = length x) ->
  let lr := @rate RNum pow p (k_eta G s) (k_t G s) (k_hist G s) in
  exists s' ws' ls, @cls_update RNum pow G toint k p s x y = Ok (s', Rsum ls / INR (length ws)) /\ k_coef G s' = Some ws' /\
    k_classes G s' = k_classes G s /\ k_t G s' = S (k_t G s) /\ length ws' = length ws /\ length ls = length ws /\
    forall c w b, nth_error ws c = Some (w, b) ->
      let t := if Nat.eqb c c0 then 1 else -1 in
      let d := snd (@class_loss RNum k t (linear_value b w x)) in
      nth_error ls c = Some (fst (@class_loss RNum k t (linear_value b w x))) /\
      exists w', nth_error ws' c = Some (w', if sp_icpt p then b - lr * d else b) /\ length w' = length w /\
        forall i, (i < length x)%nat -> nth i w' 0 = nth i w 0 - lr * with_penalty p (nth i w 0) (d * nth i x 0).
Proof.
  intros pow G toint k p s ws cs x y c0 Hws Hcs Hc0 Hnd Hlen lr. unfold cls_update. rewrite Hcs, Hws.
  assert (CI : class_index (toint y) cs = Some c0).
  { apply class_index_some. split; [exact Hc0|]. intros j Hj K.
    assert (j = c0); [|lia]. apply (NoDup_nth_error cs) ; [exact Hnd|apply nth_error_Some; congruence|congruence]. }
  rewrite CI. fold lr.
  set (step := fun q : nat * (list R * R) => @class_step RNum k p lr x (if (fst q =? c0)%nat then 1 else - (1)) (snd q)).
  set (val := fun q : nat * (list R * R) => let t := if (fst q =? c0)%nat then 1 else - (1) in
     let d := snd (@class_loss RNum k t (linear_value (snd (snd q)) (fst (snd q)) x)) in
     ((@sub_step RNum lr (mapi (fun i (xi : R) => @with_penalty RNum p (nth i (fst (snd q)) 0) (d * xi)) x) (fst (snd q)), if sp_icpt p then snd (snd q) - lr * d else snd (snd q)),
      fst (@class_loss RNum k t (linear_value (snd (snd q)) (fst (snd q)) x)))).
  assert (M : mapM step (combine (seq 0 (length ws)) ws) = Ok (map val (combine (seq 0 (length ws)) ws))).
  { apply mapM_all_ok. intros [c [w b]] Hi. apply in_combine_r in Hi. unfold step, val, class_step. cbn [fst snd]. rewrite score_R by exact (Hlen w b Hi). cbn [bind].
    destruct (@class_loss RNum k _ _) as [l d]. reflexivity. }
  match goal with |- context [mapM ?h ?l] => change (mapM h l) with (mapM step (combine (seq 0 (length ws)) ws)) end.
  rewrite M. cbn [bind]. eexists. exists (map fst (map val (combine (seq 0 (length ws)) ws))), (map snd (map val (combine (seq 0 (length ws)) ws))).
  split; [refine (f_equal (fun v => Ok (_, v)) _); refine (f_equal2 Rdiv _ _); [apply nsum_R|apply nofnat_R]|]. split; [reflexivity|]. split; [reflexivity|]. split; [reflexivity|].
  assert (LL : length (combine (seq 0 (length ws)) ws) = length ws) by (rewrite combine_length, seq_length; apply Nat.min_id).
  split; [rewrite !map_length; exact LL|]. split; [rewrite !map_length; exact LL|].
  intros c w b Hc. cbv zeta.
  assert (NC : nth_error (combine (seq 0 (length ws)) ws) c = Some (c, (w, b))) by exact (nth_combine_seq ws c (w, b) 0 Hc).
  rewrite !map_map. rewrite (map_nth_error _ _ _ NC), (map_nth_error _ _ _ NC). unfold val. cbn [fst snd].
  replace (- (1)) with (-1) by ring. split; [reflexivity|]. eexists. split; [reflexivity|].
  assert (Hwb : length w = length x) by (apply (Hlen w b), nth_error_In with c, Hc).
  set (d := snd _). clearbody d. split; [apply (@sub_step_length RNum)|].
  intros i Hi. apply (nth_sub_step lr x w (fun i v => @with_penalty RNum p (nth i w 0) (d * v))); assumption.
Qed.
(** A label that is not among the classes is skipped: nothing changes and its loss counts as zero. *)
Theorem C100_unknown_label : forall (N : Num) pow (G : Type) (toint : N -> Z) k (p : sparams N) (s : scls N G) x y cs,
  k_classes G s = Some cs -> ~ In (toint y) cs -> cls_update pow G toint k p s x y = Ok (s, n0).
Proof. intros N pow G toint k p s x y cs Hc Hn. unfold cls_update. rewrite Hc. rewrite (proj2 (class_index_none _ _) Hn). reflexivity. Qed.
(** PredictProba, over the reals: positive entries summing to one, ordered as the scores, so
    that the most probable class is the predicted one. *)
Theorem C100_proba : forall (G : Type) (s : scls RNum G) (X : matrix RNum) (ws : list (list R * R)) cs,
  k_fitted G s = true -> k_nfeat G s = mcols X -> k_coef G s = Some ws -> k_classes G s = Some cs -> cs <> [] -> length ws = length cs ->
  (forall w b, In (w, b) ws -> length w = mcols X) -> wf X -> (0 < nrows X)%nat ->
  exists (P : list (list R)) (L : list Z), cls_proba G s X = Ok P /\ cls_predict G s X = Ok L /\ length P = nrows X /\ length L = nrows X /\
    forall i ps l, nth_error P i = Some ps -> nth_error L i = Some l ->
      length ps = length cs /\ (forall v, In v ps -> 0 < v) /\ Rsum ps = 1 /\
      exists c q, nth_error cs c = Some l /\ nth_error ps c = Some q /\ forall j v, nth_error ps j = Some v -> v <= q /\ ((j < c)%nat -> v < q).
Proof.
  intros G s X ws cs Hf Hn Hws Hcs Hne Hl Hlen Hwf Hr. unfold cls_proba, cls_predict. rewrite Hf, Hn, Nat.eqb_refl, Hcs, Hws. cbn [negb].
  unfold newdense. destruct (Nat.eqb_spec (nrows X) 0); [lia|]. destruct cs as [|cz cr]; [congruence|]. cbn [length Nat.eqb orb bind].
  set (sc := fun row : list R => map (fun wb : list R * R => linear_value (snd wb) (fst wb) row) ws).
  assert (SC : forall row, In row (mrows X) -> @class_scores RNum ws row = Ok (sc row)).
  { intros row Hrow. unfold class_scores, sc. apply mapM_all_ok. intros [w b] Hi. cbn [fst snd].
    apply sum_R. rewrite (Hlen w b Hi). symmetry. apply Hwf, Hrow. }
  exists (map (fun row => @soft RNum (sc row)) (mrows X)), (map (fun row => @pick RNum (cz :: cr) (sc row) None cz) (mrows X)).
  split; [apply mapM_all_ok; intros row Hrow; rewrite SC by exact Hrow; reflexivity|].
  split; [apply mapM_all_ok; intros row Hrow; rewrite SC by exact Hrow; reflexivity|].
  split; [apply map_length|]. split; [apply map_length|].
  intros i ps l Hp Hl'. change (num RNum) with R in *. rewrite nth_error_map in Hp, Hl'. destruct (@nth_error (list R) (mrows X) i) as [row|]; [|discriminate Hp]. cbn [option_map] in *. injection Hp as <-. injection Hl' as <-.
  assert (Hsc : length (sc row) = length (cz :: cr)) by (unfold sc; rewrite map_length; exact Hl).
  assert (Hsn : sc row <> []) by (intros K; rewrite K in Hsc; discriminate).
  destruct (soft_R (sc row) Hsn) as (S1 & S2 & S3 & S4). split; [etransitivity; [exact S1|exact Hsc]|]. split; [exact S2|]. split; [exact S3|].
  destruct (pick_R (cz :: cr) (sc row) None cz (eq_sym Hsc)) as [(c & v & Hv & Hc & Hmax & _)|[_ K]].
  - exists c. destruct (nth_error (@soft RNum (sc row)) c) as [q|] eqn:Eq.
    + exists q. split; [exact Hc|]. split; [exact Eq|]. intros j u Hu.
      assert (exists vj, nth_error (sc row) j = Some vj) as (vj & Hvj).
      { destruct (nth_error (sc row) j) eqn:K; [eauto|]. exfalso. apply nth_error_None in K. rewrite <- S1 in K. apply nth_error_None in K. discriminate (eq_trans (eq_sym K) Hu). }
      destruct (Hmax j vj Hvj) as [H1 H2]. split.
      * destruct (Rle_lt_dec u q) as [L|L]; [exact L|]. exfalso. apply (proj2 (S4 c j v vj q u Hv Hvj Eq Hu)) in L. lra.
      * intros Hj. apply (proj1 (S4 j c vj v u q Hvj Hv Hu Eq)). auto.
    + exfalso. apply nth_error_None in Eq. pose proof (eq_ind _ (fun n => (n <= c)%nat) Eq _ S1) as Eq'. apply nth_error_None in Eq'. discriminate (eq_trans (eq_sym Eq') Hv).
  - exfalso. destruct (sc row) as [|v0 r0]; [congruence|]. exact (K 0%nat v0 eq_refl).
Qed.
(** With doubles, a score whose exponential overflows makes its probability NaN: the scores are
    not shifted by their maximum first. *)
Theorem C100_proba_overflow_refuted : forall fexp flog (vs : list F64) i v,
  nth_error vs i = Some v -> fexp v = f64_inf false -> nth_error (@soft (FNum fexp flog) vs) i = Some f64_nan.
Proof.
  intros fexp flog vs i v Hv He. unfold soft. cbn [nexp ndiv FNum]. rewrite map_map. rewrite (map_nth_error _ _ _ Hv). f_equal. rewrite He.
  apply inf_div_broken. unfold nsum. cbn [nadd FNum n0]. apply sum_broken with (v := f64_inf false); [|reflexivity].
  rewrite <- He. apply in_map. eapply nth_error_In, Hv.
Qed.
Example C100_example : hinge (1 * (1/2)) = 1/2 /\ snd (@class_loss RNum Hinge 1 (1/2)) = -1 /\ modified_huber (-1 * 2) = 8
  /\ Rsum (@soft RNum [0; 0]) = 1 /\ exists b, nth_error (@soft RNum [0; 1]) 1 = Some b /\ 1 / 2 < b.
Proof.
  split; [unfold hinge, Rmax; destruct (Rle_dec _ _); lra|]. split; [unfold class_loss; cbn [nmul nlt n1 n0 RNum nneg nsub]; destruct (Rltb_spec (1 * (1 / 2)) 1); cbn [snd]; lra|]. split; [unfold modified_huber; destruct (Rlt_dec _ _); lra|].
  split; [apply soft_R; discriminate|]. eexists. split; [reflexivity|]. unfold nsum. cbn. rewrite exp_0. assert (1 < exp 1) by (pose proof (exp_increasing 0 1 ltac:(lra)) as Q; rewrite exp_0 in Q; exact Q).
  apply (Rmult_lt_reg_r (0 + 1 + exp 1)); [lra|]. unfold Rdiv. rewrite (Rmult_assoc (exp 1)), Rinv_l by lra. lra.
Qed.

(** ** C101: what Fit and PartialFit record *)
(** After Fit from scratch the number of iterations is the number of recorded losses and at most
    maxIter; if Fit reports convergence, the last nIterNoChange losses lie within tol of each
    other (and there are more than that many losses), otherwise all maxIter passes were made. *)
Theorem C101_fit : forall pow (G : Type) normal shuffle k (p : sparams RNum) (s s' : sreg RNum G) (X y : matrix RNum),
  sp_warm p = false -> (1 <= sp_nochange p)%nat -> reg_fit pow G normal shuffle k p s X y = (s', Ok tt) ->
  g_fitted G s' = true /\ g_nfeat G s' = mcols X /\ g_niter G s' = length (g_hist G s') /\ (g_niter G s' <= sp_maxiter p)%nat /\
  (g_conv G s' = true -> (sp_nochange p < length (g_hist G s'))%nat /\ settled (sp_tol p) (skipn (length (g_hist G s') - sp_nochange p) (g_hist G s'))) /\
  (g_conv G s' = false -> g_niter G s' = sp_maxiter p).
Proof.
  intros pow G normal shuffle k p s s' X y Hw Hn H. unfold reg_fit in H. rewrite Hw in H. cbn [negb orb sreg_reset g_coef] in H.
  destruct (init_coef G normal (mcols X) (g_rng G (sreg_reset G s))) as [w g]. cbn [sreg_reset g_icept g_eta g_niter g_t g_hist g_conv g_fitted] in H.
  match type of H with context [reg_epochs _ _ _ _ _ _ ?a _] => set (s1 := a) in H end.
  destruct (reg_epochs pow G shuffle k p (sp_maxiter p) s1 (samples X y)) as [s2 r] eqn:E. destruct r as [[]| |]; try discriminate.
  injection H as <-. destruct (reg_epochs_book pow G shuffle k p (sp_maxiter p) s1 (samples X y) s2 E) as (new & L & I & Hh & F & O).
  cbn [s1 g_niter g_hist g_nfeat g_conv] in *. cbn [with_fitted g_fitted g_nfeat g_niter g_hist g_conv].
  unfold s1 in *. cbn [g_niter g_hist g_nfeat g_conv app] in *.
  split; [reflexivity|]. split; [exact F|]. split; [rewrite I, Hh; reflexivity|]. split; [lia|]. split.
  - intros C. destruct O as [(_ & K & _)|[_ K]]; [|congruence]. destruct (check_conv_R p (g_hist G s2) Hn) as (b & Eb & Hb). apply Hb. congruence.
  - intros C. destruct O as [(K & _)|[K _]]; [congruence|]. lia.
Qed.
(** PartialFit records one loss and one iteration; the classifier's records the loss but not
    the iteration. *)
Theorem C101_partial_fit : forall (N : Num) pow (G : Type) normal k (p : sparams N) (s s' : sreg N G) (X y : matrix N),
  reg_partial pow G normal k p s X y = (s', Ok tt) ->
  g_fitted G s' = true /\ g_niter G s' = S (g_niter G s) /\ exists v, g_hist G s' = g_hist G s ++ [v].
Proof.
  intros N pow G normal k p s s' X y. unfold reg_partial.
  match goal with |- context [negb (mcols X =? g_nfeat G ?a)] => set (s1 := a) end.
  assert (K : g_niter G s1 = g_niter G s /\ g_hist G s1 = g_hist G s) by (unfold s1; destruct (g_coef G s); [auto|]; destruct (init_coef _ _ _ _); auto).
  clearbody s1. destruct (negb _); [discriminate|]. destruct (spass (reg_update pow G k p) s1 n0 (samples X y)) as [[s2 total] r] eqn:E. destruct r as [[]| |]; try discriminate.
  intros H; injection H as <-. apply reg_pass_keeps in E. cbn [with_fitted recorded g_fitted g_niter g_hist].
  destruct E as (A & B & _), K as [K1 K2]. split; [reflexivity|]. split; [congruence|]. eexists. rewrite B, K2. reflexivity.
Qed.
Theorem C101_class_partial_fit : forall (N : Num) pow (G : Type) normal toint order k (p : sparams N) (s s' : scls N G) (X y : matrix N) classes,
  cls_partial pow G normal toint order k p s X y classes = (s', Ok tt) ->
  k_fitted G s' = true /\ k_niter G s' = k_niter G s /\ (exists v, k_hist G s' = k_hist G s ++ [v]) /\
  k_classes G s' = match k_coef G s with
                   | Some _ => k_classes G s
                   | None => Some (match classes with Some c => c | None => extract_classes order (labels toint y) end)
                   end.
Proof.
  intros N pow G normal toint order k p s s' X y classes. unfold cls_partial.
  match goal with |- context [negb (mcols X =? k_nfeat G ?a)] => set (s1 := a) end.
  assert (K : k_niter G s1 = k_niter G s /\ k_hist G s1 = k_hist G s /\ k_classes G s1 = match k_coef G s with
                   | Some _ => k_classes G s
                   | None => Some (match classes with Some c => c | None => extract_classes order (labels toint y) end)
                   end) by (unfold s1; destruct (k_coef G s); [auto|]; destruct (init_weights _ _ _ _ _); destruct classes; auto).
  clearbody s1. destruct (negb _); [discriminate|]. destruct (spass (cls_update pow G toint k p) s1 n0 (samples X y)) as [[s2 total] r] eqn:E. destruct r as [[]| |]; try discriminate.
  intros H; injection H as <-. apply cls_pass_keeps in E. cbn [cwith_fitted crecorded k_fitted k_niter k_hist k_classes].
  destruct E as (A & B & _ & C & _), K as (K1 & K2 & K3). split; [reflexivity|]. split; [congruence|]. split; [|congruence]. eexists. rewrite B, K2. reflexivity.
Qed.
(** A Fit of the classifier without warm start takes its classes from the labels it is given and
    keeps the same books as the regressor, whatever was fitted before. *)
Theorem C101_class_fit : forall pow (G : Type) normal shuffle toint order k (p : sparams RNum) (s s' : scls RNum G) (X y : matrix RNum),
  sp_warm p = false -> (1 <= sp_nochange p)%nat -> cls_fit pow G normal shuffle toint order k p s X y = (s', Ok tt) ->
  k_fitted G s' = true /\ k_nfeat G s' = mcols X /\ k_classes G s' = Some (extract_classes order (labels toint y)) /\
  k_niter G s' = length (k_hist G s') /\ (k_niter G s' <= sp_maxiter p)%nat /\
  (k_conv G s' = true -> (sp_nochange p < length (k_hist G s'))%nat /\ settled (sp_tol p) (skipn (length (k_hist G s') - sp_nochange p) (k_hist G s'))) /\
  (k_conv G s' = false -> k_niter G s' = sp_maxiter p).
Proof.
  intros pow G normal shuffle toint order k p s s' X y Hw Hn H. unfold cls_fit in H. rewrite Hw in H. cbn [negb orb scls_reset k_coef k_classes] in H.
  destruct (init_weights G normal (length (extract_classes order (labels toint y))) (mcols X) (k_rng G (scls_reset G s))) as [w g].
  cbn [scls_reset k_eta k_niter k_t k_hist k_conv k_fitted] in H.
  match type of H with context [cls_epochs _ _ _ _ _ _ _ ?a _] => set (s1 := a) in H end.
  destruct (cls_epochs pow G shuffle toint k p (sp_maxiter p) s1 (samples X y)) as [s2 r] eqn:E. destruct r as [[]| |]; try discriminate.
  injection H as <-. destruct (cls_epochs_book pow G shuffle toint k p (sp_maxiter p) s1 (samples X y) s2 E) as (new & L & I & Hh & P & F & O).
  unfold s1 in *. cbn [k_niter k_hist k_nfeat k_conv k_classes app] in *. cbn [cwith_fitted k_fitted k_nfeat k_niter k_hist k_conv k_classes].
  split; [reflexivity|]. split; [exact F|]. split; [exact P|]. split; [rewrite I, Hh; reflexivity|]. split; [lia|]. split.
  - intros C. destruct O as [(_ & K & _)|[_ K]]; [|congruence]. destruct (check_conv_R p (k_hist G s2) Hn) as (b & Eb & Hb). apply Hb. congruence.
  - intros C. destruct O as [(K & _)|[K _]]; [congruence|]. lia.
Qed.
(** With a warm start the report of an earlier Fit survives: here the second Fit makes all its
    passes, its last losses differ by more than tol, and it still reports convergence. *)
Definition w101_p (n : nat) : sparams F0 := @mksp F0 NoPenalty (f 0 1) (f 0 1) true n (f 1 1000) false (f 1 10) Constant (f 1 4) true 2.
Definition w101_fit (n : nat) (s : sreg F0 unit) (y : Z) : sreg F0 unit * res unit :=
  @reg_fit F0 (fun a _ => a) unit (fun g => (f 1 1, g)) (fun n g => (seq 0 n, g)) SquaredError (w101_p n) s (mkmat 1 [[f 0 1]]) (mkmat 1 [[f y 1]]).
Definition w101_1 := w101_fit 10 (@mksr F0 unit None (f 0 1) (f 1 2) 0 0 0 [] false false tt) 0.
Definition w101_2 := w101_fit 2 (fst w101_1) 100.
Theorem C101_warm_refuted : g_conv unit (fst w101_1) = true /\ w99_ok w101_2 = true /\ g_conv unit (fst w101_2) = true
  /\ (g_niter unit (fst w101_2) = g_niter unit (fst w101_1) + 2)%nat
  /\ map fs (skipn 3 (g_hist unit (fst w101_2))) = map fs [f 5000 1; f 1250 1] /\ length (g_hist unit (fst w101_2)) = 5%nat /\ sp_nochange (w101_p 2) = 2%nat.
Proof. repeat split; vm_compute; reflexivity. Qed.
Example C99_example : exists w, g_coef unit (fst w99_1) = Some w /\ length w = 1%nat /\ broken (g_icept unit (fst w99_1)) = true /\ g_fitted unit (fst w99_1) = true.
Proof.
  assert (H : match g_coef unit (fst w99_1) with Some w => Nat.eqb (length w) 1 && broken (g_icept unit (fst w99_1)) && g_fitted unit (fst w99_1) | None => false end = true) by (vm_compute; reflexivity).
  destruct (g_coef unit (fst w99_1)) as [w|]; [|discriminate]. exists w. apply andb_prop in H. destruct H as [H H3]. apply andb_prop in H. destruct H as [H1 H2].
  apply Nat.eqb_eq in H1. auto.
Qed.
Example C101_example : exists s', @reg_fit RNum (fun a _ => a) unit (fun g => (1, g)) (fun n g => (seq 0 n, g)) SquaredError
    (@mksp RNum NoPenalty 0 0 true 1 0 false 0 Constant 0 false 2) (@mksr RNum unit None 0 1 0 0 0 [] false false tt) (@mkmat RNum 1 [[1]]) (@mkmat RNum 1 [[2]]) = (s', Ok tt)
  /\ g_niter unit s' = 1%nat /\ length (g_hist unit s') = 1%nat /\ g_conv unit s' = false.
Proof. eexists. split; [reflexivity|]. repeat split. Qed.

Print Assumptions C98_loss_slopes.
Print Assumptions C98_loss_values.
Print Assumptions C98_penalty.
Print Assumptions C98_update.
Print Assumptions C98_bounded.
Print Assumptions C98_residual.
Print Assumptions C98_intercept_unbounded.
Print Assumptions C99_rollback.
Print Assumptions C99_predict.
Print Assumptions C99_partial_fit.
Print Assumptions C99_fit.
Print Assumptions C99_diverged_refuted.
Print Assumptions C99_refit_refuted.
Print Assumptions C100_loss_values.
Print Assumptions C100_slopes.
Print Assumptions C100_log_slope.
Print Assumptions C100_log_slope_refuted.
Print Assumptions C100_update.
Print Assumptions C100_unknown_label.
Print Assumptions C100_proba.
Print Assumptions C100_proba_overflow_refuted.
Print Assumptions C101_fit.
Print Assumptions C101_partial_fit.
Print Assumptions C101_class_fit.
Print Assumptions C101_class_partial_fit.
Print Assumptions C101_warm_refuted.
