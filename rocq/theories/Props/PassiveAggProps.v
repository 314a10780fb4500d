(** C56 and C97: passive-aggressive learning. *)
From Coq Require Import List Arith Bool ZArith Reals Lra Lia Psatz QArith.
From Verif Require Import Base.Num Base.GoRes Base.Mat Base.ListX Base.RTac Base.Inf Model.Linear Model.NaiveBayes Model.PassiveAgg
  Spec.Linear Spec.PassiveAgg Proofs.LinearP Proofs.PassiveAggP.
Import ListNotations.
Close Scope Q_scope.
Local Open Scope list_scope.
Local Open Scope R_scope.

(** A sample inside the tube changes nothing but the counter. *)
Theorem C56_passive (p : paparams RNum) (s : par RNum) (w x : list R) (y : R) :
  r_coef s = Some w -> length w = length x -> 0 < pa_C p ->
  Rabs (y - linear_value (r_icept s) w x) <= pa_eps p ->
  par_update p s x y = Ok (@mkpar RNum (Some w) (r_icept s) (r_nfeat s) (r_niter s) (S (r_t s)) (r_fitted s) (r_conv s)).
Proof. apply par_passive. Qed.

(** Any other sample moves the coefficients along x and the error by the share of its excess. *)
Theorem C56_step (p : paparams RNum) (s : par RNum) (w x : list R) (y : R) :
  r_coef s = Some w -> length w = length x -> 0 < pa_C p ->
  let r := y - linear_value (r_icept s) w x in
  pa_eps p < Rabs r ->
  exists s' w', par_update p s x y = Ok s' /\ r_coef s' = Some w' /\ length w' = length x /\
    (exists tau, tau <> 0 /\ (forall i, nth i w' 0 = nth i w 0 + tau * nth i x 0) /\
       r_icept s' = if pa_icpt p then r_icept s + tau else r_icept s) /\
    y - linear_value (r_icept s') w' x = r - side r * (Rabs r - pa_eps p) * share (pa_C p) (pa_icpt p) x /\
    r_t s' = S (r_t s) /\ r_nfeat s' = r_nfeat s /\ r_niter s' = r_niter s /\ r_fitted s' = r_fitted s /\ r_conv s' = r_conv s.
Proof.
  intros Hw Hl HC r Hr. pose proof (denom_pos (pa_C p) x HC) as Hd.
  eexists. eexists. split; [apply (par_step p s w x y Hw Hl HC Hr)|]. cbn [r_coef r_icept r_t r_nfeat r_niter r_fitted r_conv].
  fold r. set (tau := side r * ((Rabs r - pa_eps p) / (sqnorm x + 1 / (2 * pa_C p)))).
  split; [reflexivity|]. split; [etransitivity; [apply (@axpy_length RNum)|exact Hl]|]. split; [exists tau; split; [|split; [|reflexivity]]|].
  - unfold tau. apply Rmult_integral_contrapositive_currified; [apply side_nz|].
    apply Rgt_not_eq. apply Rdiv_lt_0_compat; [lra|assumption].
  - intros i. now apply axpy_nth.
  - split; [|auto]. rewrite axpy_value by exact Hl. unfold share.
    transitivity (r - tau * (sqnorm x + if pa_icpt p then 1 else 0)).
    + fold tau. unfold r at 1. destruct (pa_icpt p); [rewrite (linear_value_shift (r_icept s) tau)|]; unfold r; ring.
    + unfold tau. set (d := sqnorm x + 1 / (2 * pa_C p)) in *. field. lra.
Qed.

(** Without an intercept, or with C at most 1/2, the error shrinks but never below the width of
    the tube; and it shrinks strictly if the share is not zero. *)
Theorem C56_towards (p : paparams RNum) (s s' : par RNum) (w w' x : list R) (y : R) :
  r_coef s = Some w -> length w = length x -> 0 < pa_C p -> 0 <= pa_eps p -> (pa_icpt p = false \/ pa_C p <= 1 / 2) ->
  let r := y - linear_value (r_icept s) w x in
  pa_eps p < Rabs r ->
  par_update p s x y = Ok s' -> r_coef s' = Some w' ->
  let r' := y - linear_value (r_icept s') w' x in
  pa_eps p <= Rabs r' <= Rabs r /\ 0 <= r * r' /\ (share (pa_C p) (pa_icpt p) x <> 0 -> Rabs r' < Rabs r).
Proof.
  intros Hw Hl HC He Hi r Hr Hu Hw' r'. destruct (C56_step p s w x y Hw Hl HC Hr) as (s1 & w1 & U & W & _ & _ & E & _).
  rewrite U in Hu. injection Hu as <-. rewrite W in Hw'. injection Hw' as <-. fold r' r in E.
  destruct (share_le1 (pa_C p) (pa_icpt p) x HC Hi) as [S0 S1]. set (rho := share (pa_C p) (pa_icpt p) x) in *.
  assert (Er : r' = side r * (Rabs r - (Rabs r - pa_eps p) * rho)).
  { rewrite E. transitivity (side r * Rabs r - side r * (Rabs r - pa_eps p) * rho); [rewrite side_mul; reflexivity|ring]. }
  assert (Rb : pa_eps p <= Rabs r - (Rabs r - pa_eps p) * rho <= Rabs r) by nra.
  assert (Ea : Rabs r' = Rabs r - (Rabs r - pa_eps p) * rho).
  { rewrite Er, Rabs_mult. replace (Rabs (side r)) with 1; [|unfold side; destruct (Rlt_dec r 0); [rewrite Rabs_left|rewrite Rabs_right]; lra].
    rewrite Rabs_right; lra. }
  split; [lra|]. split.
  - rewrite Er. replace (r * (side r * (Rabs r - (Rabs r - pa_eps p) * rho))) with (Rabs r * (Rabs r - (Rabs r - pa_eps p) * rho)); [|rewrite <- side_abs at 1; ring].
    apply Rmult_le_pos; [apply Rabs_pos|lra].
  - intros Hz. rewrite Ea. assert (0 < rho) by lra. nra.
Qed.

(** In general the error grows exactly if the share of the excess is more than twice the error;
    so an intercept and a large C can make a step harmful. *)
Theorem C56_overshoot (p : paparams RNum) (s s' : par RNum) (w w' x : list R) (y : R) :
  r_coef s = Some w -> length w = length x -> 0 < pa_C p ->
  let r := y - linear_value (r_icept s) w x in
  pa_eps p < Rabs r ->
  par_update p s x y = Ok s' -> r_coef s' = Some w' ->
  Rabs r < Rabs (y - linear_value (r_icept s') w' x) <-> 2 * Rabs r < (Rabs r - pa_eps p) * share (pa_C p) (pa_icpt p) x.
Proof.
  intros Hw Hl HC r Hr Hu Hw'. destruct (C56_step p s w x y Hw Hl HC Hr) as (s1 & w1 & U & W & _ & _ & E & _).
  rewrite U in Hu. injection Hu as <-. rewrite W in Hw'. injection Hw' as <-. fold r in E. rewrite E.
  set (rho := share (pa_C p) (pa_icpt p) x).
  assert (H0 : 0 <= rho).
  { unfold rho, share. apply Rmult_le_pos; [pose proof (sqnorm_nonneg x); destruct (pa_icpt p); lra|left; apply Rinv_0_lt_compat; now apply denom_pos]. }
  set (q := (Rabs r - pa_eps p) * rho). assert (Hq : 0 <= q) by (apply Rmult_le_pos; lra).
  replace (r - side r * (Rabs r - pa_eps p) * rho) with (side r * (Rabs r - q)); [|transitivity (side r * Rabs r - side r * q); [ring|rewrite side_mul; unfold q; ring]].
  rewrite Rabs_mult. replace (Rabs (side r)) with 1; [|unfold side; destruct (Rlt_dec r 0); [rewrite Rabs_left|rewrite Rabs_right]; lra].
  rewrite Rmult_1_l. pose proof (Rabs_pos r). unfold Rabs at 2. destruct (Rcase_abs (Rabs r - q)); split; intros; lra.
Qed.
Definition wp : paparams RNum := @mkpap RNum 10 true 1 false false (1 / 10).
Definition ws : par RNum := @mkpar RNum (Some [0]) 0 1 0 0 false false.
Theorem C56_overshoot_refuted :
  exists (p : paparams RNum) (s s' : par RNum) (w w' x : list R) (y : R),
    r_coef s = Some w /\ length w = length x /\ 0 < pa_C p /\ 0 <= pa_eps p /\ par_update p s x y = Ok s' /\ r_coef s' = Some w' /\
    Rabs (y - linear_value (r_icept s) w x) = 1 /\ Rabs (y - linear_value (r_icept s') w' x) = 17.
Proof.
  assert (Ha : Rabs (1 - linear_value (r_icept ws) [0] [0]) = 1) by (cbn; rewrite Rabs_right; lra).
  assert (Hr : pa_eps wp < Rabs (1 - linear_value (r_icept ws) [0] [0])) by (rewrite Ha; cbn; lra).
  destruct (C56_step wp ws [0] [0] 1 eq_refl eq_refl ltac:(cbn; lra) Hr) as (s' & w' & U & W & _ & _ & E & _).
  exists wp, ws, s', [0], w', [0], 1. split; [reflexivity|]. split; [reflexivity|]. split; [cbn; lra|]. split; [cbn; lra|].
  split; [exact U|]. split; [exact W|]. split; [exact Ha|]. rewrite E, Ha. unfold share, sqnorm, side. cbn.
  destruct (Rlt_dec _ _); [lra|]. unfold Rabs. destruct (Rcase_abs _); lra.
Qed.

(** Without an intercept the step is the best compromise between staying close and fitting the
    sample: it minimises |u - w|^2 / 2 + C (excess of u)^2 over all coefficient vectors u. *)
Theorem C56_optimal (p : paparams RNum) (s s' : par RNum) (w w' x u : list R) (y : R) :
  r_coef s = Some w -> length w = length x -> length u = length x -> 0 < pa_C p -> 0 <= pa_eps p -> pa_icpt p = false ->
  par_update p s x y = Ok s' -> r_coef s' = Some w' ->
  let cost v := sqdist v w / 2 + pa_C p * (tube_loss (pa_eps p) (y - linear_value (r_icept s) v x) * tube_loss (pa_eps p) (y - linear_value (r_icept s) v x)) in
  r_icept s' = r_icept s /\ cost w' <= cost u.
Proof.
  intros Hw Hl Hlu HC He Hi Hu Hw' cost. set (b := r_icept s) in *. set (r := y - linear_value b w x).
  assert (Hpos : 0 <= cost u).
  { unfold cost. pose proof (sqdist_nonneg u w). pose proof (sq_nonneg (tube_loss (pa_eps p) (y - linear_value b u x))). nra. }
  destruct (Rlt_dec (pa_eps p) (Rabs r)) as [L|L].
  2:{ rewrite (C56_passive p s w x y Hw Hl HC) in Hu by (fold b r; lra). injection Hu as <-. cbn in Hw'. injection Hw' as <-.
      split; [reflexivity|]. replace (cost w) with 0; [assumption|]. unfold cost. rewrite sqdist_refl. fold r. unfold tube_loss. rewrite Rmax_left by lra. lra. }
  pose proof (C56_towards p s s' w w' x y Hw Hl HC He (or_introl Hi) L Hu Hw') as T. fold b in T. fold r in T. cbv zeta in T.
  destruct (C56_step p s w x y Hw Hl HC L) as (s1 & w1 & U & W & _ & _ & E & _).
  pose proof (par_step p s w x y Hw Hl HC L) as PS. cbv zeta in PS. fold b in PS, E. fold r in PS, E.
  assert (Es : s1 = s') by congruence. subst s1. assert (Ew : w1 = w') by congruence. subst w1.
  set (k := 1 / (2 * pa_C p)). set (n := sqnorm x). assert (Hk : 0 < k) by (apply Rdiv_lt_0_compat; lra).
  pose proof (sqnorm_nonneg x) as Hn. fold n in Hn.
  set (Lo := Rabs r - pa_eps p) in *. set (tau := side r * (Lo / (sqnorm x + 1 / (2 * pa_C p)))) in PS.
  rewrite Hu in PS. injection PS as PS. rewrite Hi in PS.
  assert (Eb : r_icept s' = b) by (rewrite PS; reflexivity).
  assert (Ewx : w' = @axpy RNum tau x w) by (rewrite PS in Hw'; cbn in Hw'; congruence).
  split; [exact Eb|]. rewrite Eb in *.
  assert (Cw : cost w' = Lo * Lo / (n + k) / 2).
  { unfold cost. assert (Ed : sqdist w' w = tau * tau * n) by (rewrite Ewx; apply axpy_dist; exact Hl). rewrite Ed.
    assert (Et : tau * tau = Lo * Lo / ((n + k) * (n + k))).
    { unfold tau. fold n k. transitivity (side r * side r * (Lo / (n + k) * (Lo / (n + k)))); [ring|]. rewrite side_sq. field. lra. }
    assert (El : tube_loss (pa_eps p) (y - linear_value b w' x) = Lo * k / (n + k)).
    { unfold tube_loss. rewrite E. unfold share. rewrite Hi. fold n k.
      destruct T as ((T1 & T2) & T3 & _). rewrite E in T1, T2, T3. unfold share in T1, T2, T3. rewrite Hi in T1, T2, T3. fold n k in T1, T2, T3.
      set (z := r - side r * Lo * ((n + 0) / (n + k))) in *.
      assert (Ez : side r * z = Rabs r - Lo * (n / (n + k))).
      { unfold z. transitivity (side r * r - side r * side r * (Lo * (n / (n + k)))); [field; lra|]. rewrite side_abs, side_sq. ring. }
      assert (Rabs z = side r * z).
      { apply side_same; [|exact T3]. intros K. rewrite K, Rabs_R0 in L. lra. }
      rewrite Rmax_right by lra. rewrite H, Ez. unfold Lo. field. lra. }
    rewrite Et, El. assert (EC0 : forall c kk : R, 0 < c -> kk = 1 / (2 * c) -> c = 1 / (2 * kk)) by (clear; intros c kk Hc ->; field; lra). pose proof (EC0 _ k HC eq_refl) as EC. clearbody k. rewrite EC. field. lra. }
  rewrite Cw. unfold cost.
  set (e := tube_loss (pa_eps p) (y - linear_value b u x)).
  set (a := Rabs (linear_value b u x - linear_value b w x)).
  assert (He0 : 0 <= e) by apply Rmax_l.
  assert (Hae : Lo <= a + e).
  { assert (Rabs (y - linear_value b u x) - pa_eps p <= e) by apply Rmax_r.
    assert (Rabs r <= a + Rabs (y - linear_value b u x)).
    { unfold r, a. replace (y - linear_value b w x) with (linear_value b u x - linear_value b w x + (y - linear_value b u x)) by ring. apply Rabs_triang. }
    unfold Lo. lra. }
  assert (Hau : a * a <= sqdist u w * n).
  { unfold a. replace (Rabs (linear_value b u x - linear_value b w x) * Rabs (linear_value b u x - linear_value b w x))
      with ((linear_value b u x - linear_value b w x) * (linear_value b u x - linear_value b w x)).
    - apply cauchy; [exact Hlu|exact Hl].
    - unfold Rabs. destruct (Rcase_abs _); ring. }
  pose proof (best_value n k (sqdist u w) e a Lo Hn Hk (sqdist_nonneg u w) He0 ltac:(unfold Lo; lra) Hae Hau) as B.
  replace (e * e / k) with (2 * (pa_C p * (e * e))) in B by (unfold k; field; lra). lra.
Qed.

(** The option "squared_epsilon_insensitive" makes no difference. *)
Theorem C56_losses (C : R) icpt m wm (eps : R) (s : par RNum) (x : list R) (y : R) :
  0 < C -> par_update (@mkpap RNum C icpt m wm true eps) s x y = par_update (@mkpap RNum C icpt m wm false eps) s x y.
Proof.
  intros HC. unfold par_update. destruct (score _ _ _) as [v| |]; cbn [bind]; try reflexivity.
  rewrite !tau_R by exact HC. reflexivity.
Qed.

(** *** Classifier *)
(** Target of class number c for a sample of class number k. *)
Definition target (k c : nat) : R := if Nat.eqb c k then 1 else -1.

(** Every class with margin at least one keeps its weights; every other margin moves towards
    one by the share. *)
Theorem C56_class_step (toint : R -> Z) (p : paparams RNum) (s : pac RNum) (l : list (list R * R)) (cls : list Z) k (x : list R) (y : R) :
  c_coef s = Some l -> c_classes s = Some cls -> 0 < pa_C p ->
  (forall wb, In wb l -> length (fst wb) = length x) ->
  nth_error cls k = Some (toint y) -> (forall j, (j < k)%nat -> nth_error cls j <> Some (toint y)) ->
  exists l', @pac_update RNum toint p s x y = Ok (@mkpac RNum (Some l') (Some cls) (c_nfeat s) (c_niter s) (S (c_t s)) (c_fitted s) (c_conv s)) /\
    length l' = length l /\
    forall c w b, nth_error l c = Some (w, b) ->
      exists w' b', nth_error l' c = Some (w', b') /\ length w' = length w /\
        let m := target k c * linear_value b w x in
        let m' := target k c * linear_value b' w' x in
        (1 <= m -> (w', b') = (w, b)) /\ (m < 1 -> m' = m + share (pa_C p) (pa_icpt p) x * (1 - m)).
Proof.
  intros Hc Hcl HC Hlen Hk Hj. unfold pac_update. rewrite Hcl, Hc.
  rewrite (proj2 (class_index_some (toint y) cls k) (conj Hk Hj)).
  assert (Tsq : forall c, target k c * target k c = 1) by (intros c; unfold target; destruct (Nat.eqb c k); lra).
  assert (G : forall c w b, In (w, b) l -> @pac_class RNum p x (target k c) (w, b) =
    if Rlt_dec (target k c * linear_value b w x) 1
    then Ok (@axpy RNum ((1 - target k c * linear_value b w x) / (sqnorm x + 1 / (2 * pa_C p)) * target k c) x w,
             if pa_icpt p then b + (1 - target k c * linear_value b w x) / (sqnorm x + 1 / (2 * pa_C p)) * target k c else b)
    else Ok (w, b)).
  { intros c w b Hin. apply pac_class_R; auto. exact (Hlen _ Hin). }
  match goal with |- context [mapM ?g ?ll] => set (f := g); set (cl := ll) end.
  assert (Ff : forall c w b, f (c, (w, b)) = @pac_class RNum p x (target k c) (w, b)).
  { intros c w b. unfold f, target. cbn [fst snd]. destruct (Nat.eqb c k); [reflexivity|].
    change (@nneg RNum n1) with (- (1)). replace (- (1)) with (-1) by lra. reflexivity. }
  assert (F : forall q, In q cl -> exists v, f q = Ok v).
  { intros [c [w b]] Hq. unfold cl in Hq. apply in_combine_r in Hq.
    pose proof (eq_trans (Ff c w b) (G c w b Hq)) as E. destruct (Rlt_dec _ _) in E; eexists; exact E. }
  assert (M : exists l', mapM f cl = Ok l').
  { clear - F. revert F. induction cl as [|q cl IH]; intros F; [eexists; reflexivity|].
    destruct (F q (or_introl eq_refl)) as [v E]. destruct (IH (fun q' H => F q' (or_intror H))) as [l' E'].
    cbn [mapM]. rewrite E. cbn [bind]. rewrite E'. cbn [bind]. eauto. }
  destruct M as [l' M]. rewrite M. cbn [bind]. exists l'. split; [reflexivity|].
  destruct (mapM_nth f cl l' M) as (ML & MN). split.
  { rewrite ML. unfold cl. rewrite combine_length, seq_length. apply Nat.min_id. }
  intros c w b Hn. destruct (MN c (c, (w, b))) as (v & Ev & Nv); [unfold cl; exact (nth_combine_seq l c (w, b) 0 Hn)|].
  assert (Hin : In (w, b) l) by (eapply nth_error_In; exact Hn).
  pose proof (eq_trans (eq_sym Ev) (eq_trans (Ff c w b) (G c w b Hin))) as Ev'. pose proof (Hlen _ Hin) as Hl. cbn [fst] in Hl. pose proof (denom_pos (pa_C p) x HC) as Hd.
  destruct (Rlt_dec (target k c * linear_value b w x) 1) as [L|L]; injection Ev' as ->.
  - do 2 eexists. split; [exact Nv|]. split; [apply (@axpy_length RNum)|]. cbv zeta. split; [intros; lra|]. intros _.
    rewrite axpy_value by exact Hl. unfold share. specialize (Tsq c).
    set (m := target k c * linear_value b w x) in *. set (d := sqnorm x + 1 / (2 * pa_C p)) in *.
    transitivity (m + target k c * target k c * ((1 - m) / d * (sqnorm x + if pa_icpt p then 1 else 0))).
    + unfold m. destruct (pa_icpt p); [rewrite linear_value_shift|]; ring.
    + rewrite Tsq. field. lra.
  - exists w, b. split; [exact Nv|]. split; [reflexivity|]. cbv zeta. split; [reflexivity|]. intros; lra.
Qed.

(** A sample whose label is not in the class list leaves the classifier as it was, counter
    included, and no error is given. *)
Theorem C56_unknown {N : Num} (toint : N -> Z) (p : paparams N) (s : pac N) (cls : list Z) (x : list N) (y : N) :
  c_classes s = Some cls -> ~ In (toint y) cls -> pac_update toint p s x y = Ok s.
Proof. intros Hc H. unfold pac_update. rewrite Hc. rewrite (proj2 (class_index_none (toint y) cls) H). reflexivity. Qed.

(** A step with C = 1/2, intercept, x = (1, 1): error 2, tube 1/2, share 1, so the new error is
    exactly 1/2. *)
Definition qp : paparams QNum := @mkpap QNum (1#2)%Q true 1 false false (1#2)%Q.
Definition qs : par QNum := @mkpar QNum (Some [0; 0]%Q) 0%Q 2 0 0 false false.
Example ex_step : exists s', par_update qp qs ([1; 1]%Q : list QNum) (2%Q : QNum) = Ok s' /\
  (exists w, r_coef s' = Some w /\ Forall2 Qeq w [1#2; 1#2]%Q) /\ Qeq (r_icept s') (1#2)%Q.
Proof.
  eexists. split; [vm_compute; reflexivity|]. split; [eexists; split; [vm_compute; reflexivity|]|vm_compute; reflexivity].
  repeat constructor.
Qed.

(** *** C97: training *)
Local Close Scope R_scope.
Section C97.
Context {N : Num}.

(** A regressor as the API leaves it: no coefficients yet, or as many as features. *)
Definition par_sound (s : par N) : Prop := r_coef s = None \/ par_wf (r_nfeat s) s.

(** PartialFit on a batch of the right width succeeds, uses every row once and leaves a usable
    model; a batch of another width is refused and changes nothing. *)
Theorem C97_partial_fit (p : paparams N) (s : par N) (X y : matrix N) :
  par_sound s -> wf X -> nrows X <= nrows y ->
  (r_coef s = None \/ mcols X = r_nfeat s ->
     exists s', par_partial p s X y = (s', Ok tt) /\ r_fitted s' = true /\ par_wf (mcols X) s' /\ r_t s' = r_t s + nrows X /\ r_niter s' = r_niter s) /\
  (r_coef s <> None -> mcols X <> r_nfeat s -> par_partial p s X y = (s, Err (EDimension (r_nfeat s) (mcols X)))).
Proof.
  intros Hs HX Hn. split.
  - intros Hc. unfold par_partial.
    set (s1 := match r_coef s with None => _ | Some _ => s end).
    assert (H1 : par_wf (mcols X) s1 /\ r_t s1 = r_t s /\ r_niter s1 = r_niter s).
    { unfold s1. destruct Hs as [E|(E & w & Ew & L)].
      - rewrite E. split; [split; cbn; [reflexivity|eexists; split; [reflexivity|apply repeat_length]]|auto].
      - rewrite Ew. destruct Hc as [Hc|Hc]; [congruence|]. split; [split; [congruence|exists w; split; congruence]|auto]. }
    destruct H1 as (W & T & I). rewrite (proj1 W), Nat.eqb_refl. cbn [negb].
    destruct (par_pass_wf p (mcols X) s1 X y W HX eq_refl Hn) as (A & B).
    pose proof (par_pass_t p s1 (samples X y) A) as C. pose proof (par_pass_keep p s1 (samples X y)) as (_ & K & _).
    destruct (pass (par_update p) s1 (samples X y)) as [s2 r]. cbn [fst snd] in *. subst r. eexists. split; [reflexivity|]. cbn [r_fitted r_t r_niter].
    split; [reflexivity|]. split; [exact B|]. rewrite samples_length in C. split; congruence.
  - intros Hc Hd. unfold par_partial. destruct (r_coef s) eqn:E; [|congruence].
    destruct (Nat.eqb_spec (mcols X) (r_nfeat s)); [contradiction|]. reflexivity.
Qed.

(** Two batches one after the other are as good as one batch with the rows of both. *)
Theorem C97_batches (p : paparams N) (s s1 s2 : par N) (X1 y1 X2 y2 : matrix N) :
  nrows y1 = nrows X1 -> par_partial p s X1 y1 = (s1, Ok tt) -> par_partial p s1 X2 y2 = (s2, Ok tt) ->
  par_partial p s (stack X1 X2) (stack y1 y2) = (s2, Ok tt).
Proof.
  intros Hn. unfold par_partial at 1. intros H1. unfold par_partial. rewrite samples_stack by exact Hn. cbn [mcols stack].
  set (s0 := match r_coef s with None => _ | Some _ => s end) in *.
  destruct (negb (mcols X1 =? r_nfeat s0)) eqn:Ed; [discriminate|]. rewrite pass_app.
  destruct (pass (par_update p) s0 (samples X1 y1)) as [sa [[]| |]] eqn:Ep; try discriminate. injection H1 as <-.
  cbn [r_coef r_nfeat].
  assert (Hc : exists w, r_coef sa = Some w).
  { assert (G : exists w, r_coef (fst (pass (par_update p) s0 (samples X1 y1))) = Some w); [|rewrite Ep in G; exact G].
    apply (pass_inv (fun s => exists w, r_coef s = Some w)); [intros; eapply par_update_some; eauto|].
    unfold s0. destruct (r_coef s) eqn:E; cbn; eauto. }
  destruct Hc as [w Hw]. rewrite Hw. cbn [r_nfeat]. destruct (negb (mcols X2 =? r_nfeat sa)); [discriminate|].
  pose proof (pass_map (fit_ true) _ _ sa (samples X2 y2) (par_update_fit p true)) as M. unfold fit_ at 1 in M. rewrite Hw in M. rewrite M.
  destruct (pass (par_update p) sa (samples X2 y2)) as [sb [[]| |]]; cbn [fst snd]; try discriminate. intros H. rewrite <- H. reflexivity.
Qed.

(** Fit without warm start forgets everything and is the same as calling PartialFit maxIter
    times on a new model; it never reports convergence. *)
Fixpoint partials (p : paparams N) (n : nat) (s : par N) (X y : matrix N) : par N * res unit :=
  match n with 0 => (s, Ok tt) | S k => match par_partial p s X y with (s', Ok _) => partials p k s' X y | r => r end end.
Lemma partials_passes p n (s : par N) X y m : par_wf m s -> mcols X = m -> wf X -> nrows X <= nrows y ->
  partials p (S n) s X y = (fit_ true (fst (passes p (S n) s (samples X y))), Ok tt).
Proof.
  intros Hw Hm HX Hn. revert s Hw. induction n as [|n IH]; intros s Hw.
  - cbn [partials passes]. unfold par_partial. destruct Hw as (Hf & w & Hc & Hl). rewrite Hc, Hf, Hm, Nat.eqb_refl. cbn [negb].
    destruct (par_pass_wf p m s X y) as (A & B); [split; eauto|assumption|assumption|assumption|].
    destruct (pass (par_update p) s (samples X y)) as [s1 r]. cbn [fst snd] in *. subst r. reflexivity.
  - cbn [partials passes]. unfold par_partial at 1. pose proof Hw as (Hf & w & Hc & Hl). rewrite Hc, Hf, Hm, Nat.eqb_refl. cbn [negb].
    destruct (par_pass_wf p m s X y Hw HX Hm Hn) as (A & B).
    destruct (pass (par_update p) s (samples X y)) as [s1 r]. cbn [fst snd] in *. subst r.
    assert (B' : par_wf m (fit_ true s1)) by exact B. specialize (IH (fit_ true s1) B'). cbn [partials passes] in IH.
    change (mkpar (r_coef s1) (r_icept s1) (r_nfeat s1) (r_niter s1) (r_t s1) true (r_conv s1)) with (fit_ true s1).
    rewrite IH. f_equal.
    rewrite (pass_map (fit_ true) _ _ s1 _ (par_update_fit p true)).
    destruct (par_pass_wf p m s1 X y B HX Hm Hn) as (A2 & B2).
    destruct (pass (par_update p) s1 (samples X y)) as [s2 r2]. cbn [fst snd] in *. subst r2.
    assert (G : forall k s, par_wf m s -> fst (passes p k (fit_ true s) (samples X y)) = fit_ true (fst (passes p k s (samples X y)))).
    { clear - HX Hm Hn. induction k as [|k IHk]; intros s Hs; cbn [passes]; [reflexivity|].
      rewrite (pass_map (fit_ true) _ _ s _ (par_update_fit p true)). destruct (par_pass_wf p m s X y Hs HX Hm Hn) as (A & B).
      destruct (pass (par_update p) s (samples X y)) as [s1 r1]. cbn [fst snd] in *. subst r1. now apply IHk. }
    rewrite G by exact B2. reflexivity.
Qed.
Theorem C97_fit (p : paparams N) (s : par N) (X y : matrix N) :
  pa_warm p = false -> 0 < pa_maxiter p -> wf X -> nrows X <= nrows y ->
  exists s' s'', par_fit p s X y = (s', Ok tt) /\ partials p (pa_maxiter p) par_new X y = (s'', Ok tt) /\
    r_coef s' = r_coef s'' /\ r_icept s' = r_icept s'' /\ r_t s' = r_t s'' /\ r_fitted s' = true /\ r_fitted s'' = true /\
    (forall Z, par_predict s' Z = par_predict s'' Z) /\ r_niter s' = pa_maxiter p /\ r_conv s' = false.
Proof.
  intros Hwm Hm HX Hn. set (s1 := @mkpar N (Some (repeat n0 (mcols X))) n0 (mcols X) 0 0 false (r_conv s)).
  set (s1' := @mkpar N (Some (repeat n0 (mcols X))) n0 (mcols X) 0 0 false false).
  assert (W1 : par_wf (mcols X) s1) by (split; [reflexivity|eexists; split; [reflexivity|apply repeat_length]]).
  assert (W1' : par_wf (mcols X) s1') by (split; [reflexivity|eexists; split; [reflexivity|apply repeat_length]]).
  destruct (passes_wf p (pa_maxiter p) (mcols X) s1 X y W1 HX eq_refl Hn) as (A & B).
  destruct (passes p (pa_maxiter p) s1 (samples X y)) as [s2 r2] eqn:E2. cbn [fst snd] in A, B. subst r2.
  unfold par_fit. rewrite Hwm. cbn [negb orb par_reset r_coef r_icept r_niter r_t r_fitted r_conv]. fold s1.
  rewrite (epochs_passes p _ s1 _ s2 E2).
  destruct (pa_maxiter p) as [|k] eqn:Ek; [lia|].
  assert (EP : partials p (S k) par_new X y = partials p (S k) s1' X y).
  { cbn [partials]. unfold par_partial. cbn [par_new r_coef r_icept r_niter r_t r_fitted r_conv]. fold s1'. reflexivity. }
  rewrite EP, (partials_passes p k s1' X y (mcols X) W1' eq_refl HX Hn).
  set (cv := fun s : par N => mkpar (r_coef s) (r_icept s) (r_nfeat s) (r_niter s) (r_t s) (r_fitted s) false).
  assert (Hcv : forall s x z, par_update p (cv s) x z = rmap cv (par_update p s x z)).
  { intros a x z. unfold par_update, cv. cbn [r_coef r_icept r_nfeat r_niter r_t r_fitted r_conv].
    destruct (score _ _ _) as [v| |]; cbn [bind rmap]; try reflexivity. destruct (neqb _ _); reflexivity. }
  assert (G : forall n a, fst (passes p n (cv a) (samples X y)) = cv (fst (passes p n a (samples X y)))).
  { induction n as [|n IH]; intros a; cbn [passes]; [reflexivity|]. rewrite (pass_map cv _ _ a _ Hcv).
    destruct (pass (par_update p) a (samples X y)) as [a1 [[]| |]]; cbn [fst snd]; try reflexivity. apply IH. }
  change s1' with (cv s1). rewrite G, E2. cbn [fst].
  destruct (counted_fields (S k) s2) as (F1 & F2 & F3 & F4 & F5 & F6 & F7).
  assert (K2 : r_niter s2 = 0).
  { assert (KK : forall n a, r_niter (fst (passes p n a (samples X y))) = r_niter a).
    { induction n as [|n IH]; intros a; cbn [passes]; [reflexivity|]. pose proof (par_pass_keep p a (samples X y)) as (_ & K & _).
      destruct (pass (par_update p) a (samples X y)) as [a1 [[]| |]]; cbn [fst snd] in *; try exact K. rewrite IH. exact K. }
    specialize (KK (S k) s1). rewrite E2 in KK. exact KK. }
  do 2 eexists. split; [reflexivity|]. split; [reflexivity|]. cbn [fit_ cv r_coef r_icept r_nfeat r_niter r_t r_fitted r_conv].
  split; [exact F1|]. split; [exact F2|]. split; [exact F5|]. split; [reflexivity|]. split; [reflexivity|]. split; [|split].
  - intros Z. unfold par_predict. cbn [r_coef r_icept r_nfeat r_fitted]. rewrite F1, F2, F3. reflexivity.
  - rewrite F4, K2. lia.
  - rewrite F4, K2. replace (S k + 0) with (S k) by lia. rewrite Nat.leb_refl. reflexivity.
Qed.
(** Whatever the settings, a Fit that returns leaves the convergence flag false. *)
Theorem C97_never_converged (p : paparams N) (s s' : par N) (X y : matrix N) :
  par_fit p s X y = (s', Ok tt) -> r_conv s' = false /\ r_fitted s' = true /\ pa_maxiter p <= r_niter s'.
Proof.
  unfold par_fit. match goal with |- context [par_epochs p ?n ?a ?l] => pose proof (epochs_niter p n a l) as K; destruct (par_epochs p n a l) as [s2 [[]| |]] end; try discriminate.
  intros [= <-]. cbn [r_conv r_fitted r_niter]. specialize (K s2 eq_refl).
  assert (L : pa_maxiter p <= r_niter s2) by lia. rewrite (proj2 (Nat.leb_le _ _) L). auto.
Qed.
(** A warm start on data with more columns panics in the first row. *)
Theorem C97_warm_width (p : paparams N) (s : par N) (w : list N) (X y : matrix N) :
  pa_warm p = true -> 0 < pa_maxiter p -> r_coef s = Some w -> length w < mcols X -> wf X -> 0 < nrows X -> snd (par_fit p s X y) = Panic.
Proof.
  intros Hwm Hm Hw Hl HX Hn. unfold par_fit. rewrite Hwm, Hw. cbn [negb orb]. rewrite Hw.
  destruct (pa_maxiter p) as [|k]; [lia|]. cbn [par_epochs]. unfold samples, mapi. unfold nrows in Hn. unfold wf in HX.
  destruct (mrows X) as [|row rows]; [cbn in Hn; lia|]. cbn [mapi_from pass].
  destruct (nth_error (column 0 (mrows y)) 0); [|reflexivity].
  unfold par_update. cbn [r_coef r_icept]. rewrite score_panic; [reflexivity|]. rewrite (HX row) by now left. assumption.
Qed.

(** *** Classifier *)
Variable toint : N -> Z.
Variable order : list Z -> list Z.
(** With the class list given, or once training has begun, batches can be joined too. *)
Theorem C97_class_batches (p : paparams N) (s s1 s2 : pac N) (X1 y1 X2 y2 : matrix N) cl :
  nrows y1 = nrows X1 -> cl <> None \/ c_coef s <> None ->
  pac_partial toint order p s X1 y1 cl = (s1, Ok tt) -> pac_partial toint order p s1 X2 y2 cl = (s2, Ok tt) ->
  pac_partial toint order p s (stack X1 X2) (stack y1 y2) cl = (s2, Ok tt).
Proof.
  intros Hn Hcl. unfold pac_partial. rewrite samples_stack by exact Hn. cbn [mcols stack].
  set (s0 := match c_coef s with None => let cls := match cl with None => extract_classes order (labels toint y1) | Some c => c end in _ | Some _ => s end).
  set (s0' := match c_coef s with None => let cls := match cl with None => extract_classes order (labels toint (stack y1 y2)) | Some c => c end in _ | Some _ => s end).
  assert (E0 : s0' = s0). { unfold s0, s0'. destruct Hcl as [H|H]; [destruct cl; [reflexivity|contradiction]|destruct (c_coef s); [reflexivity|contradiction]]. }
  rewrite E0. clear E0 s0'.
  intros H1. destruct (negb (mcols X1 =? c_nfeat s0)) eqn:Ed; [discriminate|]. rewrite pass_app.
  pose proof (pac_pass_keep toint p s0 (samples X1 y1)) as (K1 & K2 & _ & _ & _ & K6). cbv zeta in *.
  destruct (pass (pac_update toint p) s0 (samples X1 y1)) as [sa [[]| |]] eqn:Ep; try discriminate. injection H1 as <-.
  cbn [c_coef c_nfeat fst] in *.
  assert (Hc : exists l, c_coef sa = Some l).
  { assert (G : exists l, c_coef s0 = Some l). { unfold s0. destruct (c_coef s) eqn:E; cbn; eauto. }
    destruct G as [l0 G]. destruct (K6 l0 G) as (l' & H' & _). eauto. }
  destruct Hc as [l Hl]. rewrite Hl. cbn [c_nfeat]. destruct (negb (mcols X2 =? c_nfeat sa)); [discriminate|].
  pose proof (pass_map (cfit_ true) _ _ sa (samples X2 y2) (pac_update_fit toint p true)) as M. unfold cfit_ at 1 in M. rewrite Hl in M. rewrite M.
  destruct (pass (pac_update toint p) sa (samples X2 y2)) as [sb [[]| |]]; cbn [fst snd]; try discriminate. intros H. rewrite <- H. reflexivity.
Qed.

(** PartialFit never changes the class list once there are coefficients, whatever labels come. *)
Theorem C97_classes_fixed (p : paparams N) (s : pac N) (X y : matrix N) cl :
  c_coef s <> None -> c_classes (fst (pac_partial toint order p s X y cl)) = c_classes s.
Proof.
  intros Hc. unfold pac_partial. destruct (c_coef s) eqn:E; [|congruence].
  destruct (negb _); [reflexivity|]. pose proof (pac_pass_keep toint p s (samples X y)) as (K & _). cbv zeta in K.
  destruct (pass (pac_update toint p) s (samples X y)) as [s2 [[]| |]]; exact K.
Qed.
(** Predictions are always among the classes. *)
Theorem C97_class_member (s : pac N) (cls : list Z) (X : matrix N) (preds : list Z) :
  c_classes s = Some cls -> pac_predict s X = Ok preds -> length preds = nrows X /\ forall c, In c preds -> In c cls.
Proof.
  intros Hc. unfold pac_predict. destruct (negb (c_fitted s)); [discriminate|]. destruct (negb _); [discriminate|].
  destruct (newdense _ _); cbn [bind]; try discriminate. rewrite Hc. intros H. destruct (mapM_nth _ _ _ H) as (L & K).
  split; [exact L|]. intros c Hin. apply In_nth_error in Hin as [i Hi].
  destruct (nth_error (mrows X) i) as [row|] eqn:Er.
  2:{ apply nth_error_None in Er. assert (nth_error preds i = None) by (apply nth_error_None; lia). congruence. }
  destruct (K i row Er) as (c' & Ec & Ei). assert (c' = c) by congruence. subst c'. destruct cls as [|c0 cr]; [discriminate|].
  destruct (class_scores _ row) as [vs| |]; cbn [bind] in Ec; try discriminate. injection Ec as <-.
  pose proof (pick_in (c0 :: cr) vs None c0) as [P|P]; [left; exact P|exact P].
Qed.
End C97.

(** Over the reals every prediction is the first class with the largest score. *)
Theorem C97_class_best (s : pac RNum) (cls : list Z) (l : list (list R * R)) (X : matrix RNum) (preds : list Z) :
  c_classes s = Some cls -> c_coef s = Some l -> length cls = length l ->
  (forall wb, In wb l -> length (fst wb) = mcols X) -> wf X ->
  pac_predict s X = Ok preds ->
  forall i row, nth_error (mrows X) i = Some row ->
  exists k w b, nth_error l k = Some (w, b) /\ nth_error preds i = nth_error cls k /\
    forall j w' b', nth_error l j = Some (w', b') ->
      (linear_value b' w' row <= linear_value b w row)%R /\ (j < k -> (linear_value b' w' row < linear_value b w row)%R).
Proof.
  intros Hc Hl Hlen Hw HX. unfold pac_predict. destruct (negb (c_fitted s)); [discriminate|]. destruct (negb _); [discriminate|].
  destruct (newdense _ _); cbn [bind]; try discriminate. rewrite Hc, Hl. intros H i row Hi. destruct (mapM_nth _ _ _ H) as (L & K).
  destruct (K i row Hi) as (c' & Ec & Ei).
  assert (Hr : length row = mcols X) by (apply HX; eapply nth_error_In; exact Hi).
  assert (S : @class_scores RNum l row = Ok (map (fun wb => linear_value (snd wb) (fst wb) row) l)).
  { unfold class_scores. apply mapM_all_ok. intros wb Hin. etransitivity; [apply (@row_loop RNum (fst wb) row (snd wb) 0)|].
    change (skipn 0 (fst wb)) with (fst wb). change (num RNum) with R in *.
    rewrite Hr, (Hw wb Hin), Nat.leb_refl. f_equal. apply fold_linear. }
  rewrite S in Ec. destruct cls as [|c0 cr]; [discriminate|]. cbn [bind] in Ec. injection Ec as <-.
  destruct (pick_R (c0 :: cr) (map (fun wb => linear_value (snd wb) (fst wb) row) l) None c0) as [(k & v & Hk & Hcl & Hm & _)|(_ & Hm)].
  - rewrite map_length. exact Hlen.
  - rewrite nth_error_map in Hk. destruct (nth_error l k) as [[w b]|] eqn:El; [|discriminate]. cbn in Hk. injection Hk as <-.
    exists k, w, b. split; [exact El|]. split; [etransitivity; [exact Ei|symmetry; exact Hcl]|].
    intros j w' b' Hj. apply (Hm j (linear_value b' w' row)). rewrite nth_error_map, Hj. reflexivity.
  - exfalso. destruct l as [|[w b] l]; [cbn in Hlen; lia|]. exact (Hm 0 (linear_value b w row) eq_refl).
Qed.

(** Without the class list, the labels of the first batch are all there will ever be: a label
    that first occurs later is ignored, and two batches differ from their union. *)
Definition qtoint (q : QNum) : Z := (Qnum q / Z.pos (Qden q))%Z.
Definition qcp : paparams QNum := @mkpap QNum 1%Q true 1 false false 0%Q.
Definition mq (c : nat) (rows : list (list QNum)) : matrix QNum := mkmat c rows.
Definition bX1 := mq 1 [[-1]%Q; [1]%Q].
Definition by1 := mq 1 [[0]%Q; [1]%Q].
Definition bX2 := mq 1 [[5]%Q; [6]%Q].
Definition by2 := mq 1 [[2]%Q; [2]%Q].
(** The predictions for Xn after two calls, and after one call with the rows of both. *)
Definition run2 (X1 y1 X2 y2 Xn : matrix QNum) : res (list Z) :=
  let '(s1, _) := pac_partial qtoint (fun l => l) qcp pac_new X1 y1 None in
  let '(s2, r) := pac_partial qtoint (fun l => l) qcp s1 X2 y2 None in
  match r with Ok _ => pac_predict s2 Xn | _ => Panic end.
Definition run1 (X1 y1 X2 y2 Xn : matrix QNum) : res (list Z) :=
  let '(s, r) := pac_partial qtoint (fun l => l) qcp pac_new (stack X1 X2) (stack y1 y2) None in
  match r with Ok _ => pac_predict s Xn | _ => Panic end.
Theorem C97_later_labels_refuted :
  exists X1 y1 X2 y2 : matrix QNum, run2 X1 y1 X2 y2 X2 = Ok [1; 1]%Z /\ run1 X1 y1 X2 y2 X2 = Ok [2; 2]%Z.
Proof. exists bX1, by1, bX2, by2. split; vm_compute; reflexivity. Qed.

(** Two classes, separable: one pass classifies the training rows. *)
Example ex_class :
  (let '(s, _) := pac_fit qtoint (fun l => l) qcp pac_new bX1 by1 in pac_predict s bX1) = Ok [0; 1]%Z.
Proof. vm_compute. reflexivity. Qed.
Example ex_fit :
  let p : paparams QNum := @mkpap QNum (1#2)%Q false 3 false false 0%Q in
  let '(s, r) := par_fit p par_new bX1 (mq 1 [[-2]%Q; [2]%Q]) in
  r = Ok tt /\ r_niter s = 3 /\ r_t s = 6 /\ r_conv s = false.
Proof. vm_compute. auto. Qed.

Print Assumptions C56_passive.
Print Assumptions C56_step.
Print Assumptions C56_towards.
Print Assumptions C56_overshoot.
Print Assumptions C56_overshoot_refuted.
Print Assumptions C56_optimal.
Print Assumptions C56_losses.
Print Assumptions C56_class_step.
Print Assumptions C56_unknown.
Print Assumptions C97_partial_fit.
Print Assumptions C97_batches.
Print Assumptions C97_fit.
Print Assumptions C97_never_converged.
Print Assumptions C97_warm_width.
Print Assumptions C97_class_batches.
Print Assumptions C97_classes_fixed.
Print Assumptions C97_class_member.
Print Assumptions C97_class_best.
Print Assumptions C97_later_labels_refuted.
