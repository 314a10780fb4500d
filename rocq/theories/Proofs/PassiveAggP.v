From Coq Require Import List Arith Bool ZArith Reals Lra Lia Psatz.
From Verif Require Import Base.Num Base.GoRes Base.Mat Base.ListX Base.RTac Base.Inf Model.Linear Model.NaiveBayes Model.PassiveAgg
  Spec.Linear Spec.PassiveAgg Proofs.LinearP.
Import ListNotations.
Local Open Scope list_scope.

(** *** Any number type *)
Lemma score_ok {N : Num} (b : N) w x k : length x <= length (skipn k w) ->
  foldM (fun s p => match nth_error w (fst p) with None => Panic | Some wj => Ok (nadd s (nmul wj (snd p))) end)
    b (combine (seq k (length x)) x)
  = Ok (fold_left (fun s p => nadd s (nmul (fst p) (snd p))) (combine (skipn k w) x) b).
Proof.
  revert b k. induction x as [|xj x IH]; intros b k H; [cbn; destruct (skipn k w); reflexivity|].
  cbn [length seq combine foldM fst snd].
  destruct (skipn k w) as [|wj r] eqn:E; [cbn in H; lia|].
  assert (En : nth_error w k = Some wj).
  { rewrite <- (firstn_skipn k w), E. rewrite nth_error_app2; rewrite firstn_length; [|lia].
    assert (k <= length w). { destruct (le_lt_dec k (length w)); [assumption|]. rewrite skipn_all2 in E by lia. discriminate. }
    rewrite Nat.min_l by lia. rewrite Nat.sub_diag. reflexivity. }
  rewrite En. cbn [bind].
  assert (Er : skipn (S k) w = r).
  { rewrite <- (firstn_skipn k w) at 1. rewrite E. rewrite skipn_app, firstn_length.
    rewrite skipn_all2 by (rewrite firstn_length; lia). cbn [app].
    assert (k <= length w). { destruct (le_lt_dec k (length w)); [assumption|]. rewrite skipn_all2 in E by lia. discriminate. }
    rewrite Nat.min_l by lia. replace (S k - k) with 1 by lia. reflexivity. }
  rewrite IH; [rewrite Er; reflexivity|rewrite Er; cbn in H; lia].
Qed.
Lemma score_fold {N : Num} (b : N) w x : length x <= length w ->
  score b w x = Ok (fold_left (fun s p => nadd s (nmul (fst p) (snd p))) (combine w x) b).
Proof. intros H. exact (score_ok b w x 0 H). Qed.
Lemma score_short {N : Num} (b : N) w x k : length (skipn k w) < length x ->
  foldM (fun s p => match nth_error w (fst p) with None => Panic | Some wj => Ok (nadd s (nmul wj (snd p))) end)
    b (combine (seq k (length x)) x) = Panic.
Proof.
  revert b k. induction x as [|xj x IH]; intros b k H; [cbn in H; lia|].
  cbn [length seq combine foldM fst snd].
  destruct (nth_error w k) as [wj|] eqn:E; [|reflexivity]. cbn [bind].
  apply IH.
  assert (k < length w) by (apply nth_error_Some; congruence). rewrite skipn_length in H |- *. cbn in H. lia.
Qed.
Lemma score_panic {N : Num} (b : N) w x : length w < length x -> score b w x = Panic.
Proof. intros H. exact (score_short b w x 0 H). Qed.
Lemma axpy_length {N : Num} (tau : N) x w : length (axpy tau x w) = length w.
Proof. revert w. induction x as [|xi x IH]; intros [|wi w]; cbn; auto. Qed.

Lemma pass_app {N : Num} {ST} (update : ST -> list N -> N -> res ST) s l l' :
  pass update s (l ++ l') = match pass update s l with (s', Ok _) => pass update s' l' | r => r end.
Proof.
  revert s. induction l as [|[x [y|]] l IH]; intros s; cbn [app pass]; [destruct (pass update s l') as [? [[]| |]]; reflexivity| |reflexivity].
  destruct (update s x y); try reflexivity. apply IH.
Qed.
(** A pass commutes with anything the update commutes with. *)
Lemma pass_map {N : Num} {ST ST'} (h : ST -> ST') (u : ST -> list N -> N -> res ST) (u' : ST' -> list N -> N -> res ST') s l :
  (forall s x y, u' (h s) x y = rmap h (u s x y)) ->
  pass u' (h s) l = (h (fst (pass u s l)), snd (pass u s l)).
Proof.
  intros H. revert s. induction l as [|[x [y|]] l IH]; intros s; cbn [pass]; [reflexivity| |reflexivity].
  rewrite H. destruct (u s x y); cbn; try reflexivity. apply IH.
Qed.
Lemma pass_inv {N : Num} {ST} (I : ST -> Prop) (u : ST -> list N -> N -> res ST) s l :
  (forall s x y s', I s -> u s x y = Ok s' -> I s') -> I s -> I (fst (pass u s l)).
Proof.
  intros H. revert s. induction l as [|[x [y|]] l IH]; intros s Hs; cbn [pass]; auto.
  destruct (u s x y) eqn:E; cbn; auto. eapply IH, H; eauto.
Qed.
Lemma pass_ok {N : Num} {ST} (I : ST -> Prop) (u : ST -> list N -> N -> res ST) s l :
  (forall s x y, I s -> In (x, Some y) l -> exists s', u s x y = Ok s' /\ I s') ->
  (forall x, ~ In (x, None) l) -> I s -> snd (pass u s l) = Ok tt.
Proof.
  revert s. induction l as [|[x [y|]] l IH]; intros s H Hn Hs; cbn [pass]; [reflexivity| |].
  - destruct (H s x y Hs (or_introl eq_refl)) as (s' & -> & Hs'). apply IH; auto.
    + intros; apply H; auto. now right.
    + intros x' K. apply (Hn x'). now right.
  - exfalso. apply (Hn x). now left.
Qed.

Lemma mapi_from_app {A B} (g : nat -> A -> B) l l' k : mapi_from k g (l ++ l') = mapi_from k g l ++ mapi_from (k + length l) g l'.
Proof.
  revert k. induction l as [|x l IH]; intros k; cbn [app mapi_from length].
  - rewrite Nat.add_0_r. reflexivity.
  - rewrite IH. do 3 f_equal. lia.
Qed.
Lemma mapi_from_ext {A B} (g h : nat -> A -> B) l k : (forall i x, k <= i < k + length l -> g i x = h i x) -> mapi_from k g l = mapi_from k h l.
Proof.
  revert k. induction l as [|x l IH]; intros k H; cbn [mapi_from]; [reflexivity|]. rewrite H by (cbn; lia). f_equal. apply IH. intros; apply H; cbn; lia.
Qed.
Lemma mapi_from_S {A B} (g : nat -> A -> B) l k : mapi_from (S k) g l = mapi_from k (fun i => g (S i)) l.
Proof. revert k. induction l as [|x l IH]; intros k; cbn [mapi_from]; [reflexivity|]. rewrite IH. reflexivity. Qed.
Lemma mapi_from_add {A B} (g : nat -> A -> B) l k m : mapi_from (k + m) g l = mapi_from k (fun i => g (i + m)) l.
Proof. revert k. induction l as [|x l IH]; intros k; cbn [mapi_from]; [reflexivity|]. f_equal. exact (IH (S k)). Qed.

(** One batch below the other. *)
Definition stack {N : Num} (A B : matrix N) : matrix N := mkmat (mcols A) (mrows A ++ mrows B).
Lemma samples_stack {N : Num} (X1 y1 X2 y2 : matrix N) : nrows y1 = nrows X1 ->
  samples (stack X1 X2) (stack y1 y2) = samples X1 y1 ++ samples X2 y2.
Proof.
  intros H. unfold samples, stack, mapi. cbn [mrows]. rewrite mapi_from_app. unfold column. rewrite map_app. f_equal.
  - apply mapi_from_ext. intros i x Hi. unfold nrows in H. rewrite nth_error_app1; [reflexivity|]. rewrite map_length. lia.
  - rewrite mapi_from_add.
    apply mapi_from_ext. intros i x Hi. unfold nrows in H. rewrite nth_error_app2; rewrite map_length; [|lia].
    do 2 f_equal. lia.
Qed.
Lemma samples_in {N : Num} (X y : matrix N) x o : In (x, o) (samples X y) -> In x (mrows X).
Proof.
  unfold samples, mapi.
  assert (G : forall l k, In (x, o) (mapi_from k (fun i (row : list N) => (row, nth_error (column 0 (mrows y)) i)) l) -> In x l).
  { induction l as [|r l IH]; intros k; cbn; [auto|]. intros [E|H]; [left; congruence|right; eauto]. }
  apply G.
Qed.
Lemma samples_some {N : Num} (X y : matrix N) x : nrows X <= nrows y -> ~ In (x, None) (samples X y).
Proof.
  unfold samples, mapi, nrows. intros H K.
  assert (G : forall l k, k + length l <= length (mrows y) -> ~ In (x, None) (mapi_from k (fun i (row : list N) => (row, nth_error (column 0 (mrows y)) i)) l)).
  { induction l as [|r l IH]; intros k Hk; cbn; [auto|]. intros [E|E].
    - injection E as _ E. apply nth_error_None in E. unfold column in E. rewrite map_length in E. cbn in Hk. lia.
    - revert E. apply IH. cbn in Hk. lia. }
  exact (G (mrows X) 0 H K).
Qed.

Section Any.
Context {N : Num}.
Definition fit_ (b : bool) (s : par N) : par N := mkpar (r_coef s) (r_icept s) (r_nfeat s) (r_niter s) (r_t s) b (r_conv s).
Lemma par_update_fit p b s x y : par_update p (fit_ b s) x y = rmap (fit_ b) (par_update p s x y).
Proof.
  unfold par_update, fit_. cbn [r_coef r_icept r_nfeat r_niter r_t r_fitted r_conv].
  destruct (score _ _ _) as [v| |]; cbn [bind rmap]; try reflexivity. destruct (neqb _ _); reflexivity.
Qed.
Lemma par_update_counted p (s : par N) x y : par_update p (par_counted s) x y = rmap par_counted (par_update p s x y).
Proof.
  unfold par_update, par_counted. cbn [r_coef r_icept r_nfeat r_niter r_t r_fitted r_conv].
  destruct (score _ _ _) as [v| |]; cbn [bind rmap]; try reflexivity. destruct (neqb _ _); reflexivity.
Qed.
(** A regressor whose coefficients match its number of features. *)
Definition par_wf (m : nat) (s : par N) : Prop := r_nfeat s = m /\ exists w, r_coef s = Some w /\ length w = m.
Lemma par_update_wf p m s x y : par_wf m s -> length x = m -> exists s', par_update p s x y = Ok s' /\ par_wf m s'.
Proof.
  intros (Hn & w & Hw & Hl) Hx. unfold par_update. rewrite Hw, score_fold by lia. cbn [bind].
  destruct (neqb _ _); eexists; (split; [reflexivity|]); split; cbn; eauto. eexists; split; [reflexivity|]. rewrite axpy_length. exact Hl.
Qed.
Lemma par_update_some p (s : par N) x y s' : par_update p s x y = Ok s' -> exists w, r_coef s' = Some w.
Proof. unfold par_update. destruct (score _ _ _); cbn; try discriminate. destruct (neqb _ _); intros [= <-]; cbn; eauto. Qed.
Lemma par_update_keep p (s : par N) x y s' : par_update p s x y = Ok s' ->
  r_nfeat s' = r_nfeat s /\ r_niter s' = r_niter s /\ r_fitted s' = r_fitted s /\ r_conv s' = r_conv s /\ r_t s' = S (r_t s).
Proof. unfold par_update. destruct (score _ _ _); cbn; try discriminate. destruct (neqb _ _); intros [= <-]; cbn; auto. Qed.
End Any.

(** *** Real numbers *)
Local Open Scope R_scope.
Lemma fold_linear' b w x : fold_left (fun s p => s + fst p * snd p) (combine w x) b = linear_value b w x.
Proof.
  transitivity (b + Rsum (map (fun p : R * R => fst p * snd p) (combine w x))); [apply (fold_left_sum (fun p : R * R => fst p * snd p))|].
  revert x. induction w as [|wj w IH]; intros [|xj x]; cbn [combine map Rsum linear_value fst snd]; try ring.
  rewrite <- IH. ring.
Qed.
Lemma score_R (b : R) (w x : list R) : length w = length x -> @score RNum b w x = Ok (linear_value b w x).
Proof. intros H. rewrite score_fold by (change (num RNum) with R; lia). f_equal. apply fold_linear'. Qed.
Lemma dot_sqnorm (x : list R) : @dot RNum x x = sqnorm x.
Proof. rewrite dot_sum. unfold sqnorm. induction x as [|v x IH]; [reflexivity|]. cbn [combine map Rsum fst snd]. rewrite IH. reflexivity. Qed.
Lemma sqnorm_nonneg x : 0 <= sqnorm x.
Proof. apply Rsum_nonneg. intros v H. apply in_map_iff in H as (u & <- & _). apply sq_nonneg. Qed.
Lemma denom_R (p : paparams RNum) (x : list R) : denom p x = sqnorm x + 1 / (2 * pa_C p).
Proof.
  unfold denom. rewrite dot_sqnorm, nofZ_R. reflexivity.
Qed.
Lemma denom_pos C x : 0 < C -> 0 < sqnorm x + 1 / (2 * C).
Proof. intros H. pose proof (sqnorm_nonneg x). assert (0 < 1 / (2 * C)) by (apply Rdiv_lt_0_compat; lra). lra. Qed.
Lemma axpy_value tau b (x w : list R) : length w = length x -> linear_value b (@axpy RNum tau x w) x = linear_value b w x + tau * sqnorm x.
Proof.
  unfold sqnorm. revert w. induction x as [|xi x IH]; intros [|wi w] H; cbn in H; try discriminate; cbn [axpy linear_value map Rsum]; [ring|].
  rewrite IH by congruence. cbn. ring.
Qed.
Lemma linear_value_shift b t w x : linear_value (b + t) w x = linear_value b w x + t.
Proof. revert x. induction w as [|wi w IH]; intros [|xi x]; cbn [linear_value]; try reflexivity. rewrite IH. ring. Qed.
Lemma axpy_dist tau (x w : list R) : length w = length x -> sqdist (@axpy RNum tau x w) w = tau * tau * sqnorm x.
Proof.
  unfold sqdist, sqnorm. revert w. induction x as [|xi x IH]; intros [|wi w] H; cbn in H; try discriminate; cbn [axpy combine map Rsum fst snd]; [ring|].
  rewrite IH by congruence. cbn. ring.
Qed.
(** Cauchy-Schwarz for the change of a linear value. *)
Lemma cauchy b (u w x : list R) : length u = length x -> length w = length x ->
  (linear_value b u x - linear_value b w x) * (linear_value b u x - linear_value b w x) <= sqdist u w * sqnorm x.
Proof.
  unfold sqdist, sqnorm. revert u w. induction x as [|xi x IH]; intros [|ui u] [|wi w] Hu Hw; cbn in Hu, Hw; try discriminate; cbn [linear_value combine map Rsum fst snd]; [lra|].
  specialize (IH u w ltac:(congruence) ltac:(congruence)).
  set (d := linear_value b u x - linear_value b w x) in *.
  set (D := Rsum (map (fun p => (fst p - snd p) * (fst p - snd p)) (combine u w))) in *.
  set (n := Rsum (map (fun v => v * v) x)) in *.
  replace (xi * ui + linear_value b u x - (xi * wi + linear_value b w x)) with (xi * (ui - wi) + d) by (unfold d; ring).
  assert (HD : 0 <= D) by (apply Rsum_nonneg; intros v H; apply in_map_iff in H as (q & <- & _); apply sq_nonneg).
  assert (Hn : 0 <= n) by (apply Rsum_nonneg; intros v H; apply in_map_iff in H as (q & <- & _); apply sq_nonneg).
  set (a := ui - wi) in *. clearbody d D n a.
  (* (x a + d)^2 <= (a^2 + D)(x^2 + n);  2 x a d <= a^2 n + D x^2 *)
  assert (2 * (xi * a) * d <= a * a * n + D * (xi * xi)); [|nra].
  assert (K : (xi * a * d) * (xi * a * d) <= (a * a * n) * (D * (xi * xi))).
  { replace ((xi * a * d) * (xi * a * d)) with ((xi * a) * (xi * a) * (d * d)) by ring.
    replace ((a * a * n) * (D * (xi * xi))) with ((xi * a) * (xi * a) * (D * n)) by ring.
    apply Rmult_le_compat_l; [apply sq_nonneg|exact IH]. }
  assert (P : 0 <= a * a * n) by (apply Rmult_le_pos; [apply sq_nonneg|assumption]).
  assert (Q : 0 <= D * (xi * xi)) by (apply Rmult_le_pos; [assumption|apply sq_nonneg]).
  set (A := a * a * n) in *. set (B := D * (xi * xi)) in *. set (c := xi * a * d) in *.
  replace (2 * (xi * a) * d) with (2 * c) by (unfold c; ring). clearbody A B c.
  destruct (Rle_dec (2 * c) (A + B)) as [|n0]; [assumption|]. exfalso.
  assert ((A + B) * (A + B) < (2 * c) * (2 * c)) by (apply Rmult_le_0_lt_compat; lra).
  pose proof (sq_nonneg (A - B)). lra.
Qed.

Lemma side_abs e : side e * e = Rabs e.
Proof. unfold side. destruct (Rlt_dec e 0); [rewrite Rabs_left|rewrite Rabs_right]; lra. Qed.
Lemma side_mul e : side e * Rabs e = e.
Proof. unfold side. destruct (Rlt_dec e 0); [rewrite Rabs_left|rewrite Rabs_right]; lra. Qed.
Lemma side_same r z : r <> 0 -> 0 <= r * z -> Rabs z = side r * z.
Proof.
  intros H K. unfold side. destruct (Rlt_dec r 0).
  - rewrite Rabs_left1; [lra|]. destruct (Rle_dec z 0); [assumption|nra].
  - rewrite Rabs_right; [lra|]. destruct (Rle_dec 0 z); [lra|nra].
Qed.
Lemma side_sq e : side e * side e = 1.
Proof. unfold side. destruct (Rlt_dec e 0); lra. Qed.

(** The step length. *)
Lemma tau_R (p : paparams RNum) (x : list R) (y v : R) :
  0 < pa_C p -> tau_of p x y v = if Rlt_dec (pa_eps p) (Rabs (y - v)) then side (y - v) * ((Rabs (y - v) - pa_eps p) / (sqnorm x + 1 / (2 * pa_C p))) else 0.
Proof.
  intros HC. unfold tau_of, max0. rewrite (denom_R p x). cbn [nisnan RNum]. cbn. destruct (pa_squared p); cbn.
  - change (Rabs (y - v)) with (Rabs (y - v)). destruct (Rlt_dec (pa_eps p) (Rabs (y - v))) as [L|L].
    + rewrite (proj2 (Rltb_true (pa_eps p) (Rabs (y - v))) L). unfold side. destruct (Rlt_dec (y - v) 0); [rewrite (proj2 (Rltb_true y v)) by lra|rewrite (proj2 (Rltb_false y v)) by lra]; lra.
    + rewrite (proj2 (Rltb_false (pa_eps p) (Rabs (y - v)))) by lra. reflexivity.
  - destruct (Rlt_dec (pa_eps p) (Rabs (y - v))) as [L|L].
    + rewrite (proj2 (Rltb_true 0 (Rabs (y - v) - pa_eps p))) by lra. rewrite (proj2 (Rltb_true 0 (Rabs (y - v) - pa_eps p))) by lra.
      unfold side. destruct (Rlt_dec (y - v) 0); [rewrite (proj2 (Rltb_true y v)) by lra|rewrite (proj2 (Rltb_false y v)) by lra]; lra.
    + rewrite (proj2 (Rltb_false 0 (Rabs (y - v) - pa_eps p))) by lra. rewrite (proj2 (Rltb_false 0 0)) by lra. reflexivity.
Qed.

Lemma amgm P Q c : 0 <= P -> 0 <= Q -> c * c <= P * Q -> 2 * c <= P + Q.
Proof.
  intros HP HQ H. destruct (Rle_dec (2 * c) (P + Q)) as [|n0]; [assumption|]. exfalso.
  assert ((P + Q) * (P + Q) < (2 * c) * (2 * c)) by (apply Rmult_le_0_lt_compat; lra).
  pose proof (sq_nonneg (P - Q)). lra.
Qed.
(** The squared distance u moved, the loss e left and the change a of the value cannot beat
    the closed form: a + e >= L and a^2 <= u n. *)
Lemma best_value n k u e a L : 0 <= n -> 0 < k -> 0 <= u -> 0 <= e -> 0 < L -> L <= a + e -> a * a <= u * n ->
  L * L / (n + k) <= u + e * e / k.
Proof.
  intros Hn Hk Hu He HL Hae Hau.
  assert (Ha : 0 <= e * e * n / k). { apply Rmult_le_pos; [apply Rmult_le_pos; [apply sq_nonneg|assumption]|left; now apply Rinv_0_lt_compat]. }
  assert (K : 2 * (a * e) <= u * k + e * e * n / k).
  { apply amgm; [now apply Rmult_le_pos; lra|assumption|].
    replace (u * k * (e * e * n / k)) with (u * n * (e * e)) by (field; lra).
    replace (a * e * (a * e)) with (a * a * (e * e)) by ring. apply Rmult_le_compat_r; [apply sq_nonneg|assumption]. }
  assert (E : (u + e * e / k) * (n + k) = u * n + e * e + (u * k + e * e * n / k)) by (field; lra).
  assert (LL : L * L <= (a + e) * (a + e)).
  { apply Rmult_le_compat; lra. }
  apply (Rmult_le_reg_r (n + k)); [lra|]. rewrite E. unfold Rdiv. rewrite Rmult_assoc, Rinv_l, Rmult_1_r by lra. lra.
Qed.
Lemma sqdist_nonneg u w : 0 <= sqdist u w.
Proof. apply Rsum_nonneg. intros v H; apply in_map_iff in H as (q & <- & _); apply sq_nonneg. Qed.
Lemma sqdist_refl w : sqdist w w = 0.
Proof. unfold sqdist. induction w as [|a w IH]; [reflexivity|]. cbn [combine map Rsum fst snd]. rewrite IH. ring. Qed.

Lemma par_passive (p : paparams RNum) (s : par RNum) (w x : list R) (y : R) :
  r_coef s = Some w -> length w = length x -> 0 < pa_C p -> Rabs (y - linear_value (r_icept s) w x) <= pa_eps p ->
  par_update p s x y = Ok (@mkpar RNum (Some w) (r_icept s) (r_nfeat s) (r_niter s) (S (r_t s)) (r_fitted s) (r_conv s)).
Proof.
  intros Hw Hl HC H. unfold par_update. rewrite Hw, (score_R _ _ _ Hl). cbn [bind]. rewrite tau_R by assumption.
  destruct (Rlt_dec _ _); [lra|]. cbn [neqb RNum]. change (@n0 RNum) with 0. rewrite (proj2 (Reqb_true 0 0)) by reflexivity. reflexivity.
Qed.
Lemma side_nz e : side e <> 0.
Proof. unfold side. destruct (Rlt_dec e 0); lra. Qed.
Lemma par_step (p : paparams RNum) (s : par RNum) (w x : list R) (y : R) :
  r_coef s = Some w -> length w = length x -> 0 < pa_C p -> pa_eps p < Rabs (y - linear_value (r_icept s) w x) ->
  let r := y - linear_value (r_icept s) w x in
  let tau := side r * ((Rabs r - pa_eps p) / (sqnorm x + 1 / (2 * pa_C p))) in
  par_update p s x y = Ok (@mkpar RNum (Some (@axpy RNum tau x w)) (if pa_icpt p then r_icept s + tau else r_icept s)
    (r_nfeat s) (r_niter s) (S (r_t s)) (r_fitted s) (r_conv s)).
Proof.
  intros Hw Hl HC H r tau. unfold par_update. rewrite Hw, (score_R _ _ _ Hl). cbn [bind]. rewrite tau_R by assumption.
  fold r. fold r in H. destruct (Rlt_dec _ _); [|lra]. fold tau.
  assert (tau <> 0).
  { unfold tau. apply Rmult_integral_contrapositive_currified; [apply side_nz|].
    apply Rgt_not_eq. apply Rdiv_lt_0_compat; [lra|now apply denom_pos]. }
  cbn [neqb RNum]. change (@n0 RNum) with 0. rewrite (proj2 (Reqb_false tau 0)) by assumption. reflexivity.
Qed.
Lemma axpy_nth tau (x w : list R) i : length w = length x -> nth i (@axpy RNum tau x w) 0 = nth i w 0 + tau * nth i x 0.
Proof.
  revert w i. induction x as [|xi x IH]; intros [|wi w] i H; cbn in H; try discriminate; cbn [axpy].
  - destruct i; cbn; ring.
  - destruct i; cbn [nth]; [reflexivity|]. apply IH. congruence.
Qed.
Lemma share_le1 C (icpt : bool) x : 0 < C -> (icpt = false \/ C <= 1 / 2) -> 0 <= share C icpt x <= 1.
Proof.
  intros HC H. unfold share. pose proof (sqnorm_nonneg x) as Hn. pose proof (denom_pos C x HC) as Hd.
  assert (K : 0 < 1 / (2 * C)) by (apply Rdiv_lt_0_compat; lra).
  assert ((if icpt then 1 else 0) <= 1 / (2 * C)).
  { destruct H as [-> |H]; [lra|]. destruct icpt; [|lra]. apply (Rmult_le_reg_r (2 * C)); [lra|]. unfold Rdiv. rewrite Rmult_assoc, Rinv_l by lra. lra. }
  split.
  - apply Rmult_le_pos; [destruct icpt; lra|left; now apply Rinv_0_lt_compat].
  - apply (Rmult_le_reg_r (sqnorm x + 1 / (2 * C))); [assumption|]. unfold Rdiv at 1. rewrite Rmult_assoc, Rinv_l by lra. lra.
Qed.

(** One class of the classifier. *)
Lemma pac_class_R (p : paparams RNum) (x : list R) (t : R) (w : list R) (b : R) :
  length w = length x -> 0 < pa_C p -> t * t = 1 ->
  let m := t * linear_value b w x in
  let tau := (1 - m) / (sqnorm x + 1 / (2 * pa_C p)) * t in
  pac_class p x t (w, b) = if Rlt_dec m 1 then Ok (@axpy RNum tau x w, if pa_icpt p then b + tau else b) else Ok (w, b).
Proof.
  intros Hl HC Ht m tau. unfold pac_class. cbn [fst snd]. rewrite (score_R _ _ _ Hl). cbn [bind]. rewrite (denom_R p x).
  cbn [nlt neqb RNum]. change (@nmul RNum t (linear_value b w x)) with m. change (@n1 RNum) with 1. change (@n0 RNum) with 0.
  destruct (Rlt_dec m 1) as [L|L].
  - rewrite (proj2 (Rltb_true m 1)) by exact L. change (@nmul RNum (@ndiv RNum (@nsub RNum 1 m) (sqnorm x + 1 / (2 * pa_C p))) t) with tau.
    assert (tau <> 0).
    { unfold tau. apply Rmult_integral_contrapositive_currified.
      - apply Rgt_not_eq. apply Rdiv_lt_0_compat; [lra|now apply denom_pos].
      - intros ->. lra. }
    rewrite (proj2 (Reqb_false tau 0)) by assumption. reflexivity.
  - rewrite (proj2 (Rltb_false m 1)) by lra. rewrite (proj2 (Reqb_true 0 0)) by reflexivity. reflexivity.
Qed.
Lemma mapM_nth {A B} (f : A -> res B) l l' : mapM f l = Ok l' ->
  length l' = length l /\ forall i a, nth_error l i = Some a -> exists b, f a = Ok b /\ nth_error l' i = Some b.
Proof.
  revert l'. induction l as [|a l IH]; cbn; intros l' H.
  - injection H as <-. split; [reflexivity|]. intros [|i] a; discriminate.
  - destruct (f a) as [b| |] eqn:E; cbn in H; try discriminate. destruct (mapM f l) as [bs| |]; cbn in H; try discriminate. injection H as <-.
    destruct (IH bs eq_refl) as (L & K). split; [cbn; congruence|]. intros [|i] a' Ha; cbn in *; [injection Ha as <-; eauto|auto].
Qed.
Lemma nth_combine_seq {A} (l : list A) i a k : nth_error l i = Some a -> nth_error (combine (seq k (length l)) l) i = Some ((k + i)%nat, a).
Proof.
  revert i k. induction l as [|b l IH]; intros [|i] k H; cbn in *; try discriminate.
  - rewrite Nat.add_0_r. congruence.
  - rewrite (IH i (S k) H). do 2 f_equal. lia.
Qed.
Lemma class_index_some c cs k : class_index c cs = Some k <-> nth_error cs k = Some c /\ forall j, (j < k)%nat -> nth_error cs j <> Some c.
Proof.
  unfold class_index. assert (G : forall cs n k, class_index_from n c cs = Some k <-> (n <= k)%nat /\ nth_error cs (k - n) = Some c /\ forall j, (j < k - n)%nat -> nth_error cs j <> Some c).
  { clear cs k. induction cs as [|x cs IH]; intros n k; cbn [class_index_from].
    - split; [discriminate|]. intros (_ & K & _). destruct (k - n)%nat; discriminate.
    - destruct (Z.eqb_spec x c) as [->|Hx].
      + split.
        * intros [= ->]. rewrite Nat.sub_diag. repeat split; auto. intros j Hj. lia.
        * intros (H & K & J). destruct (k - n)%nat as [|d] eqn:E; [f_equal; lia|]. exfalso. apply (J 0%nat); [lia|reflexivity].
      + rewrite IH. split.
        * intros (H & K & J). split; [lia|]. replace (k - n)%nat with (S (k - S n)) by lia. split; [exact K|].
          intros [|j] Hj; cbn; [congruence|]. apply J. lia.
        * intros (H & K & J). destruct (k - n)%nat as [|d] eqn:E; [cbn in K; congruence|]. split; [lia|].
          replace (k - S n)%nat with d by lia. split; [exact K|]. intros j Hj. apply (J (S j)). lia. }
  rewrite G. rewrite Nat.sub_0_r. intuition lia.
Qed.
Lemma class_index_none c cs : class_index c cs = None <-> ~ In c cs.
Proof.
  unfold class_index. generalize 0%nat. induction cs as [|x cs IH]; intros n; cbn [class_index_from In]; [tauto|].
  destruct (Z.eqb_spec x c) as [->|Hx].
  - split; [discriminate|]. intros H. exfalso. auto.
  - rewrite IH. tauto.
Qed.

(** *** Training as passes *)
Local Close Scope R_scope.
Section Train.
Context {N : Num}.
Definition keep {A} (_ : A) : par N -> par N -> Prop := fun s s' =>
  r_nfeat s' = r_nfeat s /\ r_niter s' = r_niter s /\ r_fitted s' = r_fitted s /\ r_conv s' = r_conv s.
Lemma par_pass_keep p (s : par N) l : keep tt s (fst (pass (par_update p) s l)).
Proof.
  apply (pass_inv (keep tt s)); [|unfold keep; auto]. intros s1 x y s2 (A & B & C & D) H.
  apply par_update_keep in H as (A' & B' & C' & D' & _). unfold keep. repeat split; congruence.
Qed.
Lemma par_pass_t p (s : par N) l : snd (pass (par_update p) s l) = Ok tt -> r_t (fst (pass (par_update p) s l)) = r_t s + length l.
Proof.
  revert s. induction l as [|[x [y|]] l IH]; intros s H; cbn [pass] in *; [cbn; lia| |discriminate].
  destruct (par_update p s x y) as [s'| |] eqn:E; try discriminate. rewrite (IH s' H). apply par_update_keep in E as (_ & _ & _ & _ & E). rewrite E. cbn. lia.
Qed.
Lemma par_pass_wf p m (s : par N) X y : par_wf m s -> wf X -> mcols X = m -> nrows X <= nrows y ->
  snd (pass (par_update p) s (samples X y)) = Ok tt /\ par_wf m (fst (pass (par_update p) s (samples X y))).
Proof.
  intros Hs HX Hm Hn.
  assert (G : forall s x y0, par_wf m s -> In (x, Some y0) (samples X y) -> exists s', par_update p s x y0 = Ok s' /\ par_wf m s').
  { intros s1 x y0 H1 Hin. apply par_update_wf; [assumption|]. rewrite HX; [assumption|]. eapply samples_in; exact Hin. }
  split.
  - apply (pass_ok (par_wf m)); auto. intros x. now apply samples_some.
  - revert Hs G. generalize (samples X y). intros l. revert s. induction l as [|[x [y0|]] l IH]; intros s Hs G; cbn [pass]; auto.
    destruct (G s x y0 Hs (or_introl eq_refl)) as (s' & -> & Hs'). apply IH; auto. intros; apply G; [assumption|now right].
Qed.
Lemma samples_length (X y : matrix N) : length (samples X y) = nrows X.
Proof. apply mapi_from_length. Qed.

(** Fit's passes are PartialFit's, apart from the number of iterations. *)
Fixpoint passes p (n : nat) (s : par N) l : par N * res unit :=
  match n with 0 => (s, Ok tt) | S k => match pass (par_update p) s l with (s', Ok _) => passes p k s' l | r => r end end.
Fixpoint counted (n : nat) (s : par N) : par N := match n with 0 => s | S k => par_counted (counted k s) end.
Lemma counted_fields n s : r_coef (counted n s) = r_coef s /\ r_icept (counted n s) = r_icept s /\ r_nfeat (counted n s) = r_nfeat s /\
  r_niter (counted n s) = n + r_niter s /\ r_t (counted n s) = r_t s /\ r_fitted (counted n s) = r_fitted s /\ r_conv (counted n s) = r_conv s.
Proof. induction n as [|n IH]; cbn; [auto 10|]. destruct IH as (A & B & C & D & E & F & G). rewrite A, B, C, D, E, F, G. auto 10. Qed.
Lemma epochs_counted p n (s : par N) l : par_epochs p n (par_counted s) l = (par_counted (fst (par_epochs p n s l)), snd (par_epochs p n s l)).
Proof.
  revert s. induction n as [|n IH]; intros s; cbn [par_epochs]; [reflexivity|].
  rewrite (pass_map par_counted _ _ s l (par_update_counted p)). destruct (pass (par_update p) s l) as [s1 [[]| |]]; cbn [fst snd]; try reflexivity. apply IH.
Qed.
Lemma epochs_passes p n (s : par N) l s' : passes p n s l = (s', Ok tt) -> par_epochs p n s l = (counted n s', Ok tt).
Proof.
  revert s. induction n as [|n IH]; intros s; cbn [passes par_epochs counted]; [intros [= ->]; reflexivity|].
  destruct (pass (par_update p) s l) as [s1 [[]| |]]; try discriminate. intros H. rewrite epochs_counted, (IH s1 H). reflexivity.
Qed.
Lemma epochs_niter p n (s : par N) l s' : par_epochs p n s l = (s', Ok tt) -> r_niter s' = n + r_niter s.
Proof.
  revert s. induction n as [|n IH]; intros s; cbn [par_epochs]; [intros [= ->]; reflexivity|].
  pose proof (par_pass_keep p s l) as (_ & K & _). destruct (pass (par_update p) s l) as [s1 [[]| |]]; try discriminate. intros H. rewrite (IH _ H). cbn in *. lia.
Qed.
Lemma passes_wf p n m (s : par N) X y : par_wf m s -> wf X -> mcols X = m -> nrows X <= nrows y ->
  snd (passes p n s (samples X y)) = Ok tt /\ par_wf m (fst (passes p n s (samples X y))).
Proof.
  intros Hs HX Hm Hn. revert s Hs. induction n as [|n IH]; intros s Hs; cbn [passes]; [auto|].
  destruct (par_pass_wf p m s X y Hs HX Hm Hn) as (A & B). destruct (pass (par_update p) s (samples X y)) as [s1 r]. cbn in A, B. subst r. now apply IH.
Qed.

(** Classifier *)
Definition cfit_ (b : bool) (s : pac N) : pac N := mkpac (c_coef s) (c_classes s) (c_nfeat s) (c_niter s) (c_t s) b (c_conv s).
Variable toint : N -> Z.
Lemma pac_update_fit p b (s : pac N) x y : pac_update toint p (cfit_ b s) x y = rmap (cfit_ b) (pac_update toint p s x y).
Proof.
  unfold pac_update, cfit_. cbn [c_coef c_classes c_nfeat c_niter c_t c_fitted c_conv]. destruct (class_index _ _); [|reflexivity].
  destruct (mapM _ _); reflexivity.
Qed.
Lemma pac_update_keep p (s : pac N) x y s' : pac_update toint p s x y = Ok s' ->
  c_classes s' = c_classes s /\ c_nfeat s' = c_nfeat s /\ c_niter s' = c_niter s /\ c_fitted s' = c_fitted s /\ c_conv s' = c_conv s
  /\ (forall l, c_coef s = Some l -> exists l', c_coef s' = Some l' /\ length l' = length l).
Proof.
  unfold pac_update. destruct (class_index _ _); [|intros [= <-]; repeat split; eauto].
  destruct (mapM _ _) as [l'| |] eqn:E; cbn; try discriminate. intros [= <-]. cbn. repeat split; auto.
  intros l Hl. rewrite Hl in E. exists l'. split; [reflexivity|]. apply mapM_nth in E as [E _]. rewrite E, combine_length, seq_length. apply Nat.min_id.
Qed.
Lemma pac_pass_keep p (s : pac N) l : let s' := fst (pass (pac_update toint p) s l) in
  c_classes s' = c_classes s /\ c_nfeat s' = c_nfeat s /\ c_niter s' = c_niter s /\ c_fitted s' = c_fitted s /\ c_conv s' = c_conv s
  /\ (forall l, c_coef s = Some l -> exists l', c_coef s' = Some l' /\ length l' = length l).
Proof.
  cbv zeta. apply (pass_inv (fun s' => c_classes s' = c_classes s /\ c_nfeat s' = c_nfeat s /\ c_niter s' = c_niter s /\ c_fitted s' = c_fitted s /\ c_conv s' = c_conv s
    /\ (forall l, c_coef s = Some l -> exists l', c_coef s' = Some l' /\ length l' = length l))).
  - intros s1 x y s2 (A & B & C & D & E & F) H. apply pac_update_keep in H as (A' & B' & C' & D' & E' & F').
    repeat split; try congruence. intros l0 H0. destruct (F l0 H0) as (l1 & H1 & L1). destruct (F' l1 H1) as (l2 & H2 & L2). exists l2. split; congruence.
  - repeat split; eauto.
Qed.
End Train.

Lemma pick_in {N : Num} cs (vs : list N) best a : In (pick cs vs best a) (a :: cs).
Proof.
  revert vs best a. induction cs as [|c cs IH]; intros [|v vs] best a; cbn [pick]; auto using in_eq.
  destruct (gt_best v best); [destruct (IH vs (Some v) c) as [H|H]; rewrite <- ?H; cbn; auto|destruct (IH vs best a) as [H|H]; [left; exact H|right; right; exact H]].
Qed.
(** The first of the largest scores. *)
Lemma pick_R cs (vs : list R) best a : length cs = length vs ->
  (exists k v, nth_error vs k = Some v /\ nth_error cs k = Some (@pick RNum cs vs best a) /\ (forall j u, nth_error vs j = Some u -> (u <= v)%R /\ (j < k -> (u < v)%R)) /\ (match best with None => True | Some b => (b < v)%R end))
  \/ (@pick RNum cs vs best a = a /\ forall j u, nth_error vs j = Some u -> match best with None => False | Some b => (u <= b)%R end).
Proof.
  revert vs best a. induction cs as [|c cs IH]; intros [|v vs] best a H; cbn in H; try discriminate; cbn [pick].
  - right. split; [reflexivity|]. intros [|j] u; discriminate.
  - assert (G : @gt_best RNum v best = true <-> match best with None => True | Some b => (b < v)%R end).
    { unfold gt_best. destruct best as [b|]; cbn; [apply Rltb_true|tauto]. }
    assert (Hl : length cs = length vs) by congruence.
    destruct (@gt_best RNum v best) eqn:E.
    + pose proof (proj1 G eq_refl) as Gv. left. destruct (IH vs (Some v) c Hl) as [(k & v' & Hk & Hc & Hm & Hb)|(Hp & Hm)].
      * exists (S k), v'. split; [exact Hk|]. split; [exact Hc|]. split.
        { intros [|j] u Hu; cbn in Hu; [injection Hu as <-; split; [apply Rlt_le; exact Hb|intros; exact Hb]|]. destruct (Hm j u Hu) as [A B]. split; [exact A|]. intros; apply B; lia. }
        destruct best as [b|]; [|trivial]. exact (Rlt_trans _ _ _ Gv Hb).
      * exists 0, v. split; [reflexivity|]. split; [cbn; f_equal; symmetry; exact Hp|]. split; [|exact Gv].
        intros [|j] u Hu; cbn in Hu; [injection Hu as <-; split; [apply Rle_refl|lia]|]. split; [exact (Hm j u Hu)|lia].
    + assert (Nv : match best with None => False | Some b => (v <= b)%R end).
      { destruct best as [b|]; [|assert (false = true) by tauto; discriminate]. cbn in E. apply Rltb_false in E. exact E. }
      destruct (IH vs best a Hl) as [(k & v' & Hk & Hc & Hm & Hb)|(Hp & Hm)].
      * left. exists (S k), v'. split; [exact Hk|]. split; [exact Hc|]. split; [|exact Hb].
        intros [|j] u Hu; cbn in Hu.
        { injection Hu as <-. destruct best as [b|]; [|contradiction]. split; [lra|intros; lra]. }
        destruct (Hm j u Hu) as [A B]. split; [exact A|]. intros; apply B; lia.
      * right. split; [exact Hp|]. intros [|j] u Hu; cbn in Hu; [injection Hu as <-; exact Nv|exact (Hm j u Hu)].
Qed.
