From Coq Require Import String List Arith ZArith Bool Permutation Lia Reals Lra.
From Coquelicot Require Import Coquelicot.
From Verif Require Import Base.Num Base.GoRes Base.Mat Base.ListX Base.RTac Model.NaiveBayes Model.Logistic Spec.Logistic Spec.LgbObjective Proofs.LgbObjectiveP.
Import ListNotations.
Local Open Scope string_scope.
Local Open Scope list_scope.
Local Open Scope R_scope.

(** ** Sums over indices *)
Lemma Sum_ext n f g : (forall j, (j < n)%nat -> f j = g j) -> Sum n f = Sum n g.
Proof. intros H. unfold Sum. apply Rsum_map_ext. intros j Hj. apply in_seq in Hj. apply H. lia. Qed.
Lemma Sum_plus n f g : Sum n (fun j => f j + g j) = Sum n f + Sum n g.
Proof. apply Rsum_map_plus. Qed.
Lemma Sum_minus n f g : Sum n (fun j => f j - g j) = Sum n f - Sum n g.
Proof. apply Rsum_map_minus. Qed.
Lemma Sum_scal n c f : Sum n (fun j => c * f j) = c * Sum n f.
Proof. apply Rsum_map_scal. Qed.
Lemma Sum_le n f g : (forall j, (j < n)%nat -> f j <= g j) -> Sum n f <= Sum n g.
Proof. intros H. unfold Sum. apply Rsum_le. intros j Hj. apply in_seq in Hj. apply H. lia. Qed.
Lemma Sum_swap {A} n (l : list A) (f : A -> nat -> R) : Sum n (fun j => Rsum (map (fun s => f s j) l)) = Rsum (map (fun s => Sum n (f s)) l).
Proof.
  induction l as [|a l IH]; cbn [map Rsum].
  - unfold Sum. rewrite Rsum_map_const. ring.
  - rewrite <- IH. rewrite <- Sum_plus. reflexivity.
Qed.
Lemma combine_sum (w x : list R) : length w = length x -> Rsum (map (fun p => fst p * snd p) (combine w x)) = Sum (length w) (fun j => nth j w 0 * nth j x 0).
Proof.
  unfold Sum. revert x. induction w as [|a w IH]; intros [|c x] H; cbn in H; try discriminate; cbn [combine map Rsum length seq]; auto.
  rewrite IH by lia. rewrite <- seq_shift, map_map. cbn [nth fst snd]. reflexivity.
Qed.

(** ** The logistic function *)
Lemma logistic_bounds z : 0 < logistic z < 1.
Proof. unfold logistic. pose proof (exp_pos z). split; [apply Rdiv_lt_0_compat; lra|]. apply (Rmult_lt_reg_r (1 + exp z)); [lra|]. field_simplify; lra. Qed.
Lemma logistic_one z : 1 - logistic z = / (1 + exp z).
Proof. unfold logistic. pose proof (exp_pos z). field. lra. Qed.
Lemma sigmoid_R (z : R) : @sigmoid RNum z = logistic z.
Proof.
  unfold sigmoid, logistic. cbn. rewrite exp_Ropp. pose proof (exp_pos z). field. lra.
Qed.
Lemma stable_R (z : R) : @stable_sigmoid RNum z = logistic z.
Proof.
  unfold stable_sigmoid. change (@sigmoid RNum z) with (1 / (1 + exp (- z))). cbn. rcase; [exact (sigmoid_R z) | reflexivity].
Qed.
Lemma nll_soft y z : nll y z = ln (1 + exp z) - y * z.
Proof.
  unfold nll. rewrite logistic_one. unfold logistic. pose proof (exp_pos z).
  rewrite ln_Rinv by lra. unfold Rdiv. rewrite ln_mult; [|lra|apply Rinv_0_lt_compat; lra]. rewrite ln_exp, ln_Rinv by lra. ring.
Qed.
(** The tangent of the negative log likelihood lies below it. *)
Lemma soft_tangent a c : ln (1 + exp a) >= ln (1 + exp c) + logistic c * (a - c).
Proof.
  set (s := logistic c). set (d := a - c). pose proof (exp_pos c) as Hc. pose proof (exp_pos a) as Ha.
  destruct (logistic_bounds c) as [S0 S1]. fold s in S0, S1.
  assert (E : 1 + exp a = (1 + exp c) * (1 - s + s * exp d)).
  { unfold s. rewrite logistic_one. unfold logistic, d. replace (exp a) with (exp c * exp (a - c)) by (rewrite <- exp_plus; f_equal; ring). field. lra. }
  assert (K : exp (s * d) <= 1 - s + s * exp d).
  { assert (M : forall u, 1 + u <= exp u).
    { intros u. destruct (Req_dec u 0) as [->|Hu]; [rewrite exp_0; lra|]. left. apply exp_ineq1. exact Hu. }
    set (m := s * d). pose proof (exp_pos m) as Hm.
    assert (K1 : exp m * (1 + (d - m)) <= exp d).
    { replace (exp d) with (exp m * exp (d - m)) by (rewrite <- exp_plus; f_equal; ring). apply Rmult_le_compat_l; [lra | apply M]. }
    assert (K2 : exp m * (1 + - m) <= 1).
    { replace 1 with (exp m * exp (- m)) at 2 by (rewrite <- exp_plus; replace (m + - m) with 0 by ring; apply exp_0). apply Rmult_le_compat_l; [lra | apply M]. }
    assert (K3 : s * (exp m * (1 + (d - m))) <= s * exp d) by (apply Rmult_le_compat_l; lra).
    assert (K4 : (1 - s) * (exp m * (1 + - m)) <= (1 - s) * 1) by (apply Rmult_le_compat_l; lra).
    assert (K5 : s * (exp m * (1 + (d - m))) + (1 - s) * (exp m * (1 + - m)) = exp m * (1 + s * d - m)) by ring.
    replace (1 + s * d - m) with 1 in K5 by (unfold m; ring). lra. }
  apply Rle_ge. rewrite E. rewrite ln_mult; [| lra | apply Rlt_le_trans with (exp (s * d)); [apply exp_pos | exact K]].
  apply Rplus_le_compat_l. rewrite <- (ln_exp (s * d)) at 1. destruct K as [K|K]; [left; apply ln_increasing; [apply exp_pos | exact K] | right; now rewrite K].
Qed.
Lemma nll_tangent y a c : nll y a >= nll y c + (logistic c - y) * (a - c).
Proof. rewrite !nll_soft. pose proof (soft_tangent a c). lra. Qed.
Lemma nll_derive y z : is_derive (nll y) z (logistic z - y).
Proof.
  apply (is_derive_ext (fun z => ln (1 + exp z) - y * z)); [intros t; symmetry; apply nll_soft|].
  unfold logistic. pose proof (exp_pos z). auto_derive; [lra|]. field. lra.
Qed.

(** ** Func and Grad over the reals *)
Definition packed {N : Num} (h : @lhyper N) (w : list N) (b : N) : list N := w ++ if h_icpt h then [b] else [].

Section Obj.
Variable h : @lhyper RNum.
Notation params := (@packed RNum h).

Lemma weights_packed {N : Num} (h' : @lhyper N) (w : list N) b : weights (length w) (packed h' w b) = w.
Proof. unfold weights, packed. rewrite firstn_app, Nat.sub_diag, firstn_all. cbn. apply app_nil_r. Qed.
Lemma bias_packed {N : Num} (h' : @lhyper N) (w : list N) b : (h_icpt h' = false -> b = n0) -> bias h' (length w) (packed h' w b) = b.
Proof.
  intros H. unfold bias, packed. destruct (h_icpt h'); [| symmetry; auto]. rewrite app_nth2, Nat.sub_diag by lia. reflexivity.
Qed.

Lemma zscore_packed {N : Num} (h' : @lhyper N) (w x : list N) b : (h_icpt h' = false -> b = n0) ->
  zscore h' (length w) (packed h' w b) x = fold_left (fun z p => nadd z (nmul (fst p) (snd p))) (combine w x) b.
Proof. intros H. unfold zscore. now rewrite weights_packed, bias_packed by exact H. Qed.
Lemma zscore_R (w x : list R) (b : R) : (h_icpt h = false -> b = 0) -> length x = length w ->
  @zscore RNum h (length w) (params w b) x = score w b x.
Proof.
  intros Hb Hl. etransitivity; [exact (@zscore_packed RNum h w x b Hb)|]. unfold score.
  rewrite <- combine_sum by congruence. exact (fold_left_sum (fun p : R * R => fst p * snd p) (combine w x) b).
Qed.

Lemma clamp_id (p : R) : 1 / 1000000000000000 <= p <= 1 - 1 / 1000000000000000 -> @clamp RNum p = p.
Proof.
  intros H. unfold clamp, eps15. cbn [nlt nlit nsub n1 RNum]. rewrite (proj2 (Rltb_false _ _)) by lra. rewrite (proj2 (Rltb_false _ _)) by lra. reflexivity.
Qed.

Lemma func_R lambda (S : list sample) (w : list R) (b : R) : (h_icpt h = false -> b = 0) -> 0 <= lambda -> sound (length w) S -> moderate S w b ->
  @lr_func RNum h lambda (length w, S) (params w b) = risk lambda S w b.
Proof.
  intros Hb Hl [Hn Hs] Hm. unfold lr_func. cbn [fst snd].
  set (f := fun s : sample => nll (snd s) (score w b (fst s))).
  match goal with |- context [fold_left ?F S ?a] => assert (E : fold_left F S a = Rsum (map f S)) end.
  { etransitivity; [|apply Rplus_0_l]. rewrite <- (fold_left_sum f S 0). change (@n0 RNum) with 0. generalize 0 as acc. clear Hn.
    induction S as [|s S IH]; intros acc; cbn [fold_left]; auto. inversion Hs as [|? ? [H1 _] Hs']; subst. inversion Hm as [|? ? M Hm']; subst.
    etransitivity; [apply IH; auto|]. f_equal. pose proof (zscore_R w (fst s) b Hb H1) as Z. unR. cbv zeta. unfold sample in *. rewrite Z, stable_R, (clamp_id _ M). unfold f, nll.
    change (acc + (- snd s * ln (logistic (score w b (fst s))) - (1 - snd s) * ln (1 - logistic (score w b (fst s)))) =
      acc + - (snd s * ln (logistic (score w b (fst s))) + (1 - snd s) * ln (1 - logistic (score w b (fst s))))). ring. }
  rewrite E. pose proof (@weights_packed RNum h w b) as W. unR. unfold sample in *. rewrite W. unfold risk. fold f.
  assert (Q : fold_left (fun r v : R => r + v * v) w 0 = Sum (length w) (fun j => nth j w 0 * nth j w 0)).
  { rewrite (fold_left_sum (fun v => v * v)). rewrite Rplus_0_l. unfold Sum. clear. induction w as [|a w IH]; cbn [map Rsum length seq]; auto.
    rewrite IH, <- seq_shift, map_map. reflexivity. }
  rewrite nofnat_R. cbn [nlt n0 RNum]. rcase.
  - change (Rsum (map f S) / INR (length S) + (1 / 2 * lambda) * fold_left (fun r v : R => r + v * v) w 0 = Rsum (map f S) / INR (length S) + lambda / 2 * Sum (length w) (fun j => nth j w 0 * nth j w 0)).
    rewrite Q. field. apply not_0_INR. destruct S; [congruence | discriminate].
  - assert (lambda = 0) by lra. subst lambda. change (Rsum (map f S) / INR (length S) = Rsum (map f S) / INR (length S) + 0 / 2 * Sum (length w) (fun j => nth j w 0 * nth j w 0)). unfold Rdiv at 3. ring.
Qed.
End Obj.

Definition dw (lambda : R) (S : list sample) (w : list R) (b : R) (j : nat) : R :=
  Rsum (map (fun s => (logistic (score w b (fst s)) - snd s) * nth j (fst s) 0) S) / INR (length S) + lambda * nth j w 0.
Definition db (S : list sample) (w : list R) (b : R) : R :=
  Rsum (map (fun s => logistic (score w b (fst s)) - snd s) S) / INR (length S).

Lemma combine_map2 {A B C} (f : A -> B) (g : A -> C) l : combine (map f l) (map g l) = map (fun s => (f s, g s)) l.
Proof. induction l; cbn; f_equal; auto. Qed.
Lemma fold_left_map {A B C} (F : C -> B -> C) (f : A -> B) l : forall a, fold_left F (map f l) a = fold_left (fun c x => F c (f x)) l a.
Proof. induction l; cbn; auto. Qed.
Lemma sound_len n S : sound n S -> INR (length S) <> 0.
Proof. intros [H _]. apply not_0_INR. destruct S; [congruence | discriminate]. Qed.

Lemma diffs_R (h : @lhyper RNum) (S : list sample) (w : list R) (b : R) : (h_icpt h = false -> b = 0) -> sound (length w) S ->
  @lr_diffs RNum h (length w, S) (packed h w b) = map (fun s => logistic (score w b (fst s)) - snd s) S.
Proof.
  intros Hb [_ Hs]. unfold lr_diffs. cbn [fst snd]. apply map_ext_in. intros s Hi. rewrite Forall_forall in Hs. destruct (Hs s Hi) as [H1 _].
  pose proof (zscore_R h w (fst s) b Hb H1) as Z. unR. unfold sample in *. rewrite Z, stable_R. reflexivity.
Qed.

Lemma grad_R (h : @lhyper RNum) lambda (S : list sample) (w : list R) (b : R) : (h_icpt h = false -> b = 0) -> 0 <= lambda -> sound (length w) S ->
  @lr_grad RNum h lambda (length w, S) (packed h w b) = map (dw lambda S w b) (seq 0 (length w)) ++ (if h_icpt h then [db S w b] else []).
Proof.
  intros Hb Hl Hs. pose proof (diffs_R h S w b Hb Hs) as D. pose proof (sound_len _ _ Hs) as Hn.
  pose proof (@weights_packed RNum h w b) as W. unfold lr_grad. unR. cbn [fst snd]. unfold sample in *. rewrite D, W.
  rewrite (combine_map2 (fun s : list R * R => logistic (score w b (fst s)) - snd s) fst S). rewrite nofnat_R.
  f_equal.
  - apply map_ext. intros j. rewrite fold_left_map. cbn [fst snd].
    assert (E : fold_left (fun (c : R) (x : list R * R) => c + (logistic (score w b (fst x)) - snd x) * nth j (fst x) 0) S 0 =
      Rsum (map (fun s => (logistic (score w b (fst s)) - snd s) * nth j (fst s) 0) S)).
    { rewrite (fold_left_sum (fun x : list R * R => (logistic (score w b (fst x)) - snd x) * nth j (fst x) 0)). ring. }
    cbn [nlt n0 n1 nadd nmul ndiv RNum]. rewrite E. unfold dw. unfold sample. rcase.
    + field. exact Hn.
    + assert (lambda = 0) by lra. subst. field. exact Hn.
  - destruct (h_icpt h); auto. f_equal. unfold db. cbn [n0 n1 nadd nmul ndiv RNum]. rewrite fold_left_Rplus. unfold sample. match goal with |- ?a = ?b => change (@eq R a b) end. field. exact Hn.
Qed.

Lemma score_diff (w w' : list R) b b' x : length w' = length w ->
  score w' b' x - score w b x = (b' - b) + Sum (length w) (fun j => nth j x 0 * (nth j w' 0 - nth j w 0)).
Proof.
  intros E. unfold score. rewrite E.
  rewrite (Sum_ext (length w) (fun j => nth j x 0 * (nth j w' 0 - nth j w 0)) (fun j => nth j w' 0 * nth j x 0 - nth j w 0 * nth j x 0)) by (intros; ring).
  rewrite Sum_minus. ring.
Qed.

(** The change along the gradient, sample by sample. *)
Lemma along lambda (S : list sample) w b v (c : R) : sound (length w) S ->
  Sum (length w) (fun j => dw lambda S w b j * v j) + db S w b * c =
  Rsum (map (fun s => (logistic (score w b (fst s)) - snd s) * (c + Sum (length w) (fun j => nth j (fst s) 0 * v j))) S) / INR (length S)
  + lambda * Sum (length w) (fun j => nth j w 0 * v j).
Proof.
  intros Hs. pose proof (sound_len _ _ Hs) as Hn. unfold dw, db.
  set (D := fun s : sample => logistic (score w b (fst s)) - snd s).
  rewrite (Sum_ext _ _ (fun j => / INR (length S) * Rsum (map (fun s => D s * nth j (fst s) 0 * v j) S) + lambda * (nth j w 0 * v j))).
  - rewrite Sum_plus, !Sum_scal. rewrite (Sum_swap (length w) S (fun s j => D s * nth j (fst s) 0 * v j)).
    assert (E : Rsum (map (fun s => D s * (c + Sum (length w) (fun j => nth j (fst s) 0 * v j))) S) =
      c * Rsum (map D S) + Rsum (map (fun s => Sum (length w) (fun j => D s * nth j (fst s) 0 * v j)) S)).
    { rewrite <- Rsum_map_scal, <- Rsum_map_plus. apply Rsum_map_ext. intros s _.
      rewrite (Sum_ext (length w) (fun j => D s * nth j (fst s) 0 * v j) (fun j => D s * (nth j (fst s) 0 * v j))) by (intros; ring). rewrite Sum_scal. ring. }
    unfold D, sample in *. rewrite E. field. exact Hn.
  - intros j _.
    assert (E : Rsum (map (fun s => D s * nth j (fst s) 0 * v j) S) = v j * Rsum (map (fun s => D s * nth j (fst s) 0) S)).
    { rewrite <- Rsum_map_scal. apply Rsum_map_ext. intros; ring. }
    unfold D, sample in *. rewrite E. field. exact Hn.
Qed.

(** The risk lies above its tangent. *)
Lemma risk_tangent lambda (S : list sample) w b w' b' : sound (length w) S -> 0 <= lambda -> length w' = length w ->
  risk lambda S w' b' >= risk lambda S w b + Sum (length w) (fun j => dw lambda S w b j * (nth j w' 0 - nth j w 0)) + db S w b * (b' - b).
Proof.
  intros Hs Hl E. pose proof (sound_len _ _ Hs) as Hn. assert (Hp : 0 < INR (length S)) by (pose proof (pos_INR (length S)); lra).
  pose proof (along lambda S w b (fun j => nth j w' 0 - nth j w 0) (b' - b) Hs) as A. cbn beta in A.
  rewrite Rplus_assoc, A. unfold risk. rewrite E.
  set (D := fun s : sample => logistic (score w b (fst s)) - snd s).
  assert (K : Rsum (map (fun s => nll (snd s) (score w b (fst s)) + D s * (b' - b + Sum (length w) (fun j => nth j (fst s) 0 * (nth j w' 0 - nth j w 0)))) S)
    <= Rsum (map (fun s => nll (snd s) (score w' b' (fst s))) S)).
  { apply Rsum_le. intros s _. rewrite <- (score_diff w w' b b' (fst s) E). apply Rge_le. apply nll_tangent. }
  rewrite Rsum_map_plus in K.
  assert (K' : (Rsum (map (fun s => nll (snd s) (score w b (fst s))) S) + Rsum (map (fun s => D s * (b' - b + Sum (length w) (fun j => nth j (fst s) 0 * (nth j w' 0 - nth j w 0)))) S)) / INR (length S)
     <= Rsum (map (fun s => nll (snd s) (score w' b' (fst s))) S) / INR (length S)).
  { apply Rmult_le_compat_r; [left; now apply Rinv_0_lt_compat | exact K]. }
  rewrite Rdiv_plus_distr in K'. unfold D in K'. clear K.
  assert (Q : Sum (length w) (fun j => nth j w' 0 * nth j w' 0) >= Sum (length w) (fun j => nth j w 0 * nth j w 0) + 2 * Sum (length w) (fun j => nth j w 0 * (nth j w' 0 - nth j w 0))).
  { apply Rle_ge. rewrite <- Sum_scal, <- Sum_plus. apply Sum_le. intros j _. pose proof (Rle_0_sqr (nth j w' 0 - nth j w 0)) as P. unfold Rsqr in P. lra. }
  assert (Q' : lambda / 2 * (Sum (length w) (fun j => nth j w 0 * nth j w 0) + 2 * Sum (length w) (fun j => nth j w 0 * (nth j w' 0 - nth j w 0))) <= lambda / 2 * Sum (length w) (fun j => nth j w' 0 * nth j w' 0)).
  { apply Rmult_le_compat_l; lra. }
  unfold sample in *. lra.
Qed.

(** Its slope along a line *)
Lemma derive_sum {A} (F : A -> R -> R) (dF : A -> R) l t : (forall a, In a l -> is_derive (F a) t (dF a)) ->
  is_derive (fun t => Rsum (map (fun a => F a t) l)) t (Rsum (map dF l)).
Proof.
  induction l as [|a l IH]; intros H; cbn [map Rsum]; [apply (is_derive_const 0)|].
  apply (is_derive_plus (F a) (fun t => Rsum (map (fun a => F a t) l))); [apply H; now left | apply IH; intros; apply H; now right].
Qed.
Lemma move_length t (v w : list R) : length v = length w -> length (move t v w) = length w.
Proof. intros H. unfold move. rewrite map_length, combine_length. lia. Qed.
Lemma nth_move t (v w : list R) j : length v = length w -> nth j (move t v w) 0 = nth j w 0 + t * nth j v 0.
Proof.
  unfold move. revert v j. induction w as [|a w IH]; intros [|c v] j H; cbn in H; try discriminate.
  - destruct j; cbn; ring.
  - destruct j; cbn; [reflexivity|]. apply IH. lia.
Qed.
Lemma score_move t (v w : list R) b c x : length v = length w ->
  score (move t v w) (b + t * c) x = score w b x + t * (c + Sum (length w) (fun j => nth j x 0 * nth j v 0)).
Proof.
  intros H. pose proof (score_diff w (move t v w) b (b + t * c) x (move_length t v w H)) as E.
  rewrite (Sum_ext (length w) (fun j => nth j x 0 * (nth j (move t v w) 0 - nth j w 0)) (fun j => t * (nth j x 0 * nth j v 0))) in E.
  - rewrite Sum_scal in E. lra.
  - intros j _. rewrite nth_move by auto. ring.
Qed.
Lemma risk_slope lambda (S : list sample) w b v c : sound (length w) S -> length v = length w ->
  slope (fun t => risk lambda S (move t v w) (b + t * c)) 0 (Sum (length w) (fun j => dw lambda S w b j * nth j v 0) + db S w b * c).
Proof.
  intros Hs Hv. apply slope_derive. rewrite (along lambda S w b (fun j => nth j v 0) c Hs).
  set (A := fun s : sample => c + Sum (length w) (fun j => nth j (fst s) 0 * nth j v 0)).
  set (W := Sum (length w) (fun j => nth j w 0 * nth j w 0)). set (X := Sum (length w) (fun j => nth j w 0 * nth j v 0)). set (V := Sum (length w) (fun j => nth j v 0 * nth j v 0)).
  apply (is_derive_ext (fun t => Rsum (map (fun s => nll (snd s) (score w b (fst s) + t * A s)) S) / INR (length S) + lambda / 2 * (W + 2 * t * X + t * t * V))).
  { intros t. unfold risk. f_equal; [f_equal; apply Rsum_map_ext; intros s _; f_equal; symmetry; apply score_move; exact Hv|].
    f_equal. rewrite move_length by auto. rewrite (Sum_ext _ (fun j => nth j (move t v w) 0 * nth j (move t v w) 0) (fun j => (nth j w 0 * nth j w 0 + (2 * t) * (nth j w 0 * nth j v 0)) + (t * t) * (nth j v 0 * nth j v 0))).
    - rewrite !Sum_plus, !Sum_scal. reflexivity.
    - intros j _. rewrite nth_move by auto. ring. }
  replace (lambda * X) with (lambda / 2 * (2 * X)) by field.
  apply (is_derive_plus (fun t => Rsum (map (fun s => nll (snd s) (score w b (fst s) + t * A s)) S) / INR (length S)) (fun t => lambda / 2 * (W + 2 * t * X + t * t * V))).
  - apply (is_derive_ext (fun t => / INR (length S) * Rsum (map (fun s => nll (snd s) (score w b (fst s) + t * A s)) S))); [intros; unfold Rdiv; apply Rmult_comm|].
    unfold Rdiv. rewrite (Rmult_comm (Rsum _)).
    apply (is_derive_scal (fun t => Rsum (map (fun s => nll (snd s) (score w b (fst s) + t * A s)) S)) 0 (/ INR (length S))).
    apply (derive_sum (fun s t => nll (snd s) (score w b (fst s) + t * A s))).
    intros s _. rewrite Rmult_comm.
    apply (is_derive_comp (nll (snd s)) (fun t => score w b (fst s) + t * A s) 0 (logistic (score w b (fst s)) - snd s) (A s)).
    + replace (score w b (fst s) + 0 * A s) with (score w b (fst s)) by ring. apply nll_derive.
    + auto_derive; [easy|]. ring.
  - auto_derive; [easy|]. field.
Qed.
