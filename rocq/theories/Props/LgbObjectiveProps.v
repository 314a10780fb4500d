(** Training objectives: C46 (gradients), C47 (quantile), C86 (initial scores). *)
From Coq Require Import String List Arith ZArith Bool Reals Lra Lia Permutation.
From Verif Require Import Base.Num Base.GoRes Base.ListX Base.RTac Model.LgbTree Model.LgbHist Model.LgbObjective
  Spec.LgbObjective Proofs.LgbTreeP Proofs.LgbHistP Proofs.LgbObjectiveP.
Import ListNotations.
Local Open Scope R_scope.

(** The gradient (hessian) of objective [o] at (prediction p, target t) is the slope of its
    loss (gradient) in the prediction. *)
Definition gradient_ok (o : objective RNum) (p t : R) : Prop := slope (fun q => o_loss o q t) p (o_grad o p t).
Definition hessian_ok (o : objective RNum) (p t : R) : Prop := slope (fun q => o_grad o q t) p (o_hess o p t).

(** * C46 *)
Section C46.
  Variable pow : R -> R -> R.
  Variables floori ceili : R -> Z.
  Hypothesis Hpow : forall x y, 0 < x -> pow x y = Rpower x y.

  Theorem C46_l2 : forall p t : R, gradient_ok (@l2 RNum) p t /\ hessian_ok (@l2 RNum) p t.
  Proof. intros p t. split; [apply l2_slope|apply l2_slope2]. Qed.
  (** every configured delta, c, alpha, power: out-of-range ones are replaced *)
  Theorem C46_huber : forall delta p t : R,
    gradient_ok (@huber RNum delta) p t /\
    (Rabs (p - t) < (if Rle_dec delta 0 then 1 else delta) -> hessian_ok (@huber RNum delta) p t).
  Proof.
    intros delta p t. unfold gradient_ok, hessian_ok, huber. cbn [o_loss o_grad o_hess].
    assert (E : @huber_delta RNum delta = if Rle_dec delta 0 then 1 else delta).
    { unfold huber_delta. cbn. destruct (Rle_dec delta 0); rcase; lra. }
    rewrite E. split; [|apply huber_slope2]. apply huber_slope. destruct (Rle_dec delta 0); lra.
  Qed.
  Theorem C46_fair : forall c p t : R, gradient_ok (@fair RNum c) p t /\ hessian_ok (@fair RNum c) p t.
  Proof.
    intros c p t. unfold gradient_ok, hessian_ok, fair. cbn [o_loss o_grad o_hess].
    assert (E : 0 < @fair_c RNum c) by (unfold fair_c; cbn; rcase; lra).
    split; [now apply fair_slope|now apply fair_slope2].
  Qed.
  Theorem C46_poisson : forall p t : R, p < 700 ->
    gradient_ok (@poisson RNum) p t /\ hessian_ok (@poisson RNum) p t /\ o_loss (@poisson RNum) p t = poisson_nll p t.
  Proof.
    intros p t K. split; [now apply poisson_slope|]. split; [now apply poisson_slope2|]. apply poisson_loss_R. lra.
  Qed.
  (** beyond the cap of 700 the loss keeps falling with slope -t, whatever the gradient *)
  Theorem C46_poisson_refuted : forall p t : R, 700 < p -> ~ gradient_ok (@poisson RNum) p t.
  Proof.
    intros p t K G. assert (E := uniqueness_limite _ _ _ _ G (poisson_slope_high p t K)).
    revert E. cbn [o_grad poisson]. unfold poisson_grad. rewrite gomin_R, cap_R, Rmin_right by lra. cbn.
    pose proof (exp_pos 700). lra.
  Qed.
  Theorem C46_gamma : forall p t : R, Rabs p < 700 -> 0 < t ->
    gradient_ok (@gamma RNum) p t /\ o_loss (@gamma RNum) p t = gamma_deviance p t /\
    (/ 10000000000000000 <= 2 * t * exp (- p) -> hessian_ok (@gamma RNum) p t).
  Proof.
    intros p t K Ht. split; [now apply gamma_slope|]. split; [apply gamma_loss_R; lra|].
    intros Hm. apply gamma_slope2; [exact K|]. rewrite tiny_R. exact Hm.
  Qed.
  Theorem C46_tweedie : forall v p t : R, 1 < v < 2 -> Rabs p < 700 -> 0 <= t ->
    gradient_ok (@tweedie RNum pow v) p t /\ o_loss (@tweedie RNum pow v) p t = tweedie_deviance v p t /\
    (/ 10000000000000000 <= 2 * ((2 - v) * exp ((2 - v) * p) - (1 - v) * t * exp ((1 - v) * p)) ->
     hessian_ok (@tweedie RNum pow v) p t).
  Proof.
    intros v p t Hv K Ht. unfold gradient_ok, hessian_ok, tweedie. cbn [o_loss o_grad o_hess].
    assert (E : @tweedie_power RNum v = v).
    { unfold tweedie_power. rewrite two_R. cbn. repeat rcase; cbn; lra. }
    rewrite E. split; [now apply tweedie_slope|]. split; [apply tweedie_loss_R; auto; lra|].
    intros Hm. apply tweedie_slope2; auto. now rewrite tiny_R.
  Qed.
  Theorem C46_l1 : forall p t : R, / 10000000 < Rabs (p - t) -> gradient_ok (@l1 RNum) p t.
  Proof. intros p t K. now apply l1_slope. Qed.
  Theorem C46_quantile : forall a p t : R, p <> t -> gradient_ok (@quantile_obj RNum floori ceili a) p t.
  Proof. intros a p t K. now apply quantile_slope. Qed.

  (** Binary log loss: the gradient belongs to the log loss; the reported loss is another
      function for non-negative scores. *)
  Theorem C46_binary : forall p t : R, Rabs p < 700 ->
    slope (fun q => log_loss q t) p (o_grad (@binary RNum) p t) /\
    o_loss (@binary RNum) p t = log_loss p t + (if Rle_dec 0 p then (2 * t - 1) * p else 0) /\
    (let s := 1 / (1 + exp (- p)) in / 10000000000000000 <= s * (1 - s) -> hessian_ok (@binary RNum) p t).
  Proof.
    intros p t K. split; [apply binary_slope; lra|]. split; [apply binary_loss_R; lra|].
    intros s Hm. apply binary_slope2; [exact K|]. rewrite sigmoid_R by lra. now rewrite tiny_R.
  Qed.
  (** For a positive sample the reported loss of a better score is larger. *)
  Theorem C46_binary_refuted : forall p q : R, 0 <= p < q -> q < 700 ->
    o_loss (@binary RNum) p 1 < o_loss (@binary RNum) q 1 /\ o_grad (@binary RNum) p 1 < 0 /\ log_loss q 1 < log_loss p 1.
  Proof.
    intros p q Hpq Hq.
    assert (A : forall x, 0 <= x < 700 -> o_loss (@binary RNum) x 1 = ln (1 + exp x)).
    { intros x Hx. cbn [o_loss binary]. rewrite binary_loss_R by (rewrite Rabs_pos_eq by lra; lra).
      destruct (Rle_dec 0 x); [|lra]. unfold log_loss. lra. }
    rewrite !A by lra. pose proof (exp_pos p). pose proof (exp_increasing p q (proj2 Hpq)).
    assert (B : forall x, log_loss x 1 = ln (1 + exp (- x))).
    { intros x. unfold log_loss. rewrite log_loss_neg. lra. }
    repeat split.
    - apply ln_increasing; lra.
    - cbn [o_grad binary]. unfold binary_grad. rewrite sigmoid_R by (rewrite Rabs_pos_eq by lra; lra). cbn.
      pose proof (exp_pos (- p)). apply Rlt_minus. apply Rmult_lt_reg_l with (1 + exp (- p)); [lra|]. field_simplify; lra.
    - rewrite !B. apply ln_increasing; [pose proof (exp_pos (- q)); lra|]. apply Rplus_lt_compat_l. apply exp_increasing. lra.
  Qed.

  (** Every hessian the objectives return is positive, so leaf outputs never divide by zero
      or by a negative number. *)
  Theorem C46_hessian_positive : forall (name : string) (hd fc qa tv : R) o,
    @create RNum pow floori ceili name hd fc qa tv = Ok o -> forall p t : R, 0 < o_hess o p t.
  Proof. intros. eapply hess_positive; eauto. Qed.

  (** Multiclass: gradient and hessian of class [k] are the slopes in the score of [k]. *)
  Theorem C46_multiclass : forall c k (l : list R), (c < length l)%nat -> (k < length l)%nat ->
    exists f g h,
      (forall v, @multi_loss RNum c (upd k (fun _ => v) l) = Ok (f v)) /\ f (nth k l 0) = softmax_loss c l
      /\ nth_error (@multi_grad RNum c l) k = Some g /\ slope f (nth k l 0) g
      /\ nth_error (@multi_hess RNum l) k = Some h
      /\ (/ 10000000000000000 < h -> slope (fun v => nth k (@multi_grad RNum c (upd k (fun _ => v) l)) 0) (nth k l 0) h).
  Proof.
    intros c k l Hc Hk.
    assert (Hu : forall v, length (upd k (fun _ => v) l) = length l) by (intros; apply upd_length).
    exists (fun v => softmax_loss c (upd k (fun _ => v) l)).
    exists (exp (nth k l 0) / Rsum (map exp l) - (if Nat.eqb k c then 1 else 0)).
    pose (p := exp (nth k l 0) / Rsum (map exp l)).
    exists (Rmax (@tiny RNum) (p * (1 - p))).
    split; [intros v; apply multi_loss_R; now rewrite Hu|].
    split.
    { f_equal. apply nth_error_ext. intros i. destruct (Nat.eq_dec k i) as [->|Hne].
      - destruct (nth_error l i) eqn:E; [|apply nth_error_None in E; lia].
        erewrite nth_error_upd_same by exact E. rewrite (nth_error_nth l i 0 E). rewrite E. reflexivity.
      - now rewrite nth_error_upd_other. }
    split; [now apply multi_grad_R|]. split; [now apply softmax_loss_slope|].
    split; [now apply multi_hess_R|]. intros Hm. rewrite <- tiny_R in Hm.
    assert (Ep : Rmax (@tiny RNum) (p * (1 - p)) = p * (1 - p)).
    { revert Hm. unfold Rmax. destruct (Rle_dec _ _); [reflexivity|]. lra. }
    rewrite Ep.
    apply slope_local with (e := 1)
      (g := fun v => exp v / Rsum (map exp (upd k (fun _ => v) l)) - (if Nat.eqb k c then 1 else 0)); [lra| |].
    - intros q _. assert (G := multi_grad_R c k (upd k (fun _ => q) l)). rewrite Hu in G. specialize (G Hk).
      rewrite nth_upd_same in G by exact Hk. now apply nth_error_nth.
    - assert (S := softmax_slope2 k l Hk). cbv zeta in S. fold p in S.
      set (z := if Nat.eqb k c then 1 else 0). replace (p * (1 - p)) with (p * (1 - p) - 0) by lra.
      apply (derivable_pt_lim_minus (fun v => exp v / Rsum (map exp (upd k (fun _ => v) l))) (fun _ => z)); [exact S|].
      apply derivable_pt_lim_const.
  Qed.
  (** The adapter used by the trainer for multiclass training reports squared error with
      logistic gradients. *)
  Theorem C46_adapter_refuted : exists p t : R, ~ gradient_ok (@adapter RNum) p t.
  Proof.
    exists 0, 0. intros G. assert (E := uniqueness_limite _ _ _ _ G (l2_slope 0 0)).
    revert E. cbn [o_grad adapter]. unfold binary_grad, l2_grad. rewrite sigmoid_R by (rewrite Rabs_R0; lra).
    cbn. rewrite Ropp_0, exp_0. lra.
  Qed.
  (** Close to the target the L1 gradient is 0, although the loss has slope 1. *)
  Theorem C46_l1_refuted : exists p t : R, ~ gradient_ok (@l1 RNum) p t /\ slope (fun q => o_loss (@l1 RNum) q t) p 1.
  Proof.
    exists (/ 100000000), 0.
    assert (S : slope (fun q => o_loss (@l1 RNum) q 0) (/ 100000000) 1).
    { cbn [o_loss l1]. cbn.
      apply slope_local with (g := fun q => q) (e := / 100000000); [lra| |apply derivable_pt_lim_id].
      intros q Hq. apply Rabs_def2 in Hq. rewrite Rabs_pos_eq; lra. }
    split; [|exact S]. intros G. assert (E := uniqueness_limite _ _ _ _ G S). revert E.
    cbn [o_grad l1]. unfold l1_grad. cbn. rewrite Rabs_pos_eq by lra. rcase; lra.
  Qed.
End C46.

(** An instance: squared error, prediction 3, target 1 has slope 2. *)
Example C46_example : slope (fun q => o_loss (@l2 RNum) q 1) 3 2 /\ slope (fun q => o_loss (@huber RNum 1) q 1) 3 1.
Proof.
  split.
  - destruct (C46_l2 3 1) as [G _]. unfold gradient_ok in G. cbn [o_grad l2] in G. unfold l2_grad in G. cbn [nsub RNum] in G.
    replace (3 - 1) with 2 in G by lra. exact G.
  - destruct (C46_huber 1 3 1) as [G _]. unfold gradient_ok in G.
    replace (o_grad (@huber RNum 1) 3 1) with 1 in G; [exact G|].
    unfold huber. cbn [o_grad]. unfold huber_grad, huber_delta. cbn.
    replace (3 - 1) with 2 by lra. rewrite Rabs_pos_eq by lra. repeat rcase; lra.
Qed.
Example C46_multi_example : exists f g h,
  f 0 = softmax_loss 0 [0; 0] /\ nth_error (@multi_grad RNum 0 [0; 0]) 0 = Some g /\ g = - / 2
  /\ slope f 0 g /\ nth_error (@multi_hess RNum [0; 0]) 0 = Some h.
Proof.
  destruct (C46_multiclass 0 0 [0; 0]) as (f & g & h & _ & F & G & S & H & _); [cbn; lia..|].
  exists f, g, h. split; [exact F|]. split; [exact G|]. split; [|split; [exact S|exact H]].
  rewrite multi_grad_R in G by (cbn; lia). injection G as <-. cbn. rewrite exp_0. lra.
Qed.

(** * C47: the quantile objective *)
Section C47.
  Variables floori ceili : R -> Z.
  Hypothesis Hfl : rounds_down floori.
  Hypothesis Hce : rounds_up ceili.

  (** The best constant predictions for level [a] are exactly the (1 - a)-quantiles. *)
  Theorem C47_minimisers : forall (a : R) ts p, 0 < a < 1 ->
    best_constant (o_loss (@quantile_obj RNum floori ceili a)) ts p <-> quantile_of (1 - a) ts p.
  Proof.
    intros a ts p Ha. unfold quantile_obj. cbn [o_loss].
    assert (E : @quantile_alpha RNum a = a).
    { unfold quantile_alpha. cbn. repeat rcase; cbn; lra. }
    rewrite E. apply quantile_best. lra.
  Qed.
  (** The initial score is the (interpolated) [a]-quantile. *)
  Theorem C47_initial : forall (a : R) ts, 0 < a < 1 -> ts <> [] ->
    exists x, o_init (@quantile_obj RNum floori ceili a) ts = Ok x /\ interpolated a ts x.
  Proof.
    intros a ts Ha Hne. unfold quantile_obj. cbn [o_init].
    assert (E : @quantile_alpha RNum a = a).
    { unfold quantile_alpha. cbn. repeat rcase; cbn; lra. }
    rewrite E. apply quantile_interpolated; auto. lra.
  Qed.
  (** So training starts from the requested quantile and then moves away from it. *)
  Theorem C47_refuted : exists (a x : R) ts,
    o_init (@quantile_obj RNum floori ceili a) ts = Ok x /\ quantile_of a ts x
    /\ ~ best_constant (o_loss (@quantile_obj RNum floori ceili a)) ts x
    /\ best_constant (o_loss (@quantile_obj RNum floori ceili a)) ts 1.
  Proof.
    exists (3 / 4), 3, [0; 1; 2; 3; 4].
    assert (B : forall x : R, below x [0; 1; 2; 3; 4] = List.length (filter (fun t => if Rlt_dec t x then true else false) [0; 1; 2; 3; 4])) by reflexivity.
    assert (Q3 : quantile_of (3 / 4) [0; 1; 2; 3; 4] 3).
    { unfold quantile_of, below, upto. cbn [filter].
      repeat destruct (Rlt_dec _ _); try lra; repeat destruct (Rle_dec _ _); try lra; cbn; lra. }
    split.
    { destruct (C47_initial (3 / 4) [0; 1; 2; 3; 4]) as (x & E & s & lo & P & S & I); [lra|easy|].
      rewrite E. f_equal. cbn [length Nat.sub] in I. destruct I as [I1 I2].
      replace (3 / 4 * INR 4) with 3 in * by (cbn; lra).
      assert (lo = 3)%nat.
      { assert (IZR (Z.of_nat lo) < 4) by (rewrite <- INR_IZR_INZ; lra).
        assert (2 < IZR (Z.of_nat lo)) by (rewrite <- INR_IZR_INZ; lra).
        apply lt_IZR in H, H0. lia. }
      subst lo. replace (INR 3) with 3 in I2 by (cbn; lra). replace (nth 3 s 0) with 3 in I2; [lra|].
      assert (Hs : s = [0; 1; 2; 3; 4]).
      { assert (Hl : length s = 5%nat) by (symmetry; apply (Permutation_length P)).
        do 6 (destruct s as [|? s]; cbn in Hl; try discriminate Hl). clear Hl E I1 I2 B Q3.
        assert (S01 := S 0%nat 1%nat ltac:(cbn; lia)). assert (S12 := S 1%nat 2%nat ltac:(cbn; lia)).
        assert (S23 := S 2%nat 3%nat ltac:(cbn; lia)). assert (S34 := S 3%nat 4%nat ltac:(cbn; lia)). cbn in *.
        assert (M0 : forall z, In z [0; 1; 2; 3; 4] -> In z [r; r0; r1; r2; r3]) by (intros z; apply Permutation_in; exact P).
        assert (m0 := M0 0 ltac:(cbn; auto)). assert (m1 := M0 1 ltac:(cbn; auto)). assert (m2 := M0 2 ltac:(cbn; auto)).
        assert (m3 := M0 3 ltac:(cbn; auto)). assert (m4 := M0 4 ltac:(cbn; auto 10)). clear M0 P S. cbn in *.
        destruct m0 as [m0|[m0|[m0|[m0|[m0|[]]]]]]; destruct m1 as [m1|[m1|[m1|[m1|[m1|[]]]]]]; try lra;
          destruct m2 as [m2|[m2|[m2|[m2|[m2|[]]]]]]; try lra; destruct m3 as [m3|[m3|[m3|[m3|[m3|[]]]]]]; try lra;
          destruct m4 as [m4|[m4|[m4|[m4|[m4|[]]]]]]; try lra; subst; reflexivity. }
      now rewrite Hs. }
    split; [exact Q3|]. split.
    - intros K. apply C47_minimisers in K; [|lra]. revert K. unfold quantile_of, below, upto. cbn [filter].
      repeat destruct (Rlt_dec _ _); try lra; repeat destruct (Rle_dec _ _); try lra; cbn; lra.
    - apply C47_minimisers; [lra|]. unfold quantile_of, below, upto. cbn [filter].
      repeat destruct (Rlt_dec _ _); try lra; repeat destruct (Rle_dec _ _); try lra; cbn; lra.
  Qed.
End C47.

(** * C86: initial scores *)
Theorem C86_l2 : forall ts, ts <> [] ->
  exists x, o_init (@l2 RNum) ts = Ok x /\ best_constant (o_loss (@l2 RNum)) ts x.
Proof.
  intros ts Hne. exists (@mean RNum ts). split; [|now apply l2_best].
  cbn [o_init l2]. unfold init_mean. now destruct ts.
Qed.
Theorem C86_l1 : forall ts, ts <> [] ->
  exists x, o_init (@l1 RNum) ts = Ok x /\ best_constant (o_loss (@l1 RNum)) ts x.
Proof. intros ts Hne. exists (@median RNum ts). split; [reflexivity|]. now apply l1_best. Qed.
Theorem C86_poisson : forall ts, 0 < Rsum ts ->
  exists x, o_init (@poisson RNum) ts = Ok x /\ best_constant poisson_nll ts x.
Proof.
  intros ts Hs. assert (Hne : ts <> []) by (intros ->; cbn in Hs; lra).
  exists (ln (Rsum ts / INR (length ts))). split; [|now apply poisson_best].
  cbn [o_init poisson]. unfold poisson_init. destruct ts as [|t r]; [easy|]. rewrite mean_R. cbn [nle n0 RNum].
  assert (K : 0 < Rsum (t :: r) / INR (length (t :: r))) by (apply Rdiv_lt_0_compat; [exact Hs|now apply len_pos]).
  rleb; [|reflexivity]. exfalso. unR. lra.
Qed.
Theorem C86_binary : forall ts, ts <> [] ->
  let m := Rsum ts / INR (length ts) in
  / 1000000000000000 <= m <= 1 - / 1000000000000000 ->
  exists x, o_init (@binary RNum) ts = Ok x /\ best_constant log_loss ts x.
Proof.
  intros ts Hne m Hm. exists (ln (m / (1 - m))). split; [|apply binary_best; auto; fold m; lra].
  cbn [o_init binary]. unfold binary_init. destruct ts as [|t r]; [easy|]. rewrite mean_R. fold m.
  rewrite gomax_R, gomin_R. cbn [nsub n1 nlit RNum ndiv nlog]. rewrite Rmin_right, Rmax_right by lra. reflexivity.
Qed.
Theorem C86_gamma : forall ts, ts <> [] -> (forall t, In t ts -> 0 < t) ->
  exists x, o_init (@gamma RNum) ts = Ok x /\ best_constant gamma_deviance ts x.
Proof.
  intros ts Hne Hp. exists (ln (Rsum ts / INR (length ts))). split; [|now apply gamma_best].
  cbn [o_init gamma]. unfold positive_init. cbn [nlt n0 RNum].
  replace (filter _ ts) with ts.
  - destruct ts; [easy|]. now rewrite mean_R.
  - clear Hne. induction ts as [|t ts IH]; [reflexivity|]. cbn. assert (K : 0 < t) by (apply Hp; now left).
    apply Rltb_true in K. rewrite K. f_equal. apply IH. intros x Hx. apply Hp. now right.
Qed.
Theorem C86_tweedie : forall pow v ts, 1 < v < 2 -> ts <> [] -> (forall t, In t ts -> 0 < t) ->
  exists x, o_init (@tweedie RNum pow v) ts = Ok x /\ best_constant (tweedie_deviance v) ts x.
Proof.
  intros pow v ts Hv Hne Hp. destruct (C86_gamma ts Hne Hp) as (x & E & _). exists x. split; [exact E|].
  replace x with (ln (Rsum ts / INR (length ts))).
  - apply tweedie_best; auto; [intros t Ht; apply Rlt_le; auto|].
    destruct ts as [|t r]; [easy|]. cbn. assert (0 < t) by (apply Hp; now left).
    assert (0 <= Rsum r); [|lra]. apply Rsum_nonneg. intros y Hy. apply Rlt_le, Hp. now right.
  - cbn [o_init gamma] in E. unfold positive_init in E. cbn [nlt n0 RNum] in E.
    replace (filter _ ts) with ts in E.
    + destruct ts; [easy|]. rewrite mean_R in E. now injection E.
    + clear Hne E. induction ts as [|t ts IH]; [reflexivity|]. cbn. assert (K : 0 < t) by (apply Hp; now left).
      apply Rltb_true in K. rewrite K. f_equal. apply IH. intros z Hz. apply Hp. now right.
Qed.

(** With a zero among the targets the Tweedie score (the logarithm of the mean of the
    positive targets) is not the best constant. *)
Theorem C86_tweedie_refuted : forall pow, exists x ts,
  o_init (@tweedie RNum pow (3 / 2)) ts = Ok x /\ (forall t, In t ts -> 0 <= t)
  /\ ~ best_constant (tweedie_deviance (3 / 2)) ts x.
Proof.
  intros pow. exists 0, [0; 1]. split; [|split].
  - cbn [o_init tweedie]. unfold positive_init. cbn [nlt n0 RNum filter].
    rewrite (proj2 (Rltb_false 0 0)) by lra. rewrite (proj2 (Rltb_true 0 1)) by lra.
    rewrite mean_R. cbn. replace ((1 + 0) / 1) with 1 by lra. now rewrite ln_1.
  - intros t [<-|[<-|[]]]; lra.
  - intros K. specialize (K (ln (4 / 9))). revert K. cbn [map Rsum]. unfold tweedie_deviance.
    destruct (Req_EM_T 0 0); [|lra]. destruct (Req_EM_T 1 0); [lra|].
    rewrite exp_ln by lra. rewrite exp_0.
    assert (E1 : forall y, Rpower 1 y = 1) by (intros y; unfold Rpower; now rewrite ln_1, Rmult_0_r, exp_0).
    assert (E2 : Rpower (4 / 9) (2 - 3 / 2) = 2 / 3).
    { replace (2 - 3 / 2) with (/ 2) by lra. rewrite Rpower_sqrt by lra.
      replace (4 / 9) with ((2 / 3) * (2 / 3)) by lra. rewrite sqrt_square; lra. }
    assert (E3 : Rpower (4 / 9) (1 - 3 / 2) = 3 / 2).
    { replace (1 - 3 / 2) with (- (2 - 3 / 2)) by lra. rewrite Rpower_Ropp, E2. lra. }
    rewrite !E1, E2, E3. lra.
Qed.
(** Huber starts from the mean, Fair from the median; neither is the best constant. *)
Theorem C86_huber_refuted : exists x ts,
  o_init (@huber RNum 1) ts = Ok x /\ ~ best_constant (o_loss (@huber RNum 1)) ts x.
Proof.
  exists (10 / 3), [0; 0; 10]. split.
  - cbn [o_init huber]. unfold init_mean. rewrite mean_R. cbn. f_equal. lra.
  - intros K. specialize (K 0). revert K. unfold huber. cbn [o_loss map Rsum].
    unfold huber_loss, huber_delta. rewrite half_R. cbn.
    rewrite (Rabs_pos_eq (10 / 3 - 0)), (Rabs_left (10 / 3 - 10)), (Rabs_pos_eq (0 - 0)), (Rabs_left (0 - 10)) by lra.
    repeat rcase; lra.
Qed.
Theorem C86_fair_refuted : exists x ts,
  o_init (@fair RNum 1) ts = Ok x /\ ~ best_constant (o_loss (@fair RNum 1)) ts x.
Proof.
  exists 0, [0; 0; 1]. split.
  - cbn [o_init fair]. f_equal. unfold median. cbn. unfold pass. cbn.
    repeat (rcase; try lra; cbn).
    all: try reflexivity; try lra.
  - intros K. specialize (K (/ 5)). revert K. unfold fair. cbn [o_loss map Rsum].
    unfold fair_loss, fair_c. cbn.
    rewrite (Rabs_pos_eq (0 - 0)), (Rabs_left (0 - 1)), (Rabs_pos_eq (/ 5 - 0)), (Rabs_left (/ 5 - 1)) by lra.
    rcase; [lra|]. clear H.
    replace (1 + (0 - 0) / 1) with 1 by lra. replace (1 + - (0 - 1) / 1) with 2 by lra.
    replace (1 + (/ 5 - 0) / 1) with (6 / 5) by lra. replace (1 + - (/ 5 - 1) / 1) with (9 / 5) by lra.
    rewrite ln_1.
    assert (E : ln (6 / 5) + ln (6 / 5) + ln (9 / 5) = ln 2 + ln (162 / 125)).
    { rewrite <- !ln_mult by lra. f_equal. lra. }
    assert (B : / 5 < ln (162 / 125)).
    { rewrite <- (ln_exp (/ 5)). apply ln_increasing; [apply exp_pos|].
      pose proof (exp_tangent 0 (- / 5)) as T. rewrite exp_0, exp_Ropp in T.
      pose proof (exp_pos (/ 5)) as P. assert (Q : exp (/ 5) * / exp (/ 5) = 1) by (apply Rinv_r; lra).
      set (z := exp (/ 5)) in *. set (w := / z) in *. nra. }
    lra.
Qed.
Example C86_example : exists x, o_init (@l2 RNum) [1; 2; 6] = Ok x /\ x = 3 /\ best_constant (o_loss (@l2 RNum)) [1; 2; 6] x.
Proof.
  destruct (C86_l2 [1; 2; 6]) as (x & E & B); [easy|]. exists x. split; [exact E|]. split; [|exact B].
  cbn [o_init l2] in E. unfold init_mean in E. rewrite mean_R in E. injection E as <-. cbn. lra.
Qed.
Example C86_binary_example : exists x, o_init (@binary RNum) [1; 0; 0; 0] = Ok x /\ best_constant log_loss [1; 0; 0; 0] x.
Proof. apply C86_binary; [easy|]. cbn. lra. Qed.
Example C86_tweedie_example : exists x, o_init (@tweedie RNum Rpower (3 / 2)) [1; 3] = Ok x /\ best_constant (tweedie_deviance (3 / 2)) [1; 3] x.
Proof. apply C86_tweedie; [lra|easy|]. intros t [<-|[<-|[]]]; lra. Qed.

Print Assumptions C46_l2.
Print Assumptions C46_huber.
Print Assumptions C46_fair.
Print Assumptions C46_poisson.
Print Assumptions C46_poisson_refuted.
Print Assumptions C46_gamma.
Print Assumptions C46_tweedie.
Print Assumptions C46_l1.
Print Assumptions C46_quantile.
Print Assumptions C46_binary.
Print Assumptions C46_binary_refuted.
Print Assumptions C46_hessian_positive.
Print Assumptions C46_multiclass.
Print Assumptions C46_adapter_refuted.
Print Assumptions C46_l1_refuted.
Print Assumptions C47_minimisers.
Print Assumptions C47_initial.
Print Assumptions C47_refuted.
Print Assumptions C86_l2.
Print Assumptions C86_l1.
Print Assumptions C86_poisson.
Print Assumptions C86_binary.
Print Assumptions C86_gamma.
Print Assumptions C86_tweedie.
Print Assumptions C86_tweedie_refuted.
Print Assumptions C86_huber_refuted.
Print Assumptions C86_fair_refuted.
