From Coq Require Import List Arith ZArith Bool Lia Reals Lra Permutation Sorting.
From Verif Require Import Base.Num Base.GoRes Base.GoSort Base.RTac Model.Metrics Model.LgbObjective Model.EvalMetrics Spec.Ranking Spec.EvalMetrics.
From Verif Require Import Proofs.AucP Proofs.EvalMetricsP Proofs.EvalMetricsRP.
Import ListNotations.
Local Open Scope R_scope.

Lemma Rsum_cons a l : Rsum (a :: l) = a + Rsum l.
Proof. reflexivity. Qed.

Section Auc.
  Variables pos neg : Z.
  Hypothesis different : neg <> pos.
  Definition positive_of (l : list (R * Z)) : list R := map fst (filter (fun s => Z.eqb (snd s) pos) l).
  Definition negative_of (l : list (R * Z)) : list R := map fst (filter (fun s => Z.eqb (snd s) neg) l).

  Lemma auc_inner_R x l : forall a, @auc_inner RNum neg x l a = a + Rsum (map (pair_score x) (negative_of l)).
  Proof.
    unfold auc_inner, negative_of. induction l as [|[q t] l IH]; intros a; cbn [fold_left filter map fst snd]; [cbn; lra|].
    rewrite IH. destruct (Z.eqb t neg); [|reflexivity]. cbn [map fst]. rewrite ?Rsum_cons. unfold pair_score at 2.
    cbn [nlt neqb nadd n1 RNum]. rewrite nlit_R.
    destruct (Rltb_spec q x); [lra|]. destruct (Reqb_spec x q), (Reqb_spec q x); try congruence; lra.
  Qed.
  Lemma auc_outer_R l : @auc_outer RNum pos neg l = pair_sum (positive_of l) (negative_of l).
  Proof.
    unfold auc_outer, positive_of, pair_sum.
    assert (G : forall m a, fold_left (fun a s => if Z.eqb (snd s) pos then @auc_inner RNum neg (fst s) l a else a) m a
              = a + Rsum (map (fun p => Rsum (map (fun q => pair_score p q) (negative_of l))) (map fst (filter (fun s => Z.eqb (snd s) pos) m)))).
    { induction m as [|[q t] m IH]; intros a; cbn [fold_left filter map fst snd]; [cbn; lra|]. rewrite IH. destruct (Z.eqb t pos); [|reflexivity].
      rewrite auc_inner_R. cbn [map fst]. rewrite ?Rsum_cons. apply Rplus_assoc. }
    etransitivity; [exact (G l 0)|]. apply Rplus_0_l.
  Qed.
  Lemma pos_encoded p : forall yt, pos_scores (combine p (encoded pos yt)) = positive_of (combine p yt).
  Proof.
    unfold pos_scores, positive_of, encoded. induction p as [|x p IH]; intros [|t yt]; cbn [map combine filter fst snd]; auto.
    destruct (Z.eqb t pos); destruct (Reqb_spec 1 1), (Reqb_spec 0 1); try lra; cbn [map fst]; now rewrite IH.
  Qed.
  Lemma neg_encoded p : forall yt, (forall t, In t yt -> t = neg \/ t = pos) -> neg_scores (combine p (encoded pos yt)) = negative_of (combine p yt).
  Proof.
    unfold neg_scores, negative_of, encoded. induction p as [|x p IH]; intros [|t yt] H; cbn [map combine filter fst snd]; auto.
    assert (Hr : forall t, In t yt -> t = neg \/ t = pos) by (intros; apply H; now right).
    destruct (H t (or_introl eq_refl)) as [->| ->].
    - rewrite Z.eqb_refl. destruct (Z.eqb_spec neg pos); [congruence|]. destruct (Reqb_spec 0 1); [lra|]. cbn [negb map fst]. now rewrite IH.
    - rewrite Z.eqb_refl. destruct (Z.eqb_spec pos neg); [congruence|]. destruct (Reqb_spec 1 1); [|lra]. cbn [negb]. now apply IH.
  Qed.
  Lemma positive_length p : forall yt, length p = length yt -> length (positive_of (combine p yt)) = times yt pos.
  Proof.
    intros yt Hl. rewrite times_filter. unfold positive_of. rewrite map_length. revert yt Hl. induction p as [|x p IH]; intros [|t yt] Hl; try discriminate; [reflexivity|].
    cbn [combine filter snd]. destruct (Z.eqb t pos); cbn [length]; rewrite IH; auto.
  Qed.
  Lemma negative_length p : forall yt, length p = length yt -> (forall t, In t yt -> t = neg \/ t = pos) -> (length (negative_of (combine p yt)) = length yt - times yt pos)%nat.
  Proof.
    intros yt Hl H. rewrite times_filter. unfold negative_of. rewrite map_length. revert yt Hl H. induction p as [|x p IH]; intros [|t yt] Hl H; try discriminate; [reflexivity|].
    cbn [combine filter snd]. specialize (IH yt ltac:(cbn in Hl; lia) ltac:(intros; apply H; now right)).
    assert (length (filter (fun t => Z.eqb t pos) yt) <= length yt)%nat by (clear; induction yt as [|y yt IH]; cbn; auto; destruct (Z.eqb y pos); cbn; lia).
    destruct (H t (or_introl eq_refl)) as [->| ->].
    - rewrite Z.eqb_refl. destruct (Z.eqb_spec neg pos); [congruence|]. cbn [length]. rewrite IH. lia.
    - rewrite Z.eqb_refl. destruct (Z.eqb_spec pos neg); [congruence|]. cbn [length]. rewrite IH. lia.
  Qed.
End Auc.

Lemma encoded_binary pos yt y : In y (encoded pos yt) -> y = 0 \/ y = 1.
Proof. unfold encoded. intros H. apply in_map_iff in H as [t [<- _]]. destruct (Z.eqb t pos); auto. Qed.

(** AUC of the report is the AUC of the metrics package for the encoded labels. *)
Lemma cm_auc_R yt yp p cm neg pos sortf : made yt yp (Some p) cm -> cm_classes cm = [neg; pos] -> go_sort (@score_desc RNum) sortf ->
  @cm_auc RNum cm = @auc RNum sortf (Some (encoded pos yt)) (Some p).
Proof.
  intros (E1 & E2 & E3 & Hne & Hl & Hp & Hs & Hc) Ec Hsort. specialize (Hp p eq_refl). rewrite Ec in Hs, Hc.
  assert (D : neg <> pos) by (inversion Hs as [|? ? _ F]; subst; inversion F; subst; lia).
  assert (B : forall t, In t yt -> t = neg \/ t = pos).
  { intros t Ht. destruct (proj2 (Hc t) (or_introl Ht)) as [->|[->|[]]]; auto. }
  rewrite auc_R; auto; [|unfold encoded; now rewrite map_length|destruct yt; [contradiction|discriminate]|apply encoded_binary].
  unfold cm_auc, nsamples. rewrite Ec, E3, E1, count_filter, Nat.add_0_r. rewrite <- times_filter.
  unfold mann_whitney. rewrite pos_encoded, (neg_encoded pos neg D) by assumption. rewrite positive_length, (negative_length pos neg D) by assumption.
  destruct (Nat.eqb (times yt pos) 0 || Nat.eqb (length yt - times yt pos) 0); [now rewrite nlit_R|].
  rewrite auc_outer_R, !nofnat_R. reflexivity.
Qed.

(** *** The log loss *)
Definition clipped (x : R) : R := Rmax (1 / 1000000000000000) (Rmin (1 - 1 / 1000000000000000) x).
Lemma gomin_R a b : @gomin RNum a b = Rmin a b.
Proof. unfold gomin, Rmin. cbn [nisnan orb nlt RNum]. destruct (Rltb_spec b a), (Rle_dec a b); lra. Qed.
Lemma gomax_R a b : @gomax RNum a b = Rmax a b.
Proof. unfold gomax, Rmax. cbn [nisnan orb nlt RNum]. destruct (Rltb_spec a b), (Rle_dec a b); lra. Qed.
Lemma ll_clip_R x : @ll_clip RNum x = clipped x.
Proof. unfold ll_clip, ll_eps, clipped. rewrite gomin_R, gomax_R, !nlit_R. reflexivity. Qed.
Lemma clipped_cases x : let e := 1 / 1000000000000000 in
  clipped x = if Rltb x e then e else if Rltb (1 - e) x then 1 - e else x.
Proof.
  cbv zeta. unfold clipped. destruct (Rle_dec (1 - 1 / 1000000000000000) x).
  - rewrite Rmin_left, Rmax_right by lra. destruct (Rltb_spec x (1 / 1000000000000000)); [lra|]. destruct (Rltb_spec (1 - 1 / 1000000000000000) x); lra.
  - rewrite Rmin_right by lra. destruct (Rltb_spec x (1 / 1000000000000000)); [rewrite Rmax_left; lra|]. destruct (Rltb_spec (1 - 1 / 1000000000000000) x); [lra|]. rewrite Rmax_right; lra.
Qed.
Lemma bll_clip_R x : @bll_clip RNum x = clipped x.
Proof. rewrite clipped_cases. unfold bll_clip, bll_eps. rewrite !nlit_R. reflexivity. Qed.
Lemma clipped_range x : 1 / 1000000000000000 <= clipped x <= 1 - 1 / 1000000000000000.
Proof. rewrite clipped_cases. destruct (Rltb_spec x (1 / 1000000000000000)); [lra|]. destruct (Rltb_spec (1 - 1 / 1000000000000000) x); lra. Qed.
Lemma clipped_id x : 1 / 1000000000000000 <= x <= 1 - 1 / 1000000000000000 -> clipped x = x.
Proof. rewrite clipped_cases. intros. destruct (Rltb_spec x (1 / 1000000000000000)); [lra|]. destruct (Rltb_spec (1 - 1 / 1000000000000000) x); lra. Qed.

(** The loss of one sample: minus the log of the clipped probability of the true label. *)
Definition sample_loss (pos : Z) (s : R * Z) : R := - ln (if Z.eqb (snd s) pos then clipped (fst s) else 1 - clipped (fst s)).
Lemma ll_sum_R pos l : @ll_sum RNum pos l = - Rsum (map (sample_loss pos) l).
Proof.
  unfold ll_sum. assert (G : forall a, fold_left (fun s x => if Z.eqb (snd x) pos then s + ln (@ll_clip RNum (fst x)) else s + ln (1 - @ll_clip RNum (fst x))) l a = a - Rsum (map (sample_loss pos) l)).
  { induction l as [|[x t] l IH]; intros a; cbn [fold_left map]; [cbn; lra|]. rewrite IH. rewrite ?Rsum_cons. unfold sample_loss at 2. cbn [fst snd].
    rewrite ll_clip_R. destruct (Z.eqb t pos); lra. }
  etransitivity; [exact (G 0)|]. lra.
Qed.
Lemma cm_log_loss_R yt yp p cm neg pos : made yt yp (Some p) cm -> cm_classes cm = [neg; pos] ->
  @cm_log_loss RNum cm = Ok (Rsum (map (sample_loss pos) (combine p yt)) / INR (length yt)).
Proof.
  intros (E1 & E2 & E3 & _) Ec. unfold cm_log_loss, nsamples. rewrite Ec, E3, E1, ll_sum_R, nofnat_R. cbn [nneg ndiv RNum]. f_equal. now rewrite Ropp_involutive.
Qed.
Lemma sample_loss_eq pos x t : sample_loss pos (x, t) = - ln (if Z.eqb t pos then clipped x else 1 - clipped x).
Proof. reflexivity. Qed.
Lemma bll_loop_R pos p : forall yt a, @bll_loop RNum (combine (encoded pos yt) p) a = Ok (a + Rsum (map (sample_loss pos) (combine p yt))).
Proof.
  induction p as [|x p IH]; intros [|t yt] a; try (cbn; f_equal; lra).
  unfold encoded in *. cbn [map combine bll_loop]. cbn [neqb n0 n1 RNum].
  assert (S : forall b, 0 < b -> @log_safe RNum b = ln b) by (intros b Hb; unfold log_safe; cbn [nle n0 nlog RNum]; destruct (Rleb_spec b 0); [lra|reflexivity]).
  pose proof (clipped_range x). rewrite bll_clip_R, Rsum_cons, sample_loss_eq. cbn [nsub RNum n1].
  destruct (Z.eqb t pos).
  - destruct (Reqb_spec 1 0); [lra|]. destruct (Reqb_spec 1 1); [|lra]. cbn [negb andb]. rewrite (IH yt), S by lra. f_equal. lra.
  - destruct (Reqb_spec 0 0); [|lra]. destruct (Reqb_spec 0 1); [lra|]. cbn [negb andb]. rewrite (IH yt), S by lra. f_equal. lra.
Qed.
Lemma log_loss_same yt yp p cm neg pos : made yt yp (Some p) cm -> cm_classes cm = [neg; pos] ->
  @cm_log_loss RNum cm = @binary_log_loss RNum (Some (encoded pos yt)) (Some p).
Proof.
  intros M Ec. rewrite (cm_log_loss_R yt yp p cm neg pos M Ec). destruct M as (_ & _ & _ & Hne & Hl & Hp & _). specialize (Hp p eq_refl).
  unfold binary_log_loss, checked. unfold encoded at 1 2 3 4. rewrite map_length, Hp. destruct (Nat.eqb_spec (length yt) 0) as [E|E]; [destruct yt; [contradiction|discriminate]|].
  rewrite Nat.eqb_refl. cbn [negb bind]. fold (encoded pos yt). 
  match goal with |- _ = bind ?m _ => replace m with (Ok (0 + Rsum (map (sample_loss pos) (combine p yt)))) by (symmetry; exact (bll_loop_R pos p yt 0)) end.
  cbn [bind]. unfold encoded. rewrite map_length, nofnat_R. cbn [ndiv RNum]. f_equal. unfold Rdiv. now rewrite Rplus_0_l.
Qed.
Lemma sample_loss_range pos s : 0 <= sample_loss pos s <= - ln (1 / 1000000000000000).
Proof.
  unfold sample_loss. pose proof (clipped_range (fst s)) as C.
  assert (G : forall v, 1 / 1000000000000000 <= v <= 1 -> 0 <= - ln v <= - ln (1 / 1000000000000000)).
  { intros v Hv. split.
    - rewrite <- ln_1 at 1. assert (ln v <= ln 1) by (destruct (proj2 Hv) as [L| ->]; [left; apply ln_increasing; lra|right; reflexivity]). rewrite ln_1 in *. lra.
    - assert (ln (1 / 1000000000000000) <= ln v) by (destruct (proj1 Hv) as [L|L]; [left; apply ln_increasing; lra|rewrite L; right; reflexivity]). lra. }
  destruct (Z.eqb _ _); apply G; lra.
Qed.
