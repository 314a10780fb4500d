(** C26, C27, C91, C92, C93, C94 - linear/regression.go and sklearn/linear_model/linear_regression.go. *)
From Coq Require Import List Arith Bool Reals Lra Lia Permutation ZArith QArith.
From Verif Require Import Base.Num Base.GoRes Base.Mat Base.RTac Base.FTac Model.Linear Spec.Linear Proofs.LinearP.
Import ListNotations.
Close Scope Q_scope.
Local Open Scope list_scope.
Local Open Scope R_scope.

(** ** C26 *)

(** The matrix that Fit inverts. *)
Definition to_invert {N : Num} (X : matrix N) : list (list N) :=
  mmul (transpose (S (mcols X)) (with_ones (mrows X))) (S (mcols X)) (with_ones (mrows X)).
(** Fit succeeds exactly for non-empty data with one target per row whose matrix gets inverted;
    the other cases are reported by the documented errors, and nothing is changed unless the
    inversion failed (C27). *)
Theorem C26_outcome : forall (N : Num) inverse (lr : linreg N) X y,
  (forall A B, inverse A = Some B -> B <> []) ->
  let lr' := fst (lr_fit inverse lr X y) in let o := snd (lr_fit inverse lr X y) in
  (nrows X = O \/ mcols X = O -> lr' = lr /\ o = Err EModel)
  /\ (nrows X <> O -> mcols X <> O -> nrows y <> nrows X -> lr' = lr /\ o = Err (EDimension (nrows X) (nrows y)))
  /\ (nrows X <> O -> mcols X <> O -> nrows y = nrows X -> mcols y <> 1%nat -> lr' = lr /\ o = Err EValue)
  /\ (nrows X <> O -> mcols X <> O -> nrows y = nrows X -> mcols y = 1%nat ->
      match inverse (to_invert X) with
      | None => o = Err EModel
      | Some _ => o = Ok tt /\ lr_fitted lr' = true /\ lr_nfeat lr' = mcols X
      end).
Proof.
  intros N inverse lr X y Hne. unfold lr_fit, to_invert. cbv zeta.
  destruct (Nat.eqb_spec (nrows X) 0); [cbn; repeat split; intros; try lia; auto|].
  destruct (Nat.eqb_spec (mcols X) 0); [cbn; repeat split; intros; try lia; auto|]. cbn [orb].
  destruct (Nat.eqb_spec (nrows y) (nrows X)); cbn [negb]; [|repeat split; intros; try lia; auto].
  destruct (Nat.eqb_spec (mcols y) 1); cbn [negb]; [|repeat split; intros; try lia; auto].
  repeat split; intros; try lia; auto. destruct (inverse _) as [inv|] eqn:E; [|reflexivity].
  apply Hne in E. destruct inv as [|r inv]; [easy|]. cbn [mvmul map]. auto.
Qed.

Lemma lr_fit_ok {N : Num} inverse (lr : linreg N) X y lr' : lr_fit inverse lr X y = (lr', Ok tt) ->
  nrows X <> O /\ mcols X <> O /\ nrows y = nrows X /\ mcols y = 1%nat /\
  exists inv b w, inverse (mmul (transpose (S (mcols X)) (with_ones (mrows X))) (S (mcols X)) (with_ones (mrows X))) = Some inv
    /\ mvmul inv (mvmul (transpose (S (mcols X)) (with_ones (mrows X))) (column 0 (mrows y))) = b :: w
    /\ lr' = mklr true (mcols X) (nrows X) (Some w) b (mcols X).
Proof.
  unfold lr_fit. destruct (Nat.eqb_spec (nrows X) 0); [discriminate|]. destruct (Nat.eqb_spec (mcols X) 0); [discriminate|]. cbn [orb].
  destruct (Nat.eqb_spec (nrows y) (nrows X)); [|discriminate]. destruct (Nat.eqb_spec (mcols y) 1); [|discriminate]. cbn [negb].
  destruct (inverse _) as [inv|] eqn:E; [|discriminate]. destruct (mvmul inv _) as [|b w] eqn:E2; [discriminate|].
  intros K. injection K as <-. repeat (split; [assumption|]). exists inv, b, w. auto.
Qed.

Lemma lr_fit_succeeds {N : Num} inverse (lr : linreg N) X y inv : nrows X <> O -> mcols X <> O -> nrows y = nrows X -> mcols y = 1%nat ->
  inverse (to_invert X) = Some inv -> inv <> [] -> exists lr', lr_fit inverse lr X y = (lr', Ok tt).
Proof.
  intros R0 C0 Ny My E Hne. unfold lr_fit. destruct (Nat.eqb_spec (nrows X) 0); [easy|]. destruct (Nat.eqb_spec (mcols X) 0); [easy|]. cbn [orb].
  rewrite Ny, My, Nat.eqb_refl. cbn [negb Nat.eqb]. unfold to_invert in E. rewrite E. destruct inv as [|r inv]; [easy|]. cbn [mvmul map]. eauto.
Qed.

Section Fit.
Variable inverse : list (list R) -> option (list (list R)).
Hypothesis Hinv : inverts inverse.

Lemma fit_facts (lr : linreg RNum) (X y : matrix R) lr' : wf X -> @lr_fit RNum inverse lr X y = (lr', Ok tt) ->
  exists w : list R, lr_getweights lr' = Some w /\ length w = mcols X /\ lr_fitted lr' = true /\ lr_nfeat lr' = mcols X
    /\ length (@column RNum 0 (mrows y)) = length (mrows X)
    /\ normal (S (mcols X)) (combine (@with_ones RNum (mrows X)) (@column RNum 0 (mrows y))) (vec (@lr_getintercept RNum lr' :: w))
    /\ exists inv, is_inverse (S (mcols X)) (@mmul RNum (@transpose RNum (S (mcols X)) (@with_ones RNum (mrows X))) (S (mcols X)) (@with_ones RNum (mrows X))) inv.
Proof.
  intros Hw H. destruct (lr_fit_ok _ _ _ _ _ H) as (_ & _ & Hy & _ & inv & b & w & E1 & E2 & ->).
  pose proof (Hinv _ _ _ (square_gram (S (mcols X)) (@with_ones RNum (mrows X))) E1) as I.
  assert (Ly : length (@column RNum 0 (mrows y)) = length (mrows X)) by (rewrite column_length; exact Hy).
  exists w. split; [reflexivity|]. split.
  { assert (L : length (b :: w) = S (mcols X)) by (rewrite <- E2; unfold mvmul; rewrite map_length; apply I). cbn in L. congruence. }
  split; [reflexivity|]. split; [reflexivity|]. split; [exact Ly|]. split; [|exists inv; exact I].
  cbn [lr_getintercept lr_fitted lr_icept]. rewrite <- E2. apply fit_normal; [rewrite with_ones_length; exact Ly|exact I].
Qed.

(** The fitted line has the least residual sum of squares of all lines. *)
Theorem C26_optimal : forall (lr : linreg RNum) (X y : matrix R) lr', wf X -> @lr_fit RNum inverse lr X y = (lr', Ok tt) ->
  exists w, lr_getweights lr' = Some w /\ length w = mcols X /\
    forall b' w', length w' = mcols X ->
      residual (mrows X) (@column RNum 0 (mrows y)) (@lr_getintercept RNum lr') w <= residual (mrows X) (@column RNum 0 (mrows y)) b' w'.
Proof.
  intros lr X y lr' Hw H. destruct (fit_facts lr X y lr' Hw H) as (w & E & L & _ & _ & _ & Nm & _).
  exists w. split; [exact E|]. split; [exact L|]. intros b' w' L'. rewrite !(residual_ssr (mcols X)) by assumption. now apply normal_optimal.
Qed.
(** and no other line has it. *)
Theorem C26_unique : forall (lr : linreg RNum) (X y : matrix R) lr' w b' w', wf X -> @lr_fit RNum inverse lr X y = (lr', Ok tt) ->
  lr_getweights lr' = Some w -> length w' = mcols X ->
  residual (mrows X) (@column RNum 0 (mrows y)) b' w' = residual (mrows X) (@column RNum 0 (mrows y)) (@lr_getintercept RNum lr') w ->
  b' = @lr_getintercept RNum lr' /\ w' = w.
Proof.
  intros lr X y lr' w b' w' Hw H Ew L' Eq. destruct (fit_facts lr X y lr' Hw H) as (w0 & E & L & _ & _ & Ly & Nm & inv & I).
  rewrite E in Ew. injection Ew as ->. rewrite !(residual_ssr (mcols X)) in Eq by assumption.
  pose proof (normal_equal _ _ _ _ Nm Eq) as Z.
  assert (K : forall k, (k < S (mcols X))%nat -> nth k (@lr_getintercept RNum lr' :: w) 0 - nth k (b' :: w') 0 = 0).
  { apply (kernel_zero _ _ inv (fun k => nth k (@lr_getintercept RNum lr' :: w) 0 - nth k (b' :: w') 0) I). intros row Hr.
    destruct (In_nth _ _ [] Hr) as (i & Hi & <-).
    assert (Hi2 : (i < length (combine (@with_ones RNum (mrows X)) (@column RNum 0 (mrows y))))%nat) by (rewrite combine_length, with_ones_length, Ly in *; lia).
    specialize (Z (nth i (combine (@with_ones RNum (mrows X)) (@column RNum 0 (mrows y))) ([], 0)) (nth_In _ _ Hi2)).
    rewrite combine_nth in Z by (rewrite with_ones_length; symmetry; exact Ly). exact Z. }
  split; [specialize (K O ltac:(lia)); cbn [nth] in K; change (num RNum) with R in *; lra|]. apply (nth_ext _ _ 0 0); [congruence|]. intros k Hk. specialize (K (S k)). cbn [nth] in K. specialize (K ltac:(lia)). change (num RNum) with R in *. lra.
Qed.

(** ** C91: with fewer rows than columns plus one no fit succeeds. *)
Theorem C91_underdetermined : forall (lr : linreg RNum) (X y : matrix R), wf X -> (nrows X <= mcols X)%nat ->
  snd (@lr_fit RNum inverse lr X y) <> Ok tt.
Proof.
  intros lr X y Hw Hs H. destruct (@lr_fit RNum inverse lr X y) as [lr' o] eqn:E. cbn in H. subst o.
  destruct (fit_facts lr X y lr' Hw E) as (_ & _ & _ & _ & _ & _ & _ & inv & I).
  destruct (kernel_exists (S (mcols X)) (@with_ones RNum (mrows X))) as (f & (k & Hk & Hf) & Z).
  - rewrite with_ones_length. unfold nrows in Hs. lia.
  - intros row Hr. unfold with_ones in Hr. apply in_map_iff in Hr as (r' & <- & Hr). cbn [length]. f_equal. now apply Hw.
  - apply Hf. exact (kernel_zero _ _ inv f I Z k Hk).
Qed.

(** ** C92: the score on the training data lies between 0 and 1. *)
Theorem C92_training : forall (lr : linreg RNum) (X y : matrix R) lr', wf X -> @lr_fit RNum inverse lr X y = (lr', Ok tt) ->
  (exists u v, In u (@column RNum 0 (mrows y)) /\ In v (@column RNum 0 (mrows y)) /\ u <> v) ->
  exists s, @lr_score RNum lr' X y = Ok s /\ 0 <= s <= 1.
Proof.
  intros lr X y lr' Hw H Hv. destruct (fit_facts lr X y lr' Hw H) as (w & E & L & F & NF & Ly & Nm & _).
  destruct (lr_fit_ok _ _ _ _ _ H) as (Hr0 & _). set (ys := @column RNum 0 (mrows y)) in *. set (b := @lr_getintercept RNum lr') in *.
  assert (P : @lr_predict RNum lr' X = Ok (map (linear_value b w) (mrows X))).
  { rewrite (lr_predict_R lr' w X F NF E Hw Hr0) by (rewrite L; apply Nat.le_refl). unfold b, lr_getintercept. rewrite F. reflexivity. }
  unfold lr_score. rewrite F. cbn [negb]. rewrite P. cbn [bind].
  set (m := Rsum ys / INR (length ys)).
  assert (T0 : Rsum (map (fun yt => (yt - m) * (yt - m)) ys) <> 0).
  { intros Z. destruct Hv as (u & v & Hu & Hvv & Huv). apply Huv.
    assert (Q : forall x, In x ys -> x = m).
    { intros x Hx. assert (K : (x - m) * (x - m) = 0).
      { eapply Rsum_nonneg_eq0; [|exact Z|apply in_map_iff; exists x; split; [reflexivity|exact Hx]]. intros t Ht. apply in_map_iff in Ht as (q & <- & _). apply sq_nonneg. }
      apply sq_zero in K. lra. }
    rewrite (Q u Hu), (Q v Hvv). reflexivity. }
  assert (Ln : (length (map (linear_value b w) (mrows X)) <? length ys)%nat = false) by (apply Nat.ltb_ge; rewrite map_length, Ly; lia).
  eexists. split; [exact (f_equal recovered (r2_value (EOther 1) ys _ Ln T0))|].
  rewrite (rss_residual (linear_value b w)). fold (residual (mrows X) ys b w).
  change (num RNum) with R in *.
  assert (Opt : residual (mrows X) ys b w <= residual (mrows X) ys m (repeat 0 (mcols X))).
  { rewrite !(residual_ssr (mcols X)); try assumption; [|apply repeat_length]. now apply normal_optimal. }
  rewrite (residual_mean (mrows X) ys m (mcols X) Ly) in Opt. fold m.
  assert (Tp : 0 < Rsum (map (fun yt => (yt - m) * (yt - m)) ys)).
  { assert (0 <= Rsum (map (fun yt => (yt - m) * (yt - m)) ys)); [|lra]. apply Rsum_nonneg. intros t Ht. apply in_map_iff in Ht as (q & <- & _). apply sq_nonneg. }
  assert (Rp : 0 <= residual (mrows X) ys b w).
  { apply Rsum_nonneg. intros t Ht. apply in_map_iff in Ht as (q & <- & _). apply sq_nonneg. }
  split.
  - assert (residual (mrows X) ys b w / Rsum (map (fun yt => (yt - m) * (yt - m)) ys) <= 1); [|lra]. apply Rmult_le_reg_r with (Rsum (map (fun yt => (yt - m) * (yt - m)) ys)); [exact Tp|].
    unfold Rdiv. rewrite Rmult_assoc, Rinv_l by exact T0. lra.
  - assert (0 <= residual (mrows X) ys b w / Rsum (map (fun yt => (yt - m) * (yt - m)) ys)); [|lra]. apply Rmult_le_pos; [exact Rp|]. left. now apply Rinv_0_lt_compat.
Qed.

(** ** C94: fitting a y + s gives a times the weights, and the intercept a b + s. *)
Theorem C94_target : forall (lr : linreg RNum) (X y : matrix R) lr' w a s, wf X -> mcols y = 1%nat -> wf y ->
  @lr_fit RNum inverse lr X y = (lr', Ok tt) -> lr_getweights lr' = Some w ->
  exists lr'', @lr_fit RNum inverse lr X (mkmat 1 (map (map (fun v => a * v + s)) (mrows y))) = (lr'', Ok tt)
    /\ lr_getweights lr'' = Some (map (Rmult a) w) /\ @lr_getintercept RNum lr'' = a * @lr_getintercept RNum lr' + s.
Proof.
  intros lr X y lr' w a s Hw My Hwy H Ew. destruct (lr_fit_ok _ _ _ _ _ H) as (R0 & C0 & Ny & _ & inv & b & w0 & E1 & E2 & ->).
  cbn in Ew. injection Ew as ->.
  set (y' := mkmat 1 (map (map (fun v => a * v + s)) (mrows y))).
  assert (I := Hinv _ _ _ (square_gram (S (mcols X)) (@with_ones RNum (mrows X))) E1).
  assert (Fit' : exists lr'', @lr_fit RNum inverse lr X y' = (lr'', Ok tt)).
  { apply (@lr_fit_succeeds RNum inverse lr X y' inv R0 C0); [|reflexivity|exact E1|].
    - unfold nrows, y' in *. cbn [mrows]. rewrite map_length. exact Ny.
    - intros ->. discriminate E2. }
  destruct Fit' as (lr'' & Fit'). exists lr''. split; [exact Fit'|].
  destruct (fit_facts _ _ _ _ Hw Fit') as (w2 & Ew2 & L2 & _ & _ & Ly2 & _).
  destruct (fit_facts _ _ _ _ Hw H) as (w1 & Ew1 & L1 & _ & _ & Ly1 & Nm1 & _). cbn in Ew1. injection Ew1 as <-.
  assert (Cy : @column RNum 0 (mrows y') = map (fun v => a * v + s) (@column RNum 0 (mrows y))).
  { unfold y', column. cbn [mrows]. rewrite !map_map. apply map_ext_in. intros row Hr. assert (K : length row = 1%nat) by (rewrite <- My; now apply Hwy). destruct row as [|v [|? ?]]; try discriminate. reflexivity. }
  set (ys := @column RNum 0 (mrows y)) in *.
  destruct (C26_unique lr X y' lr'' w2 (a * b + s) (map (Rmult a) w) Hw Fit' Ew2) as [Q1 Q2].
  - rewrite map_length. exact L1.
  - rewrite Cy. apply Rle_antisym.
    + rewrite (residual_affine (mrows X) ys b w a s).
      destruct (Req_EM_T a 0) as [-> |Ha].
      * replace (0 * 0 * residual (mrows X) ys b w) with 0 by ring. apply Rsum_nonneg. intros t Ht. apply in_map_iff in Ht as (q & <- & _). apply sq_nonneg.
      * replace w2 with (map (Rmult a) (map (Rmult (/ a)) w2)).
        2:{ rewrite map_map. transitivity (map (fun x => x) w2); [|apply map_id]. apply map_ext. intros x. field. exact Ha. }
        replace (@lr_getintercept RNum lr'') with (a * ((@lr_getintercept RNum lr'' - s) / a) + s) by (change (num RNum) with R; field; exact Ha).
        rewrite (residual_affine (mrows X) ys _ (map (Rmult (/ a)) w2) a s). apply Rmult_le_compat_l; [apply sq_nonneg|].
        rewrite !(residual_ssr (mcols X)); try assumption; [|rewrite map_length; exact L2]. now apply normal_optimal.
    + destruct (C26_optimal lr X y' lr'' Hw Fit') as (w3 & Ew3 & _ & Opt). rewrite Ew2 in Ew3. injection Ew3 as <-. rewrite Cy in Opt. apply Opt. rewrite map_length. exact L1.
  - split; [rewrite Ew2; now f_equal|symmetry; exact Q1].
Qed.
End Fit.

(** The order of the training rows is irrelevant. *)
Theorem C94_rows : forall inverse (lr : linreg RNum) (X y X' y' : matrix R),
  mcols X' = mcols X -> mcols y' = mcols y -> nrows y = nrows X -> nrows y' = nrows X' ->
  Permutation (combine (mrows X) (mrows y)) (combine (mrows X') (mrows y')) ->
  @lr_fit RNum inverse lr X' y' = @lr_fit RNum inverse lr X y.
Proof.
  intros inverse lr X y X' y' HX Hy E1 E2 P.
  assert (EN : nrows X' = nrows X).
  { pose proof (Permutation_length P) as K. rewrite !combine_length in K. unfold nrows in *. lia. }
  unfold lr_fit. change (num RNum) with R in *. rewrite E1, E2, EN, HX, Hy.
  assert (PD : Permutation (combine (@with_ones RNum (mrows X)) (@column RNum 0 (mrows y))) (combine (@with_ones RNum (mrows X')) (@column RNum 0 (mrows y')))).
  { rewrite !combine_ones. now apply Permutation_map. }
  assert (G : @mmul RNum (@transpose RNum (S (mcols X)) (@with_ones RNum (mrows X'))) (S (mcols X)) (@with_ones RNum (mrows X'))
            = @mmul RNum (@transpose RNum (S (mcols X)) (@with_ones RNum (mrows X))) (S (mcols X)) (@with_ones RNum (mrows X))).
  { apply gram_perm. apply (Permutation_map fst) in PD. rewrite !map_fst_comb in PD by (rewrite with_ones_length, column_length; unfold nrows in *; congruence). exact PD. }
  assert (V : @mvmul RNum (@transpose RNum (S (mcols X)) (@with_ones RNum (mrows X'))) (@column RNum 0 (mrows y'))
            = @mvmul RNum (@transpose RNum (S (mcols X)) (@with_ones RNum (mrows X))) (@column RNum 0 (mrows y))).
  { apply moment_perm. exact PD. }
  change (num RNum) with R in *. rewrite G, V. reflexivity.
Qed.

(** ** C26, prediction *)

(** A fitted model predicts intercept + sum of products for every row, in order. *)
Theorem C26_predict : forall (lr : linreg RNum) (w : list R) (X : matrix R), lr_fitted lr = true -> lr_getweights lr = Some w -> lr_nfeat lr = length w ->
  wf X -> nrows X <> O ->
  (mcols X = length w -> @lr_predict RNum lr X = Ok (map (linear_value (@lr_getintercept RNum lr) w) (mrows X)))
  /\ (mcols X <> length w -> @lr_predict RNum lr X = Err (EDimension (length w) (mcols X))).
Proof.
  intros lr w X F E NF Hw Hn. split; intros M.
  - unfold lr_getintercept. rewrite F. apply lr_predict_R; auto; congruence || lia.
  - unfold lr_predict. rewrite F, NF. destruct (Nat.eqb_spec (@mcols (num RNum) X) (length w)); [easy|]. reflexivity.
Qed.
(** Before a fit there are only errors. *)
Theorem C26_unfitted : forall (N : Num) inverse (lr : linreg N) X y Z, lr_fitted lr = false -> snd (lr_fit inverse lr X y) <> Ok tt ->
  lr_predict (fst (lr_fit inverse lr X y)) Z = Err ENotFitted /\ lr_score (fst (lr_fit inverse lr X y)) Z y = Err ENotFitted.
Proof.
  intros N inverse lr X y Z F H. assert (K : lr_fitted (fst (lr_fit inverse lr X y)) = false).
  { revert H. unfold lr_fit. destruct (_ || _); [easy|]. destruct (negb _); [easy|]. destruct (negb _); [easy|]. destruct (inverse _) as [inv|]; [|easy]. destruct (mvmul inv _); [easy|]. intros H. now elim H. }
  unfold lr_score, lr_predict. rewrite K. auto.
Qed.

Lemma linear_value_blend t b w : forall x z, length x = length w -> length z = length w ->
  linear_value b w (map (fun q => t * fst q + (1 - t) * snd q) (combine x z)) = t * linear_value b w x + (1 - t) * linear_value b w z.
Proof.
  induction w as [|v w IH]; intros [|p x] [|q z] H1 H2; cbn in H1, H2; try discriminate; cbn [combine map linear_value fst snd]; [ring|]. rewrite IH by congruence. ring.
Qed.
(** The prediction is affine in the input. *)
Theorem C26_affine : forall (lr : linreg RNum) (w : list R) (X Z : matrix R) t p q, lr_fitted lr = true -> lr_getweights lr = Some w -> lr_nfeat lr = length w ->
  wf X -> wf Z -> nrows X <> O -> nrows Z = nrows X -> mcols X = length w -> mcols Z = length w ->
  @lr_predict RNum lr X = Ok p -> @lr_predict RNum lr Z = Ok q ->
  @lr_predict RNum lr (mkmat (length w) (blend t (mrows X) (mrows Z))) = Ok (map (fun u => t * fst u + (1 - t) * snd u) (combine p q)).
Proof.
  intros lr w X Z t p q F E NF HX HZ Hn Hnz MX MZ P Q.
  destruct (C26_predict lr w X F E NF HX Hn) as [PX _]. rewrite (PX MX) in P. injection P as <-.
  destruct (C26_predict lr w Z F E NF HZ) as [PZ _]; [congruence|]. rewrite (PZ MZ) in Q. injection Q as <-.
  assert (Hb : wf (mkmat (length w) (blend t (mrows X) (mrows Z)))).
  { intros row H. cbn [mrows mcols] in *. unfold blend in H. apply in_map_iff in H as ([x z] & <- & H). rewrite map_length, combine_length. cbn [fst snd].
    rewrite (HX x) by (eapply in_combine_l; exact H). rewrite (HZ z) by (eapply in_combine_r; exact H). lia. }
  destruct (C26_predict lr w _ F E NF Hb) as [PB _].
  { unfold nrows, blend in *. cbn [mrows]. rewrite map_length, combine_length. lia. }
  rewrite (PB eq_refl). f_equal. cbn [mrows]. unfold blend. clear - HX HZ MX MZ. unfold wf in HX, HZ. rewrite MX in HX. rewrite MZ in HZ. clear MX MZ. destruct X as [cx rx], Z as [cz rz]. cbn [mrows mcols] in *.
  revert rz HZ. induction rx as [|x rx IH]; intros [|z rz] HZ; try reflexivity. cbn [combine map fst snd]. f_equal.
  - apply linear_value_blend; [apply HX|apply HZ]; now left.
  - apply IH; intros; [apply HX|apply HZ]; now right.
Qed.

(** ** C92, any model *)
Lemma firstn_combine_eq (ys preds : list R) : (length ys <= length preds)%nat ->
  (forall p, In p (combine ys preds) -> fst p = snd p) -> firstn (length ys) preds = ys.
Proof.
  revert preds. induction ys as [|y ys IH]; intros [|q preds] L H; cbn in L; try lia; try reflexivity.
  cbn [length firstn]. rewrite IH; [|lia|intros; apply H; now right]. pose proof (H (y, q) (or_introl eq_refl)) as K. cbn in K. now rewrite K.
Qed.
Theorem C92_at_most_one : forall e (ys preds : list R) s, @r2 RNum e ys preds = Ok s -> s <= 1 /\ (s = 1 <-> firstn (length ys) preds = ys).
Proof.
  intros e ys preds s H.
  assert (L : (length preds <? length ys)%nat = false).
  { unfold r2 in H. change (num RNum) with R in H. destruct (length preds <? length ys)%nat; [discriminate|reflexivity]. }
  set (m := Rsum ys / INR (length ys)). set (T := Rsum (map (fun yt => (yt - m) * (yt - m)) ys)).
  assert (Tn : 0 <= T) by (apply Rsum_nonneg; intros t Ht; apply in_map_iff in Ht as (q & <- & _); apply sq_nonneg).
  destruct (Req_EM_T T 0) as [Z|Z].
  { exfalso. rewrite (r2_constant e ys preds L Z) in H. discriminate. }
  rewrite (r2_value e ys preds L Z) in H. fold m T in H. injection H as <-.
  set (S := Rsum (map (fun p => (fst p - snd p) * (fst p - snd p)) (combine ys preds))).
  assert (Sn : 0 <= S) by (apply Rsum_nonneg; intros t Ht; apply in_map_iff in Ht as (q & <- & _); apply sq_nonneg).
  assert (Q : 0 <= S / T) by (apply Rmult_le_pos; [exact Sn|left; apply Rinv_0_lt_compat; lra]).
  split; [lra|]. apply Nat.ltb_ge in L. split; intros K.
  - assert (S0 : S = 0). { assert (E : S / T = 0) by lra. apply (f_equal (fun x => x * T)) in E. unfold Rdiv in E. rewrite Rmult_assoc, Rinv_l in E by exact Z. lra. }
    apply firstn_combine_eq; [exact L|]. intros p Hp. assert (D : (fst p - snd p) * (fst p - snd p) = 0).
    { eapply Rsum_nonneg_eq0; [|exact S0|apply in_map_iff; exists p; split; [reflexivity|exact Hp]]. intros t Ht. apply in_map_iff in Ht as (q & <- & _). apply sq_nonneg. }
    apply sq_zero in D. lra.
  - assert (S0 : S = 0).
    { unfold S. apply Rsum_zero. intros p Hp. rewrite <- K in Hp. clear - Hp. revert ys Hp. induction preds as [|q preds IH]; intros [|y ys] Hp; cbn in Hp; try easy.
      destruct Hp as [<- |Hp]; [cbn; ring|]. exact (IH ys Hp). }
    rewrite S0. unfold Rdiv. lra.
Qed.
(** Constant targets have no score. *)
Theorem C92_constant : forall e v (ys preds : list R), (forall u, In u ys -> u = v) -> (length ys <= length preds)%nat -> @r2 RNum e ys preds = Err e.
Proof.
  intros e v ys preds H L. apply r2_constant; [now apply Nat.ltb_ge|].
  assert (E : Rsum ys = INR (length ys) * v).
  { clear L. induction ys as [|y ys IH]; [cbn; ring|]. cbn [Rsum]. change (length (y :: ys)) with (S (length ys)). rewrite IH by (intros; apply H; now right). rewrite S_INR, (H y) by now left. ring. }
  apply Rsum_zero. intros x Hx. rewrite (H x Hx), E. destruct ys as [|y ys]; [easy|].
  assert (INR (length (y :: ys)) <> 0) by (apply not_0_INR; discriminate). replace (INR (length (y :: ys)) * v / INR (length (y :: ys))) with v by (field; assumption). ring.
Qed.
(** In floating point they can have one: the computed mean of three times 0.1 is not 0.1. *)
Theorem C92_constant_refuted : exists (ys preds : list F0) v s, ys = [v; v; v] /\ length preds = 3%nat /\ r2 (EOther 1) ys preds = Ok s.
Proof.
  set (v := f 1 10). assert (K : match r2 (EOther 1) [v; v; v] [v; v; v] with Ok _ => true | _ => false end = true) by (vm_compute; reflexivity).
  destruct (r2 (EOther 1) [v; v; v] [v; v; v]) as [s| |] eqn:E; try discriminate K. exists [v; v; v], [v; v; v], v, s. auto.
Qed.

(** ** C93: linear_model.LinearRegression *)
Lemma linear_value_shift b w x : linear_value b w x = b + linear_value 0 w x.
Proof. revert x. induction w as [|v w IH]; intros [|y x]; cbn [linear_value]; try ring. rewrite IH. ring. Qed.
Lemma residual_ones rows ys b w : residual (@with_ones RNum rows) ys 0 (b :: w) = residual rows ys b w.
Proof.
  unfold residual, with_ones. revert ys. induction rows as [|r rows IH]; intros [|y ys]; try reflexivity.
  cbn [map combine Rsum fst snd linear_value]. rewrite IH. rewrite (linear_value_shift b w r). change (@n1 RNum) with 1. replace (1 * b + linear_value 0 w r) with (b + linear_value 0 w r) by ring. reflexivity.
Qed.

Lemma sk_fit_ok {N : Num} qrsolve (lr : sklr N) X y lr' : sk_fit qrsolve lr X y = (lr', Ok tt) ->
  nrows y = nrows X /\ mcols y = 1%nat /\ exists sol, qrsolve (if sk_icpt lr then with_ones (mrows X) else mrows X) (column 0 (mrows y)) = Some sol
   /\ sk_fitted lr' = true /\ sk_nfeat lr' = mcols X
   /\ sk_intercept lr' = (let b := if sk_icpt lr then nth 0 sol n0 else n0 in if sk_positive lr then clip b else b)
   /\ sk_coef lr' = Some (let w := if sk_icpt lr then skipn 1 sol else sol in if sk_positive lr then map clip w else w).
Proof.
  unfold sk_fit. destruct (Nat.eqb_spec (nrows X) (nrows y)); [|discriminate]. destruct (Nat.eqb_spec (mcols y) 1); [|discriminate]. cbn [negb].
  destruct (_ || _); [discriminate|]. destruct (qrsolve _ _) as [sol|] eqn:E; [|discriminate]. intros K. injection K as <-.
  split; [congruence|]. split; [assumption|]. exists sol. cbn. auto 10.
Qed.

Section SkFit.
Variable qrsolve : list (list R) -> list R -> option (list R).
Hypothesis Hqr : solves qrsolve.

(** Without the positive option the fit is optimal: among all lines, or among all lines
    through the origin when fit_intercept is off. *)
Theorem C93_optimal : forall (lr : sklr RNum) (X y : matrix R) lr', wf X -> sk_positive lr = false ->
  @sk_fit RNum qrsolve lr X y = (lr', Ok tt) ->
  exists w, sk_coef lr' = Some w /\ length w = mcols X
    /\ (sk_icpt lr = false -> sk_intercept lr' = 0)
    /\ forall b' w', length w' = mcols X -> (sk_icpt lr = false -> b' = 0) ->
      residual (mrows X) (@column RNum 0 (mrows y)) (sk_intercept lr') w <= residual (mrows X) (@column RNum 0 (mrows y)) b' w'.
Proof.
  intros lr X y lr' Hw Hp H. destruct (sk_fit_ok _ _ _ _ _ H) as (Ny & _ & sol & E & _ & _ & Eb & Ew). rewrite Hp in Eb, Ew. cbv zeta in Eb, Ew.
  eexists. split; [exact Ew|]. rewrite Eb. change (num RNum) with R in *.
  assert (Ly : length (@column RNum 0 (mrows y)) = length (mrows X)) by (rewrite column_length; exact Ny).
  destruct (sk_icpt lr).
  - assert (HD : forall row, In row (@with_ones RNum (mrows X)) -> length row = S (mcols X)).
    { intros row Hr. apply in_map_iff in Hr as (r' & <- & Hr). cbn [length]. f_equal. now apply Hw. }
    assert (LD : length (@column RNum 0 (mrows y)) = length (@with_ones RNum (mrows X))) by (rewrite with_ones_length; exact Ly).
    destruct (Hqr (S (mcols X)) _ _ _ HD LD E) as (L & Opt).
    destruct sol as [|b w]; [discriminate|]. cbn [nth skipn]. cbn in L. split; [congruence|]. split; [discriminate|]. intros b' w' L' _.
    specialize (Opt (b' :: w')). rewrite !residual_ones in Opt. apply Opt. cbn. congruence.
  - destruct (Hqr (mcols X) _ _ _ Hw Ly E) as (L & Opt).
    split; [exact L|]. split; [reflexivity|]. intros b' w' L' ->; auto.
Qed.
(** With it no value is negative. *)
Theorem C93_nonnegative : forall (lr : sklr RNum) (X y : matrix R) lr', sk_positive lr = true ->
  @sk_fit RNum qrsolve lr X y = (lr', Ok tt) ->
  0 <= sk_intercept lr' /\ exists w, sk_coef lr' = Some w /\ forall v, In v w -> 0 <= v.
Proof.
  intros lr X y lr' Hp H. destruct (sk_fit_ok _ _ _ _ _ H) as (_ & _ & sol & _ & _ & _ & Eb & Ew). rewrite Hp in Eb, Ew. cbv zeta in Eb, Ew.
  assert (C : forall x : R, 0 <= @clip RNum x) by (intros x; unfold clip; cbn [nlt n0 RNum]; destruct (Rltb_spec x 0); lra).
  split; [rewrite Eb; apply C|]. eexists. split; [exact Ew|]. intros v Hv. apply in_map_iff in Hv as (x & <- & _). apply C.
Qed.
End SkFit.

(** but the fit is not the best of the non-negative ones: there the negative values of the
    unconstrained optimum are just replaced by zero. *)
Definition exact_solver (sol : list R) (D : list (list R)) (ys : list R) : option (list R) :=
  if forallb (fun row => Nat.eqb (length row) (length sol)) D && negb (Nat.eqb (length D) 0)
  then if Reqb (residual D ys 0 sol) 0 then Some sol else None else None.
Lemma exact_solver_solves sol : solves (exact_solver sol).
Proof.
  intros m D ys v HD Hl H. unfold exact_solver in H. destruct (forallb _ D) eqn:F; [|discriminate]. destruct D as [|r D]; [discriminate|]. cbn [length Nat.eqb negb andb] in H.
  destruct (Reqb_spec (residual (r :: D) ys 0 sol) 0) as [E|]; [|discriminate]. injection H as <-.
  split.
  - cbn in F. apply andb_true_iff in F as [F _]. apply Nat.eqb_eq in F. rewrite <- F. apply HD. now left.
  - intros u _. rewrite E. apply Rsum_nonneg. intros t Ht. apply in_map_iff in Ht as (q & <- & _). apply sq_nonneg.
Qed.
Theorem C93_positive_refuted : exists qrsolve (lr : sklr RNum) (X y : matrix R) lr' w w', solves qrsolve /\ wf X /\ sk_positive lr = true /\ sk_icpt lr = false
  /\ @sk_fit RNum qrsolve lr X y = (lr', Ok tt) /\ sk_coef lr' = Some w
  /\ length w' = mcols X /\ (forall v, In v w' -> 0 <= v)
  /\ residual (mrows X) (@column RNum 0 (mrows y)) 0 w' < residual (mrows X) (@column RNum 0 (mrows y)) (sk_intercept lr') w.
Proof.
  exists (exact_solver [2; -1]), (@sk_new RNum false false true 1 true), (mkmat 2 [[1; 1]; [0; 1]]), (mkmat 1 [[1]; [-1]]).
  assert (E : exact_solver [2; -1] [[1; 1]; [0; 1]] [1; -1] = Some [2; -1]).
  { unfold exact_solver. cbn [forallb length Nat.eqb andb negb]. destruct (Reqb_spec (residual [[1; 1]; [0; 1]] [1; -1] 0 [2; -1]) 0) as [|K]; [reflexivity|]. exfalso. apply K. unfold residual. cbn. lra. }
  eexists. exists [2; 0], [1; 0]. split; [apply exact_solver_solves|]. split; [intros row [<- |[<- |[]]]; reflexivity|]. split; [reflexivity|]. split; [reflexivity|]. split.
  { unfold sk_fit. cbn [sk_icpt sk_new nrows mrows mcols length Nat.eqb negb orb Nat.ltb Nat.leb column map nth].
    match goal with |- context [exact_solver ?a ?b ?c] => change (exact_solver a b c) with (exact_solver [2; -1] [[1; 1]; [0; 1]] [1; -1]) end. rewrite E. reflexivity. }
  cbn [sk_coef sk_positive sk_new sk_icpt map]. split.
  { f_equal. unfold clip. cbn [nlt n0 RNum]. destruct (Rltb_spec 2 0); [lra|]. destruct (Rltb_spec (-1) 0); [reflexivity|lra]. }
  split; [reflexivity|]. split; [intros v [<- |[<- |[]]]; lra|].
  cbn [sk_intercept sk_new sk_positive sk_icpt mrows column map nth]. unfold clip. cbn [nlt n0 RNum]. destruct (Rltb_spec 0 0); unfold residual; cbn; lra.
Qed.
(** With too few rows Fit panics, and nothing turns that into an error. *)
Theorem C93_few_rows_refuted : forall (N : Num) qrsolve (lr : sklr N) X y, nrows y = nrows X -> mcols y = 1%nat ->
  (nrows X < (if sk_icpt lr then S (mcols X) else mcols X))%nat -> snd (sk_fit qrsolve lr X y) = Panic.
Proof.
  intros N qrsolve lr X y Ny My L. unfold sk_fit. rewrite Ny, My, Nat.eqb_refl. cbn [negb Nat.eqb]. apply Nat.ltb_lt in L. rewrite L. destruct (nrows X =? 0)%nat; reflexivity.
Qed.

(** ** C27: a failed second fit *)
Section Corrupt.
Context {N : Num}.

(** When the inversion fails, everything is kept except the number of columns. *)
Theorem C27_failed_fit : forall inverse (lr : linreg N) X y, nrows X <> O -> mcols X <> O -> nrows y = nrows X -> mcols y = 1%nat ->
  inverse (to_invert X) = None ->
  exists lr', lr_fit inverse lr X y = (lr', Err EModel) /\ lr_fitted lr' = lr_fitted lr /\ lr_weights lr' = lr_weights lr /\ lr_icept lr' = lr_icept lr
    /\ lr_nfeat lr' = mcols X.
Proof.
  intros inverse lr X y R0 C0 Ny My E. unfold lr_fit. destruct (Nat.eqb_spec (nrows X) 0); [easy|]. destruct (Nat.eqb_spec (mcols X) 0); [easy|]. cbn [orb].
  rewrite Ny, My, Nat.eqb_refl. cbn [negb Nat.eqb]. unfold to_invert in E. rewrite E. eexists. split; [reflexivity|]. cbn. auto.
Qed.
(** Afterwards Predict rejects every input of the old width, applies the first of the old
    weights to inputs of a smaller new width, and panics (recovered) for a larger one. *)
Theorem C27_predict : forall inverse (lr : linreg N) X y w Z, lr_fitted lr = true -> lr_weights lr = Some w ->
  nrows X <> O -> mcols X <> O -> nrows y = nrows X -> mcols y = 1%nat -> inverse (to_invert X) = None ->
  wf Z -> nrows Z <> O ->
  lr_predict (fst (lr_fit inverse lr X y)) Z =
    if negb (mcols Z =? mcols X)%nat then Err (EDimension (mcols X) (mcols Z))
    else if (mcols X <=? length w)%nat
         then Ok (map (fun row => fold_left (fun s p => nadd s (nmul (fst p) (snd p))) (combine row (firstn (mcols X) w)) (lr_icept lr)) (mrows Z))
         else Err EPanic.
Proof.
  intros inverse lr X y w Z F W R0 C0 Ny My E HZ Hn. destruct (C27_failed_fit inverse lr X y R0 C0 Ny My E) as (lr' & -> & F' & W' & I' & NF'). cbn [fst].
  destruct (Nat.eqb_spec (mcols Z) (mcols X)) as [M|M]; cbn [negb].
  - rewrite (lr_predict_eq lr' w Z); try assumption; try congruence. rewrite M, I'. destruct (Nat.leb_spec (mcols X) (length w)); [|reflexivity]. f_equal. apply map_ext_in. intros row Hr.
    f_equal. pose proof (HZ row Hr) as L. rewrite M in L. rewrite <- L. clear. revert w. induction row as [|x row IH]; intros [|v w]; try reflexivity. cbn [combine length firstn]. rewrite IH. reflexivity.
  - unfold lr_predict. rewrite F', F, NF'. cbn [negb]. apply Nat.eqb_neq in M. rewrite M. reflexivity.
Qed.
(** The other model does the same, and its Predict panics for good. *)
Theorem C27_sk_predict : forall qrsolve (lr : sklr N) X y w Z, sk_fitted lr = true -> sk_coef lr = Some w ->
  nrows y = nrows X -> mcols y = 1%nat -> snd (sk_fit qrsolve lr X y) <> Ok tt -> wf Z -> nrows Z <> O ->
  sk_predict (fst (sk_fit qrsolve lr X y)) Z =
    if negb (mcols Z =? mcols X)%nat then Err (EDimension (mcols X) (mcols Z))
    else if (mcols X <=? length w)%nat
         then Ok (map (fun row => fold_left (fun s p => nadd s (nmul (fst p) (snd p))) (combine row (firstn (mcols X) w)) (sk_intercept lr)) (mrows Z))
         else Panic.
Proof.
  intros qrsolve lr X y w Z F W Ny My H HZ Hn.
  assert (K : let lr' := fst (sk_fit qrsolve lr X y) in sk_fitted lr' = true /\ sk_coef lr' = Some w /\ sk_intercept lr' = sk_intercept lr /\ sk_nfeat lr' = mcols X).
  { revert H. unfold sk_fit. rewrite Ny, My, Nat.eqb_refl. cbn [negb Nat.eqb]. destruct (_ || _); [cbn; auto|]. destruct (qrsolve _ _); [|cbn; auto]. intros H. now elim H. }
  cbv zeta in K. destruct K as (F' & W' & I' & NF'). set (lr' := fst (sk_fit qrsolve lr X y)) in *.
  destruct (Nat.eqb_spec (mcols Z) (mcols X)) as [M|M]; cbn [negb].
  - rewrite (sk_predict_eq lr' w Z); try assumption; try congruence. rewrite M, I'. destruct (Nat.leb_spec (mcols X) (length w)); [|reflexivity]. f_equal. apply map_ext_in. intros row Hr.
    f_equal. pose proof (HZ row Hr) as L. rewrite M in L. rewrite <- L. clear. revert w. induction row as [|x row IH]; intros [|v w]; try reflexivity. cbn [combine length firstn]. rewrite IH. reflexivity.
  - unfold sk_predict. rewrite F', NF'. cbn [negb]. apply Nat.eqb_neq in M. rewrite M. reflexivity.
Qed.
End Corrupt.

(** *** Examples *)

(** An exact inversion of 2 by 2 matrices. *)
Definition inv2 (A : list (list R)) : option (list (list R)) :=
  match A with
  | [[a; b]; [c; d]] => if Reqb (a * d - b * c) 0 then None
                        else Some [[d / (a * d - b * c); - b / (a * d - b * c)]; [- c / (a * d - b * c); a / (a * d - b * c)]]
  | _ => None
  end.
Lemma inv2_inverts : inverts inv2.
Proof.
  intros m A B [L H] E. unfold inv2 in E.
  destruct A as [|[|a [|b [|? ?]]] [|[|c [|d [|? ?]]] [|? ?]]]; try discriminate. cbn in L. subst m.
  destruct (Reqb_spec (a * d - b * c) 0) as [|D]; [discriminate|]. injection E as <-.
  split; [split; [reflexivity|intros row [<- |[<- |[]]]; reflexivity]|].
  split; intros [|[|i]] [|[|j]] Hi Hj; try lia; unfold prod_entry, entry; cbn; field; exact D.
Qed.
(** The line 1 + 2 x through three points. *)
Example ex_fit : exists lr', @lr_fit RNum inv2 (@lr_new RNum) (mkmat 1 [[0]; [1]; [2]]) (mkmat 1 [[1]; [3]; [5]]) = (lr', Ok tt)
  /\ lr_getweights lr' = Some [2] /\ @lr_getintercept RNum lr' = 1.
Proof.
  set (lr0 := @lr_new RNum). unfold lr_fit. cbn [nrows mrows mcols length Nat.eqb orb negb].
  set (G := mmul _ _ _). assert (EG : G = [[3; 3]; [3; 5]]).
  { unfold G, mmul, transpose, column, dot, with_ones. cbn. repeat f_equal; ring. }
  rewrite EG. cbn [inv2]. destruct (Reqb_spec (3 * 5 - 3 * 3) 0); [lra|].
  set (t := mvmul (transpose _ _) _). assert (Et : t = [9; 13]) by (unfold t, mvmul, transpose, column, dot, with_ones; cbn; repeat f_equal; ring).
  rewrite Et. unfold mvmul, dot. cbn [map combine fold_left fst snd]. eexists. split; [reflexivity|]. cbn. split; [do 2 f_equal; field|field].
Qed.

(** A history of calls, computed over the rationals: a model fitted on two columns, a second
    fit on one constant column that fails, and a prediction for one column that is accepted. *)
Definition q_inverse (cand A : list (list Q)) : option (list (list Q)) :=
  let n := length cand in
  if Nat.eqb (length A) n
     && forallb (fun i => forallb (fun j => Qeq_bool (@dot QNum (nth i A []) (@column QNum j cand)) (if Nat.eqb i j then 1%Q else 0%Q)) (seq 0 n)) (seq 0 n)
  then Some cand else None.
Theorem C27_history_refuted : exists (inverse : list (list Q) -> option (list (list Q))) (X1 y1 X2 y2 Z : matrix QNum) (lr1 lr2 : linreg QNum) p,
  @lr_fit QNum inverse (@lr_new QNum) X1 y1 = (lr1, Ok tt) /\ mcols X1 = 2%nat
  /\ @lr_fit QNum inverse lr1 X2 y2 = (lr2, Err EModel) /\ mcols X2 = 1%nat
  /\ wf Z /\ mcols Z = 1%nat /\ @lr_predict QNum lr1 Z = Err (EDimension 2 1) /\ @lr_predict QNum lr2 Z = Ok p
  /\ @lr_predict QNum lr1 X1 = Ok [1; 3; 0]%Q /\ @lr_predict QNum lr2 X1 = Err (EDimension 1 2).
Proof.
  set (inverse := q_inverse [[1; -1; -1]; [-1; 2; 1]; [-1; 1; 2]]%Q).
  set (X1 := @mkmat QNum 2 [[0; 0]; [1; 0]; [0; 1]]%Q). set (y1 := @mkmat QNum 1 [[1]; [3]; [0]]%Q).
  set (X2 := @mkmat QNum 1 [[1]; [1]; [1]]%Q). set (Z := @mkmat QNum 1 [[5]]%Q).
  exists inverse, X1, y1, X2, y1, Z, (fst (@lr_fit QNum inverse (@lr_new QNum) X1 y1)), (fst (@lr_fit QNum inverse (fst (@lr_fit QNum inverse (@lr_new QNum) X1 y1)) X2 y1)), [11%Q].
  repeat (split; [vm_compute; try reflexivity; intros row [<- |[]]; reflexivity|]). vm_compute; reflexivity.
Qed.

Print Assumptions C26_outcome. Print Assumptions C26_optimal. Print Assumptions C26_unique. Print Assumptions C26_predict.
Print Assumptions C26_unfitted. Print Assumptions C26_affine. Print Assumptions C27_failed_fit. Print Assumptions C27_predict.
Print Assumptions C27_sk_predict. Print Assumptions C27_history_refuted. Print Assumptions C91_underdetermined.
Print Assumptions C92_training. Print Assumptions C92_at_most_one. Print Assumptions C92_constant. Print Assumptions C92_constant_refuted.
Print Assumptions C93_optimal. Print Assumptions C93_nonnegative. Print Assumptions C93_positive_refuted. Print Assumptions C93_few_rows_refuted.
Print Assumptions C94_target. Print Assumptions C94_rows.
