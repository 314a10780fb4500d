(** C136: what cross-validation of the lightgbm estimators measures. *)
From Coq Require Import String List Arith ZArith Bool Lia Reals Lra.
From Verif Require Import Base.Num Base.RTac Base.FTac Base.GoRes Base.Mat Base.ListX Model.NaiveBayes Model.ParamMap Model.LgbTree Model.LgbHist Model.LgbTrain Model.LgbObjective
  Model.Metrics Model.CrossVal Model.LgbEstimator Model.LgbCv Spec.Order Spec.LgbCv Proofs.LgbArrayP Proofs.LgbTrainP Proofs.LgbBoostP Proofs.LgbEstimatorP Proofs.LgbEstimatorRP Proofs.LgbCvP Proofs.OrderP Props.LgbTrainProps.
Import ListNotations.
Local Open Scope string_scope.
Local Open Scope list_scope.
Local Open Scope num_scope.

Section C136.
  Context {N : Num}.
  Variable toint : N -> Z.
  Variable big : N.
  Variables (pow : N -> N -> N) (floori ceili : N -> Z) (sortf : list N -> list N) (sortr : list (N * bin N) -> list (N * bin N)).
  Variable sampled : N -> N -> Z -> Z -> bool -> nat -> nat -> nat -> list nat.
  Variable fuel : nat.
  Variable sorti : list nat -> list nat.
  Notation trained := (LgbEstimator.train toint pow floori ceili sortf sortr sampled fuel).

  (** Regressors that differ in the quantile, Huber, Fair and Tweedie parameters have the same outcomes. *)
  Theorem C136_parameters trainer (r r' : rgr N) scoring X y folds : r_h r = r_h r' -> r_cats r = r_cats r' ->
    cv_regressor toint big trainer fuel sorti r scoring X y folds = cv_regressor toint big trainer fuel sorti r' scoring X y folds.
  Proof. intros E1 E2. unfold cv_regressor, rgr_cv_settings. now rewrite E1, E2. Qed.
  (** A fold of a regressor is scored with the named metric, or the squared error, on the initial score plus the whole leaf values:
      without the learning rate that every tree carries, and without the exponential of poisson, gamma and tweedie. *)
  Theorem C136_unscaled (r : rgr N) scoring X y f v : ~ In (h_objective (r_h r)) ["binary"; "cross_entropy"; "multiclass"] ->
    fold_outcome toint big trained fuel sorti (rgr_cv_settings r) (rgr_cv_scoring scoring) X y f = Some (Ok v) ->
    exists Xtr ytr Xte yte m preds, extract_subset sorti X y (CrossVal.train f) = Ok (Xtr, ytr) /\ extract_subset sorti X y (test f) = Ok (Xte, yte)
      /\ trained (rgr_cv_settings r) None None Xtr (column 0 (mrows ytr)) = Some (Ok m)
      /\ Forall2 (unscaled toint fuel m) (mrows Xte) preds
      /\ v = evaluate_metric (if String.eqb scoring "" then "l2" else scoring) (column 0 (mrows yte)) preds
      /\ Forall (fun t => gt_shrink t = if h_lr (r_h r) =? n0 then nlit 1 10 else h_lr (r_h r)) (m_trees m).
  Proof.
    intros Ho H. unfold fold_outcome in H. destruct (extract_subset sorti X y (CrossVal.train f)) as [[Xtr ytr]| |]; try discriminate.
    destruct (extract_subset sorti X y (test f)) as [[Xte yte]| |]; try discriminate. unfold fold_score in H. cbn [fst snd] in H.
    destruct (trained (rgr_cv_settings r) None None Xtr (column 0 (mrows ytr))) as [[m|e|]|] eqn:Et; try discriminate.
    destruct (model_predict toint big fuel m Xtr) as [[P0|e|]|]; try discriminate. apply omap_ok in H. destruct H as (P & H & ->).
    pose proof (train_inv _ _ _ _ _ _ _ _ _ _ _ _ _ _ Et) as (o & i & ts & ps & E1 & E2 & E3 & Em). cbn zeta in E3, Em.
    exists Xtr, ytr, Xte, yte, m, (column 0 (mrows P)). split; [reflexivity|]. split; [reflexivity|]. split; [exact Et|].
    assert (Hm : m_obj m = h_objective (r_h r)) by now subst m. assert (Hc : m_class m = 1%Z) by now subst m.
    split; [|split; [reflexivity|]].
    - apply (predict_rows_of toint big fuel m Xte P); [lia| | |exact H]; rewrite Hm.
      + unfold is_binary. destruct (String.eqb_spec (h_objective (r_h r)) "binary") as [K|K]; [elim Ho; rewrite K; cbn; tauto|].
        destruct (String.eqb_spec (h_objective (r_h r)) "cross_entropy") as [K'|K']; [elim Ho; rewrite K'; cbn; tauto|reflexivity].
      + intros K. apply Ho. rewrite K. cbn. tauto.
    - unfold fit in E3. destruct (run_spec _ _ _ _ _ _ _ _ _ _ _ _ _ _ E3) as (new & N1 & _ & N3 & _). cbn [fst app] in N1. subst new m.
      cbn [m_trees get_model]. revert N3. apply Forall_impl. intros t [Hs _]. exact Hs.
  Qed.
  (** A classifier is trained in every fold like Fit would train it for its current objective and number of classes, but with its
      categorical features and without a least gain. *)
  Theorem C136_classifier (c : clf N) X y :
    trained (clf_cv_settings c) None None X y = trained (categorical (c_cats c) (any_gain (clf_settings c))) None None X y.
  Proof. reflexivity. Qed.
  (** So the models of a classifier that was not fitted are models for two classes, whatever the labels are. *)
  Theorem C136_new_classifier (c : clf N) X y m : c_numclass c = 0%Z -> h_objective (c_h c) = "binary" ->
    trained (clf_cv_settings c) None None X y = Some (Ok m) -> m_obj m = "binary" /\ outputs_count m = 1%nat.
  Proof.
    intros Hc Ho H. pose proof (train_inv _ _ _ _ _ _ _ _ _ _ _ _ _ _ H) as (o & i & ts & ps & _ & _ & _ & ->).
    unfold outputs_count, get_model. cbn [m_obj m_class s_obj s_class clf_cv_settings]. now rewrite Hc.
  Qed.
End C136.
Print Assumptions C136_parameters.
Print Assumptions C136_unscaled.
Print Assumptions C136_classifier.
Print Assumptions C136_new_classifier.

(** A regressor is trained in every fold like Fit would train it with the default quantile, Huber, Fair and Tweedie parameters and
    without a least gain. *)
Theorem C136_regressor (toint : R -> Z) (pow : R -> R -> R) floori ceili sortf sortr sampled fuel (r : rgr RNum) X y :
  @LgbEstimator.train RNum toint pow floori ceili sortf sortr sampled fuel (rgr_cv_settings r) None None X y
  = @LgbEstimator.train RNum toint pow floori ceili sortf sortr sampled fuel (any_gain (rgr_settings (plain r))) None None X y.
Proof.
  unfold LgbEstimator.train.
  change (@create RNum pow floori ceili (s_obj (new_trainer (rgr_cv_settings r))) (s_huber (new_trainer (rgr_cv_settings r))) (s_fair (new_trainer (rgr_cv_settings r)))
    (s_quantile (new_trainer (rgr_cv_settings r))) (s_tweedie (new_trainer (rgr_cv_settings r)))) with (@create RNum pow floori ceili (h_objective (r_h r)) 0%R 0%R 0%R 0%R).
  rewrite (create_plain pow floori ceili (h_objective (r_h r)) r). reflexivity.
Qed.
Print Assumptions C136_regressor.

(** With more than two classes the default scoring is "accuracy", and a fold scores at most the share of its test rows that are
    labelled 0 or 1. *)
Theorem C136_accuracy (toint : R -> Z) (big : R) trainer fuel sorti (c : clf RNum) X y f v Xte yte : (2 < c_numclass c)%Z ->
  @fold_outcome RNum toint big trainer fuel sorti (clf_cv_settings c) (clf_cv_scoring c "") X y f = Some (Ok v) ->
  extract_subset sorti X y (test f) = Ok (Xte, yte) -> 
  (v <= INR (List.length (filter zero_or_one (@column RNum 0 (mrows yte)))) / INR (List.length (mrows yte)))%R.
Proof.
  intros Hc H Ht. unfold clf_cv_scoring in H. cbn [String.eqb] in H. rewrite (proj2 (Z.ltb_lt _ _) Hc) in H.
  unfold fold_outcome in H. destruct (extract_subset sorti X y (CrossVal.train f)) as [[Xtr ytr]| |]; try discriminate.
  rewrite Ht in H. unfold fold_score in H. cbn [fst snd] in H. destruct (trainer _ _ _ _ _) as [[m|e|]|]; try discriminate.
  destruct (@model_predict RNum toint big fuel m Xtr) as [[P0|e|]|]; try discriminate. apply omap_ok in H. destruct H as (P & _ & ->).
  unfold evaluate_metric. cbn [String.eqb Ascii.eqb Bool.eqb orb]. rewrite !nofnat_R.
  assert (L : List.length (@column RNum 0 (mrows yte)) = List.length (mrows yte)) by apply map_length. rewrite L.
  pose proof (@correct_share RNum (column 0 (mrows yte)) (column 0 (mrows P))) as K.
  assert (E : filter (fun u : RNum => (n0 =? u) || (n1 =? u)) (@column RNum 0 (mrows yte)) = filter zero_or_one (@column RNum 0 (mrows yte))).
  { apply filter_ext. intros u. unfold zero_or_one. change (@neqb RNum) with Reqb. cbn [n0 n1 RNum].
    destruct (Reqb_spec 0 u), (Reqb_spec u 0), (Reqb_spec 1 u), (Reqb_spec u 1); try reflexivity; exfalso; auto. }
  rewrite E in K. apply le_INR in K. unR. apply Rmult_le_compat_r; [|exact K].
  destruct (List.length (mrows yte)) as [|n]; [change (INR 0) with 0%R; rewrite Rinv_0; lra|]. left. apply Rinv_0_lt_compat. apply lt_0_INR. lia.
Qed.
Print Assumptions C136_accuracy.

(** With no depth limit a fold never ends when its training rows are at least MinChildSamples and fewer than twice as many and none
    of them has a positive first feature: the least gain is 0 in cross-validation. *)
Theorem C136_endless (N : Num) : lt_laws N -> nlt (nlit (-1) 1) (@n0 N) = true ->
  forall (toint : N -> Z) big pow floori ceili sortf sortr sampled sorti (r : rgr N) metric X y f Xtr ytr te,
  h_objective (r_h r) = "regression" -> r_cats r = [] -> (h_depth (r_h r) <= 0)%Z -> (h_leaves (r_h r) <= 0 \/ 2 <= h_leaves (r_h r))%Z ->
  (1 <= h_iters (r_h r))%Z -> (1 <= h_child_samples (r_h r))%Z ->
  (forall a b c d e k n, sampled a b c d e k n 0%nat = seq 0 n) ->
  extract_subset sorti X y (CrossVal.train f) = Ok (Xtr, ytr) -> extract_subset sorti X y (test f) = Ok te -> (0 < mcols X)%nat ->
  (h_child_samples (r_h r) <= Z.of_nat (nrows Xtr) < 2 * h_child_samples (r_h r))%Z ->
  (forall x, In x (mrows Xtr) -> nle (nth 0 x n0) n0 = true) ->
  forall fuel, fold_outcome toint big (LgbEstimator.train toint pow floori ceili sortf sortr sampled fuel) fuel sorti (rgr_cv_settings r) metric X y f = None.
Proof.
  intros L Hneg toint big pow floori ceili sortf sortr sampled sorti r metric X y f Xtr ytr te Ho Hcat Hd Hlv Hi Hc Hs Etr Ete Hcols Hn Hx fuel.
  unfold fold_outcome. rewrite Etr, Ete. unfold fold_score. cbn [fst snd].
  assert (T : LgbEstimator.train toint pow floori ceili sortf sortr sampled fuel (rgr_cv_settings r) None None Xtr (column 0 (mrows ytr)) = None); [|now rewrite T].
  assert (Mc : mcols Xtr = mcols X).
  { unfold extract_subset in Etr. repeat match type of Etr with context [bind ?u _] => destruct u; cbn [bind] in Etr; try discriminate end. now injection Etr as <- _. }
  unfold LgbEstimator.train. cbn zeta. cbn [new_trainer rgr_cv_settings s_obj s_huber s_fair s_quantile s_tweedie]. rewrite Ho.
  change (create pow floori ceili "regression" n0 n0 n0 n0) with (Ok (@l2 N)). cbv match. cbn [o_init l2 init_mean].
  cbn [s_ffrac s_bagfrac s_bagfreq s_seed s_det s_iters].
  assert (K : exists k, Z.to_nat (or_int 100 (h_iters (r_h r))) = S k).
  { unfold or_int. destruct (Z.eqb_spec (h_iters (r_h r)) 0); [lia|]. exists (Z.to_nat (h_iters (r_h r)) - 1)%nat. lia. }
  destruct K as [k K]. match goal with |- context [Z.to_nat ?z] => change (Z.to_nat z) with (Z.to_nat (or_int 100 (h_iters (r_h r)))) end. rewrite K. cbn [seq map]. rewrite Hs. unfold fit. cbn [boost]. unfold boost_round.
  rewrite (C82_few_rows N L Hneg); [reflexivity|..]; unfold growth, new_trainer, rgr_cv_settings; cbn [tp_cats tp_maxbin tp_mingain tp_maxdepth tp_leaves tp_mindata tp_findmin s_cats s_maxbin s_mingain s_depth s_leaves s_minleaf].
  - exact Hcat.
  - now rewrite Mc.
  - cbn. lia.
  - apply L.
  - exact Hd.
  - unfold or_int. destruct (Z.eqb_spec (h_leaves (r_h r)) 0); lia.
  - rewrite seq_length. unfold or_int. destruct (Z.eqb_spec (h_child_samples (r_h r)) 0); lia.
  - intros i H. apply in_seq in H. apply Hx. apply nth_In. unfold nrows in H. lia.
Qed.
Print Assumptions C136_endless.

(** * Examples and refuted expectations *)
(** binary64, with an exponential and a logarithm that are exact at 0 and at 1 *)
Definition E1 : Num := FNum (fun x => if @neqb F0 x (f 0 1) then f 1 1 else x) (fun x => if @neqb F0 x (f 1 1) then f 0 1 else x).
Definition whole (x : E1) : Z := if x <? f 1 1 then 0%Z else if x <? f 2 1 then 1%Z else 2%Z.
Definition above (x : E1) : Z := if x <=? f 0 1 then 0%Z else if x <=? f 1 1 then 1%Z else 2%Z.
Definition ex_train := @LgbEstimator.train E1 whole (fun x _ => x) whole above (fun l => l) (fun l => l) (fun _ _ _ _ _ _ n _ => seq 0 n) 40.
Definition ex_rgr (objective : string) (quantile : E1) : rgr E1 :=
  @mkrgr E1 false None 0 (@mkhyper E1 31 (-1) (f 1 2) 2 1 (f 0 1) (f 1 1) 0 (f 1 1) (f 0 1) (f 0 1) 42 objective "auto" (-1) false (-1) 0 "" "") quantile (f 1 1) (f 1 1) (f 3 2) [].
Definition ex_folds := [mkfold [2; 3] [0; 1]; mkfold [0; 1] [2; 3]]%nat.
Definition ex_X : matrix E1 := @mkmat E1 1 [[f 1 1]; [f 2 1]; [f 1 1]; [f 2 1]].
Definition ex_y : matrix E1 := @mkmat E1 1 [[f 0 1]; [f 8 1]; [f 0 1]; [f 8 1]].
Definition ones : matrix E1 := @mkmat E1 1 [[f 1 1]; [f 1 1]; [f 1 1]; [f 1 1]].
Definition scores (l : list (option (res E1))) := map (fun o => match o with Some (Ok v) => Some (fs v) | _ => None end) l.
Definition fitted_predictions (r : rgr E1) (X y Z : matrix E1) :=
  match @rgr_fit E1 ex_train X y r with
  | Some (r', Ok _) => match @rgr_predict E1 whole 40 r' Z with Some (Ok P) => Some (map (map fs) (mrows P)) | _ => None end
  | _ => None
  end.
(** Half the rate, two rounds: trained on the same rows the regressor is 1 off, and its error is 1 up to a millionth. *)
Definition near (p q : E1) : bool := nabs (p - q) <? f 1 1000000.
Definition all_near (q : E1) (l : list (option (res E1))) : bool := forallb (fun o => match o with Some (Ok v) => near v q | _ => false end) l.
Definition fitted_mse (r : rgr E1) (X y : matrix E1) : option (res E1) :=
  match @rgr_fit E1 ex_train X y r with
  | Some (r', Ok _) => @rgr_mse E1 whole 40 r' X y
  | _ => None
  end.
Example C136_unscaled_example : ~ In "regression" ["binary"; "cross_entropy"; "multiclass"]
  /\ all_near (f 4 1) (@cv_regressor E1 whole (f 1 1) ex_train 40 (fun l => l) (ex_rgr "regression" (f 1 2)) "" ex_X ex_y ex_folds) = true.
Proof. split; [intros [H|[H|[H|[]]]]; discriminate H|vm_compute; reflexivity]. Qed.
(** Every fold is trained and tested on the same two pairs of feature and target; the regressor fitted to them has the error 1, and
    cross-validation reports 4. *)
Theorem C136_rate_refuted : exists (r : rgr E1) X y folds,
  all_near (f 1 1) (map (fun f => match extract_subset (fun l => l) X y (CrossVal.train f) with Ok (Xtr, ytr) => fitted_mse r Xtr ytr | _ => None end) folds) = true
  /\ (forall f, In f folds -> extract_subset (fun l => l) X y (CrossVal.train f) = extract_subset (fun l => l) X y (test f))
  /\ all_near (f 4 1) (@cv_regressor E1 whole (f 1 1) ex_train 40 (fun l => l) r "" X y folds) = true.
Proof.
  exists (ex_rgr "regression" (f 1 2)), ex_X, ex_y, ex_folds. split; [vm_compute; reflexivity|]. split; [|vm_compute; reflexivity].
  intros g [<-|[<-|[]]]; reflexivity.
Qed.
(** Poisson regression of the constant target 1: the fitted regressor is exact, and cross-validation compares the logarithms 0 with 1. *)
Theorem C136_poisson_refuted : exists (r : rgr E1) X y folds, h_objective (r_h r) = "poisson" /\
  all_near (f 0 1) [fitted_mse r X y] = true /\ all_near (f 1 1) (@cv_regressor E1 whole (f 1 1) ex_train 40 (fun l => l) r "" X y folds) = true.
Proof. exists (ex_rgr "poisson" (f 1 2)), ex_X, ones, ex_folds. split; [reflexivity|]. split; vm_compute; reflexivity. Qed.
(** Two quantile regressors that are fitted differently and cross-validated alike *)
Theorem C136_quantile_refuted : exists (r r' : rgr E1) X y,
  (match fitted_mse r X y, fitted_mse r' X y with Some (Ok a), Some (Ok b) => a <? b | _, _ => false end) = true
  /\ forall big trainer fuel sorti scoring X' y' folds, @cv_regressor E1 whole big trainer fuel sorti r scoring X' y' folds = cv_regressor whole big trainer fuel sorti r' scoring X' y' folds.
Proof.
  exists (ex_rgr "quantile" (f 1 2)), (ex_rgr "quantile" (f 9 10)), (@mkmat E1 1 [[f 1 1]; [f 1 1]; [f 1 1]]), (@mkmat E1 1 [[f 0 1]; [f 1 1]; [f 9 1]]).
  split; [vm_compute; reflexivity|]. intros. now apply C136_parameters.
Qed.
(** Three classes: Fit trains a model with three scores, cross-validation of the same classifier before Fit models with one. *)
Definition ex_clf (cats : list Z) : clf E1 :=
  @mkclf E1 false None [] 0 0 (@mkhyper E1 31 (-1) (f 1 2) 1 1 (f 0 1) (f 1 1) 0 (f 1 1) (f 0 1) (f 0 1) 42 "binary" "auto" (-1) false (-1) 0 "" "") cats.
Definition three : matrix E1 := @mkmat E1 1 [[f 0 1]; [f 1 1]; [f 2 1]].
Definition positive : matrix E1 := @mkmat E1 1 [[f 1 1]; [f 2 1]; [f 3 1]].
Definition fitted_model (c : clf E1) (X y : matrix E1) : option (gmodel E1) :=
  match @clf_fit E1 whole (fun l => l) ex_train None None X y c with Some (c', Ok _) => c_model c' | _ => None end.
Definition fold_model (c : clf E1) (X y : matrix E1) : option (gmodel E1) :=
  match ex_train (clf_cv_settings c) None None X (column 0 (mrows y)) with Some (Ok m) => Some m | _ => None end.
Theorem C136_classes_refuted : exists (c : clf E1) X y,
  option_map (fun m => (m_obj m, outputs_count m)) (fitted_model c X y) = Some ("multiclass", 3%nat)
  /\ option_map (fun m => (m_obj m, outputs_count m)) (fold_model c X y) = Some ("binary", 1%nat).
Proof. exists (ex_clf []), positive, three. split; vm_compute; reflexivity. Qed.
(** Fit ignores the categorical features of a classifier, cross-validation uses them. *)
Theorem C136_categorical_refuted : exists (c : clf E1) X y,
  option_map (fun m => existsb (fun t => existsb (fun n => match g_type n with TCat => true | _ => false end) (gt_nodes t)) (m_trees m)) (fitted_model c X y) = Some false
  /\ option_map (fun m => existsb (fun t => existsb (fun n => match g_type n with TCat => true | _ => false end) (gt_nodes t)) (m_trees m)) (fold_model c X y) = Some true.
Proof.
  exists (ex_clf [0]%Z), three, (@mkmat E1 1 [[f 0 1]; [f 1 1]; [f 0 1]]). split; vm_compute; reflexivity.
Qed.
(** Three classes told apart by the feature: the default score of a fold is at most the share of the rows of class 0 and 1. *)
Example C136_accuracy_example :
  match @clf_fit E1 whole (fun l => l) ex_train None None positive three (ex_clf []) with
  | Some (c, Ok _) => (c_numclass c, clf_cv_scoring c "", scores (@cv_classifier E1 whole (f 1 1) ex_train 40 (fun l => l) c "" positive three [mkfold [0; 1; 2] [0; 1; 2]]%nat))
  | _ => (0%Z, "", [])
  end = (3%Z, "accuracy", [Some (fs (f 1 3))]).
Proof. vm_compute. reflexivity. Qed.
(** A default regressor: twenty training rows whose only feature is 0.  Fit ends. *)
Definition zeros (n : nat) (v : E1) : matrix E1 := @mkmat E1 1 (repeat [v] n).
Definition two_folds := [mkfold (seq 0 20) (seq 20 20); mkfold (seq 20 20) (seq 0 20)].
Theorem C136_endless_refuted : exists (X y : matrix E1) folds,
  (match @rgr_fit E1 ex_train X y (@new_rgr E1) with Some (_, Ok _) => true | _ => false end) = true
  /\ forall fuel, cv_regressor whole (f 1 1) (LgbEstimator.train whole (fun x _ => x) whole above (fun l => l) (fun l => l) (fun _ _ _ _ _ _ n _ => seq 0 n) fuel) fuel (fun l => l)
       (@new_rgr E1) "" X y folds = [None; None].
Proof.
  exists (zeros 40 (f 0 1)), (zeros 40 (f 3 1)), two_folds. split; [vm_compute; reflexivity|]. intros fuel. unfold cv_regressor. cbn [map two_folds].
  assert (Hneg : nlt (nlit (-1) 1) (@n0 E1) = true) by (vm_compute; reflexivity).
  assert (E : forall tr te, In (mkfold tr te) two_folds -> extract_subset (fun l => l) (zeros 40 (f 0 1)) (zeros 40 (f 3 1)) tr = Ok (zeros 20 (f 0 1), zeros 20 (f 3 1))
     /\ extract_subset (fun l => l) (zeros 40 (f 0 1)) (zeros 40 (f 3 1)) te = Ok (zeros 20 (f 0 1), zeros 20 (f 3 1))).
  { intros tr te [H|[H|[]]]; injection H as <- <-; split; reflexivity. }
  assert (Z0 : nle (f 0 1 : E1) n0 = true) by (vm_compute; reflexivity).
  assert (G : forall tr te, In (mkfold tr te) two_folds -> fold_outcome whole (f 1 1) (LgbEstimator.train whole (fun x _ => x) whole above (fun l => l) (fun l => l) (fun _ _ _ _ _ _ n _ => seq 0 n) fuel) fuel (fun l => l)
       (rgr_cv_settings (@new_rgr E1)) (rgr_cv_scoring "") (zeros 40 (f 0 1)) (zeros 40 (f 3 1)) (mkfold tr te) = None).
  { intros tr te H. destruct (E tr te H) as [Er Ee].
    eapply (C136_endless E1 (lt_laws_F _ _) Hneg whole (f 1 1)); [reflexivity|reflexivity|cbn; lia|cbn; lia|cbn; lia|cbn; lia|reflexivity|exact Er|exact Ee|cbn; lia|cbn; lia|].
    intros x Hx. apply repeat_spec in Hx. subst x. exact Z0. }
  now rewrite !G by (cbn; auto).
Qed.
Print Assumptions C136_rate_refuted.
Print Assumptions C136_poisson_refuted.
Print Assumptions C136_quantile_refuted.
Print Assumptions C136_classes_refuted.
Print Assumptions C136_categorical_refuted.
Print Assumptions C136_endless_refuted.
