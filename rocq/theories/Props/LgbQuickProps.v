(** C122 to C124: QuickTrain, AutoFit and QuickCrossValidate of sklearn/lightgbm. *)
From Coq Require Import String List Arith ZArith Bool Lia Reals Lra QArith Qround.
From Verif Require Import Base.Num Base.GoRes Base.Mat Base.ListX Base.RTac Base.FTac Spec.Order Model.ParamMap Model.NaiveBayes Model.LgbTree Model.LgbLeaf Model.LgbHist Model.LgbTrain
  Model.LgbEstimator Model.LgbText Model.LgbApi Model.LgbQuick Spec.LgbQuick Proofs.OrderP Proofs.NaiveBayesP Proofs.LgbArrayP Proofs.LgbApiP Proofs.LgbQuickP.
Import ListNotations.
Local Close Scope Q_scope.
Local Open Scope string_scope.
Local Open Scope list_scope.

(** * C122 QuickTrain *)
Section C122.
  Context {N : Num}.
  Local Open Scope num_scope.
  Variables toint roundint : N -> Z.
  Variable order : list Z -> list Z.
  Variable trainer : settings N -> option N -> option (list N) -> matrix N -> list N -> option (res (gmodel N)).
  Variable fuel : nat.
  Notation quick := (quick_train toint roundint order trainer fuel).
  Notation trained := (trained toint roundint order trainer fuel).
  Notation refused := (refused toint order trainer).

  (** Labels are classes exactly when they are integers with at most 19 different values, and there are at least four
      times as many rows as different values. *)
  Theorem C122_task : lt_laws N -> cmp_laws N -> (forall a b : N, a =? b = true -> toint a = toint b) -> forall y,
    detect_task toint y = true <-> few_integers toint (Nat.min (nrows y / 4) 19) (targets y).
  Proof. intros L C H y. now apply detect_task_spec. Qed.

  (** The result: either the new estimator with 31 leaves, learning rate 0.1 and 100 trees, fitted to the data, with its training
      score; or, when Fit fails, a result with score 0 that refuses every prediction as not fitted. *)
  Theorem C122_result X y q : quick X y = Some (Ok q) ->
    q_class q = detect_task toint y
    /\ q_names q = map (fun i => append "Feature_" (show_int (Z.of_nat i))) (seq 0 (mcols X))
    /\ ((exists m, trained (q_class q) 31 (nlit 1 10) 100 X y m (q_score q)
           /\ (forall X', quick_predict roundint fuel q X' = match m with QClf c => clf_predict roundint fuel c X' | QRgr r => rgr_predict roundint fuel r X' end)
           /\ (forall X' y', quick_score roundint fuel q X' y' = match m with QClf c => clf_score roundint fuel c X' y' | QRgr r => rgr_score roundint fuel r X' y' end))
        \/ (refused (q_class q) 31 (nlit 1 10) 100 X y /\ q_score q = n0
           /\ (forall X', quick_predict roundint fuel q X' = Some (Err ENotFitted)) /\ (forall X' y', quick_score roundint fuel q X' y' = Some (Err ENotFitted)))).
  Proof.
    unfold quick_train. destruct (attempt _ _ _ _ _ _ _ _ _ X y) as [[[m s]|e|]|] eqn:E; try discriminate. intros H.
    set (q0 := mkq _ _ _ _) in H. destruct (quick_importance q0) as [u|e|]; try discriminate. cbn [bind] in H. injection H as <-.
    split; [reflexivity|]. split; [reflexivity|]. cbn [q0 q_class q_score].
    destruct (attempt_cases _ _ _ _ _ _ _ _ _ _ _ _ E) as [(s' & Es & T & K)|(Es & R & B)]; cbn [fst snd] in *; subst s.
    - left. exists m. split; [exact T|]. unfold quick_predict, quick_score. cbn [q0 q_model q_class]. destruct m; cbn [kind] in K; rewrite K; split; reflexivity.
    - right. split; [exact R|]. split; [reflexivity|]. destruct (blank_answers roundint fuel _ m n0 (feature_names X) B) as (B1 & B2 & _). split; [exact B1|exact B2].
  Qed.
  (** QuickTrain reports no error. *)
  Theorem C122_silent X y e : quick X y <> Some (Err e).
  Proof.
    unfold quick_train. destruct (attempt _ _ _ _ _ _ _ _ _ X y) as [[[m s]|e'|]|] eqn:E; try discriminate; [|exfalso; exact (attempt_noerr _ _ _ _ _ _ _ _ _ _ _ _ E)].
    set (q0 := mkq _ _ _ _). destruct (quick_importance q0) as [u|e'|] eqn:I; try discriminate. intros _.
    revert I. unfold quick_importance, model_importance. assert (K : forall k g e2, @importance N k g <> Err e2).
    { intros k g e2. unfold importance. destruct (_ <? 0)%Z; [discriminate|]. generalize (repeat (@n0 N) (Z.to_nat (m_nfeat g))).
      induction (flat_map gt_nodes (m_trees g)) as [|n l IH]; intros imp; [discriminate|]. cbn [foldM].
      unfold node_importance at 1. destruct (g_isleaf n); [apply IH|]. destruct (String.eqb k "split"); [destruct (_ || _); [discriminate|apply IH]|].
      destruct (String.eqb k "gain"); [destruct (_ || _); [discriminate|apply IH]|apply IH]. }
    destruct (q_model q0) as [[c|r]|]; destruct (q_class q0); try discriminate.
    - destruct (c_model c); [|discriminate]. destruct (c_fitted c); [|discriminate]. destruct (importance "gain" g) eqn:I; try discriminate. intros _. exact (K _ _ _ I).
    - destruct (r_model r); [|discriminate]. destruct (r_fitted r); [|discriminate]. destruct (importance "gain" g) eqn:I; try discriminate. intros _. exact (K _ _ _ I).
  Qed.
  (** In particular when X and y have different numbers of rows or y has several columns: there is a result, with score 0, that
      cannot predict. *)
  Theorem C122_hidden X y : nrows X <> nrows y \/ mcols y <> 1%nat ->
    exists q, quick X y = Some (Ok q) /\ q_score q = n0 /\ forall X', quick_predict roundint fuel q X' = Some (Err ENotFitted).
  Proof.
    intros H. assert (R : refused (detect_task toint y) 31 (nlit 1 10) 100 X y).
    { unfold LgbQuick.refused. destruct (detect_task toint y).
      - unfold clf_fit. destruct (Nat.eqb_spec (nrows X) (nrows y)); cbn [negb]; [|eauto]. destruct (Nat.eqb_spec (mcols y) 1); cbn [negb]; [lia|eauto].
      - unfold rgr_fit. destruct (Nat.eqb_spec (nrows X) (nrows y)); cbn [negb]; [|eauto]. destruct (Nat.eqb_spec (mcols y) 1); cbn [negb]; [lia|eauto]. }
    destruct (attempt_refused _ roundint _ _ fuel _ _ _ _ _ _ R) as (m & E & B). unfold quick_train. rewrite E.
    destruct (blank_answers roundint fuel _ m n0 (feature_names X) B) as (B1 & _ & _ & B4). rewrite B4. eexists. split; [reflexivity|]. split; [reflexivity|exact B1].
  Qed.
  (** Also when all labels are the same integer and there are at least four of them. *)
  Theorem C122_one_class X y z : lt_laws N -> cmp_laws N -> (forall a b : N, a =? b = true -> toint a = toint b) -> (forall l, List.length (order l) = List.length l) ->
    (4 <= nrows y)%nat -> (forall v, In v (targets y) -> toint v = z /\ v =? nofZ z = true) ->
    exists q, quick X y = Some (Ok q) /\ q_score q = n0 /\ forall X', quick_predict roundint fuel q X' = Some (Err ENotFitted).
  Proof.
    intros L C T O H4 H. assert (D : detect_task toint y = true).
    { apply (C122_task L C T). split; [intros v Hv; destruct (H v Hv) as [-> E]; exact E|]. exists [nofZ z]. split.
      - cbn [List.length]. pose proof (Nat.div_le_mono 4 (nrows y) 4 ltac:(lia) H4) as G. change (4 / 4)%nat with 1%nat in G. lia.
      - intros v Hv. exists (nofZ z). split; [now left|apply (H v Hv)]. }
    assert (R : refused (detect_task toint y) 31 (nlit 1 10) 100 X y).
    { rewrite D. cbn [LgbQuick.refused]. unfold LgbQuick.refused, clf_fit. destruct (negb _); [eauto|]. destruct (negb _); [eauto|].
      assert (K : (List.length (extract_classes order (labels_of toint y)) <= 1)%nat).
      { unfold extract_classes. cbv zeta. set (ks := order _). destruct (exchange_sort_spec (List.length ks) ks eq_refl) as [P _]. rewrite <- (Permutation.Permutation_length P).
        unfold ks, distinct, labels_of. rewrite O.
        assert (I : incl (nodup Z.eq_dec (map (fun r => toint (nth 0 r n0)) (mrows y))) [z]).
        { intros v Hv. apply nodup_In, in_map_iff in Hv as (r & <- & Hr). left. symmetry. apply H. unfold targets. apply in_map_iff. now exists r. }
        exact (NoDup_incl_length (NoDup_nodup Z.eq_dec _) I). }
      cbv zeta. replace (Z.of_nat _ <? 2)%Z with true by (symmetry; apply Z.ltb_lt; lia). eauto. }
    destruct (attempt_refused _ roundint _ _ fuel _ _ _ _ _ _ R) as (m & E & B). unfold quick_train. rewrite E.
    destruct (blank_answers roundint fuel _ m n0 (feature_names X) B) as (B1 & _ & _ & B4). rewrite B4. eexists. split; [reflexivity|]. split; [reflexivity|exact B1].
  Qed.
  (** Probabilities are for classification only. *)
  Theorem C122_proba X y q X' : quick X y = Some (Ok q) -> detect_task toint y = false -> quick_proba roundint fuel q X' = Some (Err (EOther 1)).
  Proof. intros H D. unfold quick_proba. rewrite (proj1 (C122_result _ _ _ H)), D. reflexivity. Qed.
End C122.
Print Assumptions C122_task.
Print Assumptions C122_result.
Print Assumptions C122_silent.
Print Assumptions C122_hidden.
Print Assumptions C122_one_class.
Print Assumptions C122_proba.

(** * C123 AutoFit *)
Section C123.
  Context {N : Num}.
  Local Open Scope num_scope.
  Variables toint roundint : N -> Z.
  Variable order : list Z -> list Z.
  Variable trainer : settings N -> option N -> option (list N) -> matrix N -> list N -> option (res (gmodel N)).
  Variable fuel : nat.
  Notation auto := (auto_fit toint roundint order trainer fuel).
  (** What became of a setting: trained to an estimator with a training score, or refused by Fit *)
  Notation came_of X y cls := (fun p o => match o with
    | Some (m, s) => trained toint roundint order trainer fuel cls (fst (fst p)) (snd (fst p)) (snd p) X y m s
    | None => refused toint order trainer cls (fst (fst p)) (snd (fst p)) (snd p) X y
    end).

  (** The four settings are tried in order.  The result is the first estimator whose training score no other exceeds, if that is
      positive; otherwise there is no model, the score is 0 and every use of the result panics. *)
  Theorem C123_best X y q : lt_laws N -> nisnan (@n0 N) = false -> auto X y = Some (Ok q) ->
    exists os : list (option (qmodel N * N)), Forall2 (came_of X y (q_class q)) (@candidates N) os
      /\ q_class q = detect_task toint y
      /\ ((exists before m s after, os = before ++ Some (m, s) :: after /\ q_model q = Some m /\ q_score q = s /\ n0 <? s = true
             /\ (forall m' s', In (Some (m', s')) before -> s' <? s = true \/ nisnan s' = true)
             /\ (forall m' s', In (Some (m', s')) after -> s <? s' = false)
             /\ (forall X', quick_predict roundint fuel q X' = match m with QClf c => clf_predict roundint fuel c X' | QRgr r => rgr_predict roundint fuel r X' end))
         \/ ((forall m s, In (Some (m, s)) os -> n0 <? s = false) /\ q_model q = None /\ q_score q = n0
             /\ (forall X', quick_predict roundint fuel q X' = Some Panic) /\ (forall X' y', quick_score roundint fuel q X' y' = Some Panic))).
  Proof.
    intros L Z0 H. unfold auto_fit, omap, option_map, rmap in H.
    destruct (auto_loop _ _ _ _ _ _ X y _ _) as [[b|e|]|] eqn:E; try discriminate. injection H as <-. cbn [q_class q_model q_score].
    destruct (auto_loop_cases _ _ _ _ _ _ _ _ _ _ _ E) as (os & F & -> & K). exists os. split; [exact F|]. split; [reflexivity|].
    destruct (choose_spec L os (None, n0) Z0) as [_ [[E1 E2]|(bf & m & s & af & -> & E2 & E3 & E4 & E5)]].
    - right. rewrite E1. split; [exact E2|]. split; [reflexivity|]. split; [reflexivity|]. split; reflexivity.
    - left. exists bf, m, s, af. rewrite E2. split; [reflexivity|]. split; [reflexivity|]. split; [reflexivity|]. split; [exact E3|].
      split; [exact E4|]. split; [exact E5|]. intros X'. apply Forall_app in K as [_ K]. inversion K as [|? ? K1]; subst.
      unfold quick_predict. cbn [q_model q_class fst]. destruct m; cbn [kind] in K1; now rewrite K1.
  Qed.
  (** Errors of Fit are not reported here either. *)
  Theorem C123_silent X y e : auto X y <> Some (Err e).
  Proof.
    unfold auto_fit, omap, option_map, rmap. destruct (auto_loop _ _ _ _ _ _ X y _ _) as [[b|e'|]|] eqn:E; try discriminate. exfalso.
    revert E. generalize (@None (qmodel N), @n0 N). induction (@param_sets N) as [|[[leaves lr] iters] ps IH]; intros best; cbn [auto_loop]; [discriminate|].
    destruct (attempt _ _ _ _ _ _ _ _ _ X y) as [[[m [s|]]|e2|]|] eqn:A; try discriminate; [apply IH|apply IH|].
    exfalso. exact (attempt_noerr _ _ _ _ _ _ _ _ _ _ _ _ A).
  Qed.
End C123.
Print Assumptions C123_best.
Print Assumptions C123_silent.

(** * C124 QuickCrossValidate *)
Section C124.
  Context {N : Num}.
  Variables toint roundint : N -> Z.
  Variable order : list Z -> list Z.
  Variable trainer : settings N -> option N -> option (list N) -> matrix N -> list N -> option (res (gmodel N)).
  Variable fuel : nat.
  (** Every fold is trained on all rows and scored on all rows, so the results are those of that many copies of one score: the
      training score of a new estimator, or 0 if it cannot be trained. *)
  Theorem C124_folds X y folds mv : cross_validate toint roundint order trainer fuel X y folds = Some (Ok mv) ->
    let n := if (folds <? 2)%Z then 5%nat else Z.to_nat folds in
    exists s : N, ((exists m, trained toint roundint order trainer fuel (detect_task toint y) 31 (nlit 1 10) 100 X y m s)
                   \/ refused toint order trainer (detect_task toint y) 31 (nlit 1 10) 100 X y /\ s = n0)
      /\ fst mv = ndiv (nsum (repeat s n)) (nofnat n)
      /\ snd mv = ndiv (nsum (repeat (nmul (nsub s (fst mv)) (nsub s (fst mv))) n)) (nofnat n).
  Proof.
    unfold cross_validate. cbv zeta. intros H.
    replace (Z.to_nat (if (folds <? 2)%Z then 5%Z else folds)) with (if (folds <? 2)%Z then 5%nat else Z.to_nat folds) in H by (destruct (folds <? 2)%Z; reflexivity).
    set (n := if (folds <? 2)%Z then 5%nat else Z.to_nat folds) in *.
    assert (Hn : seq 0 n <> []) by (unfold n; destruct (Z.ltb_spec folds 2); [discriminate|]; destruct (Z.to_nat folds) eqn:K; [lia|discriminate]).
    unfold omap at 1, option_map, rmap in H. destruct (sequence _ (seq 0 n)) as [[l|e|]|] eqn:S; try discriminate. injection H as <-. cbn [fst snd].
    destruct (sequence_const _ _ Hn _ S) as (s & E & ->). rewrite seq_length. exists s. split; [|split; [reflexivity|]].
    - unfold fold_score, omap, option_map, rmap in E. destruct (attempt _ _ _ _ _ _ _ _ _ X y) as [[[m o]|e|]|] eqn:A; try discriminate.
      injection E as E. destruct (attempt_cases _ _ _ _ _ _ _ _ _ _ _ _ A) as [(s' & Es & T & _)|(Es & R & _)]; cbn [fst snd] in *; subst o s.
      + left. now exists m.
      + right. auto.
    - f_equal. f_equal. clearbody n. generalize (ndiv (nsum (repeat s n)) (nofnat n)). intros mean. clear. induction n as [|k IH]; [reflexivity|]. cbn [repeat map]. now rewrite IH.
  Qed.
  (** Nothing else about the number of folds matters: fewer than two are five. *)
  Theorem C124_few X y folds : (folds < 2)%Z -> cross_validate toint roundint order trainer fuel X y folds = cross_validate toint roundint order trainer fuel X y 5.
  Proof. intros H. unfold cross_validate. now rewrite (proj2 (Z.ltb_lt _ _) H). Qed.
End C124.
(** In exact arithmetic the mean is the training score on all rows and the spread is 0, whatever the data and the number of folds. *)
Theorem C124_training_score (toint roundint : RNum -> Z) order trainer fuel (X y : matrix RNum) folds mv :
  cross_validate toint roundint order trainer fuel X y folds = Some (Ok mv) ->
  snd mv = 0%R
  /\ ((exists m, trained toint roundint order trainer fuel (detect_task toint y) 31 (nlit 1 10) 100 X y m (fst mv))
      \/ refused toint order trainer (detect_task toint y) 31 (nlit 1 10) 100 X y /\ fst mv = 0%R).
Proof.
  intros H. destruct (C124_folds _ _ _ _ _ _ _ _ _ H) as (s & T & E1 & E2).
  assert (Hn : (0 < (if (folds <? 2)%Z then 5 else Z.to_nat folds))%nat) by (destruct (Z.ltb_spec folds 2); lia).
  set (n := if (folds <? 2)%Z then 5%nat else Z.to_nat folds) in *.
  rewrite mean_const in E1 by exact Hn. rewrite mean_const in E2 by exact Hn. rewrite E1 in *. split.
  - rewrite E2. exact (Rmult_eq_0_compat_r _ _ (Rminus_diag_eq _ _ eq_refl)).
  - destruct T as [T|[T ->]]; [left; exact T|right; split; [exact T|reflexivity]].
Qed.
Print Assumptions C124_folds.
Print Assumptions C124_few.
Print Assumptions C124_training_score.

(** * Examples and refuted expectations *)
Definition qtoint (x : QNum) : Z := Qfloor x.
Definition column (l : list Q) : matrix QNum := mkmat 1 (map (fun v => [v : QNum]) l).
(** Labels 0 and 1 in eight rows are classes. *)
Example C122_task_example : detect_task qtoint (column [0;1;0;1;0;1;0;1]%Q) = true.
Proof. vm_compute. reflexivity. Qed.
(** In seven rows the same two labels are not: a small classification problem is trained as a regression. *)
Theorem C122_small_classes_refuted : exists y : matrix QNum,
  (forall v, In v (targets y) -> v = 0%Q \/ v = 1%Q) /\ (2 <= List.length (mrows y))%nat /\ detect_task qtoint y = false.
Proof.
  exists (column [0;1;0;1;0;1;0]%Q). split; [|split; [cbn; lia|vm_compute; reflexivity]].
  intros v H. cbn in H. intuition.
Qed.

(** The trainer of the package on four rows, at binary64 *)
Definition ftoint (x : F0) : Z := 0%Z.
Definition ex_train := @train F0 ftoint (fun x _ => x) ftoint ftoint (fun l => l) (fun l => l) (fun _ _ _ _ _ _ n _ => seq 0 n) 9.
Definition ex_X : matrix F0 := mkmat 1 [[f 1 1]; [f 2 1]; [f 3 1]; [f 4 1]].
Definition ex_y : matrix F0 := mkmat 1 [[f 1 1]; [f 3 1]; [f 3 1]; [f 5 1]].
Definition shown (r : option (res (matrix F0))) := match r with Some (Ok M) => Some (map (map fs) (mrows M)) | _ => None end.
Example C122_result_example :
  match @quick_train F0 ftoint ftoint (fun l => l) ex_train 9 ex_X ex_y with
  | Some (Ok q) => (match q_model q with Some (QRgr _) => true | _ => false end, q_class q, q_names q, shown (quick_predict ftoint 9 q (mkmat 1 [[f 7 1]])))
  | _ => (false, true, [], None)
  end = (true, false, ["Feature_0"], Some [[fs (f 3 1)]]).
Proof. vm_compute. reflexivity. Qed.
(** Four rows are too few for any tree to split, so no setting scores above 0: AutoFit returns no error and no model, and the first
    prediction panics. *)
Theorem C123_model_refuted : exists X y : matrix F0,
  match @auto_fit F0 ftoint ftoint (fun l => l) ex_train 9 X y with
  | Some (Ok q) => match q_model q, quick_predict ftoint 9 q X with None, Some Panic => true | _, _ => false end
  | _ => false
  end = true.
Proof. exists ex_X, ex_y. vm_compute. reflexivity. Qed.
Example C124_example :
  match @cross_validate F0 ftoint ftoint (fun l => l) ex_train 9 ex_X ex_y 2 with
  | Some (Ok (m, v)) => Some (fs m, fs v)
  | _ => None
  end = Some (fs (f 0 1), fs (f 0 1)).
Proof. vm_compute. reflexivity. Qed.
Print Assumptions C122_small_classes_refuted.
Print Assumptions C123_model_refuted.
