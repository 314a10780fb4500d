(** C35, C36, C62 - sklearn/lightgbm/cross_validation.go. *)
From Coq Require Import String List Arith ZArith Bool Lia Permutation Sorted Reals Lra.
From Verif Require Import Base.Num Base.GoRes Base.Mat Base.GoSort Base.RTac
  Model.CrossVal Spec.CrossVal Spec.Order Spec.Stats Proofs.OrderP Proofs.CrossValP.
Import ListNotations.
Local Open Scope list_scope.

(** ** C35.  K-fold splitting *)
Theorem C35_partition : forall shuf k n,
  rearranges shuf -> (0 < k)%Z ->
  exists folds, kfold_split shuf k n = Ok folds /\ length folds = Z.to_nat k /\
    partition_of n (map test folds) /\
    (forall f g, In f folds -> In g folds -> near (length (test f)) (length (test g))) /\
    (forall f, In f folds -> complement n (train f) (test f)).
Proof.
  intros shuf k n Hs Hk. destruct (kfold_ok shuf k n Hk) as (folds & E & Hl & Hc & Hlen & Hf).
  exists folds. split; [exact E|]. split; [exact Hl|].
  assert (Hp : partition_of n (map test folds))
    by (unfold partition_of; rewrite Hc; symmetry; apply Hs).
  split; [exact Hp|]. split.
  - assert (Ha : forall f, In f folds -> exists i, length (test f) = fold_len (Z.to_nat k) (length (shuf (seq 0 n))) i).
    { intros f Hin. assert (H : In (length (test f)) (map (fun f => length (test f)) folds))
        by (apply (in_map (fun f => length (test f))), Hin).
      rewrite Hlen in H. apply in_map_iff in H as [i [Hi _]]. exists i. congruence. }
    intros f g H1 H2. destruct (Ha f H1) as [i ->]. destruct (Ha g H2) as [j ->].
    split; apply fold_len_near.
  - intros f Hin. destruct (Hf f Hin) as [H1 ->].
    eapply partition_complement; eauto. symmetry. apply Hs.
Qed.

(** Without shuffling the test folds are consecutive blocks in index order and the
    training indices ascend. *)
Theorem C35_unshuffled : forall k n, (0 < k)%Z ->
  exists folds, kfold_split (fun l => l) k n = Ok folds /\
    concat (map test folds) = seq 0 n /\
    forall f, In f folds -> StronglySorted lt (train f).
Proof.
  intros k n Hk. destruct (kfold_ok (fun l => l) k n Hk) as (folds & E & _ & Hc & _ & Hf).
  exists folds. split; [exact E|]. split; [exact Hc|].
  intros f Hin. destruct (Hf f Hin) as [_ ->].
  assert (Hsub : forall p (l : list nat), StronglySorted lt l -> StronglySorted lt (filter p l)).
  { intros p l. induction 1 as [|a l Hl IH Ha]; simpl; [constructor|].
    destruct (p a); auto. constructor; auto. rewrite Forall_forall in *.
    intros x Hx. apply filter_In in Hx. now apply Ha. }
  apply Hsub. clear. generalize 0. induction n as [|n IH]; intros s; simpl; constructor; auto.
  rewrite Forall_forall. intros x Hx. apply in_seq in Hx. lia.
Qed.

(** The constructors never produce fewer than two folds. *)
Theorem C35_constructor : forall k,
  (2 <= new_nsplits k)%Z /\ ((2 <= k)%Z -> new_nsplits k = k).
Proof. intros k. unfold new_nsplits. destruct (Z.ltb_spec k 2); split; lia. Qed.

(** Rows extracted for a fold: the selected rows in ascending index order, features
    and labels aligned; possible exactly because both sides are non-empty. *)
Theorem C35_extraction : forall (N : Num) sorti shuf k n (X y : matrix N),
  rearranges shuf -> go_sort Nat.ltb sorti ->
  (2 <= k <= Z.of_nat n)%Z -> nrows X = n -> nrows y = n -> 0 < mcols X -> 0 < mcols y ->
  exists folds, kfold_split shuf k n = Ok folds /\
  forall f idx, In f folds -> idx = train f \/ idx = test f ->
    exists Xs ys order, extract_subset sorti X y idx = Ok (Xs, ys) /\
      Permutation order idx /\ ordered Nat.ltb order /\ order <> [] /\
      map Some (mrows Xs) = map (nth_error (mrows X)) order /\
      map Some (mrows ys) = map (nth_error (mrows y)) order.
Proof.
  intros N sorti shuf k n X y Hs Hsort Hk HX Hy HcX Hcy.
  destruct (C35_partition shuf k n Hs) as (folds & E & Hl & Hp & Hn & Hc); [lia|].
  exists folds. split; [exact E|]. intros f idx Hf Hidx.
  (* every index is in range and idx is not empty *)
  assert (Hrange : forall i, In i idx -> i < n).
  { intros i Hi. assert (H : In i (seq 0 n)).
    { apply (Permutation_in _ (Hc f Hf)). apply in_or_app. destruct Hidx as [->| ->]; auto. }
    apply in_seq in H. lia. }
  assert (Hlen : length idx <> 0).
  { pose proof (kfold_ok shuf k n ltac:(lia)) as (folds' & E' & _ & _ & Hlen & _).
    rewrite E in E'. injection E' as <-.
    assert (H : In (length (test f)) (map (fun f => length (test f)) folds))
      by (apply (in_map (fun f => length (test f))), Hf).
    rewrite Hlen in H. apply in_map_iff in H as [i [Hi _]].
    rewrite <- (Permutation_length (Hs (seq 0 n))), seq_length in Hi.
    assert (Hdiv : 1 <= n / Z.to_nat k) by (apply Nat.div_le_lower_bound; lia).
    assert (Hle : 2 * (n / Z.to_nat k) <= n).
    { pose proof (Nat.mul_div_le n (Z.to_nat k) ltac:(lia)). nia. }
    pose proof (Permutation_length (Hc f Hf)) as Hsum. rewrite app_length, seq_length in Hsum.
    unfold fold_len in Hi. pose proof (Nat.mod_upper_bound n (Z.to_nat k) ltac:(lia)) as Hm.
    pose proof (Nat.div_mod n (Z.to_nat k) ltac:(lia)) as Hdm.
    destruct Hidx as [->| ->].
    - destruct (Nat.ltb_spec i (n mod Z.to_nat k)); nia.
    - destruct (Nat.ltb i (n mod Z.to_nat k)); lia. }
  destruct (Hsort idx) as [Hperm Hord].
  assert (Hr' : forall i, In i (sorti idx) -> i < n)
    by (intros i Hi; apply Hrange; eapply Permutation_in; [symmetry; exact Hperm|exact Hi]).
  destruct (mapM_nth (mrows X) (sorti idx)) as [xr [Ex Hx]]; [unfold nrows in HX; rewrite HX; exact Hr'|].
  destruct (mapM_nth (mrows y) (sorti idx)) as [yr [Ey Hyr]]; [unfold nrows in Hy; rewrite Hy; exact Hr'|].
  exists (mkmat (mcols X) xr), (mkmat (mcols y) yr), (sorti idx).
  split; [|split; [now symmetry|split; [exact Hord|split; [|split; [exact Hx|exact Hyr]]]]].
  - unfold extract_subset, newdense.
    destruct (Nat.eqb_spec (length idx) 0); [easy|].
    destruct (Nat.eqb_spec (mcols X) 0); [lia|]. destruct (Nat.eqb_spec (mcols y) 0); [lia|].
    cbn [orb bind]. rewrite Ex. cbn [bind]. rewrite Ey. reflexivity.
  - intros H. apply Hlen. rewrite (Permutation_length Hperm), H. reflexivity.
Qed.

(** With more folds than samples some test fold is empty, with a single fold the
    training set is; CrossValidate then crashes whatever the model does. *)
Theorem C35_empty_fold : forall shuf k n, rearranges shuf -> (Z.of_nat n < k)%Z ->
  exists folds f, kfold_split shuf k n = Ok folds /\ In f folds /\ test f = [].
Proof.
  intros shuf k n Hs Hk. destruct (kfold_ok shuf k n ltac:(lia)) as (folds & E & Hl & Hc & Hlen & Hf).
  assert (H : In 0 (map (fun f => length (test f)) folds)).
  { rewrite Hlen. apply in_map_iff. exists (Z.to_nat k - 1). split.
    - rewrite <- (Permutation_length (Hs _)), seq_length. unfold fold_len.
      rewrite Nat.div_small, Nat.mod_small by lia.
      destruct (Nat.ltb_spec (Z.to_nat k - 1) n); lia.
    - apply in_seq. lia. }
  apply in_map_iff in H as [f [Hf0 Hin]]. exists folds, f. split; [exact E|]. split; [exact Hin|].
  now apply length_zero_iff_nil.
Qed.

Theorem C35_cross_validate_crashes : forall (N : Num) sorti fit_eval shuf k n (X y : matrix N) loss,
  rearranges shuf -> (Z.of_nat n < k \/ k = 1)%Z ->
  cross_validate sorti fit_eval (kfold_split shuf k n) X y loss = Panic.
Proof.
  intros N sorti fit_eval shuf k n X y loss Hs Hk.
  assert (H : exists folds f, kfold_split shuf k n = Ok folds /\ In f folds /\ (test f = [] \/ train f = [])).
  { destruct Hk as [Hk| ->].
    - destruct (C35_empty_fold shuf k n Hs Hk) as (fs & f & H1 & H2 & H3). exists fs, f. auto.
    - destruct (C35_partition shuf 1 n Hs ltac:(lia)) as (fs & E & Hl & Hp & _ & Hc).
      destruct fs as [|f [|g fs]]; simpl in Hl; try lia.
      exists [f], f. split; [exact E|]. split; [simpl; auto|]. right.
      unfold partition_of in Hp. simpl in Hp. rewrite app_nil_r in Hp.
      pose proof (Permutation_length (Hc f (or_introl eq_refl))) as H. rewrite app_length in H.
      rewrite (Permutation_length Hp) in H. apply length_zero_iff_nil. lia. }
  destruct H as (folds & f & E & Hin & Hemp). rewrite E. unfold cross_validate. cbn [bind].
  assert (Hp : existsb is_panic (map (fun f => bind (extract_subset sorti X y (train f)) (fun tr =>
             bind (extract_subset sorti X y (test f)) (fun te => fit_eval tr te))) folds) = true).
  { apply existsb_exists. exists Panic. split; [|reflexivity]. apply in_map_iff. exists f. split; [|exact Hin].
    destruct Hemp as [-> | ->]; [|reflexivity].
    destruct (extract_subset sorti X y (train f)) as [a|e|] eqn:Et; [reflexivity| |reflexivity].
    (* extract_subset never returns an error *)
    exfalso. unfold extract_subset, newdense in Et.
    destruct (_ || _)%bool in Et; [easy|]. destruct (_ || _)%bool in Et; [easy|]. cbn [bind] in Et.
    assert (Hm : forall (rows : list (list N)) idx e,
              mapM (fun i => match nth_error rows i with Some r => Ok r | None => Panic end) idx <> Err e).
    { intros rows. induction idx as [|i idx IH]; intros e' H; [easy|]. simpl in H.
      destruct (nth_error rows i); [|easy].
      destruct (mapM _ idx) as [|e''|] eqn:E'; cbn in H; try easy. now apply (IH e''). }
    destruct (mapM _ _) as [xr|e'|] eqn:E1 in Et; cbn [bind] in Et; [|now apply (Hm _ _ _ E1)|easy].
    destruct (mapM _ _) as [yr|e'|] eqn:E2 in Et; cbn [bind] in Et; [easy|now apply (Hm _ _ _ E2)|easy]. }
  rewrite Hp. reflexivity.
Qed.

Example C35_example :
  kfold_split (fun l => l) 3 7 =
    Ok [ {| train := [3; 4; 5; 6]; test := [0; 1; 2] |};
         {| train := [0; 1; 2; 5; 6]; test := [3; 4] |};
         {| train := [0; 1; 2; 3; 4]; test := [5; 6] |} ] /\
  kfold_split (@rev nat) 2 3 = Ok [mkfold [0] [2; 1]; mkfold [2; 1] [0]] /\
  rearranges (@rev nat) /\ kfold_split (fun l => l) 0 3 = Panic.
Proof. repeat split; try reflexivity. intros l. apply Permutation_rev. Qed.

(** ** C36.  Stratified splitting.  The two number types satisfy [eq_per]
    ([per_R], [per_F]); NaN labels are allowed. *)
Theorem C36_stratified : forall (N : Num) shuf order k n (y : list N),
  eq_per N -> rearranges shuf -> rearranges order -> (0 < k)%Z -> n <= length y ->
  exists folds, stratified_split shuf order k n y = Ok folds /\ length folds = Z.to_nat k /\
    partition_of n (map test folds) /\
    (forall f, In f folds -> complement n (train f) (test f)) /\
    (forall f g v, In f folds -> In g folds ->
       near (count_label y v (test f)) (count_label y v (test g))).
Proof.
  intros N shuf order k n y Hper Hs Ho Hk Hy.
  destruct (stratified_ok Hper shuf order k n y Hs Ho Hk Hy) as (folds & E & Hl & Hp & Ht & Hc).
  exists folds. split; [exact E|]. split; [exact Hl|]. split; [exact Hp|]. split.
  - intros f Hf. rewrite (Ht f Hf). eapply partition_complement; eauto. now apply in_map.
  - intros f g v Hf Hg. split; now apply Hc.
Qed.

(** Total sizes: two folds differ by at most the number of different labels. *)
Theorem C36_sizes : forall (N : Num) shuf order k n (y vs : list N),
  eq_per N -> rearranges shuf -> rearranges order -> (0 < k)%Z -> n <= length y ->
  label_values y vs ->
  exists folds, stratified_split shuf order k n y = Ok folds /\
    forall f g, In f folds -> In g folds -> length (test f) <= length (test g) + length vs.
Proof.
  intros N shuf order k n y vs Hper Hs Ho Hk Hy Hv.
  destruct (C36_stratified N shuf order k n y Hper Hs Ho Hk Hy) as (folds & E & _ & _ & Hcomp & Hnear).
  exists folds. split; [exact E|]. intros f g Hf Hg.
  assert (Hr : forall h, In h folds -> forall i, In i (test h) -> i < length y).
  { intros h Hh i Hi. assert (H : In i (seq 0 n)).
    { apply (Permutation_in _ (Hcomp h Hh)). apply in_or_app. auto. }
    apply in_seq in H. lia. }
  rewrite <- (count_total Hper y vs (test f) (Hr f Hf) Hv), <- (count_total Hper y vs (test g) (Hr g Hg) Hv).
  apply list_sum_le. intros v _. destruct (Hnear f g v Hf Hg). lia.
Qed.

(** ... and this is attained: one sample of each of three classes in two folds leaves
    the second test fold empty, although there are enough samples. *)
Theorem C36_balanced_sizes_refuted : exists (y : list QNum) k folds f g,
  (0 < k <= Z.of_nat (length y))%Z /\
  stratified_split (fun l => l) (fun l => l) k (length y) y = Ok folds /\
  In f folds /\ In g folds /\ length (test f) = length (test g) + 3 /\ test g = [].
Proof.
  exists [@nofZ QNum 1; @nofZ QNum 2; @nofZ QNum 3], 2%Z.
  exists [mkfold [] [0; 1; 2]; mkfold [0; 1; 2] []], (mkfold [] [0; 1; 2]), (mkfold [0; 1; 2] []).
  split; [simpl; lia|]. split; [reflexivity|]. simpl. auto 10.
Qed.

Example C36_example :
  stratified_split (fun l => l) (@rev (list nat)) 2 5
    (map (@nofZ QNum) [1; 2; 1; 1; 2]%Z)
  = Ok [mkfold [3; 4] [1; 0; 2]; mkfold [0; 1; 2] [4; 3]] /\
  eq_per RNum /\ (forall fe fl, eq_per (FNum fe fl)) /\ rearranges (@rev (list nat)) /\
  (* NaN labels form classes of their own *)
  stratified_split (fun l => l) (fun l => l) 2 2 [@nnan F0; @nnan F0]
  = Ok [mkfold [] [0; 1]; mkfold [0; 1] []].
Proof.
  split; [reflexivity|]. split; [apply per_R|]. split; [apply per_F|].
  split; [intros l; apply Permutation_rev|reflexivity].
Qed.

(** ** C62.  The reported best fold *)
Theorem C62_best_fold : forall (N : Num) metric (scores : list N),
  lt_laws N -> scores <> [] -> (forall s, In s scores -> nisnan s = false) ->
  exists b i, cv_best (is_loss_metric metric) scores = Ok (b, i) /\ nth_error scores i = Some b /\
  forall j s, nth_error scores j = Some s ->
    if is_loss_metric metric
    then nlt s b = false /\ (j < i -> nlt b s = true)
    else nlt b s = false /\ (j < i -> nlt s b = true).
Proof.
  intros N metric scores laws Hne Hn.
  destruct (cv_best_ok laws (is_loss_metric metric) scores Hne Hn) as (b & i & E & H1 & H2).
  exists b, i. split; [exact E|]. split; [exact H1|].
  intros j s Hj. specialize (H2 j s Hj). destruct (is_loss_metric metric); exact H2.
Qed.

Local Open Scope R_scope.

(** Scoring by "auc" or "r2" evaluates the squared error but looks for its largest
    value: the fold with the worst error is reported as the best. *)
Theorem C62_auc_reports_worst_fold : forall metric (folds : list (list R * list R)),
  metric = "auc"%string \/ metric = "r2"%string ->
  folds <> [] -> (forall f, In f folds -> length (fst f) = length (snd f)) ->
  let err := fun f : list R * list R =>
    mean_of (map (fun ab => (fst ab - snd ab) * (fst ab - snd ab)) (combine (fst f) (snd f))) in
  exists b i worst,
    @cv_best RNum (is_loss_metric metric)
      (map (fun f => @evaluate_metric RNum metric (fst f) (snd f)) folds) = Ok (b, i) /\
    nth_error folds i = Some worst /\ b = err worst /\
    forall f, In f folds -> err f <= err worst.
Proof.
  intros metric folds Hm Hne Hlen err.
  assert (Heq : map (fun f => @evaluate_metric RNum metric (fst f) (snd f)) folds = map err folds).
  { apply map_ext_in. intros f Hf. etransitivity; [|exact (mse_metric_R _ _ (Hlen f Hf))].
    destruct Hm as [->| ->]; reflexivity. }
  assert (Hl : is_loss_metric metric = false) by (destruct Hm as [->| ->]; reflexivity).
  assert (Hbest : @cv_best RNum (is_loss_metric metric)
      (map (fun f => @evaluate_metric RNum metric (fst f) (snd f)) folds) = @cv_best RNum false (map err folds)).
  { rewrite Hl. exact (f_equal (@cv_best RNum false) Heq). }
  destruct (@cv_best_ok RNum lt_laws_R false (map err folds)) as (b & i & E & H1 & H2).
  - destruct folds; [easy|discriminate].
  - reflexivity.
  - assert (Hi : exists w, nth_error folds i = Some w /\ b = err w).
    { rewrite nth_error_map in H1. destruct (nth_error folds i) as [w|]; [|discriminate].
      exists w. split; [reflexivity|]. cbn in H1. injection H1 as <-. reflexivity. }
    destruct Hi as [w [Hw ->]]. exists (err w), i, w.
    split; [rewrite Hbest; exact E|]. split; [exact Hw|]. split; [reflexivity|].
    intros f Hf. apply In_nth_error in Hf as [j Hj].
    assert (Hj' : nth_error (map err folds) j = Some (err f)) by (rewrite nth_error_map, Hj; reflexivity).
    destruct (H2 j _ Hj') as [H _]. cbn in H. apply Rltb_false in H. exact H.
Qed.

(** A NaN score in the first fold sticks. *)
Theorem C62_nan_first_fold : forall (N : Num) loss (s : N) rest,
  lt_laws N -> nisnan s = true -> cv_best loss (s :: rest) = Ok (s, 0%nat).
Proof.
  intros N loss s rest laws Hs. unfold cv_best. f_equal. generalize 1%nat.
  induction rest as [|x rest IH]; intros i; [reflexivity|]. cbn [best_loop].
  replace (if loss then nlt x s else nlt s x) with false; [apply IH|].
  destruct loss.
  - destruct (nlt x s) eqn:E; [|reflexivity]. apply (lt_not_nan N laws) in E. destruct E. congruence.
  - destruct (nlt s x) eqn:E; [|reflexivity]. apply (lt_not_nan N laws) in E. destruct E. congruence.
Qed.

(** Mean and standard deviation (sample, n-1) of the fold scores. *)
Theorem C62_summary : forall scores : list R, (1 < length scores)%nat ->
  @cv_mean RNum scores = mean_of scores /\
  @cv_std RNum scores =
    sqrt (Rsum (map (fun s => (s - mean_of scores) * (s - mean_of scores)) scores) / INR (length scores - 1)).
Proof.
  intros scores H.
  assert (Hm : @cv_mean RNum scores = mean_of scores).
  { unfold cv_mean, mean_of. unR. destruct (Nat.eqb_spec (length scores) 0); [lia|].
    rewrite nsum_R, nofnat_R. reflexivity. }
  split; [exact Hm|]. unfold cv_std. unR. destruct (Nat.leb_spec (length scores) 1) as [?|_]; [lia|].
  rewrite nofnat_R. rewrite <- Hm. set (m := @cv_mean RNum scores). cbn. f_equal. f_equal.
  etransitivity; [apply (fold_left_sum (fun s : R => (s - m) * (s - m)))|]. apply Rplus_0_l.
Qed.

Example C62_example :
  let scores := map (@nofZ QNum) [3; 1; 2; 1]%Z in
  cv_best (is_loss_metric "l2") scores = Ok (@nofZ QNum 1, 1%nat) /\
  cv_best (is_loss_metric "accuracy") scores = Ok (@nofZ QNum 3, 0%nat) /\
  is_loss_metric "auc" = false /\
  @evaluate_metric QNum "auc" [@nofZ QNum 1] [@nofZ QNum 4] = @evaluate_metric QNum "l2" [@nofZ QNum 1] [@nofZ QNum 4] /\
  lt_laws RNum /\ (forall fe fl, lt_laws (FNum fe fl)) /\ nisnan (@nnan F0) = true.
Proof.
  intros scores. do 4 (split; [reflexivity|]). split; [exact lt_laws_R|].
  split; [exact lt_laws_F|reflexivity].
Qed.

Print Assumptions C35_partition.
Print Assumptions C35_unshuffled.
Print Assumptions C35_constructor.
Print Assumptions C35_extraction.
Print Assumptions C35_empty_fold.
Print Assumptions C35_cross_validate_crashes.
Print Assumptions C36_stratified.
Print Assumptions C36_sizes.
Print Assumptions C36_balanced_sizes_refuted.
Print Assumptions C62_best_fold.
Print Assumptions C62_auc_reports_worst_fold.
Print Assumptions C62_nan_first_fold.
Print Assumptions C62_summary.
