(** C121: SimplePredictor of sklearn/lightgbm. *)
From Coq Require Import String List Arith ZArith Bool Lia Reals Lra.
From Verif Require Import Base.Num Base.GoRes Base.Mat Base.ListX Base.RTac Base.FTac Model.LgbTransform Model.LgbTree Model.LgbEstimator Model.LgbSimple
  Spec.LgbTransform Spec.LgbTree Spec.LgbSimple Proofs.LgbTransformP Proofs.LgbTreeP Proofs.LgbArrayP Proofs.LgbSimpleP Props.LgbTransformProps Props.LgbTreeProps.
Import ListNotations.
Local Open Scope string_scope.
Local Open Scope list_scope.
Local Open Scope nat_scope.

Section C121.
  Context {N : Num}.
  (** A trained tree: the leaf reached by the sample, where missing values (NaN, or a sample that is too short) follow the default
      direction and other values are compared exactly, times the shrinkage rate if that is positive. *)
  Theorem C121_tree (T : gtree N) t x fuel : stores (gt_nodes T) 0 t -> isize t < fuel ->
    simple_tree fuel T x = Some (Ok (times_rate (gt_shrink T) (leaf_of t x))).
  Proof. apply simple_stores. Qed.
  (** So it is Tree.Predict's value times the shrinkage rate, for samples with all tested features. *)
  Theorem C121_same_leaf toint (T : gtree N) t x fuel : stores (gt_nodes T) 0 t -> fits x t -> isize t < fuel ->
    exists v, tree_predict toint fuel T x = Some (Ok v) /\ simple_tree fuel T x = Some (Ok (times_rate (gt_shrink T) v)).
  Proof.
    intros S F Hf. exists (leaf_of t x). split; [|now apply simple_stores]. unfold tree_predict.
    rewrite (gwalk_stores toint n0 T x t 0 fuel S Hf).
    assert (E : eval (passes n0) t x = eval plain_left t x); [|rewrite E, (leaf_eval t x F); reflexivity].
    clear - S. revert S. generalize 0%Z. induction t as [v|q l IHl r IHr]; intros id S; [reflexivity|]. inversion S; subst. cbn [eval].
    destruct (nth_error x _) as [v|]; [|reflexivity]. unfold passes, plain_left. cbn [q_missing q_left q_thr].
    destruct (if nisnan v then g_defl n else nle v (g_thr n)); [eapply IHl|eapply IHr]; eassumption.
  Qed.
  (** A tree read from a text file: the same, except that the result is 0 when a missing value decides the last test. *)
  Theorem C121_text (d : tdoc N) t first T x fuel : well_formed d t -> finalize first d = Ok T -> isize t < fuel ->
    simple_tree fuel T x = Some (Ok (if ends_missing t x then n0 else times_rate (d_shrink d) (leaf_of t x))).
  Proof. apply simple_text. Qed.
  (** A tree with a single leaf read from a text file: its value, never multiplied *)
  Theorem C121_constant (d : tdoc N) v first x fuel : d_leaves d = 1%Z -> d_lv d = [v] ->
    exists T, finalize first d = Ok T /\ simple_tree fuel T x = Some (Ok v).
  Proof. intros H1 H2. unfold finalize. rewrite H1, H2. eexists. split; reflexivity. Qed.

  (** The raw score of a class: the initial score plus the outputs of the trees of this class, all of them, whatever the best
      iteration; one class unless there are more than two. *)
  Theorem C121_scores (m : gmodel N) x fuel outs : Forall2 (fun t o => simple_tree fuel t x = Some (Ok o)) (m_trees m) outs ->
    let k := if (2 <? m_class m)%Z then Z.to_nat (m_class m) else 1 in
    exists raw, simple_raw fuel m x = Some (Ok raw) /\ List.length raw = k
      /\ forall c, c < k -> nth_error raw c = Some (fold_left nadd (class_outputs k c outs) (m_init m)).
  Proof.
    intros H k. unfold simple_raw. rewrite (sequence_ok _ _ _ H). fold (outputs_count m) in k. eexists. split; [reflexivity|]. split.
    - fold k. unfold accumulate. generalize (combine (seq 0 (List.length outs)) outs). intros l.
      assert (K : forall acc, List.length (fold_left (fun acc io => upd (Nat.modulo (fst io) k) (fun v => nadd v (snd io)) acc) l acc) = List.length acc).
      { induction l as [|io l IH]; intros acc; [reflexivity|]. cbn [fold_left]. now rewrite IH, upd_length. }
      change (outputs_count m) with k. rewrite K. apply repeat_length.
    - intros c Hc. now apply acc_nth.
  Qed.
  (** Predict refuses a wrong number of columns, and otherwise treats every row alone. *)
  Theorem C121_columns (m : gmodel N) X fuel : Z.of_nat (mcols X) <> m_nfeat m -> simple_predict fuel m X = Some (Err (EOther 1)).
  Proof. intros H. unfold simple_predict. apply Z.eqb_neq in H. now rewrite H. Qed.
  Theorem C121_rows (m : gmodel N) X P fuel : simple_predict fuel m X = Some (Ok P) ->
    Z.of_nat (mcols X) = m_nfeat m /\ Forall2 (fun x p => simple_single fuel m x = Some (Ok p)) (mrows X) (mrows P).
  Proof.
    unfold simple_predict. destruct (Z.eqb_spec (Z.of_nat (mcols X)) (m_nfeat m)) as [E|]; [|discriminate]. cbn [negb].
    destruct (newdense _ _); try discriminate. unfold omap, option_map, rmap. intros H. split; [exact E|].
    destruct (sequence _ _) as [[l| |]|] eqn:S; try discriminate. injection H as <-. now apply sequence_inv.
  Qed.
  (** The output of a row is its raw scores, except for the objectives "binary" and "cross_entropy" and for more than two classes. *)
  Theorem C121_plain (m : gmodel N) x fuel : (m_class m <= 2)%Z -> m_obj m <> "binary" -> m_obj m <> "cross_entropy" ->
    simple_single fuel m x = simple_raw fuel m x.
  Proof.
    intros H1 H2 H3. unfold simple_single, simple_transform. replace (2 <? m_class m)%Z with false by (symmetry; apply Z.ltb_ge; exact H1).
    unfold is_binary. apply String.eqb_neq in H2, H3. rewrite H2, H3. cbn [orb]. unfold omap, option_map, rmap. now destruct (simple_raw fuel m x) as [[]|].
  Qed.
End C121.
Lemma sigmoid_close (sc : R) : (0 <= @leaves_sigmoid RNum sc <= 1)%R /\ (Rabs (@leaves_sigmoid RNum sc - logistic sc) <= 1 / 1000000000000000)%R.
Proof.
  fold peps_R. destruct (C58_leaves_sigmoid sc) as (A1 & A2 & A3). pose proof (logistic_bounds sc) as LB. pose proof peps_pos.
  destruct (Rlt_le_dec 500 sc) as [K|K]; [rewrite (A2 K); pose proof (logistic_far sc K); split; [lra|apply Rabs_le; lra]|].
  destruct (Rlt_le_dec sc (-500)) as [K'|K']; [rewrite (A3 K'); pose proof (logistic_near sc K'); split; [lra|apply Rabs_le; lra]|].
  rewrite (A1 (conj K' K)). split; [lra|]. replace (logistic sc - logistic sc)%R with 0%R by lra. rewrite Rabs_R0. lra.
Qed.
(** With exact arithmetic the outputs are probabilities: the logistic function of the score up to 1e-15, or the softmax of the
    scores, whatever the objective, for more than two classes. *)
Theorem C121_binary (m : gmodel RNum) (x : list R) fuel (p : list R) : (m_class m <= 2)%Z -> m_obj m = "binary" \/ m_obj m = "cross_entropy" ->
  @simple_single RNum fuel m x = Some (Ok p) ->
  exists s, @simple_raw RNum fuel m x = Some (Ok [s]) /\ exists v, p = [v] /\ (0 <= v <= 1)%R /\ (Rabs (v - logistic s) <= 1 / 1000000000000000)%R.
Proof.
  intros H1 H2 H. unfold simple_single, omap, option_map, rmap in H. destruct (simple_raw fuel m x) as [[raw| |]|] eqn:E; try discriminate.
  unfold simple_raw, omap, option_map, rmap in E. destruct (sequence _ _) as [[outs| |]|]; try discriminate.
  assert (C : outputs_count m = 1) by (unfold outputs_count; replace (2 <? m_class m)%Z with false by (symmetry; apply Z.ltb_ge; exact H1); reflexivity).
  injection E as E. rewrite C in E. assert (E2 := @accumulate_one RNum nadd (m_init m) outs). assert (E3 : raw = [fold_left (@nadd RNum) outs (m_init m)]) by (rewrite <- E; exact E2). clear E E2. subst raw. eexists. split; [reflexivity|].
  unfold simple_transform in H. replace (2 <? m_class m)%Z with false in H by (symmetry; apply Z.ltb_ge; exact H1).
  assert (B : is_binary (m_obj m) = true) by (destruct H2 as [-> | ->]; reflexivity). rewrite B in H.
  injection H as <-. cbn [map]. eexists. split; [reflexivity|].
  exact (sigmoid_close _).
Qed.
Theorem C121_classes (m : gmodel RNum) (x : list R) fuel (p : list R) : (2 < m_class m)%Z -> @simple_single RNum fuel m x = Some (Ok p) ->
  exists raw : list R, @simple_raw RNum fuel m x = Some (Ok raw) /\ p = map (softmax_of raw) raw
    /\ (forall v, In v p -> (0 < v)%R) /\ Rsum p = 1%R /\ List.length p = Z.to_nat (m_class m).
Proof.
  intros H1 H. unfold simple_single, omap, option_map, rmap in H. destruct (simple_raw fuel m x) as [[raw| |]|] eqn:E; try discriminate.
  unfold simple_raw, omap, option_map, rmap in E. destruct (sequence _ _) as [[outs| |]|] eqn:S; try discriminate.
  assert (C : outputs_count m = Z.to_nat (m_class m)) by (unfold outputs_count; replace (2 <? m_class m)%Z with true by (symmetry; apply Z.ltb_lt; exact H1); reflexivity).
  exists raw. split; [reflexivity|].
  destruct (C121_scores m x fuel outs (sequence_inv _ _ _ S)) as (raw' & R1 & R2 & _).
  unfold simple_raw, omap, option_map, rmap in R1. rewrite S in R1. rewrite E in R1. injection R1 as <-.
  replace (2 <? m_class m)%Z with true in R2 by (symmetry; apply Z.ltb_lt; exact H1).
  assert (Hn : raw <> []) by (destruct raw; [cbn in R2; lia|discriminate]).
  unfold simple_transform in H. replace (2 <? m_class m)%Z with true in H by (symmetry; apply Z.ltb_lt; exact H1). injection H as <-.
  rewrite (leaves_softmax_R raw Hn). destruct (C58_softmax_probabilities raw Hn) as (P1 & P2 & _). split; [reflexivity|]. split; [|split; [exact P2|now rewrite map_length]].
  intros v Hv. apply in_map_iff in Hv as (w & <- & _). apply P1.
Qed.
Print Assumptions C121_tree.
Print Assumptions C121_same_leaf.
Print Assumptions C121_text.
Print Assumptions C121_constant.
Print Assumptions C121_scores.
Print Assumptions C121_columns.
Print Assumptions C121_rows.
Print Assumptions C121_plain.
Print Assumptions C121_binary.
Print Assumptions C121_classes.

(** ** Examples *)
Example C121_example : shown (simple_tree 2 arr2 [f 1 2]) = Some (Ok (fs (times_rate (gt_shrink arr2) (leaf_of tarr2 [f 1 2]))))
  /\ ends_missing tree3 [f 1 1; f64_nan] = true /\ ends_missing tree3 [f64_nan; f 1 1] = false.
Proof. split; [|split]; vm_compute; reflexivity. Qed.
(** The file of [doc3] has shrinkage 1/2 and leaf values that contain it already: for the sample (1, 5) the file's tree and
    LeavesPredictor answer 4, SimplePredictor adds 2. *)
Theorem C121_shrunk_twice_refuted : exists (d : tdoc F0) t T T' x, well_formed d t /\ finalize false d = Ok T /\ read_tree false d = Some (Ok T')
  /\ shown (lpredict tz (f 0 1) 3 T' x) = Some (Ok (fs (f 4 1))) /\ fs (leaf_of t x) = fs (f 4 1)
  /\ shown (simple_tree 4 T x) = Some (Ok (fs (f 2 1))).
Proof.
  destruct (finalize false doc3) as [T| |] eqn:E; [|discriminate|discriminate].
  destruct (read_tree false doc3) as [[T'| |]|] eqn:E'; [|discriminate|discriminate|discriminate].
  exists doc3, tree3, T, T', [f 1 1; f 5 1]. split; [exact doc3_wf|]. split; [exact E|]. split; [exact E'|].
  split; [|split].
  - assert (K : match read_tree false doc3 with Some (Ok T') => shown (lpredict tz (f 0 1) 3 T' [f 1 1; f 5 1]) | _ => None end = Some (Ok (fs (f 4 1)))) by (vm_compute; reflexivity).
    now rewrite E' in K.
  - vm_compute. reflexivity.
  - assert (K : match finalize false doc3 with Ok T => shown (simple_tree 4 T [f 1 1; f 5 1]) | _ => None end = Some (Ok (fs (f 2 1)))) by (vm_compute; reflexivity).
    now rewrite E in K.
Qed.
(** A NaN in the last test of a file's tree: LeavesPredictor answers the default leaf 3, SimplePredictor 0. *)
Theorem C121_missing_refuted : exists (d : tdoc F0) t T T' x, well_formed d t /\ finalize false d = Ok T /\ read_tree false d = Some (Ok T')
  /\ shown (lpredict tz (f 0 1) 3 T' x) = Some (Ok (fs (f 3 1))) /\ fs (leaf_of t x) = fs (f 3 1)
  /\ shown (simple_tree 4 T x) = Some (Ok (fs (f 0 1))).
Proof.
  destruct (finalize false doc3) as [T| |] eqn:E; [|discriminate|discriminate].
  destruct (read_tree false doc3) as [[T'| |]|] eqn:E'; [|discriminate|discriminate|discriminate].
  exists doc3, tree3, T, T', [f 1 1; f64_nan]. split; [exact doc3_wf|]. split; [exact E|]. split; [exact E'|].
  split; [|split].
  - assert (K : match read_tree false doc3 with Some (Ok T') => shown (lpredict tz (f 0 1) 3 T' [f 1 1; f64_nan]) | _ => None end = Some (Ok (fs (f 3 1)))) by (vm_compute; reflexivity).
    now rewrite E' in K.
  - vm_compute. reflexivity.
  - assert (K : match finalize false doc3 with Ok T => shown (simple_tree 4 T [f 1 1; f64_nan]) | _ => None end = Some (Ok (fs (f 0 1)))) by (vm_compute; reflexivity).
    now rewrite E in K.
Qed.
(** Categorical nodes are read as numeric ones: Tree.Predict finds the category 2 on the left, SimplePredictor compares 2 with
    the threshold 0 and goes right. *)
Definition cat_tree : gtree F0 :=
  mkgt [mkgn 1 2 TCat 0 (f 0 1) [2]%Z false (f 0 1) (f 0 1) (f 0 1); mkgn (-1) (-1) TLeaf 0 (f 0 1) [] false (f 0 1) (f 5 1) (f 0 1);
        mkgn (-1) (-1) TLeaf 0 (f 0 1) [] false (f 0 1) (f 7 1) (f 0 1)] [] (f 1 1) (f 0 1) 2.
Theorem C121_categories_refuted : exists (T : gtree F0) (toint : F0 -> Z) x, toint (f 2 1) = 2%Z /\ x = [f 2 1]
  /\ shown (tree_predict toint 3 T x) = Some (Ok (fs (f 5 1))) /\ shown (simple_tree 3 T x) = Some (Ok (fs (f 7 1))).
Proof. exists cat_tree, (fun _ => 2%Z), [f 2 1]. split; [reflexivity|]. split; [reflexivity|]. split; vm_compute; reflexivity. Qed.
