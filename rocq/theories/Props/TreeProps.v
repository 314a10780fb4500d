(** C33, C34, C67-C72 - sklearn/tree/tree.go. *)
From Coq Require Import String List Arith ZArith Bool Lia Reals Lra Permutation.
From Flocq Require Import Core.Core IEEE754.BinarySingleNaN.
From Verif Require Import Base.Num Base.GoRes Base.Mat Base.ListX Base.GoSort Base.RTac
  Model.NaiveBayes Model.Tree Spec.Tree Proofs.TreeP Proofs.TreeRP.
Import ListNotations.
Local Open Scope list_scope.

(** ** C33.  Growth limits *)

(** The recursion of buildTree ends by itself, whatever the options (any arithmetic,
    any sorting function). *)
Theorem C33_terminates : forall (N : Num) toint log2 sortv (o : topts N) (X y : matrix N),
  nrows X = nrows y ->
  build log2 sortv (S (nrows X)) o (List.length (classes_of toint y)) (mcols X)
    (indexed (classes_of toint y) (training toint X y)) 0 (repeat n0 (mcols X)) <> None.
Proof.
  intros N toint log2 sortv o X y H.
  destruct (build_some log2 sortv o (List.length (classes_of toint y)) (mcols X) (S (nrows X))
     (indexed (classes_of toint y) (training toint X y)) 0 (repeat n0 (mcols X))) as [r [-> _]]; [|discriminate].
  rewrite indexed_length, training_length by assumption. lia.
Qed.

(** With a positive min-samples-leaf Fit succeeds, and every node of the tree respects
    the limits. *)
Theorem C33_growth : forall (N : Num) toint log2 sortv (o : topts N) (X y : matrix N) s,
  wf X -> nrows X = nrows y -> mcols y = 1 -> 1 <= nrows X -> (1 <= p_minleaf o)%Z ->
  exists s' T, dt_fit toint log2 sortv o X y s = (s', Ok tt) /\ t_tree s' = Some T /\
  (forall sub S d, region T (training toint X y) 0 sub S d ->
     S <> [] /\ i_n (info sub) = List.length S /\ i_depth (info sub) = d
     /\ ((0 < p_maxdepth o)%Z -> (Z.of_nat d <= p_maxdepth o)%Z)
     /\ ((p_minleaf o <= Z.of_nat (nrows X))%Z -> (p_minleaf o <= Z.of_nat (List.length S))%Z)
     /\ match sub with
        | Leaf _ => True
        | Split _ f _ _ _ => f < mcols X /\ (p_minsplit o <= Z.of_nat (List.length S))%Z
        end).
Proof.
  intros N toint log2 sortv o X y s Hw H1 H2 Hn Hm.
  destruct (build_some log2 sortv o (List.length (classes_of toint y)) (mcols X) (S (nrows X))
     (indexed (classes_of toint y) (training toint X y)) 0 (repeat n0 (mcols X))) as [r [Eb Hr]].
  { rewrite indexed_length, training_length by assumption. lia. }
  destruct (Hr Hm) as [t [imps ->]].
  assert (Ef := fit_build toint log2 sortv o X y s H1 H2). rewrite Eb in Ef.
  destruct (fit_region _ _ _ _ _ _ _ _ Hw Ef) as [T [ET [_ [_ [_ [_ [Hsh HR]]]]]]].
  eexists; exists T. split; [exact Ef|]. split; [exact ET|].
  intros sub S d Hreg. destruct (HR _ _ _ Hreg) as [Hl [Ho [Hs [Hne Hsm]]]].
  split; [auto|]. rewrite (shape_info _ _ _ _ _ _ _ _ Hs). cbn [i_n i_depth rinfo]. rewrite indexed_length.
  split; [reflexivity|]. split; [reflexivity|]. split; [|split].
  - intros Hmd.
    assert (Hri : rows_ok (mcols X) (indexed (classes_of toint y) (training toint X y))).
    { intros r0 Hr0. apply in_map_iff in Hr0. destruct Hr0 as [s0 [<- Hs0]]. cbn [fst]. now apply (training_rows_ok toint X y Hw). }
    destruct (max_depth_region log2 sortv o _ _ T _ 0 Hri Hsh) as [_ Hb].
    assert (Hd := Hb _ _ _ (region_map (label_index (classes_of toint y)) _ _ _ _ _ _ Hreg)).
    assert (Hb' := shape_depth _ _ _ _ _ _ _ _ Hsh Hmd ltac:(lia)). lia.
  - intros Hml. unfold small in Hsm. rewrite !indexed_length in Hsm. rewrite training_length in Hsm by assumption.
    apply Z.ltb_ge. apply Hsm. now apply Z.ltb_ge.
  - destruct sub as [i|i f thr l r]; [exact I|]. cbn [shape] in Hs. destruct Hs as [_ [Hst [_ [Hf _]]]]. split; [exact Hf|].
    unfold should_stop in Hst. apply orb_false_iff in Hst. destruct Hst as [Hst _].
    apply orb_false_iff in Hst. destruct Hst as [_ Hst]. rewrite indexed_length in Hst. now apply Z.ltb_ge in Hst.
Qed.

(** GetDepth is the depth of the deepest leaf; there are at most as many leaves as samples. *)
Theorem C33_depth_leaves : forall (N : Num) toint log2 sortv (o : topts N) (X y : matrix N) s s' T,
  wf X -> 1 <= nrows X -> dt_fit toint log2 sortv o X y s = (s', Ok tt) -> t_tree s' = Some T ->
  (exists i S, region T (training toint X y) 0 (Leaf i) S (dt_depth s'))
  /\ (forall sub S d, region T (training toint X y) 0 sub S d -> d <= dt_depth s')
  /\ 1 <= dt_leaves s' <= nrows X.
Proof.
  intros N toint log2 sortv o X y s s' T Hw Hn Ef ET.
  destruct (fit_region _ _ _ _ _ _ _ _ Hw Ef) as [T' [ET' [_ [_ [_ [E1 [Hsh HR]]]]]]].
  rewrite ET in ET'. injection ET' as <-. unfold dt_depth, dt_leaves. rewrite ET.
  assert (Hri : rows_ok (mcols X) (indexed (classes_of toint y) (training toint X y))).
  { intros r0 Hr0. apply in_map_iff in Hr0. destruct Hr0 as [s0 [<- Hs0]]. cbn [fst]. now apply (training_rows_ok toint X y Hw). }
  split; [|split; [|split]].
  - clear - Hsh Hri. assert (G : forall (t : tree N) (S : list (tsample N Z)) d rows, 
       shape log2 sortv o (List.length (classes_of toint y)) (mcols X) rows d t ->
       exists i S', region t S d (Leaf i) S' (max_depth t)).
    { induction t as [i|i f thr l IHl r IHr]; intros S d rows H; cbn [shape max_depth] in *.
      - destruct H as [-> _]. exists (rinfo log2 o (List.length (classes_of toint y)) rows d), S. cbn. constructor.
      - destruct H as [_ [_ [_ [_ [_ [_ [_ [_ [H1 H2]]]]]]]]]. destruct (max_depth r <? max_depth l).
        + destruct (IHl (left_of f thr S) _ _ H1) as [i1 [S1 R1]]. exists i1, S1. now apply region_left.
        + destruct (IHr (right_of f thr S) _ _ H2) as [i1 [S1 R1]]. exists i1, S1. now apply region_right. }
    exact (G _ _ _ _ Hsh).
  - intros sub S d Hreg. destruct (max_depth_region log2 sortv o _ _ T _ 0 Hri Hsh) as [_ Hb].
    exact (Hb _ _ _ (region_map (label_index (classes_of toint y)) _ _ _ _ _ _ Hreg)).
  - destruct T; cbn [count_leaves]; [lia|]. assert (0 < count_leaves T1); [|lia]. clear. induction T1; cbn; lia.
  - assert (L := indexed_length (classes_of toint y) (training toint X y)). rewrite training_length in L by assumption.
    rewrite <- L. apply (leaves_bound _ _ _ _ _ _ _ _ Hsh). intros E0. rewrite E0 in L. cbn in L. lia.
Qed.

(** ** C34.  Prediction *)

(** Every training sample is sent by prediction to the leaf it was counted in; the leaves
    partition the training data. *)
Theorem C34_routing : forall (N : Num) toint log2 sortv (o : topts N) (X y : matrix N) s s' T,
  wf X -> dt_fit toint log2 sortv o X y s = (s', Ok tt) -> t_tree s' = Some T ->
  exists Ls : list (ninfo N * list (tsample N Z) * nat),
    List.length Ls = dt_leaves s'
    /\ Permutation (training toint X y) (concat (map (fun x => snd (fst x)) Ls))
    /\ forall i S d, In (i, S, d) Ls -> region T (training toint X y) 0 (Leaf i) S d
         /\ i_n i = List.length S /\ i_counts i = map (occurs S) (t_classes s')
         /\ forall x c, In (x, c) S -> descend T x = Ok i.
Proof.
  intros N toint log2 sortv o X y s s' T Hw Ef ET.
  destruct (fit_region _ _ _ _ _ _ _ _ Hw Ef) as [T' [ET' [_ [Ec [_ [E1 [Hsh HR]]]]]]].
  rewrite ET in ET'. injection ET' as <-.
  destruct (leaves_partition T (training toint X y) 0) as [Ls [L1 [L2 L3]]].
  exists Ls. unfold dt_leaves. rewrite ET. split; [exact L1|]. split; [exact L3|].
  intros i S d Hin. assert (Hreg := L2 _ _ _ Hin). destruct (HR _ _ _ Hreg) as [Hl [Ho [Hs _]]].
  assert (Hi := shape_info _ _ _ _ _ _ _ _ Hs). cbn [info] in Hi.
  split; [exact Hreg|]. split; [rewrite Hi; cbn; apply indexed_length|].
  split; [rewrite Hi; cbn; rewrite Ec; apply counts_occurs; [apply tree_classes_nodup|exact Hl]|].
  apply (descend_region (mcols X) _ _ _ _ _ _ Hreg); [|now apply training_rows_ok].
  eapply shape_features; exact Hsh.
Qed.

(** Predict: every row of a matrix with the training width gets the most frequent label,
    the smallest on ties, among the training samples of its leaf. *)
Theorem C34_predict : forall (N : Num) toint log2 sortv (o : topts N) (X y : matrix N) s s' T (X' : matrix N),
  wf X -> 1 <= nrows X -> dt_fit toint log2 sortv o X y s = (s', Ok tt) -> t_tree s' = Some T ->
  wf X' -> mcols X' = mcols X -> 1 <= nrows X' ->
  exists out, dt_predict s' X' = Ok out /\
  Forall2 (fun x v => exists i S d c, lands T x i /\ region T (training toint X y) 0 (Leaf i) S d
                      /\ most_frequent S c /\ v = nofZ c) (mrows X') out.
Proof.
  intros N toint log2 sortv o X y s s' T X' Hw Hn Ef ET HX' Hc Hn'.
  destruct (fit_region _ _ _ _ _ _ _ _ Hw Ef) as [T' [ET' [Hfit [Ec [_ [E1 [Hsh HR]]]]]]].
  rewrite ET in ET'. injection ET' as <-. unfold dt_predict. rewrite Hfit, ET. cbn [negb].
  unfold newdense. destruct (Nat.eqb_spec (nrows X') 0); [lia|]. cbn [orb Nat.eqb bind].
  apply mapM_Forall2. intros x Hx.
  destruct (descend_features (mcols X) T x) as [i [Ed Hl]].
  { eapply shape_features; exact Hsh. }
  { rewrite (HX' x Hx). lia. }
  rewrite Ed. cbn [bind].
  destruct (lands_region T x i Hl (training toint X y) 0) as [S [d [Hreg _]]].
  destruct (HR _ _ _ Hreg) as [Hlab [Ho [Hs [Hne _]]]].
  assert (Hi := shape_info _ _ _ _ _ _ _ _ Hs). cbn [info] in Hi. rewrite Hi. cbn [i_pred rinfo].
  rewrite counts_occurs by (auto; apply tree_classes_nodup). rewrite Ec.
  destruct (majority_label (N := N) (classes_of toint y) (tree_classes_nodup _) S Hlab (Hne Hn)) as [c [Em Hmf]].
  { intros. eapply tree_classes_sorted; eauto. }
  rewrite Em. exists (nofZ c). split; [reflexivity|]. exists i, S, d, c. auto.
Qed.

(** PredictProba: the fractions of the training samples in the leaf, class by class. *)
Theorem C34_proba : forall (N : Num) toint log2 sortv (o : topts N) (X y : matrix N) s s' T (X' : matrix N),
  wf X -> 1 <= nrows X -> dt_fit toint log2 sortv o X y s = (s', Ok tt) -> t_tree s' = Some T ->
  wf X' -> mcols X' = mcols X -> 1 <= nrows X' ->
  exists out, dt_proba s' X' = Ok out /\
  Forall2 (fun x ps => exists i S d, lands T x i /\ region T (training toint X y) 0 (Leaf i) S d /\ S <> []
                      /\ ps = map (fun c => ndiv (nofnat (occurs S c)) (nofnat (List.length S))) (t_classes s'))
          (mrows X') out.
Proof.
  intros N toint log2 sortv o X y s s' T X' Hw Hn Ef ET HX' Hc Hn'.
  destruct (fit_region _ _ _ _ _ _ _ _ Hw Ef) as [T' [ET' [Hfit [Ec [_ [E1 [Hsh HR]]]]]]].
  rewrite ET in ET'. injection ET' as <-. unfold dt_proba. rewrite Hfit, ET. cbn [negb].
  assert (Hk : List.length (t_classes s') <> 0).
  { rewrite Ec. intros E0. apply length_zero_iff_nil in E0. assert (L := training_length toint X y E1).
    assert (Hlab := training_labelled toint X y). rewrite E0 in Hlab.
    destruct (training toint X y) as [|s0 l]; [cbn in L; lia|]. exact (Hlab s0 (or_introl eq_refl)). }
  unfold newdense. destruct (Nat.eqb_spec (nrows X') 0); [lia|].
  destruct (Nat.eqb_spec (List.length (t_classes s')) 0); [lia|]. cbn [orb bind].
  apply mapM_Forall2. intros x Hx.
  destruct (descend_features (mcols X) T x) as [i [Ed Hl]].
  { eapply shape_features; exact Hsh. }
  { rewrite (HX' x Hx). lia. }
  rewrite Ed. cbn [bind].
  destruct (lands_region T x i Hl (training toint X y) 0) as [S [d [Hreg _]]].
  destruct (HR _ _ _ Hreg) as [Hlab [Ho [Hs [Hne _]]]].
  assert (Hi := shape_info _ _ _ _ _ _ _ _ Hs). cbn [info] in Hi.
  assert (Ei : i_counts i = map (occurs S) (t_classes s')).
  { rewrite Hi. cbn [i_counts rinfo]. rewrite counts_occurs by (auto; apply tree_classes_nodup). now rewrite Ec. }
  rewrite Ei, Ec, (total_occurs (N := N)) by (auto; apply tree_classes_nodup). rewrite <- Ec.
  assert (Hpos : Nat.ltb 0 (List.length S) = true) by (apply Nat.ltb_lt; specialize (Hne Hn); destruct S; [congruence|cbn; lia]).
  rewrite Hpos.
  exists (map (fun c => ndiv (nofnat (occurs S c)) (nofnat (List.length S))) (t_classes s')). split.
  - assert (G : forall pre l, t_classes s' = pre ++ l ->
      mapM (fun j => match nth_error (map (occurs S) (t_classes s')) j with
        | Some c => Ok (ndiv (nofnat c) (nofnat (List.length S))) | None => Panic end)
        (seq (List.length pre) (List.length l))
      = Ok (map (fun c => @ndiv N (nofnat (occurs S c)) (nofnat (List.length S))) l)).
    { intros pre l. revert pre. induction l as [|c l IH]; intros pre E; [reflexivity|].
      cbn [List.length seq mapM map]. rewrite E, map_app, nth_error_app2 by (now rewrite map_length).
      rewrite map_length, Nat.sub_diag. cbn [map nth_error bind].
      specialize (IH (pre ++ [c])). rewrite app_length in IH. cbn [List.length] in IH. rewrite Nat.add_1_r in IH.
      rewrite E, map_app in IH. cbn [map] in IH. rewrite IH by (now rewrite <- app_assoc). reflexivity. }
    exact (G [] _ eq_refl).
  - exists i, S, d. auto.
Qed.
Lemma proba_sums : forall (S : list (tsample RNum Z)) (classes : list Z),
  NoDup classes -> (forall s, In s S -> In (snd s) classes) -> S <> [] ->
  Rsum (map (fun c => INR (occurs S c) / INR (List.length S))%R classes) = 1%R
  /\ forall c, (0 <= INR (occurs S c) / INR (List.length S) <= 1)%R.
Proof.
  intros S classes Hnd Hl Hne.
  assert (Hp : (0 < INR (List.length S))%R) by (apply lt_0_INR; destruct S; [congruence|cbn; lia]).
  split.
  - assert (E : forall cl, Rsum (map (fun c => INR (occurs S c) / INR (List.length S))%R cl)
       = (INR (total (map (occurs S) cl)) / INR (List.length S))%R).
    { induction cl as [|c cl IH]; [cbn; lra|]. cbn [map Rsum]. rewrite total_cons, plus_INR, IH. field. lra. }
    rewrite E, (total_occurs (N := RNum)) by assumption. field. lra.
  - intros c. assert (Ho : occurs S c <= List.length S) by apply filter_length_le. apply le_INR in Ho.
    assert (H0 := pos_INR (occurs S c)). split.
    + apply Rmult_le_pos; [exact H0|]. left. now apply Rinv_0_lt_compat.
    + apply Rmult_le_reg_r with (INR (List.length S)); [exact Hp|]. unfold Rdiv. rewrite Rmult_assoc, Rinv_l; lra.
Qed.
(** Over the reals they are between 0 and 1 and sum to 1. *)
Theorem C34_proba_sums : forall toint log2 sortv (o : topts RNum) (X y : matrix R) s s' T (X' : matrix R),
  wf X -> 1 <= nrows X -> @dt_fit RNum toint log2 sortv o X y s = (s', Ok tt) -> t_tree s' = Some T ->
  wf X' -> mcols X' = mcols X -> 1 <= nrows X' ->
  exists out, @dt_proba RNum s' X' = Ok out /\
  forall ps, In ps out -> List.length ps = List.length (t_classes s') /\ Rsum ps = 1%R /\ forall p, In p ps -> (0 <= p <= 1)%R.
Proof.
  intros toint log2 sortv o X y s s' T X' Hw Hn Ef ET HX' Hc Hn'.
  destruct (C34_proba RNum toint log2 sortv o X y s s' T X' Hw Hn Ef ET HX' Hc Hn') as [out [E F]].
  exists out. split; [exact E|]. intros ps Hps.
  destruct (@fit_region RNum _ _ _ _ _ _ _ _ Hw Ef) as [T' [ET' [_ [Ec [_ [_ [_ HR]]]]]]].
  rewrite ET in ET'. injection ET' as <-.
  assert (H : exists x, (exists i S d, lands T x i /\ region T (training toint X y) 0 (Leaf i) S d /\ S <> []
                      /\ ps = map (fun c => @ndiv RNum (nofnat (occurs S c)) (nofnat (List.length S))) (t_classes s'))).
  { clear - F Hps. induction F as [|x p l l' Hxp _ IH]; [easy|]. destruct Hps as [->|Hps]; [exists x; exact Hxp|auto]. }
  destruct H as [x [i [S [d [_ [Hreg [Hne ->]]]]]]]. destruct (HR _ _ _ Hreg) as [Hlab _].
  rewrite map_length. split; [reflexivity|].
  assert (Em : map (fun c => @ndiv RNum (nofnat (occurs S c)) (nofnat (List.length S))) (t_classes s')
     = map (fun c => INR (occurs S c) / INR (List.length S))%R (t_classes s')).
  { apply map_ext. intros c. rewrite !nofnat_R. reflexivity. }
  rewrite Em, Ec. destruct (proba_sums S (classes_of toint y) (tree_classes_nodup _) Hlab Hne) as [G1 G2].
  split; [exact G1|]. intros p Hp. apply in_map_iff in Hp. destruct Hp as [c [<- _]]. apply G2.
Qed.

(** ** C67.  Splits are the best available ones *)

(** Over the reals, with Gini impurity or entropy: a split node uses the feature and
    threshold with the largest gain among all features and all real thresholds that leave
    min-samples-leaf samples on both sides, and that gain is positive; a leaf was forced
    by a limit, is pure, or no such split has a gain that is positive and reaches
    min_impurity_decrease per sample. *)
Theorem C67_best_splits : forall toint (sortv : list R -> list R) (o : topts RNum) (X y : matrix R) s s' T,
  go_sort Rltb sortv -> wf X -> 1 <= nrows X ->
  @dt_fit RNum toint Rlog2 sortv o X y s = (s', Ok tt) -> t_tree s' = Some T ->
  let allowed S f thr := f < mcols X
     /\ (p_minleaf o <= Z.of_nat (List.length (@left_of RNum Z f thr S)))%Z
     /\ (p_minleaf o <= Z.of_nat (List.length (@right_of RNum Z f thr S)))%Z in
  forall sub S d, region T (training toint X y) 0 sub S d ->
  match sub with
  | Split _ f thr _ _ =>
      allowed S f thr /\ (0 < gain (crit o) S f thr)%R
      /\ (p_mindec o * INR (List.length S) <= gain (crit o) S f thr)%R
      /\ forall f' thr', allowed S f' thr' -> (gain (crit o) S f' thr' <= gain (crit o) S f thr)%R
  | Leaf _ =>
      ((0 < p_maxdepth o)%Z /\ (p_maxdepth o <= Z.of_nat d)%Z)
      \/ (Z.of_nat (List.length S) < p_minsplit o)%Z \/ crit o S = 0%R
      \/ forall f' thr', allowed S f' thr' ->
           (gain (crit o) S f' thr' <= 0 \/ gain (crit o) S f' thr' < p_mindec o * INR (List.length S))%R
  end.
Proof.
  intros toint sortv o X y s s' T Hsort Hw Hn Ef ET allowed sub S d Hreg.
  destruct (@fit_region RNum _ _ _ _ _ _ _ _ Hw Ef) as [T' [ET' [_ [_ [_ [_ [_ HR]]]]]]].
  rewrite ET in ET'. injection ET' as <-. destruct (HR _ _ _ Hreg) as [Hl [Ho [Hs [Hne _]]]]. specialize (Hne Hn).
  set (cl := classes_of toint y) in *. assert (Hnd : NoDup cl) by apply tree_classes_nodup.
  assert (Hp : (0 < INR (List.length S))%R) by (apply lt_0_INR; destruct S; [congruence|cbn; lia]).
  destruct (best_split_R sortv o (List.length cl) (mcols X) Hsort (indexed cl S)
     (@impurity RNum Rlog2 o (class_counts (List.length cl) (indexed cl S)))) as [Hgood Hbest]. cbn zeta in Hgood, Hbest.
  assert (Hadm : forall f thr, allowed S f thr -> adm o (indexed cl S) f thr).
  { intros f thr [Hf [H1 H2]]. unfold adm, small. rewrite (indexed_left _ (mcols X)), (indexed_right _ (mcols X)), !indexed_length by assumption.
    split; now apply Z.ltb_ge. }
  assert (Hdg : forall f thr, f < mcols X -> decr o (List.length cl) (indexed cl S)
     (@impurity RNum Rlog2 o (class_counts (List.length cl) (indexed cl S))) f thr = (gain (crit o) S f thr / INR (List.length S))%R).
  { intros. now apply decr_gain with (nf := mcols X). }
  assert (Hall : forall f thr, allowed S f thr -> (0 < gain (crit o) S f thr)%R ->
    (gain (crit o) S f thr / INR (List.length S) <= snd (@best_split RNum Rlog2 sortv o (List.length cl) (mcols X) (indexed cl S)
     (@impurity RNum Rlog2 o (class_counts (List.length cl) (indexed cl S)))))%R).
  { intros f thr Ha Hg. rewrite <- Hdg by apply Ha. apply Hbest; [apply Ha|now apply Hadm| |].
    - rewrite (indexed_left _ (mcols X)) by (auto; apply Ha). intros E. apply map_eq_nil in E.
      rewrite (gain_trivial o) in Hg; [lra|now left].
    - rewrite (indexed_right _ (mcols X)) by (auto; apply Ha). intros E. apply map_eq_nil in E.
      rewrite (gain_trivial o) in Hg; [lra|now right]. }
  assert (Hdiv : forall a b : R, (a / INR (List.length S) <= b)%R <-> (a <= b * INR (List.length S))%R).
  { intros a b. split; intros H.
    - apply Rmult_le_compat_r with (r := INR (List.length S)) in H; [|lra]. unfold Rdiv in H. rewrite Rmult_assoc, Rinv_l in H; lra.
    - apply Rmult_le_reg_r with (INR (List.length S)); [exact Hp|]. unfold Rdiv. rewrite Rmult_assoc, Rinv_l; lra. }
  destruct sub as [i|i f thr l r]; cbn [shape] in Hs.
  - destruct Hs as [_ [Hst|[bf [thr [dec [Eb Hd]]]]]].
    + unfold should_stop in Hst. apply orb_true_iff in Hst. rewrite orb_true_iff in Hst. destruct Hst as [[Hst|Hst]|Hst].
      * left. apply andb_true_iff in Hst. destruct Hst as [H1 H2]. apply Z.ltb_lt in H1. apply Z.leb_le in H2. auto.
      * right. left. rewrite indexed_length in Hst. now apply Z.ltb_lt in Hst.
      * right. right. left. cbn [neqb RNum rinfo i_imp] in Hst. rewrite counts_occurs in Hst by assumption.
        rewrite impurity_R in Hst by assumption. now apply Reqb_true in Hst.
    + right. right. right. intros f' thr' Ha.
      destruct (Rle_or_lt (gain (crit o) S f' thr') 0) as [H0|H0]; [now left|].
      assert (H1 := Hall f' thr' Ha H0). assert (Eb' : (@best_split RNum Rlog2 sortv o (List.length cl) (mcols X) (indexed cl S) (@impurity RNum Rlog2 o (class_counts (List.length cl) (indexed cl S)))) = (bf, thr, dec)) by exact Eb.
      rewrite Eb' in Hgood, H1. cbn [snd] in H1.
      apply Hdiv in H1. destruct Hd as [->|Hd].
      * destruct Hgood as [[_ E0]|[f1 [t1 [E0 _]]]]; [|discriminate]. cbn [snd] in E0. rewrite E0 in H1. lra.
      * right. cbn [nlt RNum] in Hd. apply Rltb_true in Hd. apply Rle_lt_trans with (1 := H1). now apply Rmult_lt_compat_r.
  - destruct Hs as [_ [_ [[dec [Eb Hd]] [Hf [HL [HR' _]]]]]]. 
    assert (Eb' : (@best_split RNum Rlog2 sortv o (List.length cl) (mcols X) (indexed cl S) (@impurity RNum Rlog2 o (class_counts (List.length cl) (indexed cl S)))) = (Some f, thr, dec)) by exact Eb.
    rewrite Eb' in Hgood. rewrite Eb' in Hall.
    destruct Hgood as [[E0 _]|[f1 [t1 [E0 [_ [Hpos _]]]]]]; [discriminate|]. injection E0 as <- <- ->.
    rewrite Hdg in Hpos, Hall, Hd by assumption. cbn [snd] in Hall.
    assert (Hg : (0 < gain (crit o) S f thr)%R).
    { apply Rmult_lt_compat_r with (r := INR (List.length S)) in Hpos; [|exact Hp]. unfold Rdiv in Hpos. rewrite Rmult_assoc, Rinv_l in Hpos; lra. }
    split; [|split; [exact Hg|split]].
    + unfold small in HL, HR'. rewrite (indexed_left _ (mcols X)), indexed_length in HL by assumption.
      rewrite (indexed_right _ (mcols X)), indexed_length in HR' by assumption.
      split; [exact Hf|]. split; now apply Z.ltb_ge.
    + cbn [nlt RNum] in Hd. apply Rltb_false in Hd.
      apply Rmult_le_compat_r with (r := INR (List.length S)) in Hd; [|lra]. unfold Rdiv in Hd. rewrite Rmult_assoc, Rinv_l in Hd; lra.
    + intros f' thr' Ha. destruct (Rle_or_lt (gain (crit o) S f' thr') 0) as [H0|H0]; [lra|].
      specialize (Hall f' thr' Ha H0). apply Hdiv in Hall. unfold Rdiv in Hall. rewrite Rmult_assoc, Rinv_l in Hall; lra.
Qed.

(** ** C69.  Feature importances *)
Theorem C69_importances : forall toint (sortv : list R -> list R) (o : topts RNum) (X y : matrix R) s s' T,
  go_sort Rltb sortv -> wf X -> 1 <= nrows X ->
  @dt_fit RNum toint Rlog2 sortv o X y s = (s', Ok tt) -> t_tree s' = Some T ->
  exists v : list R, t_imps s' = Some v /\ List.length v = mcols X
  /\ (forall p, In p v -> (0 <= p)%R)
  /\ match T with
     | Leaf _ => forall p, In p v -> p = 0%R
     | Split _ _ _ _ _ =>
         Rsum v = 1%R
         /\ exists tot, (0 < tot)%R /\ forall f, f < mcols X ->
              nth_error v f = Some (total_gain (crit o) T (training toint X y) f / tot)%R
     end.
Proof.
  intros toint sortv o X y s s' T Hsort Hw Hn Ef ET. assert (Ef' := Ef).
  apply (@fit_inv RNum) in Ef'. destruct Ef' as [E1 [_ [t [imps [Eb Es]]]]]. rewrite Es in ET |- *. cbn [t_tree t_imps] in *.
  injection ET as ->.
  destruct (build_imps sortv o (classes_of toint y) (mcols X) (S (nrows X)) (tree_classes_nodup _) Hsort
    (training toint X y) 0 (repeat 0%R (mcols X)) T imps) as [H1 [H2 [H3 H4]]].
  { apply training_labelled. }
  { now apply (@training_rows_ok RNum). }
  { intros E0. assert (L := @training_length RNum toint X y E1). rewrite E0 in L. cbn in L. lia. }
  { exact Eb. }
  assert (Hlen : List.length imps = mcols X) by (rewrite H1; unfold mapi; now rewrite mapi_from_length, repeat_length).
  assert (Hnth : forall f, f < mcols X -> nth_error imps f = Some (total_gain (crit o) T (training toint X y) f)).
  { intros f Hf. rewrite H1. unfold mapi. rewrite nth_error_mapi_from. rewrite nth_error_repeat by assumption. cbn. f_equal. lra. }
  assert (Hin : forall p, In p imps -> (0 <= p)%R).
  { intros p Hp. apply In_nth_error in Hp. destruct Hp as [f Ef1]. assert (Hf : f < mcols X) by (rewrite <- Hlen; apply nth_error_Some; unR; congruence).
    rewrite (Hnth f Hf) in Ef1. injection Ef1 as <-. apply H2. }
  assert (Hs0 := Rsum_nonneg imps Hin).
  exists (@normalize_imps RNum imps). split; [reflexivity|].
  unfold normalize_imps. rewrite nsum_R. cbn [nlt n0 ndiv RNum].
  destruct (Rltb_spec 0 (Rsum imps)) as [Hpos|Hneg].
  - split; [now rewrite map_length|]. split.
    + intros p Hp. apply in_map_iff in Hp. destruct Hp as [q [<- Hq]]. apply Rmult_le_pos; [now apply Hin|]. left. now apply Rinv_0_lt_compat.
    + destruct T as [i|i f thr l r].
      * exfalso. assert (Rsum imps = 0%R); [|lra]. clear - H1. cbn [total_gain] in H1. rewrite H1. clear H1. generalize (mcols X) as m.
        intros m. assert (G : forall k, Rsum (mapi_from k (fun (f : nat) (v : R) => (v + 0)%R) (repeat 0%R m)) = 0%R).
        { induction m as [|m IH]; intros k; cbn [repeat mapi_from Rsum]; [reflexivity|]. rewrite IH. lra. }
        apply G.
      * split.
        { assert (G : forall l0 c, c <> 0%R -> Rsum (map (fun v => v / c)%R l0) = (Rsum l0 / c)%R).
          { induction l0 as [|a l0 IH]; intros c Hc; cbn [map Rsum]; [field; exact Hc|]. rewrite IH by assumption. field. exact Hc. }
          etransitivity; [apply (G imps (Rsum imps)); lra|]. field. lra. }
        exists (Rsum imps). split; [exact Hpos|]. intros f' Hf'.
        etransitivity; [apply nth_error_map|]. rewrite (Hnth f' Hf'). reflexivity.
  - assert (E0 : Rsum imps = 0%R) by lra. split; [exact Hlen|]. split; [exact Hin|].
    destruct T as [i|i f thr l r]; [now apply Rsum_nonneg_eq0|].
    exfalso. assert (Hf : f < mcols X).
    { destruct (le_lt_dec (mcols X) f) as [Hc|Hc]; [rewrite (H3 f Hc) in H4; lra|exact Hc]. }
    assert (Hz := Rsum_nonneg_eq0 imps Hin E0 _ (nth_error_In _ _ (Hnth f Hf))). rewrite Hz in H4. lra.
Qed.

(** ** C70.  Predict does not check the number of columns *)
Lemma nth_error_firstn_lt {A} n (l : list A) i : i < n -> nth_error (firstn n l) i = nth_error l i.
Proof. revert n i. induction l as [|a l IH]; intros [|n] [|i] H; cbn; try lia; auto. apply IH. lia. Qed.
Definition first_columns {A} (w : nat) (X : matrix A) : matrix A := mkmat w (map (firstn w) (mrows X)).

(** Extra columns are ignored, missing ones only matter when a visited node tests them -
    and then Predict panics; a fitted tree never reports a dimension error. *)
Theorem C70_width_unchecked : forall (N : Num) toint log2 sortv (o : topts N) (X y : matrix N) s s' (X' : matrix N),
  wf X -> dt_fit toint log2 sortv o X y s = (s', Ok tt) -> wf X' ->
  (mcols X <= mcols X' -> dt_predict s' X' = dt_predict s' (first_columns (mcols X) X'))
  /\ forall e, dt_predict s' X' <> Err e.
Proof.
  intros N toint log2 sortv o X y s s' X' Hw Ef HX'.
  destruct (fit_region _ _ _ _ _ _ _ _ Hw Ef) as [T [ET [Hfit [_ [_ [_ [Hsh _]]]]]]].
  apply shape_features in Hsh. unfold dt_predict. rewrite Hfit, ET. cbn [negb]. split.
  - intros Hc. unfold nrows. cbn [mrows first_columns]. rewrite map_length.
    destruct (newdense _ _) as [?|?|]; cbn [bind]; try reflexivity.
    induction (mrows X') as [|x l IH]; [reflexivity|]. cbn [map mapM].
    assert (Ed : descend T (firstn (mcols X) x) = descend T x).
    { clear - Hsh. induction T as [i|i f thr l IHl r IHr]; [reflexivity|]. cbn [descend features_ok] in *.
      rewrite nth_error_firstn_lt by lia.
      destruct (nth_error x f); [|reflexivity]. destruct (nle n thr); [apply IHl|apply IHr]; tauto. }
    rewrite Ed, IH. reflexivity.
  - intros e. unfold newdense. destruct (_ || _); cbn [bind]; [discriminate|].
    clear. induction (mrows X') as [|x l IH]; cbn [mapM]; [discriminate|].
    assert (Hd : exists i, descend T x = Ok i \/ descend T x = Panic).
    { clear. induction T as [i|i f thr l IHl r IHr]; [exists i; now left|]. cbn [descend].
      destruct (nth_error x f); [|exists i; now right]. destruct (nle n thr); assumption. }
    destruct Hd as [i [->| ->]]; cbn [bind]; [|discriminate].
    destruct (nth_error (t_classes s') (i_pred i)); cbn [bind]; [|discriminate].
    destruct (mapM _ l) as [?|e'|]; cbn [bind]; try discriminate. congruence.
Qed.

(** ** C71.  SetParams *)

(** When all names are known and all values have the expected type, SetParams succeeds
    whatever the order of the map iteration, with the same result, and GetParams then
    returns the new values and keeps the others ([key_value]: the value GetParams gives). *)
Theorem C71_set_params : forall (N : Num) (es es' : list (string * pval N)) (o : topts N),
  Forall entry_ok es -> NoDup (map fst es) -> Permutation es es' ->
  exists o', set_params es o = (o', Ok tt) /\ set_params es' o = (o', Ok tt)
  /\ (forall k v, In (k, v) es -> key_value o' k = Some v)
  /\ (forall k, ~ In k (map fst es) -> key_value o' k = key_value o k).
Proof.
  intros N es es' o H Hnd Hp.
  assert (Ffind : forall l : list (string * pval N), NoDup (map fst l) -> forall k v, In (k, v) l ->
     find (fun kv => String.eqb k (fst kv)) l = Some (k, v)).
  { induction l as [|[k0 v0] l IH]; intros Hn k v Hin; [easy|]. cbn [find map fst] in *. inversion Hn as [|? ? N1 N2]; subst.
    destruct (String.eqb_spec k k0) as [->|Hk].
    - destruct Hin as [E|Hin]; [now rewrite E|]. exfalso. apply N1. apply in_map_iff. now exists (k0, v).
    - destruct Hin as [E|Hin]; [congruence|]. now apply IH. }
  assert (Fnone : forall (l : list (string * pval N)) k, ~ In k (map fst l) -> find (fun kv => String.eqb k (fst kv)) l = None).
  { induction l as [|[k0 v0] l IH]; intros k Hk; [reflexivity|]. cbn [find map fst] in *.
    destruct (String.eqb_spec k k0) as [->|]; [exfalso; apply Hk; now left|]. apply IH. intros Hc. apply Hk. now right. }
  destruct (set_params_ok es o H Hnd) as [o1 [E1 K1]].
  assert (Hnd' : NoDup (map fst es')) by (eapply Permutation_NoDup; [apply Permutation_map; exact Hp|exact Hnd]).
  destruct (set_params_ok es' o) as [o2 [E2 K2]]; [now rewrite <- Hp|exact Hnd'|].
  assert (o1 = o2) as <-.
  { apply key_value_ext. intros k. rewrite K1, K2. destruct (in_dec string_dec k (map fst es)) as [Hk|Hk].
    - apply in_map_iff in Hk. destruct Hk as [[k' v] [<- Hin]]. cbn [fst].
      rewrite (Ffind es Hnd _ _ Hin), (Ffind es' Hnd' k' v); [reflexivity|]. now rewrite <- Hp.
    - rewrite (Fnone es k Hk), (Fnone es' k); [reflexivity|]. intros Hc. apply Hk. now rewrite Hp. }
  exists o1. split; [exact E1|]. split; [exact E2|]. split.
  - intros k v Hin. now rewrite K1, (Ffind es Hnd _ _ Hin).
  - intros k Hk. now rewrite K1, (Fnone es k Hk).
Qed.

(** A refused call may have changed the model, depending on the iteration order. *)
Theorem C71_refused_call_changes_refuted : exists (es es' : list (string * pval F0)) (o o1 o2 : topts F0) e,
  Permutation es es' /\ NoDup (map fst es)
  /\ set_params es o = (o1, Err e) /\ o1 <> o
  /\ set_params es' o = (o2, Err e) /\ o2 = o.
Proof.
  exists [("max_depth"%string, VInt 3); ("bogus"%string, VInt 1)], [("bogus"%string, VInt 1); ("max_depth"%string, VInt 3)],
    topts_default, (mktopts "gini" 3 2 1 "auto" 0 n0 (-1)), topts_default, (EOther 4).
  split; [apply perm_swap|]. split; [|split; [reflexivity|split; [intros E; apply (f_equal p_maxdepth) in E; discriminate|split; reflexivity]]].
  repeat constructor; cbn; intuition discriminate.
Qed.

(** ** C72.  max_leaf_nodes, max_features and random_state have no effect *)
Theorem C72_ignored_options : forall (N : Num) toint log2 sortv (o o' : topts N) (X y : matrix N) s,
  same_used o o' -> dt_fit toint log2 sortv o X y s = dt_fit toint log2 sortv o' X y s.
Proof.
  intros. unfold dt_fit. destruct (Nat.eqb (nrows X) (nrows y)); [|reflexivity]. destruct (Nat.eqb (mcols y) 1); [|reflexivity].
  cbn [negb]. now rewrite (build_same_used _ _ o o').
Qed.

(** ** Concrete runs in IEEE arithmetic *)
Lemma wf_check {A} (X : matrix A) : forallb (fun r => Nat.eqb (List.length r) (mcols X)) (mrows X) = true -> wf X.
Proof. intros H r Hr. rewrite forallb_forall in H. specialize (H r Hr). now apply Nat.eqb_eq in H. Qed.
Definition fz (z : Z) : F0 := f64_ofZ z.
(** int() on the small labels used here *)
Definition toint9 (x : F0) : Z :=
  match find (fun z => Beqb x (f64_ofZ z)) [0; 1; 2]%Z with Some z => z | None => 9%Z end.
Definition run_fit (o : topts F0) (X y : matrix F0) : dt F0 * res unit :=
  dt_fit toint9 (fun x => x) (isort nlt) o X y dt_new.
Definition col (l : list Z) : matrix F0 := mkmat 1 (map (fun z => [fz z]) l).
Definition summary (r : dt F0 * res unit) : option (nat * nat) :=
  match r with (s, Ok tt) => Some (dt_depth s, dt_leaves s) | _ => None end.
Definition predicted (o : topts F0) (X y X' : matrix F0) : option (list SpecFloat.spec_float) :=
  match dt_predict (fst (run_fit o X y)) X' with Ok l => Some (map fs l) | _ => None end.

(** Three separable classes: depth 2, three leaves - also with max_leaf_nodes = 2. *)
Example C33_case : summary (run_fit topts_default (col [0; 1; 2; 2]%Z) (col [0; 1; 2; 2]%Z)) = Some (2, 3).
Proof. vm_compute. reflexivity. Qed.
Example C34_case : predicted topts_default (col [0; 1; 2; 2]%Z) (col [0; 1; 2; 2]%Z) (col [7; 1; 0]%Z)
  = Some [fs (fz 2); fs (fz 1); fs (fz 0)].
Proof. vm_compute. reflexivity. Qed.
Theorem C72_max_leaf_nodes_refuted : exists (o : topts F0) (X y : matrix F0) s',
  (0 < p_maxleafs o)%Z /\ run_fit o X y = (s', Ok tt) /\ (p_maxleafs o < Z.of_nat (dt_leaves s'))%Z.
Proof.
  exists (mktopts "gini" 0 2 1 "auto" 2 n0 (-1)), (col [0; 1; 2; 2]%Z), (col [0; 1; 2; 2]%Z).
  assert (H : summary (run_fit (mktopts "gini" 0 2 1 "auto" 2 n0 (-1)) (col [0; 1; 2; 2]%Z) (col [0; 1; 2; 2]%Z)) = Some (2, 3))
    by (vm_compute; reflexivity).
  destruct (run_fit _ _ _) as [s' [[]|?|]]; try discriminate. exists s'. cbn in H. injection H as _ H. rewrite H.
  split; [reflexivity|]. split; reflexivity.
Qed.

(** min-samples-leaf 0: rounding makes a split with an empty side look profitable (here
    the midpoints overflow) and Fit panics. *)
Definition huge (k : Z) : F0 := f64_mult (f64_ofZ k) (f64_ofZ (2 ^ 1020)).
Theorem C33_zero_min_leaf_refuted : exists (o : topts F0) (X y : matrix F0),
  wf X /\ nrows X = nrows y /\ mcols y = 1 /\ p_minleaf o = 0%Z /\ snd (run_fit o X y) = Panic.
Proof.
  exists (mktopts "gini" 0 2 0 "auto" 0 n0 (-1)), (mkmat 1 [[huge 10]; [huge 12]; [huge 14]]), (col [0; 1; 2]%Z).
  split; [now apply wf_check|]. split; [reflexivity|]. split; [reflexivity|]. split; [reflexivity|].
  vm_compute. reflexivity.
Qed.

(** ** C68.  Unlimited trees need not reproduce consistent training labels *)
(** Four different rows (so no conflicting labels), default options, no limit: the tree is
    a single leaf and two of the four training rows are predicted wrongly. *)
Definition xor_X : matrix F0 := mkmat 2 [[fz 0; fz 0]; [fz 0; fz 1]; [fz 1; fz 0]; [fz 1; fz 1]].
Definition xor_y : matrix F0 := col [0; 1; 1; 0]%Z.
Theorem C68_consistent_data_refuted : exists (X y : matrix F0),
  wf X /\ NoDup (map (map fs) (mrows X)) /\
  predicted topts_default X y X <> Some (map (fun r => fs (hd (@n0 F0) r)) (mrows y)).
Proof.
  exists xor_X, xor_y. split; [now apply wf_check|]. split.
  - assert (E : forall a b : list (list SpecFloat.spec_float), a = b -> NoDup b -> NoDup a) by (intros; subst; assumption).
    eapply E; [vm_compute; reflexivity|]. repeat constructor; cbn; intuition discriminate.
  - assert (E : predicted topts_default xor_X xor_y xor_X = Some [fs (fz 0); fs (fz 0); fs (fz 0); fs (fz 0)]) by (vm_compute; reflexivity).
    rewrite E. vm_compute. discriminate.
Qed.

(** C70: one column instead of two is accepted ... *)
Theorem C70_wrong_width_accepted_refuted : exists (X y X' : matrix F0) s' out,
  wf X /\ wf X' /\ run_fit topts_default X y = (s', Ok tt) /\ mcols X' <> t_nfeat s' /\ dt_predict s' X' = Ok out.
Proof.
  set (X := mkmat 2 [[fz 0; fz 5]; [fz 1; fz 5]] : matrix F0).
  exists X, (col [0; 1]%Z), (col [1]%Z).
  assert (H : exists s', run_fit topts_default X (col [0; 1]%Z) = (s', Ok tt) /\ t_nfeat s' = 2).
  { assert (B : match run_fit topts_default X (col [0; 1]%Z) with (s', Ok tt) => t_nfeat s' = 2 | _ => False end) by (vm_compute; reflexivity).
    destruct (run_fit topts_default X (col [0; 1]%Z)) as [s' [[]|?|]]; try contradiction. now exists s'. }
  assert (P : predicted topts_default X (col [0; 1]%Z) (col [1]%Z) = Some [fs (fz 1)]) by (vm_compute; reflexivity).
  destruct H as [s' [E Ew]]. unfold predicted in P. rewrite E in P. cbn [fst] in P.
  assert (Q : exists out, dt_predict s' (col [1]%Z) = Ok out).
  { revert P. generalize (dt_predict s' (col [1]%Z)) (fs (fz 1)). intros [out|?|] v P; [now exists out|discriminate|discriminate]. }
  destruct Q as [out Eo]. exists s', out.
  split; [now apply wf_check|]. split; [now apply wf_check|].
  split; [exact E|]. split; [rewrite Ew; discriminate|exact Eo].
Qed.
(** ... and when the missing column is tested Predict panics. *)
Example C70_case : dt_predict (fst (run_fit topts_default (mkmat 2 [[fz 5; fz 0]; [fz 5; fz 1]]) (col [0; 1]%Z))) (col [1]%Z) = Panic.
Proof. vm_compute. reflexivity. Qed.

Example C71_case : exists o', set_params [("max_depth"%string, VInt 3); ("criterion"%string, VStr "entropy")] topts_default
    = ((o' : topts F0), Ok tt) /\ p_maxdepth o' = 3%Z /\ p_criterion o' = "entropy"%string.
Proof. eexists. split; [reflexivity|]. split; reflexivity. Qed.

(** C67 and C69 on two samples over the reals: the tree splits in the middle. *)
Lemma isort_R : go_sort Rltb (isort Rltb).
Proof.
  apply isort_go_sort; unfold asym, negtrans; intros; rewrite ?Rltb_true, ?Rltb_false in *; lra.
Qed.
Example C67_case : let S : list (tsample RNum Z) := [([0%R], 0%Z); ([1%R], 1%Z)] in
  gini S = (1 / 2)%R /\ gain (@gini (list R)) S 0 (1 / 2)%R = 1%R.
Proof.
  cbn zeta. assert (E : gini [([0%R], 0%Z); ([1%R], 1%Z)] = (1 / 2)%R) by (unfold gini, share, labels_in, occurs; cbn; field).
  split; [exact E|]. unfold gain. change (list (num RNum)) with (list R). rewrite E. unfold left_of, right_of, goes_left. cbn [filter fst nth_error nle RNum num].
  destruct (Rleb_spec 0 (1 / 2)) as [_|]; [|lra]. destruct (Rleb_spec 1 (1 / 2)) as [|_]; [lra|]. cbn [negb filter].
  unfold split_cost, gini, share, labels_in, occurs. cbn. field.
Qed.

(** The hypotheses of C67 and C69 are met by that data set. *)
Example C67_hyps : let X := mkmat 1 [[0%R]; [1%R]] in
  exists toint s' T, go_sort Rltb (isort Rltb) /\ wf X /\ 1 <= nrows X
  /\ @dt_fit RNum toint Rlog2 (isort Rltb) (@topts_default RNum) X X (@dt_new RNum) = (s', Ok tt) /\ t_tree s' = Some T.
Proof.
  cbn zeta. set (X := mkmat 1 [[0%R]; [1%R]]).
  assert (Hw : wf X) by (intros r [<-|[<-|[]]]; reflexivity).
  set (toint := fun x : R => if Reqb x 0 then 0%Z else 1%Z).
  destruct (C33_growth RNum toint Rlog2 (isort Rltb) (@topts_default RNum) X X (@dt_new RNum) Hw eq_refl eq_refl) as [s' [T [H1 [H2 _]]]].
  - cbn. lia.
  - cbn. lia.
  - exists toint, s', T. split; [exact isort_R|]. split; [exact Hw|]. split; [apply Nat.lt_le_incl; apply Nat.lt_1_2|]. now split.
Qed.

Print Assumptions C33_terminates.
Print Assumptions C33_growth.
Print Assumptions C33_depth_leaves.
Print Assumptions C33_zero_min_leaf_refuted.
Print Assumptions C34_routing.
Print Assumptions C34_predict.
Print Assumptions C34_proba.
Print Assumptions C34_proba_sums.
Print Assumptions C67_best_splits.
Print Assumptions C68_consistent_data_refuted.
Print Assumptions C69_importances.
Print Assumptions C70_width_unchecked.
Print Assumptions C70_wrong_width_accepted_refuted.
Print Assumptions C71_set_params.
Print Assumptions C71_refused_call_changes_refuted.
Print Assumptions C72_ignored_options.
Print Assumptions C72_max_leaf_nodes_refuted.
