(** C28, C29, C30 - sklearn/naive_bayes/multinomial_nb.go. *)
From Coq Require Import List Arith ZArith Bool Lia Reals Lra Permutation Sorted.
From Verif Require Import Base.Num Base.GoRes Base.Mat Base.RTac
  Model.NaiveBayes Spec.NaiveBayes Proofs.NaiveBayesP.
Import ListNotations.
Local Open Scope list_scope.

(** Successive PartialFit calls, stopping at the first error. *)
Fixpoint feed {N : Num} (toint : N -> Z) order (p : params N) (given : option (list Z))
    (bs : list (matrix N * matrix N)) (s : nb N) : nb N * res unit :=
  match bs with
  | [] => (s, Ok tt)
  | (X, y) :: r =>
      match nb_partial_fit toint order p X y given s with
      | (s', Ok _) => feed toint order p given r s'
      | other => other
      end
  end.

(** All batches on top of each other. *)
Definition stacked {A} (cols : nat) (Ms : list (matrix A)) : matrix A := mkmat cols (concat (map mrows Ms)).

(** Acceptable training data: one label per row, no negative feature. *)
Definition acceptable {N : Num} (X y : matrix N) : Prop :=
  nrows X = nrows y /\ mcols y = 1 /\ (forall row v, In row (mrows X) -> In v row -> nlt v n0 = false).

(** ** C28.  Batches *)

(** Any split into batches equals one PartialFit on everything, bit for bit (any
    arithmetic). *)
Theorem C28_batches : forall (N : Num) (toint : N -> Z) order p given nf bs (s : nb N),
  bs <> [] -> (forall X y, In (X, y) bs -> acceptable X y /\ mcols X = nf) ->
  (b_classes s = None -> given <> None) -> (b_classes s <> None -> b_nfeat s = nf) ->
  feed toint order p given bs s =
    nb_partial_fit toint order p (stacked nf (map fst bs)) (stacked 1 (map snd bs)) given s /\
  snd (feed toint order p given bs s) = Ok tt.
Proof.
  intros N toint order p given nf bs s Hne Hbs Hg Hnf.
  assert (Hok : forall X y (s : nb N), acceptable X y -> mcols X = nf -> (b_classes s = None -> given <> None) ->
            (b_classes s <> None -> b_nfeat s = nf) ->
            exists s', nb_partial_fit toint order p X y given s = (s', Ok tt) /\
              b_classes s' <> None /\ b_nfeat s' = nf).
  { clear. intros X y s HA HC Hg Hnf. apply validate_ok in HA. destruct (b_classes s) as [cl|] eqn:E.
    - rewrite (partial_fit_ok toint order p X y given s cl HA E) by (rewrite HC; symmetry; apply Hnf; discriminate).
      eexists. split; [reflexivity|]. destruct (update_model_fields p cl (b_nfeat s)
        (count_batch toint cl (b_ccount s, b_fcount s, b_seen s) X y)) as (-> & -> & _). split; [discriminate|].
      apply Hnf. discriminate.
    - destruct given as [cl|]; [|now destruct (Hg eq_refl)].
      rewrite (partial_fit_first toint order p X y cl s HA E). eexists. split; [reflexivity|].
      destruct (update_model_fields p cl (mcols X)
        (count_batch toint cl (zero_counts (length cl) (mcols X) (b_seen s)) X y)) as (-> & -> & _).
      split; [discriminate|exact HC]. }
  assert (Hst : forall bs, (forall X y, In (X, y) bs -> acceptable X y /\ mcols X = nf) ->
            acceptable (stacked nf (map fst bs)) (stacked (A := N) 1 (map snd bs))).
  { clear. unfold stacked, acceptable, nrows. cbn [mrows mcols].
    induction bs as [|[X y] bs IH]; intros H; cbn [map concat fst snd].
    - split; [reflexivity|]. split; [reflexivity|]. intros row v [].
    - destruct (H X y (or_introl eq_refl)) as [(A1 & A2 & A3) _].
      destruct IH as (B1 & B2 & B3); [intros; apply H; now right|]. unfold nrows in A1.
      rewrite !app_length. split; [lia|]. split; [reflexivity|].
      intros row v Hr. apply in_app_iff in Hr as [Hr|Hr]; eauto. }
  revert s Hg Hnf. induction bs as [|[X y] bs IH]; intros s Hg Hnf; [easy|].
  destruct (Hbs X y (or_introl eq_refl)) as [HA HC].
  destruct (Hok X y s HA HC Hg Hnf) as (s1 & E1 & Hc1 & Hn1).
  cbn [feed]. rewrite E1. destruct bs as [|b bs].
  - cbn [feed snd]. split; [|reflexivity]. unfold stacked. cbn [map concat fst snd]. rewrite !app_nil_r.
    destruct X as [cx rx], y as [cy ry]. cbn [mrows mcols] in *. subst cx.
    destruct HA as (_ & HA & _). cbn [mcols] in HA. subst cy. now symmetry.
  - set (bs' := b :: bs) in *.
    destruct (IH ltac:(discriminate) ltac:(intros; apply Hbs; now right) s1 ltac:(congruence) ltac:(auto)) as [IH1 IH2].
    split; [|exact IH2]. rewrite IH1.
    assert (HS : acceptable (stacked nf (map fst bs')) (stacked 1 (map snd bs')))
      by (apply Hst; intros; apply Hbs; now right).
    pose proof (partial_fit_two toint order p X y (stacked nf (map fst bs')) (stacked 1 (map snd bs')) given s) as T.
    rewrite E1 in T. cbn [fst snd] in T. rewrite T.
    + f_equal; unfold stacked, stack; cbn [mcols mrows map concat fst snd]; f_equal; [congruence|].
      now destruct HA as (_ & -> & _).
    + now apply validate_ok.
    + now apply validate_ok.
    + now rewrite HC.
    + destruct (b_classes s) eqn:E; [left; discriminate|right; now apply Hg].
    + reflexivity.
Qed.

(** Fit on everything equals feeding the batches to a new classifier with the full
    sorted class list, whatever the fitted classifier did before. *)
Theorem C28_fit_is_batches : forall (N : Num) (toint : N -> Z) order p nf bs cl (s0 : nb N),
  (forall l, Permutation (order l) l) ->
  bs <> [] -> (forall X y, In (X, y) bs -> acceptable X y /\ mcols X = nf) ->
  StronglySorted Z.lt cl ->
  (forall c, In c cl <-> exists X y r, In (X, y) bs /\ In r (mrows y) /\ c = toint (nth 0 r n0)) ->
  nb_fit toint order p (stacked nf (map fst bs)) (stacked 1 (map snd bs)) s0 =
  feed toint order p (Some cl) bs nb_empty.
Proof.
  intros N toint order p nf bs cl s0 Ho Hne Hbs HS Hcl.
  destruct (C28_batches N toint order p (Some cl) nf bs nb_empty Hne Hbs ltac:(discriminate) ltac:(easy)) as [E Hok].
  set (X := stacked nf (map fst bs)) in *. set (y := stacked 1 (map snd bs)) in *.
  rewrite E. rewrite E in Hok.
  assert (HV : validate X y = Ok tt).
  { unfold nb_partial_fit in Hok. destruct (validate X y) as [[]|e|]; [reflexivity|discriminate|discriminate]. }
  rewrite (partial_fit_first toint order p X y cl nb_empty HV eq_refl).
  unfold nb_fit. rewrite HV. cbn [b_seen nb_empty].
  destruct (extract_classes_spec order (labels_of toint y) Ho) as [HS' Hin].
  replace (extract_classes order (labels_of toint y)) with cl; [reflexivity|].
  apply sorted_lt_unique; auto. intros c. rewrite Hin, Hcl. unfold labels_of, y, stacked. cbn [mrows].
  rewrite in_map_iff. split.
  - intros (X0 & y0 & r & H1 & H2 & ->). exists r. split; [reflexivity|].
    apply in_concat. exists (mrows y0). split; [|exact H2]. apply in_map, (in_map snd _ _ H1).
  - intros (r & <- & H). apply in_concat in H as (rows & H1 & H2).
    apply in_map_iff in H1 as (y0 & <- & H1). apply in_map_iff in H1 as ([X0 y1] & <- & H1). eauto 7.
Qed.

(** The classes of Fit: the distinct labels in ascending order, for every map order. *)
Theorem C28_classes : forall (N : Num) (toint : N -> Z) order p (X y : matrix N) s0 s,
  (forall l, Permutation (order l) l) -> nb_fit toint order p X y s0 = (s, Ok tt) ->
  exists cl, b_classes s = Some cl /\ StronglySorted Z.lt cl /\
    forall c, In c cl <-> In c (map (fun r => toint (nth 0 r n0)) (mrows y)).
Proof.
  intros N toint order p X y s0 s Ho H. unfold nb_fit in H.
  destruct (validate X y) as [[]|e|]; [|discriminate|discriminate]. injection H as <-.
  destruct (extract_classes_spec order (labels_of toint y) Ho) as [HS Hin].
  exists (extract_classes order (labels_of toint y)). split; [|split; [exact HS|exact Hin]].
  apply update_model_fields.
Qed.

(** The counts over the reals: per class the number of samples and the feature sums;
    samples of unknown classes are ignored. *)
Theorem C28_counts : forall (toint : R -> Z) order p (X y : matrix R) cl s,
  wf X -> acceptable (N := RNum) X y -> NoDup cl ->
  nb_partial_fit (N := RNum) toint order p X y (Some cl) (@nb_empty RNum) = (s, Ok tt) ->
  let S := combine (mrows X) (map (fun r => toint (nth 0 r 0%R)) (mrows y)) in
  b_classes s = Some cl /\
  b_ccount s = map (class_total S) cl /\
  b_fcount s = map (fun c => map (feature_total S c) (seq 0 (mcols X))) cl /\
  b_seen s = length (filter (fun t => if in_dec Z.eq_dec (snd t) cl then true else false) S).
Proof.
  intros toint order p X y cl s HW HA HN H S. apply validate_ok in HA.
  rewrite (partial_fit_first (N := RNum) toint order p X y cl nb_empty HA eq_refl) in H.
  pose proof (counts_ok cl (mcols X) HN S 0 (samples_width toint X y HW)) as E.
  assert (Es : s = @update_model RNum p cl (mcols X)
     (map (class_total S) cl, map (table S (mcols X)) cl, (0 + seen_of S cl)%nat)).
  { injection H as <-. exact (f_equal (fun c => @update_model RNum p cl (mcols X) c) E). }
  rewrite Es. cbn. auto.
Qed.

(** Over the reals the order of the rows does not matter. *)
Theorem C28_row_order : forall (toint : R -> Z) order order' p (X y X' y' : matrix R) s0 s0',
  (forall l, Permutation (order l) l) -> (forall l, Permutation (order' l) l) ->
  wf X -> wf X' -> acceptable (N := RNum) X y -> acceptable (N := RNum) X' y' -> mcols X = mcols X' ->
  Permutation (combine (mrows X) (map (fun r => toint (nth 0 r 0%R)) (mrows y)))
              (combine (mrows X') (map (fun r => toint (nth 0 r 0%R)) (mrows y'))) ->
  nb_fit (N := RNum) toint order p X y s0 = nb_fit (N := RNum) toint order' p X' y' s0'.
Proof.
  intros toint order order' p X y X' y' s0 s0' Ho Ho' HW HW' HA HA' HC HP.
  rewrite (fit_state toint order p X y s0 Ho HW (proj2 (@validate_ok RNum X y) HA)).
  rewrite (fit_state toint order' p X' y' s0' Ho' HW' (proj2 (@validate_ok RNum X' y') HA')).
  change (Permutation (samples toint X y) (samples toint X' y')) in HP.
  assert (Hcl : extract_classes order (@labels_of RNum toint y) = extract_classes order' (@labels_of RNum toint y')).
  { destruct (extract_classes_spec order (@labels_of RNum toint y) Ho) as [S1 I1].
    destruct (extract_classes_spec order' (@labels_of RNum toint y') Ho') as [S2 I2].
    apply sorted_lt_unique; auto. intros c. rewrite I1, I2.
    rewrite <- (samples_labels toint X y) by apply HA. rewrite <- (samples_labels toint X' y') by apply HA'.
    split; apply Permutation_in, Permutation_map; [exact HP|now symmetry]. }
  rewrite <- Hcl, <- HC. set (cl := extract_classes order (@labels_of RNum toint y)).
  f_equal. f_equal. f_equal; [f_equal|].
  - apply map_ext. intros c. now apply class_total_perm.
  - apply map_ext. intros c. unfold table. apply map_ext. intros j. now apply feature_total_perm.
  - now apply seen_perm.
Qed.

(** ** C29.  Probabilities (exact arithmetic) *)
Section C29.
  Local Open Scope R_scope.
  Context (toint : R -> Z) (order : list Z -> list Z) (p : params RNum) (X y : matrix R) (s0 s : nb RNum).
  Context (Horder : forall l, Permutation (order l) l) (HX : wf X)
    (Hfit : nb_fit (N := RNum) toint order p X y s0 = (s, Ok tt))
    (Hrows : (1 <= nrows X)%nat) (Hcols : (1 <= mcols X)%nat) (Halpha : 0 < alpha p).
  Let S := combine (mrows X) (map (fun r => toint (nth 0 r 0)) (mrows y)).

  Lemma C29_setup : exists cl, b_classes s = Some cl /\ StronglySorted Z.lt cl /\ cl <> [] /\
    (forall t v, In t S -> In v (fst t) -> 0 <= v) /\ (forall t, In t S -> In (snd t) cl) /\
    (forall c, In c cl -> 0 < class_total S c / INR (length S)) /\
    s = @update_model RNum p cl (mcols X) (map (class_total S) cl, map (table S (mcols X)) cl, seen_of S cl).
  Proof.
    assert (HV : validate (N := RNum) X y = Ok tt).
    { unfold nb_fit in Hfit. destruct (validate (N := RNum) X y) as [[]|e|]; [reflexivity|discriminate|discriminate]. }
    pose proof (proj1 (@validate_ok RNum X y) HV) as (HR & _ & Hnn).
    pose proof (fit_state toint order p X y s0 Horder HX HV) as E. cbn zeta in E. rewrite Hfit in E.
    injection E as E. set (cl := extract_classes order (@labels_of RNum toint y)) in *.
    destruct (extract_classes_spec order (@labels_of RNum toint y) Horder) as [HS Hin]. fold cl in HS, Hin.
    pose proof (samples_labels toint X y HR) as HL. change (samples toint X y) with S in *.
    assert (HlenS : length S = nrows X).
    { unfold S. rewrite combine_length, map_length. unfold nrows in HR. unR. unfold nrows. lia. }
    exists cl. split; [now rewrite E|]. split; [exact HS|].
    split; [|split; [|split; [|split; [|exact E]]]].
    - intros Hnil. destruct S as [|t S'] eqn:ES; [simpl in HlenS; lia|].
      assert (Hc : In (snd t) cl) by (apply Hin; rewrite <- HL; now left). rewrite Hnil in Hc. exact Hc.
    - intros [x l] v Ht Hv. apply in_combine_l in Ht. specialize (Hnn x v Ht Hv).
      now apply Rltb_false in Hnn.
    - intros t Ht. apply Hin. rewrite <- HL. now apply in_map.
    - intros c Hc. apply Hin in Hc. rewrite <- HL in Hc. apply in_map_iff in Hc as (t & Et & Ht).
      apply Rdiv_lt_0_compat; apply lt_0_INR; [|lia].
      assert (Hw : In t (with_label S c)) by (apply filter_In; split; [exact Ht|now apply Z.eqb_eq]).
      destruct (with_label S c); [easy|simpl; lia].
  Qed.

  (** The exponentials of FeatureLogProb are the smoothed frequencies, a positive
      distribution for every class. *)
  Theorem C29_conditional : exists cl, b_classes s = Some cl /\
    map (map exp) (b_flp s) = map (fun c => map (theta S (alpha p) (mcols X) c) (seq 0 (mcols X))) cl /\
    forall c, In c cl ->
      Rsum (map (theta S (alpha p) (mcols X) c) (seq 0 (mcols X))) = 1 /\
      forall j, 0 < theta S (alpha p) (mcols X) c j.
  Proof.
    destruct C29_setup as (cl & Hcl & _ & _ & Hnn & _ & _ & E). exists cl. split; [exact Hcl|]. split.
    - rewrite E. unfold update_model. cbn [b_flp]. rewrite !map_map. apply map_ext. intros c.
      rewrite feature_log_probs_R, map_map. apply map_ext. intros j. apply exp_ln.
      apply theta_pos; [exact Halpha|lia|exact Hnn].
    - intros c _. split; [apply theta_sum|intros j; apply theta_pos]; auto; lia.
  Qed.

  Context (prior : Z -> R) (Q : matrix R).
  Context (Hprior : forall cl, b_classes s = Some cl -> is_prior S cl (fit_prior p) (class_prior p) prior)
    (Hsupplied : fit_prior p = false -> forall pr, class_prior p = Some pr -> forall v, In v pr -> 0 < v)
    (HQ : wf Q) (HQc : mcols Q = mcols X) (HQr : (1 <= nrows Q)%nat)
    (HQn : forall row v, In row (mrows Q) -> In v row -> 0 <= v).

  Lemma C29_prior_pos cl c : b_classes s = Some cl -> In c cl -> 0 < prior c.
  Proof.
    intros Hcl Hc. destruct C29_setup as (cl' & Hcl' & _ & Hne & _ & _ & Hpos & _).
    assert (cl' = cl) by congruence. subst cl'. specialize (Hprior cl Hcl). unfold is_prior in Hprior.
    destruct (fit_prior p) eqn:Ef.
    - rewrite Hprior. auto.
    - destruct (class_prior p) as [pr|] eqn:Ep.
      + apply In_nth_error in Hc as [i Hi]. rewrite (Hprior i c Hi).
        destruct (Nat.lt_ge_cases i (length pr)) as [Hlt|Hge].
        * apply (Hsupplied eq_refl pr eq_refl). now apply nth_In.
        * rewrite nth_overflow by exact Hge. lra.
      + rewrite Hprior. apply Rdiv_lt_0_compat; [lra|]. apply lt_0_INR. destruct cl; [easy|simpl; lia].
  Qed.

  Lemma C29_check : check_query (N := RNum) s Q = Ok tt /\
    forall row, In row (mrows Q) -> existsb (fun v => nlt (n := RNum) v 0) row = false.
  Proof.
    destruct C29_setup as (cl & _ & _ & _ & _ & _ & _ & E). split.
    - rewrite E. unfold check_query, update_model. cbn [b_fitted b_nfeat negb]. unR. now rewrite HQc, Nat.eqb_refl.
    - intros row Hr. match goal with |- ?e = false => destruct e eqn:Ee end; [|reflexivity]. exfalso.
      apply existsb_exists in Ee as (v & Hv & Hlt). apply Rltb_true in Hlt. specialize (HQn row v Hr Hv). lra.
  Qed.

  Lemma C29_joints cl row : b_classes s = Some cl -> In row (mrows Q) ->
    map exp (@joints RNum s row) = map (weight S (alpha p) (mcols X) prior row) cl.
  Proof.
    intros Hcl Hr. destruct C29_setup as (cl' & Hcl' & HS & Hne & Hnn & Hin & _ & E).
    assert (cl' = cl) by congruence. subst cl'. rewrite E at 1. apply joints_R.
    - lia.
    - exact Halpha.
    - exact Hnn.
    - now apply sorted_lt_nodup.
    - exact Hin.
    - now apply Hprior.
    - intros c Hc. eapply C29_prior_pos; eauto.
    - transitivity (mcols Q); [exact (HQ row Hr)|exact HQc].
  Qed.

  (** PredictProba returns the posterior of the multinomial model, PredictLogProba its
      logarithm. *)
  Theorem C29_posterior : exists cl, b_classes s = Some cl /\
    nb_predict_proba (N := RNum) s Q
      = Ok (map (fun row => map (posterior S (alpha p) (mcols X) prior cl row) cl) (mrows Q)) /\
    nb_predict_log_proba (N := RNum) s Q
      = Ok (map (fun row => map (fun c => ln (posterior S (alpha p) (mcols X) prior cl row c)) cl) (mrows Q)).
  Proof.
    destruct C29_setup as (cl & Hcl & _ & Hne & _). exists cl. split; [exact Hcl|].
    destruct C29_check as [Hchk Hneg].
    assert (Hlog : nb_predict_log_proba (N := RNum) s Q =
              Ok (map (fun row => @log_normalise RNum (@joints RNum s row)) (mrows Q))).
    { unfold nb_predict_log_proba. rewrite Hchk. cbn [bind]. rewrite Hcl. unfold newdense. unR.
      destruct (Nat.eqb_spec (nrows Q) 0); [lia|]. destruct (Nat.eqb_spec (length cl) 0) as [E0|_].
      { destruct cl; [easy|discriminate]. }
      cbn [orb bind]. revert Hneg. unR. generalize (mrows Q). induction l as [|row l IH]; intros Hneg; [reflexivity|].
      cbn [mapM]. unfold log_proba_row at 1. unR. change (@n0 RNum) with 0. rewrite Hneg by (now left).
      cbn [bind]. rewrite IH by (intros; apply Hneg; now right). reflexivity. }
    assert (Hj : forall row, In row (mrows Q) ->
              map (fun v => exp v / Rsum (map exp (@joints RNum s row))) (@joints RNum s row)
              = map (posterior S (alpha p) (mcols X) prior cl row) cl /\ @joints RNum s row <> []).
    { intros row Hr. pose proof (C29_joints cl row Hcl Hr) as E. split.
      - etransitivity.
        + symmetry. apply (map_map exp (fun e => e / Rsum (map exp (@joints RNum s row)))).
        + rewrite E, map_map. reflexivity.
      - intros Hnil. rewrite Hnil in E. destruct cl; [easy|discriminate]. }
    split.
    - unfold nb_predict_proba. rewrite Hlog. cbn [bind]. f_equal. etransitivity; [apply map_map|].
      apply map_ext_in. intros row Hr. destruct (Hj row Hr) as [E Hnn].
      etransitivity; [apply proba_row_R; exact Hnn|exact E].
    - rewrite Hlog. f_equal. apply map_ext_in. intros row Hr. destruct (Hj row Hr) as [E Hnn].
      etransitivity; [apply log_normalise_R; exact Hnn|].
      etransitivity; [symmetry; apply (map_map (fun v => exp v / Rsum (map exp (@joints RNum s row))) ln)|].
      rewrite E. apply map_map.
  Qed.

  Theorem C29_distribution : forall cl row, b_classes s = Some cl -> 
    Rsum (map (posterior S (alpha p) (mcols X) prior cl row) cl) = 1 /\
    forall c, In c cl -> 0 < posterior S (alpha p) (mcols X) prior cl row c.
  Proof.
    intros cl row Hcl. destruct C29_setup as (cl' & Hcl' & _ & Hne & _).
    assert (cl' = cl) by congruence. subst cl'.
    assert (Hw : forall c, In c cl -> 0 < weight S (alpha p) (mcols X) prior row c).
    { intros c Hc. apply weight_pos; [lia|exact Halpha|]. eapply C29_prior_pos; eauto. }
    assert (HW : 0 < Rsum (map (weight S (alpha p) (mcols X) prior row) cl)).
    { destruct cl as [|c cl]; [easy|]. simpl. pose proof (Hw c (or_introl eq_refl)).
      assert (0 <= Rsum (map (weight S (alpha p) (mcols X) prior row) cl)); [|lra].
      apply Rsum_nonneg. intros v Hv. apply in_map_iff in Hv as (d & <- & Hd). left. apply Hw. now right. }
    split.
    - unfold posterior. set (K := Rsum _) in *.
      rewrite (map_ext _ (fun c => / K * weight S (alpha p) (mcols X) prior row c)) by (intros c; unfold Rdiv; apply Rmult_comm).
      rewrite Rsum_map_scal. change (/ K * K = 1). field. lra.
    - intros c Hc. unfold posterior. apply Rdiv_lt_0_compat; auto.
  Qed.

  (** Predict returns the class of largest posterior, the smallest such label on ties. *)
  Theorem C29_predict : exists cl labels, b_classes s = Some cl /\
    nb_predict (N := RNum) s Q = Ok labels /\
    Forall2 (fun row c => In c cl /\ forall d, In d cl ->
        posterior S (alpha p) (mcols X) prior cl row d <= posterior S (alpha p) (mcols X) prior cl row c /\
        ((d < c)%Z -> posterior S (alpha p) (mcols X) prior cl row d < posterior S (alpha p) (mcols X) prior cl row c))
      (mrows Q) labels.
  Proof.
    destruct C29_setup as (cl & Hcl & HS & Hne & _). destruct C29_check as [Hchk Hneg].
    destruct cl as [|c0 cl0] eqn:Ecl; [easy|]. rewrite <- Ecl in *.
    exists cl, (map (fun row => best_class (N := RNum) cl (@joints RNum s row) None c0) (mrows Q)).
    split; [exact Hcl|]. split.
    - unfold nb_predict. rewrite Hchk. cbn [bind]. unfold newdense. unR.
      destruct (Nat.eqb_spec (nrows Q) 0); [lia|]. cbn [Nat.eqb orb bind].
      revert Hneg. unR. generalize (mrows Q). induction l as [|row l IH]; intros Hneg; [reflexivity|].
      cbn [mapM map]. unfold predict_row at 1. rewrite Hcl, Ecl. unR. change (@n0 RNum) with 0.
      rewrite Hneg by (now left). rewrite <- Ecl. cbn [bind]. rewrite IH by (intros; apply Hneg; now right). reflexivity.
    - assert (G : forall row, In row (mrows Q) ->
        let c := best_class (N := RNum) cl (@joints RNum s row) None c0 in
        In c cl /\ forall d, In d cl ->
        posterior S (alpha p) (mcols X) prior cl row d <= posterior S (alpha p) (mcols X) prior cl row c /\
        ((d < c)%Z -> posterior S (alpha p) (mcols X) prior cl row d < posterior S (alpha p) (mcols X) prior cl row c)).
      { intros row Hr c. pose proof (C29_joints cl row Hcl Hr) as E.
        assert (Hl : length cl = length (@joints RNum s row)).
        { apply (f_equal (@length R)) in E. rewrite !map_length in E. now symmetry. }
        destruct (best_class_first cl (@joints RNum s row) c0 Hl) as (k & v & Hk & Hv & Hmax & Hfirst).
        { rewrite Ecl. discriminate. }
        fold c in Hk. clearbody c. split; [eapply nth_error_In; eauto|].
        assert (HW : 0 < Rsum (map (weight S (alpha p) (mcols X) prior row) cl)).
        { rewrite <- E. apply exp_sum_pos. intros Hnil. rewrite Hnil, Ecl in Hl. discriminate. }
        assert (Hpt : forall i d, nth_error cl i = Some d -> exists u, nth_error (@joints RNum s row) i = Some u /\
                  weight S (alpha p) (mcols X) prior row d = exp u).
        { intros i d Hi. assert (E2 := f_equal (fun l => nth_error l i) E). cbn beta in E2.
          rewrite !nth_error_map, Hi in E2. cbn [option_map] in E2.
          change (exists u : R, @nth_error R (@joints RNum s row) i = Some u /\
                    weight S (alpha p) (mcols X) prior row d = exp u).
          destruct (@nth_error R (@joints RNum s row) i) as [u|]; [|discriminate].
          exists u. split; [reflexivity|]. cbn in E2. congruence. }
        destruct (Hpt k c Hk) as (v' & Hv' & Ew). assert (v' = v) by congruence. subst v'.
        intros d Hd. apply In_nth_error in Hd as [i Hi]. destruct (Hpt i d Hi) as (u & Hu & Eu).
        unfold posterior. rewrite Ew, Eu. unfold Rdiv. split.
        - apply Rmult_le_compat_r; [left; now apply Rinv_0_lt_compat|].
          destruct (Hmax i u Hu) as [H|H]; [left; now apply exp_increasing|right; now rewrite H].
        - intros Hdc. apply Rmult_lt_compat_r; [now apply Rinv_0_lt_compat|]. apply exp_increasing.
          apply (Hfirst i u); [|exact Hu]. clear - HS Hi Hk Hdc.
          destruct (Nat.lt_trichotomy i k) as [|[Heq|Hgt]]; [assumption| |].
          + subst i. assert (c = d) by congruence. lia.
          + exfalso. clear - HS Hi Hk Hdc Hgt. revert i k Hi Hk Hgt.
            induction HS as [|a l Hl IH Ha]; intros i k Hi Hk Hgt; [destruct k; discriminate|].
            destruct k as [|k]; simpl in Hk.
            * injection Hk as ->. destruct i as [|i]; [lia|]. simpl in Hi. apply nth_error_In in Hi.
              rewrite Forall_forall in Ha. specialize (Ha d Hi). lia.
            * destruct i as [|i]; [lia|]. simpl in Hi. apply (IH i k Hi Hk). lia. }
      clear - G. revert G. unR. generalize (mrows Q). induction l as [|row l IH]; intros G; cbn [map]; constructor.
      + apply (G row). now left.
      + apply IH. intros r Hr. apply G. now right.
  Qed.
End C29.

(** ** C30.  Failing calls *)

(** A failing Fit forgets everything: the classifier is like new. *)
Theorem C30_failed_fit : forall (N : Num) (toint : N -> Z) order p (X y : matrix N) s s' r,
  ~ acceptable X y -> nb_fit toint order p X y s = (s', r) ->
  (exists e, r = Err e) /\ b_fitted s' = false /\ b_classes s' = None /\ b_seen s' = 0 /\
  forall Q, nb_predict s' Q = Err ENotFitted /\ nb_predict_proba s' Q = Err ENotFitted.
Proof.
  intros N toint order p X y s s' r HA H. unfold nb_fit in H.
  destruct (validate X y) as [[]|e|] eqn:E.
  - exfalso. apply HA. now apply (proj1 (validate_ok X y)).
  - injection H as <- <-. split; [eauto|]. do 3 (split; [reflexivity|]). intros Q. split; reflexivity.
  - exfalso. unfold validate in E. destruct (negb _); [discriminate|]. destruct (negb _); [discriminate|].
    destruct (has_negative X); discriminate.
Qed.

(** A failing PartialFit changes nothing; it fails exactly on unacceptable data or a
    changed number of features. *)
Theorem C30_failed_partial_fit : forall (N : Num) (toint : N -> Z) order p (X y : matrix N) given s s' e,
  nb_partial_fit toint order p X y given s = (s', Err e) -> s' = s.
Proof.
  intros N toint order p X y given s s' e H. unfold nb_partial_fit in H.
  destruct (validate X y) as [[]|e0|]; [|now injection H as <- _|discriminate].
  destruct (b_classes s) as [cl|].
  - destruct (Nat.eqb (mcols X) (b_nfeat s)); [discriminate|]. now injection H as <- _.
  - rewrite Nat.eqb_refl in H. discriminate.
Qed.
Theorem C30_partial_fit_fails : forall (N : Num) (toint : N -> Z) order p (X y : matrix N) given s,
  (exists e, snd (nb_partial_fit toint order p X y given s) = Err e) <->
  (~ acceptable X y \/ (b_classes s <> None /\ mcols X <> b_nfeat s)).
Proof.
  intros N toint order p X y given s. unfold nb_partial_fit.
  destruct (validate X y) as [[]|e0|] eqn:E.
  - apply (proj1 (validate_ok X y)) in E. destruct (b_classes s) as [cl|] eqn:Ec.
    + destruct (Nat.eqb_spec (mcols X) (b_nfeat s)); cbn [snd]; split.
      * intros [err H]. discriminate.
      * intros [H|[_ H]]; contradiction.
      * intros _. right. split; [discriminate|assumption].
      * intros _. eauto.
    + rewrite Nat.eqb_refl. cbn [snd]. split; [intros [err H]; discriminate|]. intros [H|[H _]]; contradiction.
  - cbn [snd]. split; [|eauto]. intros _. left. intros HA. apply validate_ok in HA. congruence.
  - exfalso. unfold validate in E. destruct (negb _); [discriminate|]. destruct (negb _); [discriminate|].
    destruct (has_negative X); discriminate.
Qed.

(** ** Concrete cases *)
Section Cases.
  Let q (z : Z) : QNum := @nofZ QNum z.
  Let ti (v : QNum) : Z := QArith_base.Qnum v.
  Let id (l : list Z) := l.
  Let pq : params QNum := mkparams (q 1) true None.
  Let X1 := mkmat 2 [[q 2; q 1]; [q 0; q 3]].
  Let X2 := mkmat 2 [[q 4; q 0]].
  Let y1 := mkmat 1 [[q 5]; [q (-2)]].
  Let y2 := mkmat 1 [[q 5]].

  (** Classes -2 and 5; two batches; one failing Fit. *)
  Example C28_case :
    let s := fst (feed ti id pq (Some [-2; 5]%Z) [(X1, y1); (X2, y2)] nb_empty) in
    b_ccount s = [q 1; q 2] /\ b_fcount s = [[q 0; q 3]; [q 6; q 1]] /\ b_seen s = 3 /\
    nb_fit ti id pq (stacked 2 [X1; X2]) (stacked 1 [y1; y2]) nb_empty = (s, Ok tt) /\
    extract_classes id [5; -2; 5; 7; -2]%Z = [-2; 5; 7]%Z /\
    acceptable X1 y1 /\ acceptable X2 y2.
  Proof.
    intros s. do 5 (split; [reflexivity|]).
    split; (split; [reflexivity|]; split; [reflexivity|]); intros row v Hr Hv; simpl in Hr;
      repeat (destruct Hr as [<-|Hr]; [simpl in Hv; repeat (destruct Hv as [<-|Hv]; [reflexivity|]); easy|]); easy.
  Qed.
  Example C30_case :
    let s := fst (nb_fit ti id pq X1 y1 nb_empty) in
    b_fitted s = true /\
    snd (nb_fit ti id pq X1 y2 s) = Err (EOther 1) /\ b_fitted (fst (nb_fit ti id pq X1 y2 s)) = false /\
    nb_partial_fit ti id pq (mkmat 1 [[q 1]]) y2 None s = (s, Err (EDimension 2 1)).
  Proof. repeat split; reflexivity. Qed.
End Cases.

(** The hypotheses of C29 for a two-class training set with learned priors. *)
Example C29_case : exists (toint : R -> Z) (X y : matrix R) s,
  wf X /\ nb_fit (N := RNum) toint (fun l => l) (mkparams (N := RNum) 1%R true None) X y (@nb_empty RNum) = (s, Ok tt) /\
  b_classes s = Some [0; 1]%Z /\
  is_prior (combine (mrows X) (map (fun r => toint (nth 0 r 0%R)) (mrows y))) [0; 1]%Z true None
    (fun c => class_total (combine (mrows X) (map (fun r => toint (nth 0 r 0%R)) (mrows y))) c / INR 2)%R.
Proof.
  exists (fun r => if Rltb r 1 then 0%Z else 1%Z).
  exists (mkmat 2 [[1; 2]; [3; 0]]%R), (mkmat 1 [[1]; [0]]%R).
  eexists. split; [intros row [<-|[<-|[]]]; reflexivity|]. split.
  - unfold nb_fit, validate, has_negative. cbn -[update_model extract_classes count_batch].
    change (IZR (Zpos 2)) with 2%R.
    destruct (Rltb_spec 1 0) as [H|_]; [lra|]. destruct (Rltb_spec 2 0) as [H|_]; [lra|].
    destruct (Rltb_spec 3 0) as [H|_]; [lra|]. destruct (Rltb_spec 0 0) as [H|_]; [lra|].
    cbn -[update_model extract_classes count_batch]. reflexivity.
  - split.
    + unfold labels_of. cbn -[Rltb]. 
      destruct (Rltb_spec 1 1) as [H|_]; [lra|]. destruct (Rltb_spec 0 1) as [_|H]; [|lra]. reflexivity.
    + intros c. reflexivity.
Qed.

Print Assumptions C28_batches.
Print Assumptions C28_fit_is_batches.
Print Assumptions C28_classes.
Print Assumptions C28_counts.
Print Assumptions C28_row_order.
Print Assumptions C29_conditional.
Print Assumptions C29_posterior.
Print Assumptions C29_distribution.
Print Assumptions C29_predict.
Print Assumptions C30_failed_fit.
Print Assumptions C30_failed_partial_fit.
Print Assumptions C30_partial_fit_fails.
