(** C106, C107 and C108: the estimators LGBMClassifier and LGBMRegressor. *)
From Coq Require Import String List Arith Bool ZArith Lia Reals Lra Permutation Sorting.
From Verif Require Import Base.Num Base.GoRes Base.Mat Base.ListX Base.RTac Base.FTac Spec.Order Spec.LgbTransform Spec.LgbEstimator.
From Verif Require Import Model.LgbTransform Model.LgbTree Model.LgbHist Model.LgbTrain Model.LgbObjective.
From Verif Require Import Model.NaiveBayes Model.ParamMap Model.Metrics Model.LgbEstimator.
From Verif Require Import Proofs.OrderP Proofs.LgbArrayP Proofs.LgbTransformP Proofs.LgbBoostP Proofs.LgbEstimatorP Proofs.LgbEstimatorRP.
From Verif Require Props.LgbTrainProps.
Import ListNotations.
Local Open Scope string_scope.
Local Open Scope list_scope.

(** *** C106 *)
Section AnyNumber.
  Context {N : Num}.
  Local Open Scope num_scope.
  Variables toint roundint : N -> Z.
  Variable order : list Z -> list Z.
  Hypothesis order_perm : forall l, Permutation (order l) l.
  (** Any training procedure *)
  Variable trainer : settings N -> option N -> option (list N) -> matrix N -> list N -> option (res (gmodel N)).
  Variable fuel : nat.
  Notation clf_fit := (clf_fit toint order trainer).
  Notation clf_predict := (clf_predict roundint fuel).
  Notation clf_proba := (clf_proba roundint fuel).

  (** A successful Fit: the classes are the different labels in increasing order, at least two of
      them; the model is the one trained for them. *)
  Theorem C106_fit init w X y c c' : clf_fit init w X y c = Some (c', Ok tt) ->
    nrows X = nrows y /\ mcols y = 1%nat /\ names_of (labels_of toint y) (c_classes c') /\ (2 <= List.length (c_classes c'))%nat
    /\ exists m, stored c' m /\ c_nfeat c' = Z.of_nat (mcols X)
        /\ trainer (clf_settings c') init w X (column 0 (mrows y)) = Some (Ok m)
        /\ h_objective (c_h c') = (if (List.length (c_classes c') =? 2)%nat then "binary" else "multiclass")
        /\ c_numclass c' = (if (List.length (c_classes c') =? 2)%nat then 1%Z else Z.of_nat (List.length (c_classes c'))).
  Proof. exact (fit_success toint order trainer init w X y c c' order_perm). Qed.

  (** Two classes: the answer is the larger class exactly where its probability is at least one half. *)
  Theorem C106_two c m X Q a b : stored c m -> c_classes c = [a; b] -> clf_predict c X = Some (Ok Q) ->
    exists P, clf_proba c X = Some (Ok P)
      /\ Forall2 (fun p q => exists v, nth_error p 1 = Some v /\ q = [nofZ (if nlit 1 2 <=? v then b else a)]) (mrows P) (mrows Q).
  Proof.
    intros Hs Hc H. destruct (predict_rows _ _ _ _ _ H) as (P & ls & H1 & H2 & ->). exists P. split; [exact H1|]. cbn [mrows].
    apply Forall2_map_r. apply mapM_rows in H2. revert H2. apply Forall2_impl_. intros p l E. rewrite Hc in E. cbn [label_of] in E.
    destruct (nth_error p 1) as [v|]; [|discriminate]. injection E as <-. now exists v.
  Qed.
  (** Otherwise: the class of the first largest probability, if one is positive; else the label 0. *)
  Theorem C106_many (L : lt_laws N) c m X Q : nisnan (@n0 N) = false -> stored c m -> List.length (c_classes c) <> 2%nat -> clf_predict c X = Some (Ok Q) ->
    exists P, clf_proba c X = Some (Ok P)
      /\ Forall2 (fun p q => exists l, q = [nofZ l] /\
           (chosen (c_classes c) p l
            \/ (l = 0%Z /\ forall i u, nth_error p i = Some u -> (i < List.length (c_classes c))%nat -> n0 <? u = false))) (mrows P) (mrows Q).
  Proof.
    intros H0 Hs Hc H. destruct (predict_rows _ _ _ _ _ H) as (P & ls & H1 & H2 & ->). exists P. split; [exact H1|]. cbn [mrows].
    apply Forall2_map_r. apply mapM_rows in H2. revert H2. apply Forall2_impl_. intros p l E. exists l. split; [reflexivity|].
    exact (label_many L _ _ _ H0 Hc E).
  Qed.

  (** A failed Fit keeps the model and the fitted flag; the rest may be replaced. *)
  Theorem C106_failed_fit init w X y c c' e : clf_fit init w X y c = Some (c', Err e) ->
    c_model c' = c_model c /\ c_fitted c' = c_fitted c
    /\ (c' = c \/ (names_of (labels_of toint y) (c_classes c')
                   /\ ((List.length (c_classes c') < 2)%nat /\ c_nfeat c' = c_nfeat c \/ c_nfeat c' = Z.of_nat (mcols X)))).
  Proof.
    intros H. destruct (fit_failure toint order trainer _ _ _ _ _ _ _ H) as (H1 & H2 & H3). split; [exact H1|]. split; [exact H2|].
    destruct H3 as [H3|[H3 H4]]; [now left|right]. split; [|exact H4]. rewrite H3.
    exact (NaiveBayesP.extract_classes_spec order (labels_of toint y) order_perm).
  Qed.

  (** After a Fit that failed because there was only the label [k], a classifier trained for two
      classes goes on answering, with [k] wherever its first probability is positive, else 0. *)
  Theorem C106_one_class_refit init w X y c c' e m a b k Z Q : stored c m -> c_classes c = [a; b] ->
    clf_fit init w X y c = Some (c', Err e) -> c_classes c' = [k] -> clf_predict c Z = Some (Ok Q) ->
    exists P Q', clf_proba c Z = Some (Ok P) /\ clf_predict c' Z = Some (Ok Q')
      /\ Forall2 (fun p q => exists v, nth_error p 0 = Some v /\ q = [nofZ (if n0 <? v then k else 0%Z)]) (mrows P) (mrows Q').
  Proof.
    intros [S1 S2] Hc H Hk HQ. destruct (fit_failure toint order trainer _ _ _ _ _ _ _ H) as (H1 & H2 & H3).
    assert (Hn : c_nfeat c' = c_nfeat c).
    { destruct H3 as [-> | [_ [[_ H3]|H3]]]; auto. clear -H H1 H2 H3 Hk Hc. unfold LgbEstimator.clf_fit in H.
      destruct (negb _); [injection H as <- _; reflexivity|]. destruct (negb _); [injection H as <- _; reflexivity|].
      destruct (match w with Some w => _ | None => _ end); [injection H as <- _; reflexivity|].
      destruct (Z.ltb_spec (Z.of_nat (List.length (extract_classes order (labels_of toint y)))) 2) as [K|K]; [injection H as <- _; reflexivity|]. exfalso.
      destruct (trainer _ _ _ _ _) as [[m|e0|]|]; try discriminate; injection H as <- _; cbn [c_classes] in Hk; rewrite Hk in K; cbn in K; lia. }
    destruct (predict_rows _ _ _ _ _ HQ) as (P & ls & P1 & P2 & ->).
    assert (P1' : clf_proba c' Z = Some (Ok P)).
    { unfold LgbEstimator.clf_proba in *. rewrite H1, H2, Hn. exact P1. }
    apply mapM_rows in P2. rewrite Hc in P2.
    assert (HF : exists ls', mapM (label_of [k]) (mrows P) = Ok ls'
        /\ Forall2 (fun p l => exists v, nth_error p 0 = Some v /\ l = if n0 <? v then k else 0%Z) (mrows P) ls').
    { clear -P2. induction P2 as [|p l ps ls E P2 IH]; [exists []; split; [reflexivity|constructor]|]. destruct IH as (ls' & I1 & I2).
      destruct p as [|v p]; [discriminate|]. exists ((if n0 <? v then k else 0%Z) :: ls'). split.
      - cbn [mapM]. rewrite I1. unfold label_of, pick. destruct (n0 <? v); reflexivity.
      - constructor; [|exact I2]. now exists v. }
    destruct HF as (ls' & M1 & M2). exists P, (mkmat 1 (map (fun l => [nofZ l]) ls')). split; [exact P1|]. split.
    - unfold LgbEstimator.clf_predict. rewrite P1'. unfold LgbEstimator.clf_predict in HQ. rewrite P1 in HQ. cbn [bind] in *.
      destruct (newdense (nrows P) 1) as [u| |]; cbn [bind] in *; try discriminate. rewrite Hk, M1. reflexivity.
    - cbn [mrows]. apply Forall2_map_r. revert M2. apply Forall2_impl_. intros p l (v & V1 & ->). now exists v.
  Qed.

  (** When the number of columns noted by the estimator differs from the one of its model, as after a
      failed Fit on wider data, no call of Predict succeeds. *)
  Theorem C106_width c m Z Q : stored c m -> c_nfeat c <> m_nfeat m -> clf_predict c Z <> Some (Ok Q).
  Proof.
    intros Hs Hn H. destruct (predict_rows _ _ _ _ _ H) as (P & ls & P1 & _). destruct (proba_rows _ _ _ _ _ _ Hs P1) as [P2 P3].
    unfold proba_model in P3. apply omap_ok in P3. destruct P3 as (P0 & P3 & _). destruct (predict_model_rows _ _ _ _ _ P3) as [P4 _]. congruence.
  Qed.

  (** Only the listed settings have an effect on the model. *)
  Theorem C106_settings init w X y c1 c2 : same_training (c_h c1) (c_h c2) -> c_fitted c1 = c_fitted c2 -> c_model c1 = c_model c2 ->
    match clf_fit init w X y c1, clf_fit init w X y c2 with
    | None, None => True
    | Some (d1, r1), Some (d2, r2) => r1 = r2 /\ c_model d1 = c_model d2 /\ c_fitted d1 = c_fitted d2 /\ (r1 = Ok tt -> c_classes d1 = c_classes d2 /\ c_nfeat d1 = c_nfeat d2)
    | _, _ => False
    end.
  Proof.
    intros (E1 & E2 & E3 & E4 & E5 & E6 & E7 & E8 & E9 & E10 & E11 & E12 & E13 & E14) Hf Hm. unfold LgbEstimator.clf_fit.
    destruct (negb _); [repeat split; auto; discriminate|]. destruct (negb _); [repeat split; auto; discriminate|].
    destruct (match w with Some w => _ | None => _ end); [repeat split; auto; discriminate|].
    set (cls := extract_classes order (labels_of toint y)). set (k := Z.of_nat (List.length cls)).
    destruct (k <? 2)%Z; [repeat split; auto; discriminate|].
    set (d1 := mkclf (c_fitted c1) _ _ _ _ _ _). set (d2 := mkclf (c_fitted c2) _ _ _ _ _ _).
    assert (ES : clf_settings d1 = clf_settings d2).
    { unfold clf_settings, d1, d2, with_objective. cbn [c_h c_numclass h_iters h_lr h_leaves h_depth h_child_samples h_lambda h_alpha h_subsample h_subsample_freq
        h_colsample h_objective h_seed h_deterministic h_verbosity h_early].
      rewrite E1, E2, E3, E4, E5, E6, E7, E8, E9, E10, E11, E12, E13, E14. reflexivity. }
    rewrite ES. destruct (trainer _ _ _ _ _) as [[m|e|]|]; try exact I; repeat split; auto; discriminate.
  Qed.

  (** *** Loading *)

  (** A two-class classifier with the labels [a], [b] that is loaded back from its file answers 0
      where it answered [a] and 1 where it answered [b]. *)
  Theorem C106_reload c m c0 X Q a b : stored c m -> c_classes c = [a; b] -> m_obj m = "binary" -> c_nfeat c = m_nfeat m ->
    clf_predict c X = Some (Ok Q) ->
    exists Q', clf_predict (fst (clf_load (Ok m) c0)) X = Some (Ok Q')
      /\ Forall2 (fun q q' => (q = [nofZ a] /\ q' = [nofZ 0]) \/ (q = [nofZ b] /\ q' = [nofZ 1])) (mrows Q) (mrows Q').
  Proof.
    intros [S1 S2] Hc Ho Hn H. destruct (predict_rows _ _ _ _ _ H) as (P & ls & P1 & P2 & ->).
    assert (Hst : fst (clf_load (Ok m) c0) = mkclf true (Some m) [0; 1]%Z (m_nfeat m) (m_class m) (c_h c0) (c_cats c0)).
    { unfold clf_load. rewrite Ho. reflexivity. }
    rewrite Hst. assert (P1' : clf_proba (mkclf true (Some m) [0; 1]%Z (m_nfeat m) (m_class m) (c_h c0) (c_cats c0)) X = Some (Ok P)).
    { unfold LgbEstimator.clf_proba in *. rewrite S1, S2, Hn in P1. cbn [c_fitted c_nfeat c_model]. exact P1. }
    pose proof P2 as P2'. apply mapM_rows in P2. rewrite Hc in P2.
    assert (HF : exists ls', mapM (label_of [0; 1]%Z) (mrows P) = Ok ls'
        /\ Forall2 (fun l l' => (l = a /\ l' = 0%Z) \/ (l = b /\ l' = 1%Z)) ls ls').
    { clear -P2. induction P2 as [|p l ps ls E P2 IH]; [exists []; split; [reflexivity|constructor]|]. destruct IH as (ls' & I1 & I2).
      cbn [label_of] in E. destruct (nth_error p 1) as [v|] eqn:Ev; [|discriminate]. injection E as <-.
      exists ((if nlit 1 2 <=? v then 1%Z else 0%Z) :: ls'). split; [cbn [mapM label_of]; rewrite Ev, I1; reflexivity|].
      constructor; [|exact I2]. destruct (nlit 1 2 <=? v); auto. }
    destruct HF as (ls' & M1 & M2). exists (mkmat 1 (map (fun l => [nofZ l]) ls')). split.
    - unfold LgbEstimator.clf_predict in *. rewrite P1'. rewrite P1 in H. cbn [bind c_classes] in *.
      destruct (newdense (nrows P) 1) as [u| |]; cbn [bind] in *; try discriminate. rewrite M1. reflexivity.
    - cbn [mrows]. clear -M2. induction M2 as [|l l' ls ls' [[-> ->]|[-> ->]] M2 IH]; cbn; constructor; auto.
  Qed.
  (** A model with one output that is not called "binary" or "cross_entropy": after loading it from a
      string or from JSON every Predict on rows it accepts panics; after LoadModel by a new classifier
      it answers 0 (objectives other than "multiclass"). *)
  Lemma one_output m X P : outputs_count m = 1%nat -> is_binary (m_obj m) = false -> predict_model roundint fuel m X = Some (Ok P) ->
    exists P', proba_model roundint fuel m X = Some (Ok P') /\ nrows P' = nrows X /\ (0 < nrows X)%nat /\ Forall (fun p => List.length p = 1%nat) (mrows P').
  Proof.
    intros H1 H2 H. unfold proba_model. rewrite H. exists (proba_matrix m P). split; [reflexivity|].
    destruct (predict_model_rows _ _ _ _ _ H) as (_ & _ & H3 & H4).
    assert (H5 : Forall (fun p => List.length p = 1%nat) (mrows P)).
    { apply Forall_forall. intros p Hp. clear -H4 Hp H1 H2. induction H4 as [|x r xs rs (raw & E & ->) H4 IH]; [easy|].
      destruct Hp as [<-|Hp]; [|now apply IH]. unfold predictor_transform. rewrite H2. pose proof (raw_length _ _ _ _ _ E) as HL. rewrite H1 in HL.
      destruct raw as [|s [|? ?]]; try discriminate HL.
      destruct (String.eqb (m_obj m) "multiclass"); [|destruct (_ || _)%bool; reflexivity].
      unfold stable_softmax. cbn zeta. destruct (nlt _ _); rewrite ?map_length; reflexivity. }
    assert (H6 : List.length (mrows P) = nrows X) by (symmetry; exact (Forall2_len _ _ _ H4)).
    unfold proba_matrix. rewrite H2. destruct (String.eqb (m_obj m) "multiclass_logloss"); cbn [nrows mrows].
    - unfold nrows at 1. cbn [mrows]. rewrite map_length. split; [exact H6|]. split; [exact H3|]. apply Forall_map. revert H5. apply Forall_impl. intros p Hp.
      unfold apply_softmax. now rewrite !map_length.
    - auto.
  Qed.
  Lemma repeat_map {A B} (g : A -> B) v n : map g (repeat v n) = repeat (g v) n.
  Proof. induction n; cbn; congruence. Qed.
  Theorem C106_load_text_panics m c0 X P : outputs_count m = 1%nat -> is_binary (m_obj m) = false -> predict_model roundint fuel m X = Some (Ok P) ->
    clf_predict (fst (clf_load_text (Ok m) c0)) X = Some Panic.
  Proof.
    intros H1 H2 H. destruct (one_output _ _ _ H1 H2 H) as (P' & H3 & H4 & H5 & H6). unfold clf_load_text. cbn [fst].
    assert (Hcl : (2 <? m_class m)%Z = false \/ Z.to_nat (m_class m) = 1%nat).
    { unfold outputs_count in H1. destruct (2 <? m_class m)%Z; auto. }
    assert (Hc2 : (2 <? m_class m)%Z = false).
    { destruct Hcl as [K|K]; [exact K|]. destruct (Z.ltb_spec 2 (m_class m)); [lia|reflexivity]. }
    rewrite Hc2. unfold LgbEstimator.clf_predict, LgbEstimator.clf_proba. cbn [c_fitted c_nfeat c_model c_classes negb].
    destruct (predict_model_rows _ _ _ _ _ H) as (H7 & _). rewrite H7, Z.eqb_refl. cbn [negb]. rewrite H3. cbn [bind].
    unfold newdense. rewrite H4. destruct (Nat.eqb_spec (nrows X) 0); [lia|]. cbn [Nat.eqb orb bind].
    unfold nrows in H4, H5. destruct (mrows P') as [|p ps] eqn:E; [cbn in H4; lia|]. inversion H6 as [|? ? Hp Hps]; subst.
    destruct p as [|v [|? ?]]; try discriminate Hp. reflexivity.
  Qed.
  Theorem C106_load_regression m X P : outputs_count m = 1%nat -> is_binary (m_obj m) = false -> m_obj m <> "multiclass" -> predict_model roundint fuel m X = Some (Ok P) ->
    clf_predict (fst (clf_load (Ok m) new_clf)) X = Some (Ok (mkmat 1 (repeat [nofZ 0] (nrows X)))).
  Proof.
    intros H1 H2 Hm H. destruct (one_output _ _ _ H1 H2 H) as (P' & H3 & H4 & H5 & H6). unfold clf_load. rewrite H2.
    destruct (String.eqb_spec (m_obj m) "multiclass") as [K|_]; [congruence|]. cbn [fst].
    unfold LgbEstimator.clf_predict, LgbEstimator.clf_proba. cbn [c_fitted c_nfeat c_model c_classes negb new_clf].
    destruct (predict_model_rows _ _ _ _ _ H) as (H7 & _). rewrite H7, Z.eqb_refl. cbn [negb]. rewrite H3. cbn [bind].
    unfold newdense. rewrite H4. destruct (Nat.eqb_spec (nrows X) 0); [lia|]. cbn [Nat.eqb orb bind].
    assert (M : forall l : list (list N), mapM (label_of []) l = Ok (repeat 0%Z (List.length l))).
    { induction l as [|p l IH]; [reflexivity|]. cbn [mapM repeat List.length]. rewrite IH. reflexivity. }
    rewrite M. cbn [bind]. rewrite <- H4. unfold nrows. rewrite repeat_map. reflexivity.
  Qed.

  (** Score is an error exactly when Predict is, panics for fewer labels than rows, and ignores labels
      beyond the rows. *)
  Theorem C106_score_rows c X y1 y2 : (forall Q, clf_predict c X = Some (Ok Q) -> nrows Q <= List.length y1)%nat ->
    clf_score roundint fuel c X (mkmat 1 (y1 ++ y2)) = clf_score roundint fuel c X (mkmat 1 y1).
  Proof.
    intros H. unfold clf_score. destruct (clf_predict c X) as [[Q|e|]|]; try reflexivity. specialize (H Q eq_refl). cbn [bind nrows mrows].
    assert (A : (List.length (y1 ++ y2) <? nrows Q)%nat = false) by (apply Nat.ltb_ge; rewrite app_length; lia).
    assert (B : (List.length y1 <? nrows Q)%nat = false) by (apply Nat.ltb_ge; lia).
    change (nrows (mkmat 1 (y1 ++ y2))) with (List.length (y1 ++ y2)). change (nrows (mkmat 1 y1)) with (List.length y1). rewrite A, B. cbn [mrows]. unfold column. rewrite map_app.
    assert (C : forall (l a b : list N), (List.length l <= List.length a)%nat -> combine l (a ++ b) = combine l a).
    { induction l as [|x l IH]; intros a b Hl; [reflexivity|]. destruct a as [|z a]; [cbn in Hl; lia|]. cbn. f_equal. apply IH. cbn in Hl. lia. }
    rewrite C by (rewrite !map_length; exact H). reflexivity.
  Qed.
End AnyNumber.

(** *** C106 and C107 for the trainer of the library, over the real numbers *)
Section Trained.
  Variables toint roundint : R -> Z.
  Variable order : list Z -> list Z.
  Hypothesis order_perm : forall l, Permutation (order l) l.
  Variable pow : R -> R -> R.
  Variables floori ceili : R -> Z.
  Variables (sortf : list R -> list R) (sortr : list (R * bin RNum) -> list (R * bin RNum)).
  Variable sampled : R -> R -> Z -> Z -> bool -> nat -> nat -> nat -> list nat.
  Variable fuel : nat.
  Local Open Scope R_scope.
  Notation train := (@train RNum toint pow floori ceili sortf sortr sampled fuel).
  Notation clf_fit := (@clf_fit RNum toint order train).
  Notation clf_predict := (@clf_predict RNum roundint fuel).
  Notation raw_score := (@predictor_raw RNum roundint fuel).

  Lemma trained init w X y c c' : clf_fit init w X y c = Some (c', Ok tt) ->
    names_of (@labels_of RNum toint y) (c_classes c') /\ (2 <= List.length (c_classes c'))%nat
    /\ exists m, stored c' m /\ train (clf_settings c') init w X (@column RNum 0 (mrows y)) = Some (Ok m)
        /\ m_obj m = (if (List.length (c_classes c') =? 2)%nat then "binary" else "multiclass")
        /\ outputs_count m = (if (List.length (c_classes c') =? 2)%nat then 1%nat else List.length (c_classes c'))
        /\ s_obj (clf_settings c') = m_obj m /\ s_class (clf_settings c') = (if (List.length (c_classes c') =? 2)%nat then 1%Z else Z.of_nat (List.length (c_classes c'))).
  Proof.
    intros H. destruct (@C106_fit RNum toint order order_perm _ _ _ _ _ _ _ H) as (_ & _ & H1 & H2 & m & H3 & H4 & H5 & H6 & H7).
    split; [exact H1|]. split; [exact H2|]. exists m. split; [exact H3|]. split; [exact H5|].
    destruct (train_inv _ _ _ _ _ _ _ _ _ _ _ _ _ _ H5) as (o & i & ts & preds & E1 & E2 & E3 & ->).
    cbn [get_model m_obj]. change (s_obj (clf_settings c')) with (h_objective (c_h c')). change (s_class (clf_settings c')) with (c_numclass c').
    rewrite H6, H7. split; [reflexivity|]. split; [|split; reflexivity]. unfold outputs_count, get_model. cbn [m_class].
    destruct (Nat.eqb_spec (List.length (c_classes c')) 2) as [K|K]; [reflexivity|].
    destruct (Z.ltb_spec 0 (Z.of_nat (List.length (c_classes c')))); [|lia].
    destruct (Z.ltb_spec 2 (Z.of_nat (List.length (c_classes c')))); [|lia]. apply Nat2Z.id.
  Qed.

  (** Two classes: the larger class exactly where the score is not negative. *)
  Theorem C106_two_scores init w X y c c' a b X' Q : clf_fit init w X y c = Some (c', Ok tt) -> c_classes c' = [a; b] ->
    clf_predict c' X' = Some (Ok Q) ->
    exists m, c_model c' = Some m /\ Forall2 (fun x q => exists s : R, raw_score m x = Some (Ok [s]) /\ q = [if Rle_dec 0 s then IZR b else IZR a]) (mrows X') (mrows Q).
  Proof.
    intros H Hc HQ. destruct (trained _ _ _ _ _ _ H) as (_ & _ & m & Hs & _ & Ho & Hn & _). exists m. split; [apply Hs|].
    rewrite Hc in Ho, Hn. cbn in Ho, Hn. destruct (labelled _ _ _ _ _ _ Hs HQ) as (_ & P & HP & HF).
    pose proof (binary_rows _ _ _ _ _ Ho Hn HP) as HB. clear -HB HF Hc. revert HF. generalize (mrows Q). induction HB as [|x r xs rs (s & E & ->) HB IH]; intros qs HF; inversion HF as [|? q ? qs' (l & L1 & ->) HF']; subst; constructor.
    - exists s. split; [exact E|]. rewrite Hc in L1. pose proof (label_two a b s) as L2. pose proof (eq_trans (eq_sym L1) L2) as L3. injection L3 as ->.
      f_equal. rewrite nofZ_R. destruct (Rle_dec 0 s); reflexivity.
    - now apply IH.
  Qed.
  (** More classes (fewer than 10^15): the class with the first of the largest scores. *)
  Theorem C106_many_scores init w X y c c' X' Q : clf_fit init w X y c = Some (c', Ok tt) -> (2 < List.length (c_classes c'))%nat ->
    INR (List.length (c_classes c')) <= 1000000000000000 -> clf_predict c' X' = Some (Ok Q) ->
    exists m, c_model c' = Some m /\ Forall2 (fun x q => exists raw j k, raw_score m x = Some (Ok raw) /\ List.length raw = List.length (c_classes c')
        /\ first_largest raw j /\ nth_error (c_classes c') j = Some k /\ q = [IZR k]) (mrows X') (mrows Q).
  Proof.
    intros H Hc HK HQ. destruct (trained _ _ _ _ _ _ H) as (_ & _ & m & Hs & _ & Ho & Hn & _). exists m. split; [apply Hs|].
    destruct (Nat.eqb_spec (List.length (c_classes c')) 2) as [K|K]; [lia|]. destruct (labelled _ _ _ _ _ _ Hs HQ) as (_ & P & HP & HF).
    pose proof (multi_rows _ _ _ _ _ Ho HP) as HB. clear -HB HF Hc HK Hn. revert HF. generalize (mrows Q).
    induction HB as [|x r xs rs (raw & E & ->) HB IH]; intros qs HF; inversion HF as [|? q ? qs' (l & L1 & ->) HF']; subst; constructor; [|now apply IH].
    pose proof (raw_length _ _ _ _ _ E) as HL. rewrite Hn in HL.
    destruct (softmax_first _ _ _ HL Hc HK L1) as (j & J1 & J2). exists raw, j, l. repeat split; auto; try apply J1. f_equal. apply nofZ_R.
  Qed.
  (** Every answer is one of the training labels. *)
  Theorem C106_labels_known init w X y c c' X' Q : clf_fit init w X y c = Some (c', Ok tt) ->
    INR (List.length (c_classes c')) <= 1000000000000000 -> clf_predict c' X' = Some (Ok Q) ->
    Forall (fun q => exists k, In k (@labels_of RNum toint y) /\ q = [IZR k]) (mrows Q).
  Proof.
    intros H HK HQ. destruct (trained _ _ _ _ _ _ H) as ((_ & Hin) & H2 & _).
    destruct (Nat.eq_dec (List.length (c_classes c')) 2) as [E|E].
    - destruct (c_classes c') as [|a [|b [|? ?]]] eqn:Ec; try discriminate E.
      destruct (C106_two_scores _ _ _ _ _ _ _ _ _ _ H Ec HQ) as (m & _ & HF). apply Forall_forall. intros q Hq.
      clear -HF Hq Hin. induction HF as [|x q' xs qs (s & _ & ->) HF IH]; [easy|]. destruct Hq as [<-|Hq]; [|now apply IH].
      destruct (Rle_dec 0 s); [exists b|exists a]; (split; [apply Hin; cbn; auto|reflexivity]).
    - destruct (C106_many_scores _ _ _ _ _ _ _ _ H ltac:(lia) HK HQ) as (m & _ & HF). apply Forall_forall. intros q Hq.
      clear -HF Hq Hin. induction HF as [|x q' xs qs (raw & j & k & _ & _ & _ & J & ->) HF IH]; [easy|]. destruct Hq as [<-|Hq]; [|now apply IH].
      exists k. split; [apply Hin; exact (nth_error_In _ _ J)|reflexivity].
  Qed.

  (** *** C107 *)
  (** Training for "multiclass" is training for "binary" on the raw labels, from their mean: the trees
      are the same, one per round. *)
  Definition with_goal (o : string) (k : Z) (s : settings RNum) : settings RNum :=
    mkset (s_iters s) (s_lr s) (s_leaves s) (s_depth s) (s_minleaf s) (s_l2 s) (s_l1 s) (s_mingain s) (s_bagfrac s) (s_bagfreq s) (s_ffrac s)
      (s_maxbin s) (s_minbin s) o k (s_boost s) (s_huber s) (s_quantile s) (s_fair s) (s_tweedie s) (s_cats s) (s_onehot s) (s_seed s) (s_det s) (s_verb s) (s_early s).
  Theorem C107_multiclass_is_binary s k w X y m : y <> [] -> train (with_goal "multiclass" k s) None w X y = Some (Ok m) ->
    exists m', train (with_goal "binary" 1 s) (Some (Rsum y / INR (List.length y))) w X y = Some (Ok m') /\ m_trees m' = m_trees m /\ m_init m' = m_init m
      /\ m_init m = Rsum y / INR (List.length y).
  Proof.
    intros Hy H. destruct (train_inv _ _ _ _ _ _ _ _ _ _ _ _ _ _ H) as (o & i & ts & preds & E1 & E2 & E3 & ->).
    cbn [with_goal s_obj s_huber s_fair s_quantile s_tweedie] in E1. rewrite (create_multi (N := RNum)) in E1. injection E1 as <-.
    assert (Ei : i = Rsum y / INR (List.length y)).
    { assert (Em : @mean RNum y = Rsum y / INR (List.length y)).
      { unfold mean. cbn [ndiv RNum]. f_equal; [apply nsum_R|f_equal; apply nofnat_R]. }
      rewrite <- Em. destruct y as [|t y]; [easy|]. injection E2 as E2. exact (eq_sym E2). }
    exists (get_model (mcols X) "binary" 1 (growth (new_trainer s)) i ts). split; [|repeat split; exact Ei].
    unfold LgbEstimator.train. cbn zeta. cbn [with_goal new_trainer s_obj s_huber s_fair s_quantile s_tweedie s_class].
    rewrite (create_binary (N := RNum)). rewrite <- Ei.
    match goal with |- omap _ ?f = _ => assert (Ef : f = Some (Ok (ts, preds))) by exact E3 end. rewrite Ef. reflexivity.
  Qed.

  (** A classifier for more than two classes that is trained in fewer rounds than there are classes
      never answers with a class behind the one numbered by the rounds. *)
  Theorem C107_reach w X y c c' X' Q : clf_fit None w X y c = Some (c', Ok tt) -> (2 < List.length (c_classes c'))%nat ->
    INR (List.length (c_classes c')) <= 1000000000000000 -> (0 < h_iters (c_h c'))%Z -> clf_predict c' X' = Some (Ok Q) ->
    Forall (fun q => exists j k, nth_error (c_classes c') j = Some k /\ q = [IZR k] /\ (Z.of_nat j <= h_iters (c_h c'))%Z) (mrows Q).
  Proof.
    intros H Hc HK Hi HQ. destruct (C106_many_scores _ _ _ _ _ _ _ _ H Hc HK HQ) as (m & Hm & HF).
    destruct (trained _ _ _ _ _ _ H) as (_ & _ & m' & [_ Hs] & Ht & _ & Hn & _ & Hcl). rewrite Hm in Hs. injection Hs as <-.
    destruct (train_inv _ _ _ _ _ _ _ _ _ _ _ _ _ _ Ht) as (o & i & ts & preds & E1 & E2 & E3 & Em).
    destruct (Nat.eqb_spec (List.length (c_classes c')) 2) as [K|K]; [lia|].
    assert (Hts : List.length ts = Z.to_nat (h_iters (c_h c'))).
    { rewrite (fit_count _ _ _ _ _ _ _ _ _ _ _ _ _ _ _ E3). unfold bags_for. rewrite map_length, seq_length. f_equal. cbn [new_trainer s_iters clf_settings]. unfold or_int.
      destruct (Z.eqb_spec (h_iters (c_h c')) 0); [lia|reflexivity]. }
    apply Forall_forall. intros q Hq. assert (HF2 : exists x, exists raw j k, raw_score m x = Some (Ok raw) /\ List.length raw = List.length (c_classes c')
        /\ first_largest raw j /\ nth_error (c_classes c') j = Some k /\ q = [IZR k]).
    { clear -HF Hq. induction HF as [|x q' xs qs HF1 HF IH]; [easy|]. destruct Hq as [<-|Hq]; [now exists x|now apply IH]. }
    destruct HF2 as (x & raw & j & k & R1 & R2 & (R3 & R4 & R5) & R6 & ->). exists j, k. split; [exact R6|]. split; [reflexivity|].
    destruct (Z_le_gt_dec (Z.of_nat j) (h_iters (c_h c'))) as [L|L]; [exact L|exfalso].
    destruct (raw_inv _ _ _ _ _ R1) as (outs & Eraw & HF3). rewrite Em in HF3. rewrite used_all in HF3. apply Forall2_len in HF3.
    rewrite Hn in Eraw. assert (R3' : (j < List.length (c_classes c'))%nat) by (rewrite <- R2; exact R3).
    assert (T : forall d, (List.length outs <= d)%nat -> (d < List.length (c_classes c'))%nat -> nth d raw 0 = m_init m).
    { intros d D1 D2. apply nth_error_nth. rewrite Eraw. now apply LgbTrainProps.accumulate_untouched. }
    pose proof (R5 (List.length ts) ltac:(lia)) as Bad. pose proof (T (List.length ts) ltac:(lia) ltac:(lia)) as T1. pose proof (T j ltac:(lia) ltac:(lia)) as T2.
    apply (Rlt_irrefl (m_init m)). exact (eq_ind _ (fun v => v < m_init m) (eq_ind _ (fun v => nth (List.length ts) raw 0 < v) Bad _ T2) _ T1).
  Qed.

  Lemma one_sided (up : bool) w X y c c' a b X' Q : clf_fit None w X y c = Some (c', Ok tt) -> c_classes c' = [a; b] ->
    0 <= h_alpha (c_h c') -> 0 <= h_lambda (c_h c') -> 0 <= h_lr (c_h c') -> (forall v, In v (@weights_for RNum w X) -> 0 <= v) ->
    (forall t, In t (@column RNum 0 (mrows y)) -> if up then 1 <= t else t <= 0) ->
    clf_predict c' X' = Some (Ok Q) -> Forall (fun q => q = [IZR (if up then b else a)]) (mrows Q).
  Proof.
    intros H Hc H1 H2 H3 H4 Hy HQ. destruct (C106_two_scores _ _ _ _ _ _ _ _ _ _ H Hc HQ) as (m & Hm & HF).
    destruct (trained _ _ _ _ _ _ H) as ([_ Hnm] & _ & m' & [_ Hs] & Ht & Ho & _ & Ho2 & Hcl). rewrite Hm in Hs. injection Hs as <-.
    rewrite Hc in Ho, Hcl. cbn in Ho, Hcl.
    assert (Hne : @column RNum 0 (mrows y) <> []).
    { assert (Ha : In a (@labels_of RNum toint y)) by (apply Hnm; rewrite Hc; now left). unfold labels_of in Ha. unfold column.
      destruct (mrows y); [destruct Ha|discriminate]. }
    apply Forall_forall. intros q Hq. clear HQ. induction HF as [|x q' xs qs (s & Es & ->) HF IH]; [easy|]. destruct Hq as [<-|Hq]; [|now apply IH].
    assert (Hb : s_obj (clf_settings c') = "binary") by (rewrite Ho2; exact Ho).
    assert (Hk : (s_class (clf_settings c') <= 2)%Z) by (change (s_class (clf_settings c')) with (c_numclass c'); change (s_class (clf_settings c')) with (c_numclass c') in Hcl; lia).
    destruct (binary_outs toint roundint pow floori ceili sortf sortr sampled fuel up _ _ _ _ _ _ _ _ Ht Hb Hk H1 H2 H3 H4 Hy Es) as (i & outs & I1 & I2 & I3).
    injection I2 as ->. pose proof (binary_init_side up _ i Hne Hy I1) as I4. f_equal. destruct up.
    - destruct (Rle_dec 0 _) as [_|K]; [reflexivity|]. exfalso. apply K. now apply fold_up.
    - destruct (Rle_dec 0 _) as [K|_]; [|reflexivity]. exfalso. pose proof (fold_down outs i I4 I3). lra.
  Qed.
  (** Two classes whose labels are all at least 1: the larger one is predicted for every row. *)
  Theorem C107_large_labels w X y c c' a b X' Q : clf_fit None w X y c = Some (c', Ok tt) -> c_classes c' = [a; b] ->
    0 <= h_alpha (c_h c') -> 0 <= h_lambda (c_h c') -> 0 <= h_lr (c_h c') -> (forall v, In v (@weights_for RNum w X) -> 0 <= v) ->
    (forall t, In t (@column RNum 0 (mrows y)) -> 1 <= t) ->
    clf_predict c' X' = Some (Ok Q) -> Forall (fun q => q = [IZR b]) (mrows Q).
  Proof. exact (one_sided true w X y c c' a b X' Q). Qed.
  (** Labels that are all at most 0: the smaller one. *)
  Theorem C107_small_labels w X y c c' a b X' Q : clf_fit None w X y c = Some (c', Ok tt) -> c_classes c' = [a; b] ->
    0 <= h_alpha (c_h c') -> 0 <= h_lambda (c_h c') -> 0 <= h_lr (c_h c') -> (forall v, In v (@weights_for RNum w X) -> 0 <= v) ->
    (forall t, In t (@column RNum 0 (mrows y)) -> t <= 0) ->
    clf_predict c' X' = Some (Ok Q) -> Forall (fun q => q = [IZR a]) (mrows Q).
  Proof. exact (one_sided false w X y c c' a b X' Q). Qed.
End Trained.

(** *** C108 *)
Section Regressor.
  Context {N : Num}.
  Local Open Scope num_scope.
  Variable roundint : N -> Z.
  Variable fuel : nat.
  Notation predict := (rgr_predict roundint fuel).
  Definition stores (r : rgr N) (m : gmodel N) : Prop := r_fitted r = true /\ r_model r = Some m.

  Section AnyTrainer.
    Variable trainer : settings N -> option N -> option (list N) -> matrix N -> list N -> option (res (gmodel N)).
    (** A successful Fit stores the trained model; a failed one keeps the old model and the fitted
        flag, and may replace the noted number of columns. *)
    Theorem C108_fit X y r r' : rgr_fit trainer X y r = Some (r', Ok tt) ->
      nrows X = nrows y /\ mcols y = 1%nat /\ exists m, stores r' m /\ r_nfeat r' = Z.of_nat (mcols X)
        /\ trainer (rgr_settings r) None None X (column 0 (mrows y)) = Some (Ok m) /\ r_h r' = r_h r.
    Proof.
      unfold rgr_fit, rgr_run. destruct (Nat.eqb_spec (nrows X) (nrows y)); [|discriminate]. destruct (Nat.eqb_spec (mcols y) 1); [|discriminate]. cbn [negb].
      destruct (trainer _ _ _ _ _) as [[m|er|]|] eqn:Et; intros H; try discriminate. injection H as <-. repeat split; auto. exists m. repeat split; auto.
    Qed.
    Theorem C108_failed_fit X y r r' e : rgr_fit trainer X y r = Some (r', Err e) ->
      r_model r' = r_model r /\ r_fitted r' = r_fitted r /\ r_h r' = r_h r /\ (r' = r \/ r_nfeat r' = Z.of_nat (mcols X)).
    Proof.
      unfold rgr_fit, rgr_run. destruct (Nat.eqb_spec (nrows X) (nrows y)); cbn [negb]; [|intros H; injection H as <- _; auto].
      destruct (Nat.eqb_spec (mcols y) 1); cbn [negb]; [|intros H; injection H as <- _; auto].
      destruct (trainer _ _ _ _ _) as [[m|er|]|] eqn:Et; intros H; try discriminate; injection H as <- _; auto.
    Qed.
    (** Fit reads neither BoostingType nor Metric, MinChildWeight, NumThreads, ImportanceType. *)
    Theorem C108_settings X y r1 r2 : same_training (r_h r1) (r_h r2) -> h_objective (r_h r1) = h_objective (r_h r2) ->
      r_quantile r1 = r_quantile r2 -> r_huber r1 = r_huber r2 -> r_fair r1 = r_fair r2 -> r_tweedie r1 = r_tweedie r2 -> r_cats r1 = r_cats r2 ->
      r_fitted r1 = r_fitted r2 -> r_model r1 = r_model r2 ->
      match rgr_fit trainer X y r1, rgr_fit trainer X y r2 with
      | None, None => True
      | Some (d1, x1), Some (d2, x2) => x1 = x2 /\ r_model d1 = r_model d2 /\ r_fitted d1 = r_fitted d2 /\ (x1 = Ok tt -> r_nfeat d1 = r_nfeat d2)
      | _, _ => False
      end.
    Proof.
      intros (E1 & E2 & E3 & E4 & E5 & E6 & E7 & E8 & E9 & E10 & E11 & E12 & E13 & E14) F1 F2 F3 F4 F5 F6 Hf Hm. unfold rgr_fit, rgr_run.
      destruct (negb _); [repeat split; auto; discriminate|]. destruct (negb _); [repeat split; auto; discriminate|].
      assert (ES : rgr_settings r1 = rgr_settings r2).
      { unfold rgr_settings. rewrite E1, E2, E3, E4, E5, E6, E7, E8, E9, E10, E11, E12, E13, E14, F1, F2, F3, F4, F5, F6. reflexivity. }
      rewrite ES. destruct (trainer _ _ _ _ _) as [[m|e|]|]; try exact I; repeat split; auto; discriminate.
    Qed.
  End AnyTrainer.
  (** As C106_width *)
  Theorem C108_width r m Z Q : stores r m -> r_nfeat r <> m_nfeat m -> predict r Z <> Some (Ok Q).
  Proof.
    intros [H1 H2] Hn H. unfold rgr_predict in H. rewrite H1, H2 in H. cbn [negb] in H.
    destruct (Z.eqb_spec (Z.of_nat (mcols Z)) (r_nfeat r)) as [E|E]; [|discriminate]. cbn [negb] in H.
    destruct (predict_model_rows _ _ _ _ _ H) as [P4 _]. congruence.
  Qed.

  Section OwnTrainer.
    Variable toint : N -> Z.
    Variable pow : N -> N -> N.
    Variables floori ceili : N -> Z.
    Variables (sortf : list N -> list N) (sortr : list (N * bin N) -> list (N * bin N)).
    Variable sampled : N -> N -> Z -> Z -> bool -> nat -> nat -> nat -> list nat.
    Notation train := (train toint pow floori ceili sortf sortr sampled fuel).
    (** FitWeighted without weights does what Fit does, for every BoostingType other than "goss". *)
    Theorem C108_weighted_nil X y r : rgr_fit_weighted train None None X y r = rgr_fit train X y r.
    Proof.
      unfold rgr_fit_weighted, rgr_fit, rgr_run.
      assert (E : train (rgr_settings_weighted r) None None X (column 0 (mrows y)) = train (rgr_settings r) None None X (column 0 (mrows y))) by reflexivity.
      rewrite E. reflexivity.
    Qed.
    (** Weights that are all 1 change nothing. *)
    Theorem C108_unit_weights init X y r : rgr_fit_weighted train init (Some (repeat n1 (nrows X))) X y r = rgr_fit_weighted train init None X y r.
    Proof. unfold rgr_fit_weighted. rewrite repeat_length, Nat.eqb_refl. reflexivity. Qed.
  End OwnTrainer.

  (** ** Quantiles *)
  (** A quantile that is not a number passes the check of the range. *)
  Theorem C108_quantile_nan (L : cmp_laws N) r m X P q : stores r m -> m_obj m = "quantile" -> nisnan q = true -> predict r X = Some (Ok P) ->
    rgr_quantiles roundint fuel r X [q] = Some (Ok [mkmat (mcols P) (map (map (shifted q)) (mrows P))]).
  Proof.
    intros [H1 H2] Ho Hq HP. unfold rgr_quantiles. rewrite H1, H2, Ho. cbn [negb String.eqb Ascii.eqb Bool.eqb quantiles_of]. 
    destruct (cmp_nan _ L q n0 (or_introl Hq)) as [A _]. destruct (cmp_nan _ L n1 q (or_intror Hq)) as [B _]. rewrite A, B. cbn [orb]. rewrite HP. reflexivity.
  Qed.

  (** ** Metrics *)
  Lemma sequence_firstn {A B} (g : A -> option (res B)) k : forall l bs, sequence g l = Some (Ok bs) -> sequence g (firstn k l) = Some (Ok (firstn k bs)).
  Proof.
    induction k as [|k IH]; intros l bs H; [reflexivity|]. destruct l as [|a l]; cbn in H; [injection H as <-; reflexivity|].
    destruct (g a) as [[b|e|]|] eqn:E; try discriminate. destruct (sequence g l) as [[bs'|e|]|] eqn:E2; try discriminate. injection H as <-.
    cbn [firstn sequence]. now rewrite E, (IH _ _ E2).
  Qed.
  Definition upper (k : nat) (X : matrix N) : matrix N := mkmat (mcols X) (firstn k (mrows X)).
  (** Score, GetMSE and GetMAE: with more targets than rows they panic; with fewer they judge the
      first rows. *)
  Theorem C108_more_targets metric r X y P : predict r X = Some (Ok P) -> (nrows X < nrows y)%nat -> judged roundint fuel metric r X y = Some Panic.
  Proof.
    intros H Hy. unfold judged. rewrite H. cbn [bind]. unfold compared.
    assert (E : nrows P = nrows X).
    { unfold rgr_predict in H. destruct (negb (r_fitted r)); [discriminate|]. destruct (negb _); [discriminate|]. destruct (r_model r) as [m|]; [|discriminate].
      destruct (predict_model_rows _ _ _ _ _ H) as (_ & _ & _ & HF). symmetry. exact (Forall2_len _ _ _ HF). }
    rewrite E. apply Nat.ltb_lt in Hy. rewrite Hy. reflexivity.
  Qed.
  Theorem C108_fewer_targets metric r X y P : predict r X = Some (Ok P) -> (0 < nrows y <= nrows X)%nat ->
    judged roundint fuel metric r X y = judged roundint fuel metric r (upper (nrows y) X) y.
  Proof.
    intros H Hy. unfold judged. rewrite H.
    assert (E : predict r (upper (nrows y) X) = Some (Ok (upper (nrows y) P)) /\ nrows P = nrows X).
    { unfold rgr_predict in *. destruct (negb (r_fitted r)); [discriminate|]. cbn [upper mcols]. destruct (negb _); [discriminate|]. destruct (r_model r) as [m|]; [|discriminate].
      split.
      - unfold predict_model in *. cbn [upper mcols]. destruct (negb _); [discriminate|]. unfold newdense in *.
        destruct (Nat.eqb_spec (nrows X) 0); [discriminate|]. destruct (outputs_count m =? 0)%nat; [discriminate|].
        assert (K : nrows (mkmat (mcols X) (firstn (nrows y) (mrows X))) = nrows y).
        { unfold nrows in *. cbn [mrows]. rewrite firstn_length. lia. }
        unfold upper. rewrite K. destruct (Nat.eqb_spec (nrows y) 0); [lia|]. cbn [orb mrows mcols] in *.
        apply omap_ok in H. destruct H as (rs & H & ->). rewrite (sequence_firstn _ _ _ _ H). reflexivity.
      - destruct (predict_model_rows _ _ _ _ _ H) as (_ & _ & _ & HF). symmetry. exact (Forall2_len _ _ _ HF). }
    destruct E as [E1 E2]. rewrite E1. cbn [bind]. unfold compared.
    assert (K : nrows (upper (nrows y) P) = nrows y).
    { unfold upper, nrows in *. cbn [mrows]. rewrite firstn_length. lia. }
    rewrite K, Nat.ltb_irrefl. destruct (Nat.ltb_spec (nrows P) (nrows y)); [lia|]. cbn [upper mrows bind].
    unfold column. rewrite !firstn_map, firstn_firstn, Nat.min_id. reflexivity.
  Qed.

  (** ** Loading *)
  (** A loaded model answers through Predict; the objective for later training is the model's own if
      it is a regression objective, else "regression" - but it is not touched by loading from a string
      or JSON. *)
  Theorem C108_load m r X : 
    predict (fst (rgr_load (Ok m) r)) X = predict (fst (rgr_load_text (Ok m) r)) X
    /\ (forall Q, predict (fst (rgr_load (Ok m) r)) X = Some (Ok Q) <-> predict_model roundint fuel m X = Some (Ok Q))
    /\ h_objective (r_h (fst (rgr_load_text (Ok m) r))) = h_objective (r_h r)
    /\ (h_objective (r_h (fst (rgr_load (Ok m) r))) = m_obj m \/ h_objective (r_h (fst (rgr_load (Ok m) r))) = "regression").
  Proof.
    split; [reflexivity|]. split; [|split; [reflexivity|]].
    - intros Q. cbn [rgr_load fst]. unfold rgr_predict, rgr_with. cbn [r_fitted r_nfeat r_model negb]. unfold predict_model.
      destruct (Z.of_nat (mcols X) =? m_nfeat m)%Z; cbn [negb]; [tauto|]. split; discriminate.
    - cbn [rgr_load fst]. unfold rgr_with. cbn [r_h]. rewrite with_objective_fields. unfold loaded_objective. destruct (existsb _ _); auto.
  Qed.
End Regressor.

(** The "quantiles" are the prediction scaled by 1 + (q - 1/2)/10; they must lie in (0, 1). *)
Theorem C108_quantiles (roundint : R -> Z) fuel (r : rgr RNum) m X P qs Ms : stores r m -> @rgr_predict RNum roundint fuel r X = Some (Ok P) ->
  @rgr_quantiles RNum roundint fuel r X qs = Some (Ok Ms) ->
  m_obj m = "quantile" /\ Forall (fun q => 0 < q < 1)%R qs
  /\ Forall2 (fun q M => mrows M = map (map (fun v => (v * (1 + (q - 1 / 2) / 10))%R)) (mrows P)) qs Ms.
Proof.
  intros [H1 H2] HP. unfold rgr_quantiles. rewrite H1, H2. cbn [negb]. destruct (String.eqb_spec (m_obj m) "quantile") as [E|E]; [|discriminate]. cbn [negb].
  intros H. split; [exact E|]. revert Ms H. induction qs as [|q qs IH]; intros Ms H; cbn [quantiles_of] in H; [injection H as <-; split; constructor|].
  change (@nle RNum q n0) with (Rleb q 0) in H. change (@nle RNum n1 q) with (Rleb 1 q) in H.
  destruct (Rleb_spec q 0) as [K|K]; [discriminate|]. destruct (Rleb_spec 1 q) as [K2|K2]; [discriminate|]. cbn [orb] in H. rewrite HP in H.
  apply omap_ok in H. destruct H as (Ms' & H & ->). destruct (IH _ H) as [I1 I2]. split; (constructor; [|assumption]); [lra|]. cbn [mrows].
  apply map_ext. intros row. apply map_ext. intros v. unfold shifted. rewrite !nlit_R. cbn [nadd nmul nsub RNum]. unR. field.
Qed.
(** So a larger quantile is larger where the prediction is positive and smaller where it is negative;
    the quantile 1/2 is the prediction. *)
Theorem C108_quantile_order (roundint : R -> Z) fuel (r : rgr RNum) m X P q1 q2 M1 M2 : stores r m -> @rgr_predict RNum roundint fuel r X = Some (Ok P) ->
  @rgr_quantiles RNum roundint fuel r X [q1; q2] = Some (Ok [M1; M2]) -> (q1 < q2)%R ->
  Forall2 (Forall2 (fun a b => (a < b /\ 0 < a)%R \/ (b < a /\ a < 0)%R \/ (a = 0 /\ b = 0)%R)) (mrows M1) (mrows M2)
  /\ (q1 = (1 / 2)%R -> mrows M1 = mrows P).
Proof.
  intros Hs HP HQ Hq. destruct (C108_quantiles _ _ _ _ _ _ _ _ Hs HP HQ) as (_ & H1 & H2).
  inversion H1 as [|? ? A1 H1']; subst. inversion H1' as [|? ? A2 _]; subst.
  inversion H2 as [|? ? ? ? B1 H2']; subst. inversion H2' as [|? ? ? ? B2 _]; subst. unR. rewrite B1, B2. split.
  - clear -A1 A2 Hq. induction (mrows P) as [|row rows IH]; cbn [map]; constructor; [|exact IH]. clear IH. induction row as [|v row IH]; cbn [map]; constructor; [|exact IH].
    destruct (Rtotal_order v 0) as [K|[->|K]]; [right; left|right; right|left]; split; try nra.
  - intros ->. assert (E : forall v : R, (v * (1 + (1 / 2 - 1 / 2) / 10) = v)%R) by (intros v; field).
    transitivity (map (fun r : list RNum => r) (mrows P)); [|apply map_id]. apply map_ext. intros row.
    transitivity (map (fun v : RNum => v) row); [|apply map_id]. apply map_ext. exact E.
Qed.

(** *** Decision function *)
(** DecisionFunction of a two-class classifier is a probability, computed without the learning rate. *)
Theorem C106_decision {N : Num} (toint : N -> Z) big fuel c m a b X D : stored c m -> c_classes c = [a; b] -> m_obj m = "binary" -> outputs_count m = 1%nat ->
  clf_decision toint big fuel c X = Some (Ok D) ->
  Forall2 (fun x d => exists outs, Forall2 (fun t o => tree_predict toint fuel t x = Some (Ok o)) (m_trees m) outs
      /\ d = [model_sigmoid big (fold_left nadd outs (m_init m))]) (mrows X) (mrows D).
Proof.
  intros [H1 H2] Hc Ho Hn. unfold clf_decision. rewrite H1, H2, Hc. cbn [List.length Nat.eqb negb]. destruct (negb _); [discriminate|].
  destruct (newdense _ _); try discriminate. intros H. apply omap_ok in H. destruct H as (rs & H & ->). cbn [mrows]. apply Forall2_map_r.
  apply sequence_inv in H. revert H. apply Forall2_impl_. intros x r K. unfold predict_single in K. apply omap_ok in K. destruct K as (raw & K & ->).
  unfold model_raw in K. destruct (sequence _ _) as [[outs|e|]|] eqn:E; try discriminate. injection K as <-. apply sequence_inv in E. exists outs. split; [exact E|].
  rewrite Hn, accumulate_one. unfold model_transform. rewrite Ho. reflexivity.
Qed.

(** *** Witnesses and examples *)
Local Open Scope R_scope.
Definition fixed (cls : list Z) (m : gmodel RNum) : clf RNum := @mkclf RNum true (Some m) cls (m_nfeat m) (m_class m) (c_h new_clf) [].
Definition one_row : matrix RNum := @mkmat R 1 [[0]].
(** A positive decision value for a row that Predict gives to the smaller class. *)
Theorem C106_decision_refuted : exists (c : clf RNum) X d, 
  @clf_decision RNum Int_part 1 9 c X = Some (Ok (mkmat 1 [[d]])) /\ 0 < d /\ @clf_predict RNum Int_part 9 c X = Some (Ok (mkmat 1 [[IZR 3]])) /\ c_classes c = [3; 7]%Z.
Proof.
  exists (fixed [3; 7]%Z (@constant_model RNum "binary" 1 1 (-1))), one_row, (@model_sigmoid RNum 1 (-1)). split; [reflexivity|]. split.
  - unfold model_sigmoid. change (@nneg RNum (-1)) with (- -1). replace (- -1) with 1 by ring. unfold model_exp.
    replace (@nlt RNum (nlit 700 1) 1) with false by (symmetry; rewrite nlit_R; apply Rltb_false; lra).
    replace (@nlt RNum 1 (nlit (-700) 1)) with false by (symmetry; rewrite nlit_R; apply Rltb_false; lra).
    assert (T : 0 < @taylor RNum 1).
    { unfold taylor. cbn [seq fold_left taylor_step fst snd]. unfold taylor_step. cbn [fst snd]. rewrite !nofnat_R. cbn [nadd nmul ndiv n1 RNum INR]. lra. }
    cbn [ndiv nadd n1 RNum]. apply Rdiv_lt_0_compat; [lra|]. unR. lra.
  - split; [|reflexivity]. pose proof (label_two 3 7 (-1)) as L. destruct (Rle_dec 0 (-1)) as [K|K]; [lra|].
    transitivity (Some (let* ls := mapM (@label_of RNum [3; 7]%Z) [[@ensure RNum (1 - @stable_sigmoid RNum (-1)); @stable_sigmoid RNum (-1)]] in
      Ok (mkmat 1 (map (fun l => [@nofZ RNum l]) ls)))); [reflexivity|].
    cbn [mapM]. rewrite L. cbn [bind map]. rewrite nofZ_R. reflexivity.
Qed.

(** A class of its own for every whole number that is needed below *)
Definition whole (x : R) : Z := if Rltb x (1 / 2) then 0%Z else if Rltb x (3 / 2) then 1%Z else 2%Z.
Lemma whole_0 : whole 0 = 0%Z. Proof. unfold whole. destruct (Rltb_spec 0 (1 / 2)); [reflexivity|lra]. Qed.
Lemma whole_1 : whole 1 = 1%Z. Proof. unfold whole. destruct (Rltb_spec 1 (1 / 2)); [lra|]. destruct (Rltb_spec 1 (3 / 2)); [reflexivity|lra]. Qed.
Lemma whole_2 : whole 2 = 2%Z. Proof. unfold whole. destruct (Rltb_spec 2 (1 / 2)); [lra|]. destruct (Rltb_spec 2 (3 / 2)); [lra|reflexivity]. Qed.
Definition own_train : settings RNum -> option R -> option (list R) -> matrix R -> list R -> option (res (gmodel RNum)) :=
  @train RNum whole (fun a _ => a) whole whole (fun l => l) (fun l => l) (fun _ _ _ _ _ _ n _ => seq 0 n) 9.
Definition one_round : clf RNum :=
  @mkclf RNum false None [] 0 0 (@mkhyper RNum 31 (-1) (1 / 10) 1 20 (1 / 1000) 1 0 1 0 0 42 "binary" "auto" (-1) false (-1) 0 "" "") [].
Definition two_points : matrix R := @mkmat R 1 [[0]; [1]].
Definition three_points : matrix R := @mkmat R 1 [[0]; [1]; [2]].

(** Labels 1 and 2, perfectly told apart by the feature: both rows get the label 2. *)
Example C107_large_labels_example : exists c' Q, @clf_fit RNum whole (fun l => l) own_train None None two_points (@mkmat R 1 [[1]; [2]]) one_round = Some (c', Ok tt)
  /\ c_classes c' = [1; 2]%Z /\ 0 <= h_alpha (c_h c') /\ 0 <= h_lambda (c_h c') /\ 0 <= h_lr (c_h c')
  /\ @clf_predict RNum whole 9 c' two_points = Some (Ok Q).
Proof.
  assert (E : @labels_of RNum whole (@mkmat R 1 [[1]; [2]]) = [1; 2]%Z) by (unfold labels_of; cbn [mrows map nth]; rewrite whole_1, whole_2; reflexivity).
  unfold clf_fit. rewrite E. cbn [nrows mrows List.length Nat.eqb negb mcols two_points].
  eexists _, _. split; [reflexivity|]. split; [reflexivity|]. cbn [c_h with_objective h_alpha h_lambda h_lr one_round]. repeat (split; [lra|]). reflexivity.
Qed.
(** So training rows that the feature tells apart are not told apart. *)
Theorem C107_labels_refuted : exists c', @clf_fit RNum whole (fun l => l) own_train None None two_points (@mkmat R 1 [[1]; [2]]) one_round = Some (c', Ok tt)
  /\ @clf_predict RNum whole 9 c' two_points = Some (Ok (@mkmat R 1 [[2]; [2]])).
Proof.
  destruct C107_large_labels_example as (c' & Q & H1 & H2 & H3 & H4 & H5 & H6). exists c'. split; [exact H1|]. rewrite H6. do 2 f_equal.
  assert (Hy : forall t, In t (@column RNum 0 (mrows (@mkmat R 1 [[1]; [2]]))) -> 1 <= t).
  { intros t Ht. cbn in Ht. destruct Ht as [<-|[<-|[]]]; lra. }
  assert (Hw : forall v, In v (@weights_for RNum None two_points) -> 0 <= v).
  { intros v Hv. cbn in Hv. destruct Hv as [<-|[<-|[]]]; lra. }
  pose proof (C107_large_labels whole whole (fun l => l) (fun l => Permutation_refl l) (fun a _ => a) whole whole (fun l => l) (fun l => l) (fun _ _ _ _ _ _ n _ => seq 0 n) 9
    None two_points (@mkmat R 1 [[1]; [2]]) one_round c' 1 2 two_points Q H1 H2 H3 H4 H5 Hw Hy H6) as HF.
  destruct (C106_two_scores whole whole (fun l => l) (fun l => Permutation_refl l) (fun a _ => a) whole whole (fun l => l) (fun l => l) (fun _ _ _ _ _ _ n _ => seq 0 n) 9
    None None two_points (@mkmat R 1 [[1]; [2]]) one_round c' 1 2 two_points Q H1 H2 H6) as (m & Hm & HL). apply Forall2_len in HL.
  assert (Hc : mcols Q = 1%nat).
  { destruct (@C106_fit RNum whole (fun l => l) (fun l => Permutation_refl l) _ _ _ _ _ _ _ H1) as (_ & _ & _ & _ & m' & Hs & _).
    exact (proj1 (labelled _ _ _ _ _ _ Hs H6)). }
  destruct Q as [k qs]. cbn in HL, Hc, HF. subst k. destruct qs as [|q1 [|q2 [|? ?]]]; try discriminate HL.
  inversion HF as [|? ? -> HF']; subst. inversion HF' as [|? ? -> _]; subst. reflexivity.
Qed.
(** Three classes, one round: the hypotheses of C107_reach and C106_many_scores. *)
Lemma softmax_length {N : Num} (l : list N) : List.length (stable_softmax l) = List.length l.
Proof. unfold stable_softmax. cbn zeta. destruct (nlt _ _); now rewrite ?map_length. Qed.
Lemma multi_total {N : Num} roundint fuel (c : clf N) m X P : stored c m -> m_obj m = "multiclass" -> outputs_count m = List.length (c_classes c) ->
  List.length (c_classes c) <> 2%nat -> clf_proba roundint fuel c X = Some (Ok P) -> exists Q, clf_predict roundint fuel c X = Some (Ok Q).
Proof.
  intros Hs Ho Hn H2 HP. destruct (proba_rows _ _ _ _ _ _ Hs HP) as [_ HP']. pose proof (multi_rows _ _ _ _ _ Ho HP') as HF.
  pose proof HP' as HP2. unfold proba_model in HP2. apply omap_ok in HP2. destruct HP2 as (P0 & HP2 & _). destruct (predict_model_rows _ _ _ _ _ HP2) as (_ & _ & Hr & _).
  assert (Hr' : nrows P = nrows X) by (symmetry; exact (Forall2_len _ _ _ HF)).
  unfold clf_predict. rewrite HP. cbn [bind]. unfold newdense. destruct (Nat.eqb_spec (nrows P) 0); [lia|]. cbn [Nat.eqb orb bind].
  assert (M : exists ls, mapM (label_of (c_classes c)) (mrows P) = Ok ls).
  { clear -HF Hn H2. induction HF as [|x r xs rs (raw & E & ->) HF [ls IH]]; [now exists []|]. pose proof (raw_length _ _ _ _ _ E) as HL.
    destruct (pick_total (c_classes c) (stable_softmax raw) n0 0) as [l Hl]; [rewrite softmax_length; lia|].
    exists (l :: ls). cbn [mapM]. assert (El : label_of (c_classes c) (stable_softmax raw) = Ok l).
    { destruct (c_classes c) as [|? [|? [|? ?]]]; try exact Hl. now elim H2. }
    rewrite El, IH. reflexivity. }
  destruct M as [ls M]. rewrite M. eexists. reflexivity.
Qed.
Example C107_reach_example : exists c' Q, @clf_fit RNum whole (fun l => l) own_train None None three_points three_points one_round = Some (c', Ok tt)
  /\ c_classes c' = [0; 1; 2]%Z /\ h_iters (c_h c') = 1%Z /\ @clf_predict RNum whole 9 c' three_points = Some (Ok Q).
Proof.
  assert (E : @labels_of RNum whole three_points = [0; 1; 2]%Z) by (unfold labels_of; cbn [mrows map nth three_points]; rewrite whole_0, whole_1, whole_2; reflexivity).
  assert (F : exists m, m_obj m = "multiclass" /\ m_class m = 3%Z /\ m_nfeat m = 1%Z
     /\ own_train (clf_settings (@mkclf RNum false None [0; 1; 2]%Z 1 3 (with_objective (c_h one_round) "multiclass") [])) None None three_points (@column RNum 0 (mrows three_points)) = Some (Ok m)
     /\ exists P, @proba_model RNum whole 9 m three_points = Some (Ok P)).
  { eexists. split; [|split; [|split; [|split; [reflexivity|]]]]; try reflexivity. eexists. reflexivity. }
  destruct F as (m & F1 & F2 & F3 & F4 & P & F5).
  set (c' := @mkclf RNum true (Some m) [0; 1; 2]%Z 1 3 (with_objective (c_h one_round) "multiclass") []).
  assert (HP : @clf_proba RNum whole 9 c' three_points = Some (Ok P)) by exact F5.
  destruct (multi_total (N := RNum) whole 9 c' m three_points P) as [Q HQ]; [split; reflexivity|exact F1|unfold outputs_count; rewrite F2; reflexivity|discriminate|exact HP|].
  exists c', Q. split; [|split; [reflexivity|split; [reflexivity|exact HQ]]].
  unfold clf_fit. rewrite E. cbn [nrows mrows List.length Nat.eqb negb mcols three_points].
  change (extract_classes (fun l : list Z => l) [0; 1; 2]%Z) with [0; 1; 2]%Z. cbn [List.length Z.of_nat Z.ltb Z.compare Pos.compare Pos.compare_cont Pos.of_succ_nat Pos.succ Z.eqb Pos.eqb one_round c_fitted c_model c_h c_cats].
  change (own_train (clf_settings (@mkclf RNum false None [0; 1; 2]%Z 1 3 (with_objective (c_h one_round) "multiclass") [])) None None three_points (@column RNum 0 (mrows three_points))) with
    (own_train (clf_settings (@mkclf RNum false None [0; 1; 2]%Z 1 3 (with_objective (c_h one_round) "multiclass") [])) None None three_points (@column RNum 0 [[0]; [1]; [2]])) in F4.
  match goal with |- context [own_train ?a ?b ?d ?e ?g] => assert (G : own_train a b d e g = Some (Ok m)) by exact F4; rewrite G end. reflexivity.
Qed.

Print Assumptions C106_fit.
Print Assumptions C106_two.
Print Assumptions C106_many.
Print Assumptions C106_failed_fit.
Print Assumptions C106_one_class_refit.
Print Assumptions C106_width.
Print Assumptions C106_settings.
Print Assumptions C106_reload.
Print Assumptions C106_load_text_panics.
Print Assumptions C106_load_regression.
Print Assumptions C106_score_rows.
Print Assumptions C106_two_scores.
Print Assumptions C106_many_scores.
Print Assumptions C106_labels_known.
Print Assumptions C106_decision.
Print Assumptions C106_decision_refuted.
Print Assumptions C107_multiclass_is_binary.
Print Assumptions C107_reach.
Print Assumptions C107_large_labels.
Print Assumptions C107_small_labels.
Print Assumptions C107_labels_refuted.
Print Assumptions C108_fit.
Print Assumptions C108_failed_fit.
Print Assumptions C108_settings.
Print Assumptions C108_width.
Print Assumptions C108_weighted_nil.
Print Assumptions C108_unit_weights.
Print Assumptions C108_quantiles.
Print Assumptions C108_quantile_order.
Print Assumptions C108_quantile_nan.
Print Assumptions C108_more_targets.
Print Assumptions C108_fewer_targets.
Print Assumptions C108_load.
