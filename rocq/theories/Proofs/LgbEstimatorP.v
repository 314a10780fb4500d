(** Proofs for C106 to C108, over any number type. *)
From Coq Require Import String List Arith Bool ZArith Lia Sorting Permutation.
From Verif Require Import Base.Num Base.GoRes Base.Mat Base.ListX Spec.Order Spec.LgbEstimator.
From Verif Require Import Model.LgbTransform Model.LgbTree Model.LgbHist Model.LgbTrain Model.LgbObjective.
From Verif Require Import Model.NaiveBayes Model.ParamMap Model.Metrics Model.LgbEstimator.
From Verif Require Import Proofs.NaiveBayesP Proofs.LgbArrayP.
Import ListNotations.
Local Open Scope list_scope.
Local Open Scope num_scope.

Section G.
  Context {N : Num}.
  Variables toint roundint : N -> Z.
  Variable order : list Z -> list Z.
  Variable trainer : settings N -> option N -> option (list N) -> matrix N -> list N -> option (res (gmodel N)).
  Variable fuel : nat.

  (** ** Picking a label *)

  Lemma pick_spec (L : lt_laws N) : forall ks p (best : N) label l,
    nisnan best = false -> pick ks p best label = Ok l ->
    (l = label /\ forall i u, nth_error p i = Some u -> (i < List.length ks)%nat -> best <? u = false)
    \/ exists j v, nth_error ks j = Some l /\ nth_error p j = Some v /\ best <? v = true
        /\ (forall i u, nth_error p i = Some u -> (i < List.length ks)%nat -> v <? u = false)
        /\ (forall i u, nth_error p i = Some u -> (i < j)%nat -> best <? u = true -> u <? v = true).
  Proof.
    induction ks as [|k ks IH]; intros p best label l Hb H.
    - left. destruct p; cbn in H; injection H as <-; (split; [reflexivity|]); cbn; intros; lia.
    - destruct p as [|v vs]; [discriminate|]. cbn [pick] in H. destruct (best <? v) eqn:E.
      + destruct (lt_not_nan _ L _ _ E) as [_ Hv].
        destruct (IH vs v k l Hv H) as [[-> K]|(j & u & K1 & K2 & K3 & K4 & K5)].
        * right. exists 0%nat, v. repeat split; auto.
          -- intros [|i] u Hi Hl; [injection Hi as <-; apply (lt_irrefl _ L)|]. cbn in Hi, Hl. apply (K i); [exact Hi|lia].
          -- intros; lia.
        * right. exists (S j), u. split; [exact K1|]. split; [exact K2|]. split; [exact (lt_trans _ L _ _ _ E K3)|]. split.
          -- intros [|i] w Hi Hl; cbn in Hi, Hl.
             ++ injection Hi as <-. destruct (u <? v) eqn:F; [|reflexivity].
                pose proof (lt_trans _ L _ _ _ F K3) as X. rewrite (lt_irrefl _ L) in X. discriminate.
             ++ apply (K4 i); [exact Hi|lia].
          -- intros [|i] w Hi Hl Hw; cbn in Hi; [injection Hi as <-; exact K3|].
             destruct (v <? w) eqn:F; [apply (K5 i); [exact Hi|lia|exact F]|].
             (* w is not larger than v, and v < u *)
             destruct (lt_not_nan _ L _ _ Hw) as [_ Hwn]. destruct (lt_not_nan _ L _ _ K3) as [_ Hun].
             destruct (w <? u) eqn:F2; [reflexivity|].
             pose proof (lt_negtrans _ L _ _ _ Hv Hwn Hun F F2) as X. congruence.
      + destruct (IH vs best label l Hb H) as [[-> K]|(j & u & K1 & K2 & K3 & K4 & K5)].
        * left. split; [reflexivity|]. intros [|i] u Hi Hl; cbn in Hi, Hl; [injection Hi as <-; exact E|]. apply (K i); [exact Hi|lia].
        * right. exists (S j), u. split; [exact K1|]. split; [exact K2|]. split; [exact K3|]. split.
          -- intros [|i] w Hi Hl; cbn in Hi, Hl; [|apply (K4 i); [exact Hi|lia]]. injection Hi as <-.
             destruct (u <? v) eqn:F; [|reflexivity]. pose proof (lt_trans _ L _ _ _ K3 F) as X. congruence.
          -- intros [|i] w Hi Hl Hw; cbn in Hi; [injection Hi as <-; congruence|]. apply (K5 i); [exact Hi|lia|exact Hw].
  Qed.

  Lemma label_many (L : lt_laws N) ks (p : list N) l : nisnan (@n0 N) = false -> List.length ks <> 2%nat -> label_of ks p = Ok l ->
    chosen ks p l \/ (l = 0%Z /\ forall i u, nth_error p i = Some u -> (i < List.length ks)%nat -> n0 <? u = false).
  Proof.
    intros H0 Hn H. assert (Hp : pick ks p n0 0 = Ok l).
    { destruct ks as [|a [|b [|d ks]]]; cbn in *; try exact H. congruence. }
    destruct (pick_spec L _ _ _ _ _ H0 Hp) as [K|K]; [right|left]; exact K.
  Qed.
  Lemma pick_total ks : forall (p : list N) best label, (List.length ks <= List.length p)%nat -> exists l, pick ks p best label = Ok l.
  Proof.
    induction ks as [|k ks IH]; intros p best label H; [eexists; reflexivity|].
    destruct p as [|v vs]; [cbn in H; lia|]. cbn [pick]. destruct (best <? v); apply IH; cbn in H; lia.
  Qed.
  Lemma pick_short ks : forall (p : list N) best label, (List.length p < List.length ks)%nat -> pick ks p best label = Panic.
  Proof.
    induction ks as [|k ks IH]; intros p best label H; [cbn in H; lia|].
    destruct p as [|v vs]; [reflexivity|]. cbn [pick]. destruct (best <? v); apply IH; cbn in H; lia.
  Qed.

  (** ** Rows of a prediction *)

  Lemma omap_ok {A B} (g : A -> B) x b : omap g x = Some (Ok b) -> exists a, x = Some (Ok a) /\ b = g a.
  Proof. destruct x as [[a|e|]|]; cbn; intros H; try discriminate. injection H as <-. now exists a. Qed.
  Lemma mapM_rows {A B} (g : A -> res B) : forall l bs, mapM g l = Ok bs -> Forall2 (fun a b => g a = Ok b) l bs.
  Proof.
    induction l as [|a l IH]; cbn; intros bs H; [injection H as <-; constructor|].
    destruct (g a) as [b|e|] eqn:E; try discriminate. cbn in H. destruct (mapM g l) as [bs'|e|] eqn:E2; try discriminate.
    cbn in H. injection H as <-. constructor; auto.
  Qed.

  Definition stored (c : clf N) (m : gmodel N) : Prop := c_fitted c = true /\ c_model c = Some m.
  Lemma proba_rows c m X P : stored c m -> clf_proba roundint fuel c X = Some (Ok P) ->
    Z.of_nat (mcols X) = c_nfeat c /\ proba_model roundint fuel m X = Some (Ok P).
  Proof.
    intros [H1 H2] H. unfold clf_proba in H. rewrite H1, H2 in H. cbn [negb] in H.
    destruct (Z.eqb_spec (Z.of_nat (mcols X)) (c_nfeat c)); [|discriminate]. now split.
  Qed.
  Lemma predict_model_rows m X P : predict_model roundint fuel m X = Some (Ok P) ->
    Z.of_nat (mcols X) = m_nfeat m /\ mcols P = outputs_count m /\ (0 < nrows X)%nat
    /\ Forall2 (fun x r => exists raw, predictor_raw roundint fuel m x = Some (Ok raw) /\ r = predictor_transform (m_obj m) raw)
         (mrows X) (mrows P).
  Proof.
    unfold predict_model. destruct (Z.eqb_spec (Z.of_nat (mcols X)) (m_nfeat m)) as [E|E]; [|discriminate]. cbn [negb].
    unfold newdense. destruct (Nat.eqb_spec (nrows X) 0) as [E0|E0]; [discriminate|]. destruct (outputs_count m =? 0)%nat; [discriminate|].
    cbn [orb]. intros H. apply omap_ok in H. destruct H as (rs & H & ->). split; [exact E|]. split; [reflexivity|]. split; [lia|].
    cbn [mrows]. apply sequence_inv in H. clear -H. induction H as [|x r xs rs H1 H2 IH]; constructor; [|exact IH].
    apply omap_ok in H1. destruct H1 as (raw & A & ->). now exists raw.
  Qed.
  Lemma predict_rows c X Q : clf_predict roundint fuel c X = Some (Ok Q) ->
    exists P ls, clf_proba roundint fuel c X = Some (Ok P) /\ mapM (label_of (c_classes c)) (mrows P) = Ok ls
      /\ Q = mkmat 1 (map (fun l => [nofZ l]) ls).
  Proof.
    unfold clf_predict. destruct (clf_proba roundint fuel c X) as [[P|e|]|]; cbn [bind]; intros H; try discriminate.
    exists P. destruct (newdense (nrows P) 1); cbn [bind] in H; try discriminate.
    destruct (mapM _ _) as [ls|e|]; cbn [bind] in H; try discriminate. injection H as <-. now exists ls.
  Qed.

  (** ** Fit *)

  Definition fit_ := clf_fit toint order trainer.
  Lemma with_objective_fields (h : hyper N) o : h_objective (with_objective h o) = o.
  Proof. reflexivity. Qed.

  Lemma fit_success init w X y c c' : (forall l, Permutation (order l) l) ->
    fit_ init w X y c = Some (c', Ok tt) ->
    nrows X = nrows y /\ mcols y = 1%nat /\ names_of (labels_of toint y) (c_classes c') /\ (2 <= List.length (c_classes c'))%nat
    /\ exists m, stored c' m /\ c_nfeat c' = Z.of_nat (mcols X)
        /\ trainer (clf_settings c') init w X (column 0 (mrows y)) = Some (Ok m)
        /\ h_objective (c_h c') = (if (List.length (c_classes c') =? 2)%nat then "binary" else "multiclass")%string
        /\ c_numclass c' = (if (List.length (c_classes c') =? 2)%nat then 1%Z else Z.of_nat (List.length (c_classes c'))).
  Proof.
    intros Ho. unfold fit_, clf_fit. destruct (Nat.eqb_spec (nrows X) (nrows y)) as [E1|E1]; [|discriminate]. cbn [negb].
    destruct (Nat.eqb_spec (mcols y) 1) as [E2|E2]; [|discriminate]. cbn [negb].
    destruct (match w with Some w => _ | None => _ end) eqn:E3; [discriminate|].
    set (cls := extract_classes order (labels_of toint y)).
    destruct (Z.ltb_spec (Z.of_nat (List.length cls)) 2) as [E4|E4]; [discriminate|].
    assert (Hk : (Z.of_nat (List.length cls) =? 2)%Z = (List.length cls =? 2)%nat).
    { destruct (Z.eqb_spec (Z.of_nat (List.length cls)) 2), (Nat.eqb_spec (List.length cls) 2); lia. }
    rewrite Hk.
    match goal with |- context [trainer ?a ?b ?d ?e ?g] => destruct (trainer a b d e g) as [[m|e0|]|] eqn:Et end; intros H; try discriminate.
    injection H as <-. split; [exact E1|]. split; [exact E2|]. cbn [c_classes].
    assert (Hc : names_of (labels_of toint y) cls).
    { pose proof (extract_classes_spec order (labels_of toint y) Ho) as K. exact K. }
    split; [exact Hc|]. split; [lia|]. exists m. repeat split; try reflexivity. exact Et.
  Qed.

  (** A failed Fit keeps the model and the fitted flag. *)
  Lemma fit_failure init w X y c c' e : fit_ init w X y c = Some (c', Err e) ->
    c_model c' = c_model c /\ c_fitted c' = c_fitted c /\
    (c' = c \/ (c_classes c' = extract_classes order (labels_of toint y)
                /\ ((List.length (c_classes c') < 2)%nat /\ c_nfeat c' = c_nfeat c \/ c_nfeat c' = Z.of_nat (mcols X)))).
  Proof.
    unfold fit_, clf_fit. destruct (Nat.eqb_spec (nrows X) (nrows y)) as [E1|E1]; cbn [negb]; [|intros H; injection H as <- _; auto].
    destruct (Nat.eqb_spec (mcols y) 1) as [E2|E2]; cbn [negb]; [|intros H; injection H as <- _; auto].
    destruct (match w with Some w => _ | None => _ end) eqn:E3; [intros H; injection H as <- _; auto|].
    set (cls := extract_classes order (labels_of toint y)).
    destruct (Z.ltb_spec (Z.of_nat (List.length cls)) 2) as [E4|E4].
    - intros H; injection H as <- _. cbn. repeat split; auto. right. split; [reflexivity|]. left. split; [lia|reflexivity].
    - match goal with |- context [trainer ?a ?b ?d ?e ?g] => destruct (trainer a b d e g) as [[m|e0|]|] eqn:Et end; intros H; try discriminate;
        injection H as <- _; cbn; repeat split; auto.
  Qed.
  Lemma fit_no_panic init w X y c c' : fit_ init w X y c <> Some (c', Panic).
  Proof.
    unfold fit_, clf_fit. destruct (negb _); [discriminate|]. destruct (negb _); [discriminate|]. destruct (match w with Some w => _ | None => _ end); [discriminate|].
    destruct (_ <? 2)%Z; [discriminate|]. destruct (trainer _ _ _ _ _) as [[m|e0|]|]; discriminate.
  Qed.
End G.
