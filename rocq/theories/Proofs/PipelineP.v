From Coq Require Import List Bool.
From Verif Require Import Base.GoRes Model.Pipeline Spec.Pipeline.
Import ListNotations.

Section P.
  Context {W M V : Type}.
  Implicit Types (l r : list (step W M V)) (s : step W M V) (p : pipeline W M V).

  Lemma as_tr_some s f t :
    as_transformer (s_est s) = Some (f, t) <->
    e_fit (s_est s) = FitX f /\ e_transform (s_est s) = Some t /\ e_has_fit_transform (s_est s) = true.
  Proof.
    unfold as_transformer.
    destruct (e_fit (s_est s)), (e_transform (s_est s)), (e_has_fit_transform (s_est s));
      split; intros H; try easy; try (destruct H as (H1 & H2 & H3); congruence).
    injection H as -> ->. auto.
  Qed.

  Lemma andthen_ok {A B} (x : W * res A) (k : A -> W -> W * res B) w' b :
    andthen x k = (w', Ok b) <-> exists w a, x = (w, Ok a) /\ k a w = (w', Ok b).
  Proof.
    destruct x as [w [a| |]]; cbn; split; intros H; try easy; eauto;
      destruct H as (? & ? & E & ?); try congruence.
  Qed.

  Lemma wrapped_ok {A} (x : W * res A) w a : wrapped x = (w, Ok a) <-> x = (w, Ok a).
  Proof.
    destruct x as [w0 [a0| |]]; unfold wrapped; cbn; split; intros H; congruence.
  Qed.

  Lemma ft_through l : forall X w X' w',
    fit_transform_through l X w = (w', Ok X') <-> trained l X w X' w'.
  Proof.
    induction l as [|s r IH]; intros X w X' w'; cbn [fit_transform_through transform_through inverse_through].
    - split; intros H; [injection H as <- <-; constructor|inversion H; subst; reflexivity].
    - destruct (as_transformer (s_est s)) as [[f t]|] eqn:E.
      + pose proof (proj1 (as_tr_some s f t) E) as (E1 & E2 & E3).
        rewrite andthen_ok. split.
        * intros (w1 & [] & H1 & H2). apply (proj1 (wrapped_ok _ _ _)) in H1. apply andthen_ok in H2.
          destruct H2 as (w2 & X1 & H2 & H3). apply (proj1 (wrapped_ok _ _ _)) in H2. apply IH in H3.
          exact (trained_cons s r f t X w w1 X1 w2 X' w' E1 E2 E3 H1 H2 H3).
        * intros H. inversion H as [|? ? f' t' ? ? w1 X1 w2 ? ? F1 F2 F3 F4 F5 F6]; subst.
          assert (f' = f) by congruence. assert (t' = t) by congruence. subst f' t'.
          exists w1, tt. split; [now apply wrapped_ok|]. apply andthen_ok.
          exists w2, X1. split; [now apply wrapped_ok|]. now apply IH.
      + split; [easy|]. intros H. inversion H; subst.
        assert (as_transformer (s_est s) = Some (f, t)) by (apply as_tr_some; auto). congruence.
  Qed.

  Lemma tr_through l : forall X w X' w',
    transform_through l X w = (w', Ok X') <-> transformed l X w X' w'.
  Proof.
    induction l as [|s r IH]; intros X w X' w'; cbn [fit_transform_through transform_through inverse_through].
    - split; intros H; [injection H as <- <-; constructor|inversion H; subst; reflexivity].
    - destruct (as_transformer (s_est s)) as [[f t]|] eqn:E.
      + pose proof (proj1 (as_tr_some s f t) E) as (E1 & E2 & E3).
        rewrite andthen_ok. split.
        * intros (w1 & X1 & H1 & H2). apply (proj1 (wrapped_ok _ _ _)) in H1. apply IH in H2. econstructor; eauto.
        * intros H. inversion H as [|? ? f' t' ? ? X1 w1 ? ? F1 F2 F3 F4 F5]; subst.
          assert (t' = t) by congruence. subst t'.
          exists w1, X1. split; [now apply wrapped_ok|]. now apply IH.
      + split; [easy|]. intros H. inversion H; subst.
        assert (as_transformer (s_est s) = Some (f, t)) by (apply as_tr_some; auto). congruence.
  Qed.

  Lemma inv_through l : forall X w X' w',
    inverse_through l X w = (w', Ok X') <-> inverted l X w X' w'.
  Proof.
    induction l as [|s r IH]; intros X w X' w'; cbn [fit_transform_through transform_through inverse_through].
    - split; intros H; [injection H as <- <-; constructor|inversion H; subst; reflexivity].
    - destruct (e_inverse (s_est s)) as [t|] eqn:E.
      + rewrite andthen_ok. split.
        * intros (w1 & X1 & H1 & H2). apply (proj1 (wrapped_ok _ _ _)) in H1. apply IH in H2. econstructor; eauto.
        * intros H. inversion H as [|? ? t' ? ? X1 w1 ? ? F1 F4 F5]; subst.
          assert (t' = t) by congruence. subst t'.
          exists w1, X1. split; [now apply wrapped_ok|]. now apply IH.
      + split; [easy|]. intros H. inversion H; subst. congruence.
  Qed.

  Lemma init_app l s b : init_steps (MkPipe (l ++ [s]) b) = l.
  Proof. unfold init_steps. cbn. apply removelast_last. Qed.
  Lemma final_app l s b : final_step (MkPipe (l ++ [s]) b) = Some s.
  Proof.
    unfold final_step. cbn [p_steps]. destruct (l ++ [s]) eqn:E; [destruct l; discriminate|].
    rewrite <- E, last_last. reflexivity.
  Qed.

  Lemma ft_through_app l1 : forall l2 X w X1 w1, trained l1 X w X1 w1 ->
    fit_transform_through (l1 ++ l2) X w = fit_transform_through l2 X1 w1.
  Proof.
    intros l2 X w X1 w1 H. induction H as [|s r f t X w w1 Y w2 X' w' E1 E2 E3 E4 E5 Ht IH]; [reflexivity|].
    cbn. rewrite (proj2 (as_tr_some s f t)) by auto.
    unfold wrapped. rewrite E4; cbn. rewrite E5; cbn. exact IH.
  Qed.

  Lemma tr_through_app l1 : forall l2 X w X1 w1, transformed l1 X w X1 w1 ->
    transform_through (l1 ++ l2) X w = transform_through l2 X1 w1.
  Proof.
    intros l2 X w X1 w1 H. induction H as [|s r f t X w Y w2 X' w' E1 E2 E3 E4 Ht IH]; [reflexivity|].
    cbn. rewrite (proj2 (as_tr_some s f t)) by auto.
    unfold wrapped. rewrite E4; cbn. exact IH.
  Qed.

  Lemma trained_all l X w X' w' : trained l X w X' w' ->
    forall s, In s l -> exists f t, as_transformer (s_est s) = Some (f, t).
  Proof.
    induction 1; [easy|]. intros s' [<-|Hin]; [|now apply IHtrained].
    exists f, t. now apply as_tr_some.
  Qed.
  Lemma transformed_all l X w X' w' : transformed l X w X' w' ->
    forall s, In s l -> exists f t, as_transformer (s_est s) = Some (f, t).
  Proof.
    induction 1; [easy|]. intros s' [<-|Hin]; [|now apply IHtransformed].
    exists f, t. now apply as_tr_some.
  Qed.

  Lemma inverted_app l1 : forall l2 X w X1 w1 X2 w2,
    inverted l1 X w X1 w1 -> inverted l2 X1 w1 X2 w2 -> inverted (l1 ++ l2) X w X2 w2.
  Proof.
    intros l2 X w X1 w1 X2 w2 H. revert X2 w2. induction H; intros; [assumption|].
    cbn. econstructor; eauto.
  Qed.
End P.
