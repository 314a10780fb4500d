(** Invariants of the booster over all histories. *)
From Coq Require Import String List Arith ZArith Bool Lia.
From Verif Require Import Base.Num Base.GoRes Base.GoMap Base.Mat Base.ListX Model.LgbTree Model.LgbLeaf Model.LgbBooster Spec.LgbBooster.
Import ListNotations.
Local Open Scope list_scope.

Section BoosterP.
  Context {N : Num}.
  Notation state := (heap N * booster N)%type.
  Definition models (h : heap N) : list (gmodel N) := map fst h.
  Lemma models_at (h : heap N) a m : nth_error (models h) a = Some m <-> exists names, nth_error h a = Some (m, names).
  Proof.
    unfold models. rewrite nth_error_map. destruct (nth_error h a) as [[m' n']|]; cbn; split.
    - intros E. injection E as <-. now exists n'.
    - intros (n & E). now injection E as <- _.
    - discriminate.
    - intros (n & E). discriminate.
  Qed.
  Lemma deref_ok (h : heap N) a c : deref h (Some a) = Ok c <-> nth_error h a = Some c.
  Proof. cbn. destruct (nth_error h a); split; congruence. Qed.
  Lemma models_upd h a names : models (upd a (fun c => (fst c, names)) h) = models h.
  Proof. revert a. induction h as [|c h IH]; intros [|a]; cbn; try reflexivity. f_equal. apply IH. Qed.
  Definition grows (h h' : heap N) : Prop := exists more, models h' = models h ++ more.
  Lemma grows_refl h : grows h h.
  Proof. exists []. now rewrite app_nil_r. Qed.
  Lemma grows_trans h1 h2 h3 : grows h1 h2 -> grows h2 h3 -> grows h1 h3.
  Proof. intros [m1 E1] [m2 E2]. exists (m1 ++ m2). now rewrite E2, E1, app_assoc. Qed.
  Lemma grows_at h h' a m : grows h h' -> nth_error (models h) a = Some m -> nth_error (models h') a = Some m.
  Proof. intros [more E] H. rewrite E, nth_error_app1; [exact H|]. apply nth_error_Some. congruence. Qed.

  (** *** One call *)
  Lemma step_grows o (s s' : state) : step o s = Ok s' -> grows (fst s) (fst s').
  Proof.
    destruct s as [h b], s' as [h' b']. cbn [fst]. destruct o; cbn [step]; intros E.
    1, 2, 9: (match type of E with bind ?r _ = _ => destruct r; try discriminate end; injection E as <- <-; apply grows_refl).
    - injection E as <- <-. exists [shell lm]. unfold models. now rewrite map_app.
    - injection E as <- <-. apply grows_refl.
    - injection E as <- <-. apply grows_refl.
    - injection E as <- <-. apply grows_refl.
    - injection E as <- <-. apply grows_refl.
    - unfold set_names in E. injection E as <- <-. destruct (b_model b); [|apply grows_refl]. exists []. now rewrite models_upd, app_nil_r.
  Qed.
  (** What the fields are after a history [rev] (newest call first) *)
  Record history (rev : list (op N)) (s : state) : Prop := mkhist {
    hist_pred : b_pred (snd s) = last_given rev;
    hist_leaves : b_leaves (snd s) = loaded rev;
    hist_at : forall a, last_given rev = Some a -> exists m, nth_error (models (fst s)) a = Some m;
    hist_model : match b_model (snd s) with
                 | None => newest (models (fst s)) rev = None
                 | Some a => exists m, nth_error (models (fst s)) a = Some m /\ newest (models (fst s)) rev = Some (List.length (m_trees m), m_nfeat m)
                 end;
    hist_evals : forall key, evals_of key (snd s) = values_for key (List.rev rev) }.
  Lemma newest_grows h h' rev r : grows h h' -> newest (models h) rev = Some r -> newest (models h') rev = Some r.
  Proof.
    intros G. induction rev as [|o rev IH]; cbn; [discriminate|]. destruct o; try exact IH; try (intros E; exact E);
      (destruct (nth_error (models h) a) eqn:E; [|discriminate]; now rewrite (grows_at _ _ _ _ G E)).
  Qed.
  Lemma values_snoc key ops (o : op N) : values_for key (ops ++ [o]) = values_for key ops ++ values_for key [o].
  Proof. unfold values_for. now rewrite flat_map_app. Qed.
  Lemma deref_models (h : heap N) a c : deref h (Some a) = Ok c -> nth_error (models h) a = Some (fst c).
  Proof. intros E. apply deref_ok in E. unfold models. now rewrite nth_error_map, E. Qed.
  Lemma history_step rev o (s s' : state) : history rev s -> step o s = Ok s' -> history (o :: rev) s'.
  Proof.
    intros [H1 H2 H3 H4 H5] E. pose proof (step_grows _ _ _ E) as G. destruct s as [h b], s' as [h' b']. cbn [fst snd] in *.
    assert (H3' : forall a, last_given rev = Some a -> exists m, nth_error (models h') a = Some m).
    { intros a Ha. destruct (H3 a Ha) as [m Hm]. exists m. exact (grows_at _ _ _ _ G Hm). }
    assert (H4' : forall bm, bm = b_model b -> (bm = None -> newest (models h) rev = newest (models h') rev) -> match bm with
                 | None => newest (models h') rev = None
                 | Some a => exists m, nth_error (models h') a = Some m /\ newest (models h') rev = Some (List.length (m_trees m), m_nfeat m)
                 end).
    { intros bm -> Hn. destruct (b_model b) as [a|]; [|rewrite <- Hn by reflexivity; exact H4].
      destruct H4 as (m & M1 & M2). exists m. split; [exact (grows_at _ _ _ _ G M1)|exact (newest_grows _ _ _ _ G M2)]. }
    destruct o; cbn [step] in E.
    - unfold init_from_model in E. destruct (deref h (Some a)) as [c| |] eqn:D; try discriminate. cbn [bind] in E. injection E as <- <-.
      pose proof (deref_models _ _ _ D) as M. constructor; cbn [fst snd b_pred b_leaves b_model last_given loaded newest]; auto.
      + intros a' Ha. injection Ha as <-. eauto.
      + exists (fst c). split; [exact M|]. now rewrite M.
      + intros key. cbn [List.rev]. rewrite values_snoc, <- H5. cbn. now rewrite app_nil_r.
    - unfold set_model in E. destruct (deref h (Some a)) as [c| |] eqn:D; try discriminate. cbn [bind] in E. injection E as <- <-.
      pose proof (deref_models _ _ _ D) as M. constructor; cbn [fst snd b_pred b_leaves b_model last_given loaded newest]; auto.
      + intros a' Ha. injection Ha as <-. eauto.
      + exists (fst c). split; [exact M|]. now rewrite M.
      + intros key. cbn [List.rev]. rewrite values_snoc, <- H5. cbn. now rewrite app_nil_r.
    - injection E as <- <-. constructor; cbn [fst snd b_pred b_leaves b_model last_given loaded newest]; auto.
      + exists (shell lm). split; [|reflexivity]. unfold models. rewrite map_app, nth_error_app2; rewrite map_length; [|lia]. now rewrite Nat.sub_diag.
      + intros key. cbn [List.rev]. rewrite values_snoc, <- H5. cbn. now rewrite app_nil_r.
    - injection E as <- <-. constructor; cbn [fst snd b_pred b_leaves b_model last_given loaded newest clone]; auto.
      intros key. cbn [List.rev]. rewrite values_snoc, <- H5. cbn. now rewrite app_nil_r.
    - injection E as <- <-. constructor; cbn [fst snd b_pred b_leaves b_model last_given loaded newest update]; auto.
      intros key. cbn [List.rev]. rewrite values_snoc, <- H5. cbn. now rewrite app_nil_r.
    - injection E as <- <-. constructor; cbn [fst snd b_pred b_leaves b_model last_given loaded newest set_best]; auto.
      intros key. cbn [List.rev]. rewrite values_snoc, <- H5. cbn. now rewrite app_nil_r.
    - injection E as <- <-. constructor; cbn [fst snd b_pred b_leaves b_model last_given loaded newest add_eval]; auto.
      intros key. cbn [List.rev]. rewrite values_snoc, <- H5. unfold values_for. cbn [flat_map]. unfold evals_of at 1. cbn [b_evals add_eval].
      rewrite sget_put. rewrite app_nil_r. rewrite String.eqb_sym. destruct (String.eqb_spec (eval_key d m) key) as [<-|_]; [reflexivity|now rewrite app_nil_r].
    - unfold set_names in E. injection E as <- <-. constructor; cbn [fst snd b_pred b_leaves b_model last_given loaded newest]; auto.
      + apply H4'; [reflexivity|]. intros Hn. rewrite Hn. reflexivity.
      + intros key. cbn [List.rev]. rewrite values_snoc, <- H5. cbn. now rewrite app_nil_r.
    - unfold feature_importance in E. assert (K : b_pred b' = b_pred b /\ b_leaves b' = b_leaves b /\ b_model b' = b_model b /\ b_evals b' = b_evals b /\ h' = h).
      { destruct (b_model b) as [a|] eqn:Eb; cbn [bind snd] in E; [|injection E as <- <-; rewrite Eb; repeat split].
        destruct (sget kind (b_imp b)); cbn [bind snd] in E; [injection E as <- <-; rewrite Eb; repeat split|].
        destruct (deref h (Some a)); try discriminate. cbn [bind] in E. destruct (importance kind (fst a0)); try discriminate. cbn [bind snd] in E. injection E as <- <-. repeat split. }
      destruct K as (K1 & K2 & K3 & K4 & ->). constructor; cbn [fst snd last_given loaded newest]; try congruence; auto.
      + rewrite K3. exact H4.
      + intros key. cbn [List.rev]. rewrite values_snoc, <- H5. unfold evals_of. rewrite K4. cbn. now rewrite app_nil_r.
  Qed.
  Lemma history_run ops : forall rev (s s' : state), history rev s -> run ops s = Ok s' -> history (List.rev ops ++ rev) s'.
  Proof.
    induction ops as [|o ops IH]; intros rev s s' H E; cbn [run] in E.
    - injection E as <-. exact H.
    - destruct (step o s) as [s1| |] eqn:E1; try discriminate. cbn [bind] in E. cbn [List.rev]. rewrite <- app_assoc. apply (IH (o :: rev) s1 s'); [|exact E].
      exact (history_step _ _ _ _ H E1).
  Qed.
  Lemma history_new (h : heap N) : history [] (h, new_booster).
  Proof. constructor; try reflexivity. intros a E. discriminate. Qed.
  Lemma run_grows ops : forall s s' : state, run ops s = Ok s' -> grows (fst s) (fst s').
  Proof.
    induction ops as [|o ops IH]; intros s s' E; cbn [run] in E; [injection E as <-; apply grows_refl|].
    destruct (step o s) as [s1| |] eqn:E1; try discriminate. exact (grows_trans _ _ _ (step_grows _ _ _ E1) (IH _ _ E)).
  Qed.
  (** *** The cache of importances *)
  Lemma cached_step kind l o (s s' : state) : step o s = Ok s' -> b_model (snd s) <> None -> sget kind (b_imp (snd s)) = Some l ->
    b_model (snd s') <> None /\ sget kind (b_imp (snd s')) = Some l.
  Proof.
    destruct s as [h b], s' as [h' b']. cbn [snd]. intros E Hm Hc. destruct o; cbn [step] in E.
    - unfold init_from_model in E. destruct (deref h (Some a)); try discriminate. injection E as <- <-. now split.
    - unfold set_model in E. destruct (deref h (Some a)); try discriminate. injection E as <- <-. now split.
    - injection E as <- <-. now split.
    - injection E as <- <-. now split.
    - injection E as <- <-. now split.
    - injection E as <- <-. now split.
    - injection E as <- <-. now split.
    - injection E as <- <-. now split.
    - unfold feature_importance in E. destruct (b_model b) as [a|] eqn:Eb; [|congruence].
      destruct (sget kind0 (b_imp b)) eqn:Ek; cbn [bind snd] in E.
      + injection E as <- <-. rewrite Eb. now split.
      + destruct (deref h (Some a)); try discriminate. cbn [bind] in E. destruct (importance kind0 (fst a0)); try discriminate. cbn [bind snd] in E. injection E as <- <-.
        split; [discriminate|]. cbn [b_imp]. rewrite sget_put_other; [exact Hc|]. intros ->. congruence.
  Qed.
  Lemma cached_run kind l ops : forall s s' : state, run ops s = Ok s' -> b_model (snd s) <> None -> sget kind (b_imp (snd s)) = Some l ->
    b_model (snd s') <> None /\ sget kind (b_imp (snd s')) = Some l.
  Proof.
    induction ops as [|o ops IH]; intros s s' E Hm Hc; cbn [run] in E; [injection E as <-; now split|].
    destruct (step o s) as [s1| |] eqn:E1; try discriminate. destruct (cached_step _ _ _ _ _ E1 Hm Hc). exact (IH _ _ E H H0).
  Qed.
  Lemma cached_answer kind l (h : heap N) b : b_model b <> None -> sget kind (b_imp b) = Some l -> feature_importance kind h b = Ok (Some l, b).
  Proof. intros Hm Hc. unfold feature_importance. destruct (b_model b); [|congruence]. now rewrite Hc. Qed.
  Lemma first_answer kind (h : heap N) b l b' : feature_importance kind h b = Ok (Some l, b') -> b_model b' <> None /\ sget kind (b_imp b') = Some l.
  Proof.
    unfold feature_importance. destruct (b_model b) as [a|] eqn:Eb; [|discriminate]. destruct (sget kind (b_imp b)) eqn:Ek; intros E.
    - injection E as <- <-. rewrite Eb. now split.
    - destruct (deref h (Some a)); try discriminate. cbn [bind] in E. destruct (importance kind (fst a0)); try discriminate. cbn [bind] in E. injection E as <- <-.
      split; [discriminate|]. cbn [b_imp]. apply sget_put_same.
  Qed.
End BoosterP.
