(** C19, C20 - sklearn/pipeline/pipeline.go.  The steps are arbitrary objects acting
    on an arbitrary shared world. *)
From Coq Require Import List Bool Arith Lia String Reals Lra.
From Verif Require Import Base.GoRes Base.Num Base.Mat Base.RTac Model.Pipeline Model.Scaler
  Spec.Pipeline Proofs.PipelineP Proofs.ScalerP.
Import ListNotations.
Local Open Scope list_scope.

Section C19.
  Context {W M V : Type}.
  Implicit Types (l init : list (step W M V)) (s : step W M V) (p : pipeline W M V).

  (** Fit succeeds exactly when every step but the last is fitted on, and then
      transforms, the output of its predecessors, and the last one is fitted on the
      final data and the labels. *)
  Theorem C19_fit : forall init s b X y w w',
    fit (MkPipe (init ++ [s]) b) X y w = (w', Ok tt) <->
    exists Xt w1 f, trained init X w Xt w1 /\ e_fit (s_est s) = FitXY f /\ f Xt y w1 = (w', Ok tt).
  Proof.
    intros. unfold fit. rewrite init_app, final_app, andthen_ok. split.
    - intros (w1 & Xt & H1 & H2). apply ft_through in H1. destruct (e_fit (s_est s)) eqn:E; try easy.
      apply (proj1 (wrapped_ok _ _ _)) in H2. eauto 6.
    - intros (Xt & w1 & f & H1 & H2 & H3). exists w1, Xt. split; [now apply ft_through|].
      rewrite H2. now apply wrapped_ok.
  Qed.

  (** Predict, PredictProba and Score: the method of the last step on the
      successively transformed input. *)
  Theorem C19_predict : forall init s X y w w' Y v,
    let p := MkPipe (init ++ [s]) true in
    (predict p X w = (w', Ok Y) <->
       exists Xt w1 f, transformed init X w Xt w1 /\ e_predict (s_est s) = Some f /\ f Xt w1 = (w', Ok Y)) /\
    (predict_proba p X w = (w', Ok Y) <->
       exists Xt w1 f, transformed init X w Xt w1 /\ e_predict_proba (s_est s) = Some f /\
         f Xt w1 = (w', Ok Y)) /\
    (score p X y w = (w', Ok v) <->
       exists Xt w1 f, transformed init X w Xt w1 /\ e_score (s_est s) = Some f /\
         f Xt y w1 = (w', Ok v)).
  Proof.
    intros init s X y w w' Y v p. unfold predict, predict_proba, score, p. cbn [p_fitted negb].
    rewrite init_app, final_app, !andthen_ok.
    split; [|split]; (split;
      [intros (w1 & Xt & H1 & H2); apply tr_through in H1
      |intros (Xt & w1 & f & H1 & H2 & H3); exists w1, Xt; rewrite H2; split; [now apply tr_through|assumption]]).
    - destruct (e_predict (s_est s)); [eauto 7|easy].
    - destruct (e_predict_proba (s_est s)); [eauto 7|easy].
    - destruct (e_score (s_est s)); [eauto 7|easy].
  Qed.

  Theorem C19_transform : forall l X w w' Y,
    (transform (MkPipe l true) X w = (w', Ok Y) <-> transformed l X w Y w') /\
    (inverse_transform (MkPipe l true) X w = (w', Ok Y) <-> inverted (rev l) X w Y w').
  Proof.
    intros. split; [apply tr_through|]. unfold inverse_transform. cbn [p_fitted negb p_steps].
    apply inv_through.
  Qed.

  (** The first failing call decides: its error comes back (wrapped once) and the
      world is the one that call left, so no later step was called. *)
  Theorem C19_first_failure : forall l1 s l2 last b X y w X1 w1 f t w2,
    let p := MkPipe (l1 ++ s :: l2 ++ [last]) b in
    e_fit (s_est s) = FitX f -> e_transform (s_est s) = Some t -> e_has_fit_transform (s_est s) = true ->
    trained l1 X w X1 w1 ->
    (forall e, f X1 w1 = (w2, Err e) -> fit p X y w = (w2, Err (EWrapped e))) /\
    (f X1 w1 = (w2, Panic) -> fit p X y w = (w2, Panic)) /\
    (forall w3 e, f X1 w1 = (w2, Ok tt) -> t X1 w2 = (w3, Err e) -> fit p X y w = (w3, Err (EWrapped e))) /\
    (forall w3, f X1 w1 = (w2, Ok tt) -> t X1 w2 = (w3, Panic) -> fit p X y w = (w3, Panic)).
  Proof.
    intros l1 s l2 last b X y w X1 w1 f t w2 p E1 E2 E3 H.
    assert (Ei : init_steps p = l1 ++ s :: l2).
    { unfold p. replace (l1 ++ s :: l2 ++ [last]) with ((l1 ++ s :: l2) ++ [last])
        by (rewrite <- app_assoc; reflexivity). apply init_app. }
    assert (Et : as_transformer (s_est s) = Some (f, t)) by (apply as_tr_some; auto).
    unfold fit. rewrite Ei, (ft_through_app l1 (s :: l2) X w X1 w1 H).
    cbn [fit_transform_through]. rewrite Et. unfold wrapped.
    split; [|split; [|split]]; intros; rewrite H0; cbn; try rewrite H1; reflexivity.
  Qed.

  Theorem C19_final_failure : forall init s b X y w Xt w1 f w2 e,
    trained init X w Xt w1 -> e_fit (s_est s) = FitXY f -> f Xt y w1 = (w2, Err e) ->
    fit (MkPipe (init ++ [s]) b) X y w = (w2, Err (EWrapped e)).
  Proof.
    intros init s b X y w Xt w1 f w2 e H Hf He. unfold fit. rewrite init_app, final_app.
    apply ft_through in H. rewrite H. cbn [andthen]. rewrite Hf. unfold wrapped. rewrite He. reflexivity.
  Qed.

  Theorem C19_predict_failure : forall l1 s l2 last X w X1 w1 f t w2 e,
    let p := MkPipe (l1 ++ s :: l2 ++ [last]) true in
    e_fit (s_est s) = FitX f -> e_transform (s_est s) = Some t -> e_has_fit_transform (s_est s) = true ->
    transformed l1 X w X1 w1 -> t X1 w1 = (w2, Err e) ->
    predict p X w = (w2, Err (EWrapped e)) /\ predict_proba p X w = (w2, Err (EWrapped e)).
  Proof.
    intros l1 s l2 last X w X1 w1 f t w2 e p E1 E2 E3 H H0.
    assert (Ei : init_steps p = l1 ++ s :: l2).
    { unfold p. replace (l1 ++ s :: l2 ++ [last]) with ((l1 ++ s :: l2) ++ [last])
        by (rewrite <- app_assoc; reflexivity). apply init_app. }
    assert (Et : as_transformer (s_est s) = Some (f, t)) by (apply as_tr_some; auto).
    unfold predict, predict_proba. rewrite Ei. cbn [p p_fitted negb].
    rewrite (tr_through_app l1 (s :: l2) X w X1 w1 H).
    cbn [transform_through]. rewrite Et. unfold wrapped. rewrite H0. split; reflexivity.
  Qed.

  (** For transformers that compute a total function and change nothing, Predict is
      literally the composition. *)
  Theorem C19_composition : forall init gs s f w,
    Forall2 (fun s (g : M -> M) => exists ff t, e_fit (s_est s) = FitX ff /\ e_transform (s_est s) = Some t /\
              e_has_fit_transform (s_est s) = true /\ forall X, t X w = (w, Ok (g X))) init gs ->
    e_predict (s_est s) = Some f ->
    forall X, predict (MkPipe (init ++ [s]) true) X w = f (fold_left (fun x g => g x) gs X) w.
  Proof.
    intros init gs s f w H Hf X. unfold predict. cbn [p_fitted negb]. rewrite init_app, final_app, Hf.
    revert X. induction H as [|s' g init' gs' (ff & t & E1 & E2 & E3 & E4) H IH]; intros X; [reflexivity|].
    cbn. rewrite (proj2 (as_tr_some s' ff t)) by auto. unfold wrapped. rewrite E4. cbn. apply IH.
  Qed.

  (** InverseTransform undoes Transform when each step's inverse undoes its
      transform in the (unchanged) world [w], on the data satisfying [P]. *)
  Theorem C19_inverse_undoes : forall (P : M -> Prop) l w X Y w',
    (forall s t, In s l -> e_transform (s_est s) = Some t ->
       exists i, e_inverse (s_est s) = Some i /\
       forall Z Z' w1, P Z -> t Z w = (w1, Ok Z') -> w1 = w /\ P Z' /\ i Z' w = (w, Ok Z)) ->
    P X -> transform (MkPipe l true) X w = (w', Ok Y) ->
    w' = w /\ inverse_transform (MkPipe l true) Y w = (w, Ok X).
  Proof.
    intros P l w X Y w' Hs HP H. unfold transform in H. cbn [p_fitted negb p_steps] in H.
    apply tr_through in H. unfold inverse_transform. cbn [p_fitted negb p_steps].
    cut (w' = w /\ inverted (rev l) Y w X w); [intros [H1 H2]; split; [exact H1|now apply inv_through]|].
    revert Hs HP. remember w as w0 eqn:Ew in H at 1. revert Ew.
    induction H as [X w0|s r f t X w0 X1 w1 X' w' E1 E2 E3 E4 H IH]; intros -> Hs HP.
    - split; [reflexivity|constructor].
    - destruct (Hs s t (or_introl eq_refl) E2) as (i & Ei & Hi).
      destruct (Hi _ _ _ HP E4) as (-> & HP1 & Hinv).
      destruct (IH eq_refl) as [-> HI].
      + intros s' t' Hin. apply Hs. now right.
      + exact HP1.
      + split; [reflexivity|]. cbn. eapply inverted_app; [exact HI|]. econstructor; eauto. constructor.
  Qed.
End C19.
Print Assumptions C19_fit.
Print Assumptions C19_predict.
Print Assumptions C19_transform.
Print Assumptions C19_first_failure.
Print Assumptions C19_final_failure.
Print Assumptions C19_predict_failure.
Print Assumptions C19_composition.
Print Assumptions C19_inverse_undoes.

(** The library's own scalers as steps. *)
Definition scalers : Type := sscaler RNum * mmscaler RNum.
Definition std_step (V : Type) : step scalers (matrix R) V :=
  MkStep "std" (MkEst
    (FitX (fun X w => let (s, r) := ss_fit (fst w) X in ((s, snd w), r)))
    (Some (fun X w => (w, ss_transform (fst w) X))) true None None None
    (Some (fun X w => (w, ss_inverse (fst w) X)))).
Definition mm_step' (V : Type) : step scalers (matrix R) V :=
  MkStep "minmax" (MkEst
    (FitX (fun X w => let (s, r) := mm_fit (snd w) X in ((fst w, s), r)))
    (Some (fun X w => (w, mm_transform (snd w) X))) true None None None
    (Some (fun X w => (w, mm_inverse (snd w) X)))).

(** Standardise, then scale into a range: whatever the pipeline transforms, it can
    transform back (exact arithmetic). *)
Theorem C19_scalers_roundtrip : forall (V : Type) s1 s2 X y w' Y0,
  let l := [std_step V; mm_step' V] in
  mm_lo s2 <> mm_hi s2 -> wf X -> fit_transform (new l) X y (s1, s2) = (w', Ok Y0) ->
  forall Z Y w'', wf Z -> transform (MkPipe l true) Z w' = (w'', Ok Y) ->
    inverse_transform (MkPipe l true) Y w' = (w', Ok Z).
Proof.
  intros V s1 s2 X y w' Y0 l Hlh HwX Hft Z Y w'' HwZ Htr.
  unfold fit_transform in Hft. apply ft_through in Hft. cbn [new p_steps] in Hft.
  inversion Hft as [|? ? f1 t1 ? ? w1 X1 w2 ? ? F1 F2 F3 F4 F5 F6]; subst; clear Hft.
  inversion F6 as [|? ? f2 t2 ? ? w3 X2 w4 ? ? G1 G2 G3 G4 G5 G6]; subst; clear F6.
  inversion G6; subst; clear G6.
  cbn in F1, F2, G1, G2. injection F1 as <-. injection F2 as <-. injection G1 as <-. injection G2 as <-.
  cbn in F4. destruct (ss_fit s1 X) as [s1' r1] eqn:E1. injection F4 as <- ->.
  cbn in F5. injection F5 as <- F5. cbn in G4. destruct (mm_fit s2 X1) as [s2' r2] eqn:E2.
  injection G4 as <- ->. injection G5 as <- G5.
  apply (C19_inverse_undoes wf l _ Z Y w''); [|exact HwZ|exact Htr].
  intros s t Hin Ht. destruct Hin as [<-|[<-|[]]]; cbn in Ht; injection Ht as <-; cbn.
  - eexists. split; [reflexivity|].
    intros A B v HA HB. injection HB as <- HB. split; [reflexivity|]. cbn in HB.
    split; [|cbn; now rewrite (ss_inverse_R s1 X s1' E1 A B HA HB)].
    exact (ss_transform_wf s1' A B HA HB).
  - eexists. split; [reflexivity|].
    intros A B v HA HB. injection HB as <- HB. split; [reflexivity|]. cbn in HB.
    split; [|cbn; now rewrite (mm_inverse_R s2 X1 s2' E2 Hlh A B HA HB)].
    exact (mm_transform_wf s2' A B HA HB).
Qed.
Print Assumptions C19_scalers_roundtrip.

(** A concrete round trip: the pipeline really fits this matrix. *)
Example C19_example : exists w' Y,
  fit_transform (new [std_step R; mm_step' R]) (mkmat 1 [[1]; [3]])%R (mkmat 1 [[0]; [0]])%R
    (@ss_new RNum true true, @mm_new RNum 0%R 1%R) = (w', Ok Y) /\
  inverse_transform (MkPipe [std_step R; mm_step' R] true) Y w' = (w', Ok (mkmat 1 [[1]; [3]])%R).
Proof.
  set (X := mkmat 1 [[1]; [3]]%R : matrix R).
  assert (HwX : wf X) by (intros row [<-|[<-|[]]]; reflexivity).
  destruct (ss_ft_R (ss_new true true) X HwX) as (s1 & X1 & E1 & _ & Hc1 & Hw1 & Hn1 & _); [easy|cbn; lia|].
  unfold ss_fit_transform in E1. destruct (ss_fit (@ss_new RNum true true) X) as [s1' r1] eqn:F1.
  destruct r1 as [[]| |]; [|discriminate|discriminate]. injection E1 as -> T1.
  assert (Hr1 : mrows X1 <> []) by (unfold nrows in Hn1; intros E; rewrite E in Hn1; discriminate).
  destruct (mm_ft_R (@mm_new RNum 0%R 1%R) X1 Hw1) as (s2 & X2 & E2 & _ & Hc2 & Hw2 & Hn2 & _);
    [exact Hr1|unfold X in Hc1; cbn in Hc1; unR; rewrite Hc1; lia|].
  unfold mm_fit_transform in E2. destruct (mm_fit (@mm_new RNum 0%R 1%R) X1) as [s2' r2] eqn:F2.
  destruct r2 as [[]| |]; [|discriminate|discriminate]. injection E2 as -> T2.
  assert (HF : fit_transform (new [std_step R; mm_step' R]) X X (@ss_new RNum true true, @mm_new RNum 0%R 1%R) = ((s1, s2), Ok X2)).
  { apply ft_through. pose (m := @mm_new RNum 0%R 1%R).
    refine (trained_cons (std_step R) _ _ _ X _ (s1, m) X1 (s1, m) X2 (s1, s2) eq_refl eq_refl eq_refl _ _ _).
    - exact (f_equal (fun q : sscaler RNum * res unit => let (s, r) := q in ((s, m), r)) F1).
    - exact (f_equal (pair (s1, m)) T1).
    - refine (trained_cons (mm_step' R) _ _ _ X1 _ (s1, s2) X2 (s1, s2) X2 (s1, s2) eq_refl eq_refl eq_refl _ _ _).
      + exact (f_equal (fun q : mmscaler RNum * res unit => let (s, r) := q in ((s1, s), r)) F2).
      + exact (f_equal (pair (s1, s2)) T2).
      + constructor. }
  exists (s1, s2), X2. split; [exact HF|].
  eapply (C19_scalers_roundtrip R _ _ X X (s1, s2) X2); [|exact HwX|exact HF|exact HwX|].
  - cbn. lra.
  - apply tr_through.
    refine (transformed_cons (std_step R) _ _ _ X _ X1 (s1, s2) X2 (s1, s2) eq_refl eq_refl eq_refl _ _);
      [exact (f_equal (pair (s1, s2)) T1)|].
    refine (transformed_cons (mm_step' R) _ _ _ X1 _ X2 (s1, s2) X2 (s1, s2) eq_refl eq_refl eq_refl _ _);
      [exact (f_equal (pair (s1, s2)) T2)|constructor].
Qed.

(** ** C20 *)
Section C20.
  Context {W M V : Type}.
  Implicit Types (l : list (step W M V)) (p : pipeline W M V).

  (** A non-empty pipeline that Fit ever accepts can never Transform or FitTransform,
      whatever its state and input, and the other way round: the documented
      "equivalent to calling Fit followed by Transform" describes no execution. *)
  Theorem C20_fit_excludes_transform : forall l b X y w w', l <> [] ->
    fit (MkPipe l b) X y w = (w', Ok tt) ->
    forall b' X' y' v, is_ok (snd (transform (MkPipe l b') X' v)) = false /\
                       is_ok (snd (fit_transform (MkPipe l b') X' y' v)) = false.
  Proof.
    intros l b X y w w' Hl Hf b' X' y' v. destruct (exists_last Hl) as (init & s & ->).
    apply C19_fit in Hf as (Xt & w1 & f & _ & Hxy & _).
    assert (Hs : In s (init ++ [s])) by (apply in_or_app; right; now left).
    split.
    - unfold transform. cbn [p_fitted p_steps]. destruct b'; [|reflexivity]. cbn [negb].
      destruct (transform_through (init ++ [s]) X' v) as [w2 [Y| |]] eqn:E; try reflexivity.
      apply tr_through in E. destruct (transformed_all _ _ _ _ _ E s Hs) as (f' & t' & H).
      apply as_tr_some in H. destruct H as (H & _). congruence.
    - unfold fit_transform. cbn [p_steps].
      destruct (fit_transform_through (init ++ [s]) X' v) as [w2 [Y| |]] eqn:E; try reflexivity.
      apply ft_through in E. destruct (trained_all _ _ _ _ _ E s Hs) as (f' & t' & H).
      apply as_tr_some in H. destruct H as (H & _). congruence.
  Qed.

  Theorem C20_fit_transform_excludes_fit : forall l b X y w w' Y, l <> [] ->
    fit_transform (MkPipe l b) X y w = (w', Ok Y) ->
    forall b' X' y' v, is_ok (snd (fit (MkPipe l b') X' y' v)) = false.
  Proof.
    intros l b X y w w' Y Hl Hf b' X' y' v.
    destruct (fit (MkPipe l b') X' y' v) as [w2 [[]| |]] eqn:E; try reflexivity.
    destruct (C20_fit_excludes_transform _ _ _ _ _ _ Hl E b X y w) as [_ H]. rewrite Hf in H. discriminate.
  Qed.
End C20.
Print Assumptions C20_fit_excludes_transform.
Print Assumptions C20_fit_transform_excludes_fit.

(** ... so Fit fails on a pipeline of scalers that FitTransform accepts. *)
Theorem C20_equivalence_refuted : exists (l : list (step scalers (matrix R) R)) X w w' Y,
  fit_transform (new l) X X w = (w', Ok Y) /\
  forall X' y' v, is_ok (snd (fit (new l) X' y' v)) = false.
Proof.
  destruct C19_example as (w' & Y & H & _).
  exists [std_step R; mm_step' R], (mkmat 1 [[1]; [3]])%R, (@ss_new RNum true true, @mm_new RNum 0%R 1%R), w', Y.
  assert (H' : fit_transform (new [std_step R; mm_step' R]) (mkmat 1 [[1]; [3]])%R (mkmat 1 [[1]; [3]])%R
    (@ss_new RNum true true, @mm_new RNum 0%R 1%R) = (w', Ok Y)) by exact H.
  split; [exact H'|]. intros X' y' v.
  exact (C20_fit_transform_excludes_fit [std_step R; mm_step' R] false _ _ _ _ _ ltac:(discriminate) H' false X' y' v).
Qed.
Print Assumptions C20_equivalence_refuted.

(** FitTransform does agree with a later Transform of the same data when every step
    keeps its own state (slot [k] for the [k]-th step) and Transform only reads it. *)
Section Own.
  Context {S M V : Type}.
  Definition put (w : nat -> S) (k : nat) (s : S) : nat -> S := fun i => if Nat.eqb i k then s else w i.
  Definition owner (f : M -> S -> S * res unit) (t : M -> S -> res M) (k : nat)
    (e : estimator (nat -> S) M V) : Prop :=
    exists tr ft, e_fit e = FitX ft /\ e_transform e = Some tr /\ e_has_fit_transform e = true /\
      (forall X w, ft X w = (put w k (fst (f X (w k))), snd (f X (w k)))) /\
      (forall X w, tr X w = (w, t X (w k))).

  Lemma transformed_frame (l : list (step (nat -> S) M V)) : forall k X w X' w' v,
    (forall i s, nth_error l i = Some s -> exists f t, owner f t (k + i) (s_est s)) ->
    transformed l X w X' w' -> (forall i, k <= i -> v i = w i) ->
    w' = w /\ transformed l X v X' v.
  Proof.
    induction l as [|s r IH]; intros k X w X' w' v Ho H Hv.
    - inversion H; subst. split; [reflexivity|constructor].
    - inversion H as [|? ? f t ? ? X1 w1 ? ? E1 E2 E3 E4 E5]; subst.
      destruct (Ho 0 s eq_refl) as (g & u & tr & ft & O1 & O2 & O3 & O4 & O5).
      assert (tr = t) by congruence. subst tr. rewrite O5 in E4. injection E4 as <- E4.
      rewrite Nat.add_0_r in E4.
      destruct (IH (Datatypes.S k) X1 w X' w' v) as [-> Ht]; auto.
      + intros i s' Hi. destruct (Ho (Datatypes.S i) s' Hi) as (g' & u' & O). exists g', u'.
        now rewrite Nat.add_succ_r in O.
      + intros i Hi. apply Hv. lia.
      + split; [reflexivity|]. econstructor; eauto. rewrite O5, Nat.add_0_r, Hv by lia. now rewrite E4.
  Qed.

  Lemma trained_slots (l : list (step (nat -> S) M V)) : forall k X w X' w',
    (forall i s, nth_error l i = Some s -> exists f t, owner f t (k + i) (s_est s)) ->
    trained l X w X' w' ->
    (forall i, i < k -> w' i = w i) /\ transformed l X w' X' w'.
  Proof.
    induction l as [|s r IH]; intros k X w X' w' Ho H.
    - inversion H; subst. split; [reflexivity|constructor].
    - inversion H as [|? ? f t ? ? w1 X1 w2 ? ? E1 E2 E3 E4 E5 E6]; subst.
      destruct (Ho 0 s eq_refl) as (g & u & tr & ft & O1 & O2 & O3 & O4 & O5).
      assert (tr = t) by congruence. assert (ft = f) by congruence. subst tr ft.
      rewrite Nat.add_0_r in O4, O5.
      rewrite O5 in E5. injection E5 as <- E5. rewrite O4 in E4. injection E4 as <- E4.
      destruct (IH (Datatypes.S k) X1 (put w k (fst (g X (w k)))) X' w') as [Hlow Ht]; auto.
      { intros i s' Hi. destruct (Ho (Datatypes.S i) s' Hi) as (g' & u' & O). exists g', u'.
        now rewrite Nat.add_succ_r in O. }
      split.
      + intros i Hi. rewrite Hlow by lia. unfold put. destruct (Nat.eqb_spec i k); [lia|reflexivity].
      + econstructor; eauto. rewrite O5, Hlow by lia. now rewrite E5.
  Qed.
End Own.

Theorem C20_fit_transform_then_transform : forall (S M V : Type) (l : list (step (nat -> S) M V)) b X y w w' Y,
  (forall k s, nth_error l k = Some s -> exists f t, owner f t k (s_est s)) ->
  fit_transform (MkPipe l b) X y w = (w', Ok Y) ->
  transform (MkPipe l true) X w' = (w', Ok Y).
Proof.
  intros S M V l b X y w w' Y Ho H. unfold fit_transform in H. apply ft_through in H.
  destruct (trained_slots l 0 X w Y w' Ho H) as [_ Ht]. now apply tr_through.
Qed.
Print Assumptions C20_fit_transform_then_transform.

(** The fitted flag over whole histories: it is raised by the first success and
    never lowered. *)
Inductive call (M : Type) : Type := DoFit (X y : M) | DoFitTransform (X y : M) | DoTransform (X : M) | DoPredict (X : M).
Arguments DoFit {M} X y. Arguments DoFitTransform {M} X y. Arguments DoTransform {M} X. Arguments DoPredict {M} X.
Definition run1 {W M V} (pw : pipeline W M V * W) (c : call M) : (pipeline W M V * W) * bool :=
  let (p, w) := pw in
  match c with
  | DoFit X y => let (w', r) := fit p X y w in ((after_call p r, w'), is_ok r)
  | DoFitTransform X y => let (w', r) := fit_transform p X y w in ((after_call p r, w'), is_ok r)
  | DoTransform X => let (w', r) := transform p X w in ((p, w'), is_ok r)
  | DoPredict X => let (w', r) := predict p X w in ((p, w'), is_ok r)
  end.
Fixpoint runs {W M V} (pw : pipeline W M V * W) (cs : list (call M)) : (pipeline W M V * W) * list bool :=
  match cs with
  | [] => (pw, [])
  | c :: r => let (pw1, o) := run1 pw c in let (pw2, os) := runs pw1 r in (pw2, o :: os)
  end.
Definition is_fit {M} (c : call M) : bool :=
  match c with DoFit _ _ | DoFitTransform _ _ => true | _ => false end.

Theorem C20_fitted_forever : forall (W M V : Type) (l : list (step W M V)) w cs p w' os,
  runs (new l, w) cs = ((p, w'), os) ->
  p_steps p = l /\
  (p_fitted p = true <-> exists k c, nth_error cs k = Some c /\ is_fit c = true /\ nth_error os k = Some true).
Proof.
  intros W M V l w cs p w' os H.
  cut (p_steps p = l /\ (p_fitted p = true <-> p_fitted (new l) = true \/
     exists k c, nth_error cs k = Some c /\ is_fit c = true /\ nth_error os k = Some true)).
  { intros [H1 H2]. split; [exact H1|]. rewrite H2. cbn. split; [intros [?|?]; [discriminate|assumption]|now right]. }
  replace l with (p_steps (new l)) at 1 by reflexivity.
  revert H. generalize (new l) as q. intros q H. revert q w os H.
  induction cs as [|c r IH]; intros q w os H; cbn [runs] in H.
  - injection H as <- <- <-. split; [reflexivity|]. split; [now left|].
    intros [?|(k & c & Hk & _)]; [assumption|]. destruct k; discriminate.
  - destruct (run1 (q, w) c) as [[q1 w1] o] eqn:E1. destruct (runs (q1, w1) r) as [[p2 w2] os2] eqn:E2.
    injection H as -> -> <-. destruct (IH q1 w1 os2 E2) as [H1 H2].
    assert (Hq : p_steps q1 = p_steps q /\ (p_fitted q1 = true <-> p_fitted q = true \/ (is_fit c = true /\ o = true))).
    { destruct c; cbn in E1.
      - destruct (fit q X y w) as [? ro]. injection E1 as <- <- <-. unfold after_call. destruct (is_ok ro); cbn; intuition.
      - destruct (fit_transform q X y w) as [? ro]. injection E1 as <- <- <-. unfold after_call. destruct (is_ok ro); cbn; intuition.
      - destruct (transform q X w) as [? ro]. injection E1 as <- <- <-. cbn. intuition congruence.
      - destruct (predict q X w) as [? ro]. injection E1 as <- <- <-. cbn. intuition congruence. }
    destruct Hq as [Hq1 Hq2]. split; [congruence|]. rewrite H2, Hq2. split.
    + intros [[?|[? ?]]|(k & c' & ? & ? & ?)]; [now left| |].
      * right. exists 0, c. subst o. auto.
      * right. exists (S k), c'. auto.
    + intros [?|(k & c' & Hk & Hf & Ho)]; [now left; left|]. destruct k; cbn in Hk, Ho.
      * injection Hk as ->. injection Ho as ->. left. now right.
      * right. exists k, c'. auto.
Qed.
Print Assumptions C20_fitted_forever.

(** A failed re-fit leaves a usable mixture: the scaler refitted, the final
    estimator old.  The final estimator refuses a label matrix of the wrong
    height and predicts the mean of its first training column. *)
Definition mix_world : Type := sscaler RNum * R.
Definition mix_std : step mix_world (matrix R) R :=
  MkStep "std" (MkEst
    (FitX (fun X w => let (s, r) := ss_fit (fst w) X in ((s, snd w), r)))
    (Some (fun X w => (w, ss_transform (fst w) X))) true None None None None).
Definition mix_final : step mix_world (matrix R) R :=
  MkStep "final" (MkEst
    (FitXY (fun X y w => if Nat.eqb (nrows X) (nrows y)
                         then ((fst w, nth 0 (nth 0 (mrows y) []) 0%R), Ok tt)
                         else (w, Err (EDimension (nrows X) (nrows y)))))
    None false (Some (fun X w => (w, Ok (mkmat 1 (map (fun _ => [snd w]) (mrows X)))))) None None None).
Theorem C20_failed_refit_mixes_refuted : exists X y X' y' w w1 w2,
  fit (new [mix_std; mix_final]) X y w = (w1, Ok tt) /\
  fit (MkPipe [mix_std; mix_final] true) X' y' w1 = (w2, Err (EWrapped (EDimension 2 1))) /\
  ss_nf (fst w1) = 1%nat /\ ss_nf (fst w2) = 2%nat /\ snd w2 = snd w1 /\
  is_ok (snd (predict (MkPipe [mix_std; mix_final] true) X w2)) = false /\
  snd (predict (MkPipe [mix_std; mix_final] true) X' w2) = Ok (mkmat 1 [[7]; [7]])%R.
Proof.
  set (X := mkmat 1 [[1]; [3]]%R : matrix R). set (X' := mkmat 2 [[1; 2]; [3; 5]]%R : matrix R).
  assert (HwX : wf X) by (intros row [<-|[<-|[]]]; reflexivity).
  assert (HwX' : wf X') by (intros row [<-|[<-|[]]]; reflexivity).
  exists X, (mkmat 1 [[7]; [7]])%R, X', (mkmat 1 [[8]])%R, (@ss_new RNum true true, 0%R).
  destruct (ss_ft_R (ss_new true true) X HwX) as (s1 & X1 & E1 & _ & Hc1 & Hw1 & Hn1 & _); [easy|cbn; lia|].
  unfold ss_fit_transform in E1. destruct (ss_fit (@ss_new RNum true true) X) as [s1' r1] eqn:F1.
  destruct r1 as [[]| |]; [|discriminate|discriminate]. injection E1 as -> T1.
  destruct (ss_ft_R s1 X' HwX') as (s2 & X2 & E2 & _ & Hc2 & Hw2 & Hn2 & _); [easy|cbn; lia|].
  unfold ss_fit_transform in E2. destruct (ss_fit s1 X') as [s2' r2] eqn:F2.
  destruct r2 as [[]| |]; [|discriminate|discriminate]. injection E2 as -> T2.
  exists (s1, 7%R), (s2, 7%R).
  destruct (ss_fit_R _ _ _ F1) as (A1 & A2 & _). destruct (ss_fit_R _ _ _ F2) as (B1 & B2 & _).
  split; [|split; [|split; [|split; [|split; [|split]]]]].
  - apply (C19_fit [mix_std] mix_final). exists X1, (s1, 0%R). eexists. split; [|split; [reflexivity|]].
    + refine (trained_cons mix_std _ _ _ X _ (s1, 0%R) X1 (s1, 0%R) X1 (s1, 0%R) eq_refl eq_refl eq_refl _ _ _);
        [|exact (f_equal (pair (s1, 0%R)) T1)|constructor].
      exact (f_equal (fun q : sscaler RNum * res unit => let (s, r) := q in ((s, 0%R), r)) F1).
    + cbv beta. unfold X in Hn1. cbn in Hn1. unR. rewrite Hn1. reflexivity.
  - apply (C19_final_failure [mix_std] mix_final true X' _ (s1, 7%R) X2 (s2, 7%R)
             (fun X y w => if Nat.eqb (nrows X) (nrows y)
                         then ((fst w, nth 0 (nth 0 (mrows y) []) 0%R), Ok tt)
                         else (w, Err (EDimension (nrows X) (nrows y))))); [|reflexivity|].
    + refine (trained_cons mix_std _ _ _ X' _ (s2, 7%R) X2 (s2, 7%R) X2 (s2, 7%R) eq_refl eq_refl eq_refl _ _ _);
        [|exact (f_equal (pair (s2, 7%R)) T2)|constructor].
      exact (f_equal (fun q : sscaler RNum * res unit => let (s, r) := q in ((s, 7%R), r)) F2).
    + cbv beta. unfold X' in Hn2. cbn in Hn2. unR. rewrite Hn2. reflexivity.
  - exact A2.
  - exact B2.
  - reflexivity.
  - assert (E : ss_transform s2 X = Err (EDimension 2 1)).
    { unfold ss_transform. rewrite B1, B2. reflexivity. }
    destruct (C19_predict_failure [] mix_std [] mix_final X (s2, 7%R) X (s2, 7%R) _ _ (s2, 7%R) _
                eq_refl eq_refl eq_refl (transformed_nil _ _)
                (f_equal (pair (s2, 7%R)) E)) as [E' _].
    cbn [app] in E'. rewrite E'. reflexivity.
  - destruct (C19_predict [mix_std] mix_final X' X' (s2, 7%R) (s2, 7%R) (mkmat 1 [[7]; [7]])%R 0%R) as [Hp _].
    assert (E : predict (MkPipe ([mix_std] ++ [mix_final]) true) X' (s2, 7%R) = ((s2, 7%R), Ok (mkmat 1 [[7]; [7]])%R)).
    { apply Hp. exists X2, (s2, 7%R). eexists. split; [|split; [reflexivity|]].
      - refine (transformed_cons mix_std _ _ _ X' _ X2 (s2, 7%R) X2 (s2, 7%R) eq_refl eq_refl eq_refl _ _);
          [exact (f_equal (pair (s2, 7%R)) T2)|constructor].
      - cbv beta. unfold nrows in Hn2. unfold X' in Hn2. cbn in Hn2. unR.
        destruct (mrows X2) as [|r0 [|r1 [|]]]; try discriminate. reflexivity. }
    cbn [app] in E. rewrite E. reflexivity.
Qed.
Print Assumptions C20_failed_refit_mixes_refuted.
