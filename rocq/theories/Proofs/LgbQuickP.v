From Coq Require Import String List Arith ZArith Bool Lia Reals Lra.
From Verif Require Import Base.Num Base.GoRes Base.Mat Base.ListX Base.RTac Spec.Order Model.ParamMap Model.NaiveBayes Model.LgbTree Model.LgbLeaf Model.LgbEstimator
  Model.LgbApi Model.LgbQuick Spec.LgbQuick Proofs.LgbArrayP Proofs.LgbApiP.
Import ListNotations.
Local Open Scope string_scope.
Local Open Scope list_scope.
Local Open Scope num_scope.
Local Open Scope nat_scope.

Section Detect.
  Context {N : Num} (L : lt_laws N) (C : cmp_laws N).
  Variable toint : N -> Z.
  Hypothesis toint_eq : forall a b : N, (a =? b)%num = true -> toint a = toint b.
  Lemma apart_few (ks : list N) : forall keys, apart keys -> (forall a, In a keys -> exists k, In k ks /\ (a =? k)%num = true) ->
    List.length keys <= List.length ks.
  Proof.
    intros keys. revert ks. induction keys as [|a keys IH]; intros ks A H; [cbn; lia|].
    apply apart_cons in A as [A1 A2]. destruct (H a (or_introl eq_refl)) as (k & Hk & Ek).
    apply in_split in Hk as (l1 & l2 & ->). rewrite app_length. cbn [List.length].
    enough (List.length keys <= List.length (l1 ++ l2)) by (rewrite app_length in *; lia).
    apply IH; [exact A1|]. intros b Hb. destruct (H b (or_intror Hb)) as (k' & Hk' & Ek'). exists k'. split; [|exact Ek'].
    apply in_app_or in Hk' as [K|[K|K]]; [apply in_or_app; now left| |apply in_or_app; now right].
    subst k'. exfalso. destruct (A2 b Hb) as [F _]. rewrite (eq_trans_num L C a k b Ek (eq_sym_num C b k Ek')) in F. discriminate.
  Qed.
  Lemma detect_task_spec (y : matrix N) : detect_task toint y = true <-> few_integers toint (Nat.min (nrows y / 4) 19) (targets y).
  Proof.
    unfold detect_task. change (first_column y) with (targets y).
    assert (Hlen : List.length (targets y) = nrows y) by (unfold targets; now rewrite map_length).
    set (lim := nrows y / 4). rewrite few_keys_spec by (right; cbn; lia).
    assert (AN : apart (@nil N)) by (intros i j a b _ Hi; now destruct i).
    destruct (collect_inv C (targets y) [] AN) as (B1 & B2 & _ & B4). set (keys := collect (targets y) []) in *.
    split.
    - destruct (Nat.ltb_spec lim (List.length keys)) as [K|K]; [discriminate|]. intros H. apply andb_prop in H as [H1 H2].
      rewrite forallb_forall in H1. apply Nat.ltb_lt in H2.
      assert (I : forall v, In v (targets y) -> exists k, In k keys /\ (v =? k)%num = true).
      { intros v Hv. destruct (B4 v Hv) as [Kv|Kv]; [|exact Kv]. exists v. split; [exact Kv|].
        pose proof (H1 v Kv) as E. exact (eq_trans_num L C _ _ _ E (eq_sym_num C _ _ E)). }
      split; [|exists keys; split; [lia|exact I]].
      intros v Hv. destruct (B4 v Hv) as [Kv|(k & Kk & E)]; [now apply H1|].
      rewrite (toint_eq v k E). exact (eq_trans_num L C _ _ _ E (H1 k Kk)).
    - intros [I (ks & Kl & Ks)].
      assert (Kn : List.length keys <= List.length ks).
      { apply apart_few; [exact B1|]. intros a Ha. destruct (B2 a Ha) as [[]|Hv]. now apply Ks. }
      destruct (Nat.ltb_spec lim (List.length keys)) as [K|K]; [lia|]. apply andb_true_intro. split; [|apply Nat.ltb_lt; lia].
      apply forallb_forall. intros k Hk. destruct (B2 k Hk) as [[]|Hv]. now apply I.
  Qed.
End Detect.

Section Quick.
  Context {N : Num}.
  Variables toint roundint : N -> Z.
  Variable order : list Z -> list Z.
  Variable trainer : settings N -> option N -> option (list N) -> matrix N -> list N -> option (res (gmodel N)).
  Variable fuel : nat.
  Notation attempt := (attempt toint roundint order trainer fuel).
  Notation trained := (trained toint roundint order trainer fuel).
  Notation refused := (refused toint order trainer).
  (** An estimator of the right kind that is not fitted *)
  Definition blank (cls : bool) (m : qmodel N) : Prop :=
    match m with QClf c => cls = true /\ c_fitted c = false | QRgr r => cls = false /\ r_fitted r = false end.
  Definition kind (cls : bool) (m : qmodel N) : Prop := match m with QClf _ => cls = true | QRgr _ => cls = false end.
  Lemma clf_fit_result X y c c' e : clf_fit toint order trainer None None X y c = Some (c', Err e) -> c_fitted c' = c_fitted c.
  Proof.
    unfold clf_fit. destruct (negb _); [now intros [= <- _]|]. destruct (negb _); [now intros [= <- _]|].
    set (cls := extract_classes _ _). clearbody cls. cbv zeta. destruct (_ <? 2)%Z; [now intros [= <- _]|].
    destruct (trainer _ _ _ _ _) as [[m|e'|]|]; intros H; try discriminate; injection H as <- _; reflexivity.
  Qed.
  Lemma clf_fit_panic X y c c' : clf_fit toint order trainer None None X y c <> Some (c', Panic).
  Proof.
    unfold clf_fit. destruct (negb _); [discriminate|]. destruct (negb _); [discriminate|].
    set (cls := extract_classes _ _). clearbody cls. cbv zeta. destruct (_ <? 2)%Z; [discriminate|].
    destruct (trainer _ _ _ _ _) as [[m|e'|]|]; discriminate.
  Qed.
  Lemma rgr_fit_result X y r r' e : rgr_fit trainer X y r = Some (r', Err e) -> r_fitted r' = r_fitted r.
  Proof.
    unfold rgr_fit. destruct (negb _); [now intros [= <- _]|]. destruct (negb _); [now intros [= <- _]|].
    unfold rgr_run. destruct (trainer _ _ _ _ _) as [[m|e'|]|]; intros H; try discriminate; injection H as <- _; reflexivity.
  Qed.
  Lemma rgr_fit_panic X y r r' : rgr_fit trainer X y r <> Some (r', Panic).
  Proof.
    unfold rgr_fit. destruct (negb _); [discriminate|]. destruct (negb _); [discriminate|].
    unfold rgr_run. destruct (trainer _ _ _ _ _) as [[m|e'|]|]; discriminate.
  Qed.
  Lemma reports_of (r : option (res N)) (m : qmodel N) q :
    match r with None => None | Some (Ok s) => Some (Ok (m, Some s)) | Some (Err _) => Some (Ok (m, Some n0)) | Some Panic => Some Panic end = Some (Ok q) ->
    exists s, q = (m, Some s) /\ reports r s.
  Proof.
    destruct r as [[s|e|]|]; intros H; try discriminate; injection H as <-; eexists; (split; [reflexivity|]); [now left|right; eauto].
  Qed.
  Lemma attempt_cases cls leaves lr iters X y q : attempt cls leaves lr iters X y = Some (Ok q) ->
    (exists s, snd q = Some s /\ trained cls leaves lr iters X y (fst q) s /\ kind cls (fst q)) \/ (snd q = None /\ refused cls leaves lr iters X y /\ blank cls (fst q)).
  Proof.
    unfold LgbQuick.attempt, fit_fresh. destruct cls.
    - change (fresh_clf leaves lr iters) with (@classifier N leaves lr iters).
      destruct (clf_fit _ _ _ _ _ X y (classifier leaves lr iters)) as [[c [u|e|]]|] eqn:E; cbn [option_map fst snd]; intros H; try discriminate.
      + left. destruct (reports_of _ _ _ H) as (s & -> & R). exists s. split; [reflexivity|]. split; [|reflexivity]. exists c. destruct u. split; [reflexivity|]. split; [exact E|exact R].
      + right. injection H as <-. split; [reflexivity|]. split; [exists c, e; exact E|]. split; [reflexivity|]. exact (clf_fit_result _ _ _ _ _ E).
    - change (fresh_rgr leaves lr iters) with (@regressor N leaves lr iters).
      destruct (rgr_fit _ X y (regressor leaves lr iters)) as [[r [u|e|]]|] eqn:E; cbn [option_map fst snd]; intros H; try discriminate.
      + left. destruct (reports_of _ _ _ H) as (s & -> & R). exists s. split; [reflexivity|]. split; [|reflexivity]. exists r. destruct u. split; [reflexivity|]. split; [exact E|exact R].
      + right. injection H as <-. split; [reflexivity|]. split; [exists r, e; exact E|]. split; [reflexivity|]. exact (rgr_fit_result _ _ _ _ _ E).
  Qed.
  Lemma attempt_noerr cls leaves lr iters X y e : attempt cls leaves lr iters X y <> Some (Err e).
  Proof.
    unfold LgbQuick.attempt. destruct (fit_fresh _ _ _ _ _ _ _ _ _) as [[m [u|e'|]]|]; try discriminate.
    destruct (model_score _ _ m X y) as [[s|e'|]|]; discriminate.
  Qed.
  Lemma attempt_refused cls leaves lr iters X y : refused cls leaves lr iters X y -> exists m, attempt cls leaves lr iters X y = Some (Ok (m, None)) /\ blank cls m.
  Proof.
    unfold LgbQuick.attempt, fit_fresh. destruct cls.
    - change (fresh_clf leaves lr iters) with (@classifier N leaves lr iters). intros (c & e & E). rewrite E. eexists. split; [reflexivity|].
      split; [reflexivity|]. exact (clf_fit_result _ _ _ _ _ E).
    - change (fresh_rgr leaves lr iters) with (@regressor N leaves lr iters). intros (c & e & E). rewrite E. eexists. split; [reflexivity|].
      split; [reflexivity|]. exact (rgr_fit_result _ _ _ _ _ E).
  Qed.
  Lemma blank_answers (cls : bool) m s names : blank cls m -> let q := mkq (Some m) s names cls in
    (forall X, quick_predict roundint fuel q X = Some (Err ENotFitted)) /\ (forall X y, quick_score roundint fuel q X y = Some (Err ENotFitted))
    /\ (cls = true -> forall X, quick_proba roundint fuel q X = Some (Err ENotFitted)) /\ quick_importance q = Ok None.
  Proof.
    intros B q. destruct m as [c|r]; destruct B as [-> F]; unfold quick_predict, quick_score, quick_proba, quick_importance, model_importance, q; cbn [q_model q_class negb].
    - assert (P : forall X, clf_proba roundint fuel c X = Some (Err ENotFitted)) by (intros X; unfold clf_proba; rewrite F; reflexivity).
      split; [intros X; unfold clf_predict; rewrite P; reflexivity|]. split; [intros X y; unfold clf_score, clf_predict; rewrite P; reflexivity|].
      split; [intros _; exact P|]. rewrite F. now destruct (c_model c).
    - assert (P : forall X, rgr_predict roundint fuel r X = Some (Err ENotFitted)) by (intros X; unfold rgr_predict; rewrite F; reflexivity).
      split; [exact P|]. split; [intros X y; unfold rgr_score, judged; rewrite P; reflexivity|]. split; [discriminate|]. rewrite F. now destruct (r_model r).
  Qed.

  (** ** AutoFit *)
  Definition outcome (cls : bool) (X y : matrix N) (p : Z * N * Z) (o : option (qmodel N * N)) : Prop :=
    match o with
    | Some (m, s) => trained cls (fst (fst p)) (snd (fst p)) (snd p) X y m s
    | None => refused cls (fst (fst p)) (snd (fst p)) (snd p) X y
    end.
  Definition choose (best : option (qmodel N) * N) (o : option (qmodel N * N)) : option (qmodel N) * N :=
    match o with Some (m, s) => if (s >? snd best)%num then (Some m, s) else best | None => best end.
  Lemma auto_loop_cases cls X y : forall ps best b, auto_loop toint roundint order trainer fuel cls X y ps best = Some (Ok b) ->
    exists os, Forall2 (outcome cls X y) ps os /\ b = fold_left choose os best /\ Forall (fun o => match o with Some (m, _) => kind cls m | None => True end) os.
  Proof.
    induction ps as [|[[leaves lr] iters] ps IH]; intros best b H; cbn [auto_loop] in H.
    - injection H as <-. exists []. repeat split; constructor.
    - destruct (attempt cls leaves lr iters X y) as [[[m s]|e|]|] eqn:E; try discriminate.
      destruct (attempt_cases _ _ _ _ _ _ _ E) as [(s' & Es & T & K)|(Es & R & K)]; cbn [fst snd] in *; subst s.
      + destruct (IH _ _ H) as (os & F & -> & G). exists (Some (m, s') :: os). split; [constructor; [exact T|exact F]|]. split; [reflexivity|]. now constructor.
      + destruct (IH _ _ H) as (os & F & -> & G). exists (None :: os). split; [constructor; [exact R|exact F]|]. split; [reflexivity|]. now constructor.
  Qed.
  Section Laws.
    Hypothesis L : lt_laws N.
    Lemma lt_weaken (a b c : N) : (b <? a)%num = false -> nisnan b = false -> (b <? c)%num = true -> (a <? c)%num = true \/ nisnan a = true.
    Proof.
      intros H Hb H2. destruct (nisnan a) eqn:Ea; [now right|]. left. destruct (a <? c)%num eqn:E; [reflexivity|].
      destruct (lt_not_nan _ L _ _ H2) as [_ Hc]. rewrite (lt_negtrans _ L b a c Hb Ea Hc H E) in H2. discriminate.
    Qed.
    (** The invariant of the loop: the best so far is not beaten, and beats everything before it *)
    Lemma choose_spec : forall os best, nisnan (snd best) = false ->
      let b := fold_left choose os best in
      nisnan (snd b) = false
      /\ ((b = best /\ forall m s, In (Some (m, s)) os -> (snd best <? s)%num = false)
          \/ exists before m s after, os = before ++ Some (m, s) :: after /\ b = (Some m, s) /\ (snd best <? s)%num = true
             /\ (forall m' s', In (Some (m', s')) before -> (s' <? s)%num = true \/ nisnan s' = true)
             /\ (forall m' s', In (Some (m', s')) after -> (s <? s')%num = false)).
    Proof.
      induction os as [|o os IH]; intros best Hb b; cbn [fold_left] in b.
      - split; [exact Hb|]. left. split; [reflexivity|]. intros m s [].
      - destruct o as [[m s]|].
        + cbn [choose] in b. destruct (snd best <? s)%num eqn:E.
          * destruct (lt_not_nan _ L _ _ E) as [_ Hs]. destruct (IH (Some m, s) Hs) as [I1 [[I2 I3]|(bf & m' & s' & af & -> & I3 & I4 & I5 & I6)]].
            -- split; [exact I1|]. right. exists [], m, s, os. split; [reflexivity|]. split; [exact I2|]. split; [exact E|]. split; [intros ? ? []|exact I3].
            -- split; [exact I1|]. right. exists (Some (m, s) :: bf), m', s', af. split; [reflexivity|]. split; [exact I3|]. cbn [snd] in I4.
               split; [exact (lt_trans _ L _ _ _ E I4)|]. split; [|exact I6]. intros m2 s2 [[= <- <-]|H2]; [now left|now apply I5 with m2].
          * destruct (IH best Hb) as [I1 [[I2 I3]|(bf & m' & s' & af & -> & I3 & I4 & I5 & I6)]].
            -- split; [exact I1|]. left. split; [exact I2|]. intros m2 s2 [[= <- <-]|H2]; [exact E|now apply I3 with m2].
            -- split; [exact I1|]. right. exists (Some (m, s) :: bf), m', s', af. split; [reflexivity|]. split; [exact I3|]. split; [exact I4|]. split; [|exact I6].
               intros m2 s2 [[= <- <-]|H2]; [|now apply I5 with m2]. exact (lt_weaken _ _ _ E Hb I4).
        + cbn [choose] in b. destruct (IH best Hb) as [I1 [[I2 I3]|(bf & m' & s' & af & -> & I3 & I4 & I5 & I6)]].
          * split; [exact I1|]. left. split; [exact I2|]. intros m2 s2 [H2|H2]; [discriminate|now apply I3 with m2].
          * split; [exact I1|]. right. exists (None :: bf), m', s', af. split; [reflexivity|]. split; [exact I3|]. split; [exact I4|]. split; [|exact I6].
            intros m2 s2 [H2|H2]; [discriminate|now apply I5 with m2].
    Qed.
  End Laws.

  (** ** QuickCrossValidate *)
  Lemma sequence_const {A B} (a : option (res B)) : forall l : list A, l <> [] -> forall bs, sequence (fun _ => a) l = Some (Ok bs) -> exists b, a = Some (Ok b) /\ bs = repeat b (List.length l).
  Proof.
    induction l as [|x l IH]; intros Hl bs H; [contradiction|]. cbn [sequence] in H. destruct a as [[b|e|]|] eqn:E; try discriminate.
    exists b. split; [reflexivity|]. destruct l as [|x' l]; [cbn in H; now injection H as <-|].
    destruct (sequence (fun _ => Some (Ok b)) (x' :: l)) as [[bs'|e|]|] eqn:S; try discriminate. injection H as <-.
    destruct (IH ltac:(discriminate) bs' eq_refl) as (b' & [= <-] & ->). reflexivity.
  Qed.
End Quick.

(** The mean of equal values *)
Lemma mean_const (v : RNum) n : (0 < n)%nat -> @ndiv RNum (nsum (repeat v n)) (nofnat n) = v.
Proof.
  intros H. rewrite nofnat_R, nsum_R.
  assert (E : Rsum (repeat v n) = (INR n * v)%R).
  { clear H. induction n as [|k IH]; [cbn; lra|]. rewrite S_INR. cbn [repeat]. change (Rsum (v :: repeat v k)) with ((v : R) + Rsum (repeat v k))%R. rewrite IH. unfold Rdiv. ring. }
  rewrite E. change ((INR n * v / INR n)%R = v). field. apply not_0_INR. lia.
Qed.
