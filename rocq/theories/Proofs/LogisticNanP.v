(** Missing values and scores of logistic regression. *)
From Coq Require Import String List Arith ZArith Bool Lia Reals Lra.
From Flocq Require Import IEEE754.BinarySingleNaN.
From Verif Require Import Base.Num Base.GoRes Base.Mat Base.ListX Base.RTac Model.NaiveBayes Model.Logistic Spec.Logistic
  Proofs.LinearP Proofs.LogisticP Proofs.LogisticFitP Proofs.LogisticPredP.
Import ListNotations.

Lemma nan_plus_l x y : f64_isnan x = true -> f64_isnan (f64_plus x y) = true.
Proof. destruct x as [[]|[]| |[] mx ex hx]; try discriminate; intros _; destruct y as [[]|[]| |[] my ey hy]; reflexivity. Qed.
Lemma nan_plus_r x y : f64_isnan y = true -> f64_isnan (f64_plus x y) = true.
Proof. destruct y as [[]|[]| |[] mx ex hx]; try discriminate; intros _; destruct x as [[]|[]| |[] my ey hy]; reflexivity. Qed.
Lemma nan_minus_r x y : f64_isnan y = true -> f64_isnan (f64_minus x y) = true.
Proof. destruct y as [[]|[]| |[] mx ex hx]; try discriminate; intros _; destruct x as [[]|[]| |[] my ey hy]; reflexivity. Qed.
Lemma nan_minus_l x y : f64_isnan x = true -> f64_isnan (f64_minus x y) = true.
Proof. destruct x as [[]|[]| |[] mx ex hx]; try discriminate; intros _; destruct y as [[]|[]| |[] my ey hy]; reflexivity. Qed.
Lemma nan_mult_l x y : f64_isnan x = true -> f64_isnan (f64_mult x y) = true.
Proof. destruct x as [[]|[]| |[] mx ex hx]; try discriminate; intros _; destruct y as [[]|[]| |[] my ey hy]; reflexivity. Qed.
Lemma nan_div_r x y : f64_isnan y = true -> f64_isnan (f64_div x y) = true.
Proof. destruct y as [[]|[]| |[] mx ex hx]; try discriminate; intros _; destruct x as [[]|[]| |[] my ey hy]; reflexivity. Qed.
Lemma nan_div_l x y : f64_isnan x = true -> f64_isnan (f64_div x y) = true.
Proof. destruct x as [[]|[]| |[] mx ex hx]; try discriminate; intros _; destruct y as [[]|[]| |[] my ey hy]; reflexivity. Qed.
Lemma nan_is x : f64_isnan x = true -> x = f64_nan.
Proof. destruct x; try discriminate. reflexivity. Qed.

Section Nan.
Variable fexp flog : F64 -> F64.
Hypothesis exp_nan : f64_isnan (fexp f64_nan) = true.
Notation FN := (FNum fexp flog).
Variable lowest : F64.
Variable G : Type.
Notation model := (@lmodel FN G).

Lemma dotted_nan (x w : list F64) : forall b, (f64_isnan b = true \/ exists j, (j < length w)%nat /\ f64_isnan (nth j x f64_zero) = true) -> f64_isnan (@dotted FN x w b) = true.
Proof.
  unfold dotted. revert w. induction x as [|a x IH]; intros w b H; cbn.
  - destruct H as [H|(j & _ & H)]; [exact H|]. destruct j; discriminate.
  - destruct w as [|c w]; cbn.
    + destruct H as [H|(j & Hj & _)]; [exact H | cbn in Hj; lia].
    + apply IH. destruct H as [H|(j & Hj & H)]; [left; apply nan_plus_l; exact H|]. destruct j as [|j].
      * left. apply nan_plus_r. apply nan_mult_l. exact H.
      * right. exists j. split; [cbn in Hj; lia | exact H].
Qed.
Lemma sigmoid_nan z : f64_isnan z = true -> f64_isnan (@sigmoid FN z) = true.
Proof. intros H. rewrite (nan_is z H). unfold sigmoid. cbn [ndiv nadd nexp nneg FNum]. apply nan_div_r, nan_plus_r. exact exp_nan. Qed.
Lemma nle_nan x z : f64_isnan z = true -> @nle FN x z = false.
Proof. intros H. rewrite (nan_is z H). now destruct x as [sx|[]| |sx mx ex hx]. Qed.
Lemma nlt_nan x z : f64_isnan z = true -> @nlt FN x z = false.
Proof. intros H. rewrite (nan_is z H). now destruct x as [sx|[]| |sx mx ex hx]. Qed.
Lemma best_nan ss : forall k mx best, Forall (fun s => f64_isnan s = true) ss -> @best_of FN k ss mx best = best.
Proof. induction ss as [|s ss IH]; intros k mx best H; cbn [best_of]; [reflexivity|]. inversion H; subst. rewrite nlt_nan by assumption. now apply IH. Qed.

Lemma nan_row (m : model) units row c cs : trained m units -> l_classes G m = c :: cs -> (l_nf G m <= length row)%nat ->
  (exists j, (j < l_nf G m)%nat /\ f64_isnan (nth j row f64_zero) = true) ->
  @predict_row FN lowest G m row = Ok (@nofZ FN c) /\ exists ps, @proba_row FN lowest G m row = Ok ps /\ Forall (fun p => f64_isnan p = true) ps /\ length ps = length (c :: cs).
Proof.
  intros T C Hr (j & Hj & Hn). pose proof T as (_ & Nc & _ & _ & Fo & Lu).
  assert (D : forall w b, In (w, b) units -> f64_isnan (@dotted FN row w b) = true).
  { intros w b Hi. apply dotted_nan. right. exists j. split; [|exact Hn]. rewrite Forall_forall in Fo. specialize (Fo _ Hi). cbn [fst] in Fo. rewrite <- Fo in Hj. exact Hj. }
  unfold predict_row, proba_row. destruct (Nat.eqb (length (l_classes G m)) 2) eqn:E2.
  - rewrite Nc, E2. destruct units as [|[w b] us]; [discriminate|].
    rewrite (@score_unit FN G m _ 0 w b row T eq_refl Hr). cbn [bind]. specialize (D w b (or_introl eq_refl)). pose proof (sigmoid_nan _ D) as Sg.
    split.
    + rewrite (nle_nan _ _ Sg). unfold class_at. rewrite C. reflexivity.
    + eexists. split; [reflexivity|]. split.
      * constructor; [apply nan_minus_r; exact Sg | constructor; [exact Sg | constructor]].
      * rewrite C in E2. apply Nat.eqb_eq in E2. rewrite E2. reflexivity.
  - pose proof (@scores_ok FN G m units row T E2 Hr) as S. rewrite Nc in *. rewrite E2. rewrite S. cbn [bind rmap].
    assert (An : Forall (fun s => f64_isnan s = true) (map (fun u => @dotted FN row (fst u) (snd u)) units)).
    { apply Forall_map, Forall_forall. intros [w b] Hi. apply D. exact Hi. }
    split.
    + rewrite best_nan by exact An. unfold class_at. rewrite C. reflexivity.
    + eexists. split; [reflexivity|]. unfold softmax. split.
      * apply Forall_map, Forall_map. eapply Forall_impl; [|exact An]. cbn beta. intros s Hs. apply nan_div_l.
        rewrite (nan_is s Hs). match goal with |- f64_isnan (@nexp _ (@nsub _ _ ?q)) = true => change (f64_isnan (fexp (f64_minus f64_nan q)) = true); rewrite (nan_is (f64_minus f64_nan q)) end;
          [exact exp_nan | apply nan_minus_l; reflexivity].
      * rewrite !map_length. rewrite Lu, C. reflexivity.
Qed.
End Nan.

(** *** Score *)
Section Score.
Local Open Scope R_scope.
Variable lowest : R.
Variable G : Type.
Notation model := (@lmodel RNum G).
Lemma mapM_Forall {A B} (f : A -> res B) (P : B -> Prop) l : (forall x v, In x l -> f x = Ok v -> P v) -> forall vs, mapM f l = Ok vs -> length vs = length l /\ Forall P vs.
Proof.
  induction l as [|a l IH]; intros H vs E; cbn in E.
  - injection E as <-. split; [reflexivity | constructor].
  - destruct (f a) as [v|e|] eqn:Ea; try discriminate. cbn in E. destruct (mapM f l) as [r|e|] eqn:El; try discriminate. injection E as <-.
    destruct (IH (fun x v Hx => H x v (or_intror Hx)) r eq_refl) as [L F]. split; [cbn; now f_equal|]. constructor; [eapply H; eauto; now left | exact F].
Qed.
Lemma predict_length (m : model) X ps : @lr_predict RNum lowest G m X = Ok ps -> length ps = nrows X /\ Forall (fun p => exists c, In c (l_classes G m) /\ p = IZR c) ps.
Proof.
  intros H. unfold lr_predict in H. destruct (negb (l_fitted G m)); [discriminate|]. destruct (newdense (nrows X) 1) as [[]|e|]; try discriminate. cbn [bind] in H.
  refine (mapM_Forall _ _ _ _ ps H). clear H. intros row v _ H.
  assert (Q : forall k, class_at G m k = Ok v -> exists c, In c (l_classes G m) /\ v = IZR c).
  { intros k Hk. unfold class_at in Hk. destruct (nth_error (l_classes G m) k) as [c|] eqn:E; [|discriminate]. injection Hk as <-. exists c. split; [eapply nth_error_In; eauto | exact (nofZ_R c)]. }
  destruct (Nat.eqb (l_nc G m) 2).
  - destruct (class_score G m row 0); try discriminate. cbn [bind] in H. eapply Q; eauto.
  - destruct (mapM _ _); try discriminate. cbn [bind] in H. eapply Q; eauto.
Qed.
Lemma filter_shift {A B} (g : A -> B) (f : B -> bool) l : length (filter f (map g l)) = length (filter (fun a => f (g a)) l).
Proof. induction l as [|a l IH]; [reflexivity|]. cbn. destruct (f (g a)); cbn; now rewrite IH. Qed.
Lemma filter_count (ps : list R) : forall (ys : list (list R)), (length ps <= length ys)%nat ->
  length (filter (fun p => Reqb (fst p) (nth 0 (snd p) 0)) (combine ps ys)) =
  length (filter (fun i => if Req_EM_T (nth i ps 0) (nth 0 (nth i ys []) 0) then true else false) (seq 0 (length ps))).
Proof.
  induction ps as [|p ps IH]; intros [|y ys] L; cbn [length] in *; try lia; try reflexivity.
  cbn [combine filter seq fst snd]. change (nth 0 (p :: ps) 0) with p. change (nth 0 (y :: ys) []) with y. unfold Reqb at 1.
  assert (E : length (filter (fun i => if Req_EM_T (nth i (p :: ps) 0) (nth 0 (nth i (y :: ys) []) 0) then true else false) (seq 1 (length ps))) =
              length (filter (fun i => if Req_EM_T (nth i ps 0) (nth 0 (nth i ys []) 0) then true else false) (seq 0 (length ps)))).
  { rewrite <- seq_shift. exact (filter_shift S _ (seq 0 (length ps))). }
  destruct (Req_EM_T p (nth 0 y 0)); cbn [length]; rewrite E, IH by lia; reflexivity.
Qed.
Lemma score_count (m : model) X (y : matrix RNum) ps : @lr_predict RNum lowest G m X = Ok ps -> (nrows X <= nrows y)%nat ->
  @lr_score RNum lowest G m X y = Ok (INR (length (filter (fun i => if Req_EM_T (nth i ps 0) (nth 0 (nth i (mrows y) []) 0) then true else false) (seq 0 (nrows X)))) / INR (nrows X)).
Proof.
  intros H L. destruct (predict_length m X ps H) as [Lp _]. unfold lr_score. rewrite H. destruct (Nat.ltb_spec (nrows y) (nrows X)) as [|_]; [lia|].
  rewrite !nofnat_R. change (@neqb RNum) with Reqb.
  assert (L' : (@length R ps <= length (mrows y))%nat) by (unfold nrows in *; change (@length R ps) with (@length (num RNum) ps); lia).
  assert (Lp' : @length R ps = nrows X) by exact Lp.
  pose proof (filter_count ps (mrows y) L') as F. rewrite Lp' in F. f_equal. exact (f_equal (fun k => INR k / INR (nrows X)) F).
Qed.
Lemma score_fractional (m : model) X (y : matrix RNum) ps : @lr_predict RNum lowest G m X = Ok ps -> (nrows X <= nrows y)%nat ->
  (forall row c, In row (mrows y) -> nth 0 row 0 <> IZR c) -> @lr_score RNum lowest G m X y = Ok 0.
Proof.
  intros H L Hf. rewrite (score_count m X y ps H L). destruct (predict_length m X ps H) as [Lp Fp]. rewrite Forall_forall in Fp.
  set (Q := filter _ _). assert (E : Q = []).
  { unfold Q. assert (A : forall i, In i (seq 0 (nrows X)) -> (if Req_EM_T (nth i ps 0) (nth 0 (nth i (mrows y) []) 0) then true else false) = false).
    { intros i Hi. apply in_seq in Hi. destruct (Req_EM_T _ _) as [E|]; [exfalso|reflexivity].
      destruct (Fp (nth i ps 0)) as (c & _ & Ec); [apply nth_In; lia|].
      apply (Hf (nth i (mrows y) []) c); [apply nth_In; unfold nrows in *; lia|]. rewrite <- Ec. symmetry. exact E. }
    revert A. generalize (seq 0 (nrows X)) as l. induction l as [|i l IHl]; intros A; [reflexivity|]. cbn [filter]. rewrite (A i (or_introl eq_refl)). apply IHl. intros; apply A; now right. }
  rewrite E. cbn. f_equal. unfold Rdiv. apply Rmult_0_l.
Qed.
End Score.
