(** C103, C104 and C105: logistic regression. *)
From Coq Require Import String List Arith ZArith Bool Permutation Sorted Lia Reals Lra.
From Verif Require Import Base.Num Base.GoRes Base.Mat Base.ListX Base.RTac Model.NaiveBayes Model.Logistic Spec.Logistic Spec.LgbObjective
  Proofs.LinearP Proofs.NaiveBayesP Proofs.LgbObjectiveP Proofs.LogisticP Proofs.LogisticFitP Proofs.LogisticPredP Proofs.LogisticTrainP Proofs.LogisticNanP.
Import ListNotations.
Local Open Scope string_scope.
Local Open Scope list_scope.
Local Open Scope R_scope.

(** *** C103 *)
(** A parameter vector is the weights followed by the intercept, if one is fitted ([packed]). *)

(** Func is the regularised negative log likelihood wherever no probability is within 1e-15 of 0 or 1. *)
Theorem C103_func (h : @lhyper RNum) lambda (S : list sample) w b : (h_icpt h = false -> b = 0) -> 0 <= lambda ->
  sound (length w) S -> moderate S w b ->
  @lr_func RNum h lambda (length w, S) (packed h w b) = risk lambda S w b.
Proof. apply func_R. Qed.

(** Grad holds the slopes of the regularised negative log likelihood, in every direction. *)
Theorem C103_grad (h : @lhyper RNum) lambda (S : list sample) w b v c : (h_icpt h = false -> b = 0 /\ c = 0) -> 0 <= lambda ->
  sound (length w) S -> length v = length w ->
  let g := @lr_grad RNum h lambda (length w, S) (packed h w b) in
  slope (fun t => risk lambda S (move t v w) (b + t * c)) 0 (Sum (length w) (fun j => nth j g 0 * nth j v 0) + nth (length w) g 0 * c).
Proof.
  intros Hb Hl Hs Hv g. assert (Hb' : h_icpt h = false -> b = 0) by (intros E; now destruct (Hb E)).
  destruct (grad_nth h lambda S w b Hb' Hl Hs) as [G1 G2]. fold g in G1, G2.
  rewrite (Sum_ext _ (fun j => nth j g 0 * nth j v 0) (fun j => dw lambda S w b j * nth j v 0)) by (intros j Hj; now rewrite G1).
  assert (E : nth (length w) g 0 * c = db S w b * c).
  { transitivity ((if h_icpt h then db S w b else 0) * c); [exact (f_equal (fun q => q * c) G2)|].
    destruct (h_icpt h); [reflexivity|]. destruct (Hb eq_refl) as [_ ->]. ring. }
  pose proof (risk_slope lambda S w b v c Hs Hv) as P. rewrite <- E in P. exact P.
Qed.

(** The risk lies above the plane given by Grad: every point where Grad vanishes is a global minimum,
    and where no entry exceeds [eps], no other point is better by more than [eps] times its distance. *)
Theorem C103_minimum (h : @lhyper RNum) lambda (S : list sample) w b w' b' eps : (h_icpt h = false -> b = 0 /\ b' = 0) -> 0 <= lambda ->
  sound (length w) S -> length w' = length w ->
  (forall v, In v (@lr_grad RNum h lambda (length w, S) (packed h w b)) -> Rabs v <= eps) ->
  risk lambda S w b <= risk lambda S w' b' + eps * (Sum (length w) (fun j => Rabs (nth j w' 0 - nth j w 0)) + Rabs (b' - b)).
Proof. apply near_minimum. Qed.

(** After a successful Fit with the default solver every row of coefficients is what Minimize
    returned for the log likelihood of its class, and is that close to the minimum. *)
Theorem C103_fit toint order (G : Type) draw minimize (h : @lhyper RNum) (m m' : lmodel G) (X y : matrix RNum) k c w b n :
  (forall f g x0 tol it th j, minimize f g x0 tol it = Some (th, j) -> length th = length x0) ->
  h_warm h = false -> h_solver h = "lbfgs" -> (h_penalty h = "l2" -> 0 < h_C h) -> wf X -> mrows X <> [] ->
  lr_fit toint order G draw minimize h m X y = (m', Ok tt) ->
  positive (l_classes G m') k = Some c -> get_unit G k m' = Some (w, b, n) ->
  let lambda := if String.eqb (h_penalty h) "l2" then 1 / h_C h else 0 in
  let S := against c (mrows X) (labels_of toint y) in
  exists x0, minimize (lr_func h lambda (mcols X, S)) (lr_grad h lambda (mcols X, S)) x0 (h_tol h) (h_maxit h) = Some (packed h w b, n) /\
  length w = mcols X /\ (h_icpt h = false -> b = 0) /\
  forall eps w' b', (h_icpt h = false -> b' = 0) -> length w' = mcols X ->
    (forall v, In v (@lr_grad RNum h lambda (mcols X, S) (packed h w b)) -> Rabs v <= eps) ->
    risk lambda S w b <= risk lambda S w' b' + eps * (Sum (mcols X) (fun j => Rabs (nth j w' 0 - nth j w 0)) + Rabs (b' - b)).
Proof. apply fit_minimum. Qed.

(** Beyond the clamp Func is flat while Grad is not: one sample with label 0 and score 100, no penalty
    and no intercept. *)
Theorem C103_clamp_refuted : let S := [([1], 0)] in
  let h : @lhyper RNum := @mklh RNum "none" 1 false 1 "none" (-1) "lbfgs" 100 "auto" false 0 1 in
  sound 1 S /\ slope (fun t => @lr_func RNum h 0 (1%nat, S) [t]) 100 0 /\
  exists g, @lr_grad RNum h 0 (1%nat, S) [100] = [g] /\ 1 / 2 < g.
Proof. exact clamp_flat. Qed.

(** Two equal samples with different labels: a Minimize that returns its start finds the minimum. *)
Definition ex_toint (v : R) : Z := if Rleb (1 / 2) v then 1%Z else 0%Z.
Definition ex_min (f : list R -> R) (g : list R -> list R) (x0 : list R) (tol : R) (it : Z) : option (list R * nat) := Some (x0, 0%nat).
Definition ex_X : matrix RNum := mkmat 1 [[1]; [1]].
Definition ex_y : matrix RNum := mkmat 1 [[0]; [1]].
Definition ex_h : @lhyper RNum := @mklh RNum "l2" 1 true 1 "none" (-1) "lbfgs" 100 "auto" false 0 1.
Example C103_example_fit : exists m', lr_fit (N := RNum) ex_toint (fun l => l) unit (fun g => (1, g)) ex_min ex_h (lr_new unit tt) ex_X ex_y = (m', Ok tt)
  /\ l_classes unit m' = [0; 1]%Z /\ get_unit unit 0 m' = Some ([0], 0, 0%nat).
Proof.
  assert (T : labels_of (N := RNum) ex_toint ex_y = [0; 1]%Z).
  { unfold labels_of, ex_y, ex_toint. cbn [mrows map nth]. rewrite (proj2 (Rleb_false _ _)) by lra. rewrite (proj2 (Rleb_true _ _)) by lra. reflexivity. }
  unfold lr_fit. rewrite T. change (extract_classes (fun l => l) [0; 1]%Z) with [0; 1]%Z. cbn [nrows ex_X ex_y mrows mcols length Nat.eqb negb].
  cbn [h_warm ex_h negb orb l_coef lr_new]. cbn [initialize l_nc draw_rows draw_row l_gen lr_new Nat.eqb l_classes l_b l_nf l_nit l_fitted repeat].
  unfold fit_binary, lr_validate, solve, get_unit. cbn [h_solver h_penalty ex_h String.eqb Ascii.eqb Bool.eqb andb negb l_classes nth_error l_coef l_b l_nit].
  unfold lr_minimize, lr_lambda. cbn [h_penalty h_C ex_h String.eqb Ascii.eqb Bool.eqb]. cbn [neqb n0 RNum].
  replace (Reqb 1 0) with false by (symmetry; apply Reqb_false; lra). cbn [bind ex_min]. eexists. split; [reflexivity|]. split; reflexivity.
Qed.
Example C103_example_minimum (w' b' : R) : risk 1 [([1], 0); ([1], 1)] [0] 0 <= risk 1 [([1], 0); ([1], 1)] [w'] b'.
Proof.
  pose proof (C103_minimum ex_h 1 [([1], 0); ([1], 1)] [0] 0 [w'] b' 0) as M. rewrite Rmult_0_l, Rplus_0_r in M. apply M; [intros E; discriminate E | lra | | reflexivity |].
  - split; [discriminate|]. constructor; [cbn; auto | constructor; [cbn; auto | constructor]].
  - assert (Hs : sound 1 [([1], 0); ([1], 1)]) by (split; [discriminate|]; constructor; [cbn; auto | constructor; [cbn; auto | constructor]]).
    assert (Hi : h_icpt ex_h = false -> 0 = 0) by reflexivity.
    pose proof (grad_R ex_h 1 [([1], 0); ([1], 1)] [0] 0 Hi Rle_0_1 Hs) as Gr. intros v Hv0.
    pose proof (eq_ind _ (fun l => @In R v l) Hv0 _ Gr) as Hv.
    unfold dw, db, score, Sum, logistic in Hv. cbn [map seq Rsum nth fst snd length app h_icpt ex_h INR In] in Hv.
    replace (0 + (0 * 1 + 0)) with 0 in Hv by ring. rewrite exp_0 in Hv.
    destruct Hv as [<-|[<-|[]]]; match goal with |- Rabs ?a <= _ => replace a with 0 by field end; rewrite Rabs_R0; lra.
Qed.

(** *** C104 *)
(** A successful Fit that does not continue from old weights leaves a [trained] model. *)
Theorem C104_fit {N : Num} toint order G draw minimize (h : @lhyper N) (m m' : lmodel G) X y :
  h_warm h = false -> lr_fit toint order G draw minimize h m X y = (m', Ok tt) ->
  exists units, trained m' units /\ l_classes G m' = extract_classes order (labels_of toint y) /\ l_nf G m' = mcols X.
Proof. apply fit_trained. Qed.

(** Two classes: the second one exactly if the score is not negative, with the logistic function of the
    score as its probability. *)
Theorem C104_binary lowest G (m : @lmodel RNum G) w b c0 c1 (X : matrix RNum) :
  trained m [(w, b)] -> l_classes G m = [c0; c1] -> mrows X <> [] -> Forall (fun x => (l_nf G m <= length x)%nat) (mrows X) ->
  (exists ps, @lr_predict RNum lowest G m X = Ok ps /\
    Forall2 (fun x p => (0 <= score w b x -> p = IZR c1) /\ (score w b x < 0 -> p = IZR c0)) (mrows X) ps) /\
  @lr_proba RNum lowest G m X = Ok (map (fun x => [1 - logistic (score w b x); logistic (score w b x)]) (mrows X)).
Proof.
  intros T C Hn Hw. rewrite Forall_forall in Hw. pose proof T as (F & Nc & _). split.
  - exists (map (fun x => IZR (if Rleb 0 (score w b x) then c1 else c0)) (mrows X)). split.
    + rewrite (@predict_rows RNum lowest G m X F Hn). apply mapM_all_ok. intros x Hx. now destruct (predict_row_binary lowest G m w b c0 c1 x T C (Hw x Hx)).
    + clear. induction (mrows X) as [|x r IH]; cbn [map]; constructor; auto. split; intros H.
      * now rewrite (proj2 (Rleb_true _ _)) by lra.
      * now rewrite (proj2 (Rleb_false _ _)) by lra.
  - rewrite (@proba_rows RNum lowest G m X F Hn) by (rewrite Nc, C; discriminate). apply mapM_all_ok. intros x Hx. now destruct (predict_row_binary lowest G m w b c0 c1 x T C (Hw x Hx)).
Qed.
(** Another number of classes: the first class with the largest score (above -MaxFloat64), and the
    normalised exponentials of the scores as probabilities. *)
Theorem C104_multi lowest G (m : @lmodel RNum G) units (X : matrix RNum) :
  trained m units -> length (l_classes G m) <> 2%nat -> l_classes G m <> [] -> mrows X <> [] -> Forall (fun x => (l_nf G m <= length x)%nat) (mrows X) ->
  let ss := fun x => map (fun u => score (fst u) (snd u) x) units in
  (Forall (fun x => Forall (Rlt lowest) (ss x)) (mrows X) -> exists ps, @lr_predict RNum lowest G m X = Ok ps /\
    Forall2 (fun x p => exists k c, first_largest (ss x) k /\ nth_error (l_classes G m) k = Some c /\ p = IZR c) (mrows X) ps) /\
  @lr_proba RNum lowest G m X = Ok (map (fun x => map (fun s => exp s / Rsum (map exp (ss x))) (ss x)) (mrows X)).
Proof.
  intros T C C0 Hn Hw ss. rewrite Forall_forall in Hw. pose proof T as (F & Nc & _). split.
  - intros Hl. rewrite (@predict_rows RNum lowest G m X F Hn). clear Hn. induction (mrows X) as [|x r IH]; [exists []; split; [reflexivity | constructor]|].
    inversion Hl as [|? ? Hx Hr]; subst. destruct IH as (ps & E & F2); auto; [intros; apply Hw; now right|].
    destruct (predict_row_multi lowest G m units x T C C0 (Hw x (or_introl eq_refl)) Hx) as (k & c & A & B & P).
    exists (IZR c :: ps). split; [|constructor; [exists k, c; auto | exact F2]]. cbn [mapM]. rewrite P. cbn [bind]. rewrite E. reflexivity.
  - rewrite (@proba_rows RNum lowest G m X F Hn) by (rewrite Nc; destruct (l_classes G m); [congruence | discriminate]).
    apply mapM_all_ok. intros x Hx. exact (proba_row_multi lowest G m units x T C (Hw x Hx)).
Qed.
(** Probabilities are positive, sum to one, and none is larger than that of the predicted class. *)
Theorem C104_label lowest G (m : @lmodel RNum G) units (x : list R) n :
  trained m units -> l_classes G m <> [] -> (l_nf G m <= length x)%nat -> Forall (fun u => lowest < score (fst u) (snd u) x) units ->
  exists k c ps, nth_error (l_classes G m) k = Some c /\ @lr_predict RNum lowest G m (mkmat n [x]) = Ok [IZR c] /\ @lr_proba RNum lowest G m (mkmat n [x]) = Ok [ps] /\
    length ps = length (l_classes G m) /\ Forall (Rlt 0) ps /\ Rsum ps = 1 /\ forall j, nth j ps 0 <= nth k ps 0.
Proof.
  intros T C0 Hr Hl. destruct (Nat.eq_dec (length (l_classes G m)) 2) as [E|E].
  - destruct (l_classes G m) as [|c0 [|c1 [|c2 cs]]] eqn:C; try discriminate. pose proof T as (_ & _ & _ & _ & _ & Lu). rewrite C in Lu. cbn in Lu.
    destruct units as [|[w b] [|u us]]; try discriminate.
    destruct (C104_binary lowest G m w b c0 c1 (mkmat n [x]) T C) as [(ps & P & F2) Q]; [discriminate | constructor; auto |].
    cbn [mrows] in F2. inversion F2 as [|? p ? ? [H1 H2] Fn]; subst. inversion Fn; subst. cbn [mrows map] in Q.
    pose proof (logistic_bounds (score w b x)) as [B0 B1]. destruct (Rle_lt_dec 0 (score w b x)) as [Le|Lt].
    + exists 1%nat, c1, [1 - logistic (score w b x); logistic (score w b x)]. rewrite <- (H1 Le). pose proof (proj2 (half_logistic (score w b x)) Le).
      split; [reflexivity | split; [exact P | split; [exact Q | split; [reflexivity | split; [repeat constructor; lra | split; [cbn; lra|]]]]]].
      intros [|[|[|j]]]; cbn; lra.
    + exists 0%nat, c0, [1 - logistic (score w b x); logistic (score w b x)]. rewrite <- (H2 Lt).
      assert (logistic (score w b x) < 1 / 2). { apply Rnot_le_lt. intros K. apply half_logistic in K. lra. }
      split; [reflexivity | split; [exact P | split; [exact Q | split; [reflexivity | split; [repeat constructor; lra | split; [cbn; lra|]]]]]].
      intros [|[|[|j]]]; cbn; lra.
  - destruct (C104_multi lowest G m units (mkmat n [x]) T E C0) as [P Q]; [discriminate | constructor; auto |].
    destruct P as (ps & P & F2); [constructor; [apply Forall_map; exact Hl | constructor]|].
    cbn [mrows] in F2. inversion F2 as [|? p ? ? (k & c & A & B & ->) Fn]; subst. inversion Fn; subst. cbn [mrows map] in Q.
    set (ss := map (fun u : list R * R => score (fst u) (snd u) x) units) in *. exists k, c, (map (fun s => exp s / Rsum (map exp ss)) ss).
    pose proof T as (_ & _ & _ & _ & _ & Lu). apply Nat.eqb_neq in E. rewrite E in Lu. destruct A as (A1 & A2 & A3).
    assert (Pp : forall l, 0 <= Rsum (map exp l)) by (induction l as [|a l IH]; cbn; [lra | pose proof (exp_pos a); lra]).
    assert (Sp : 0 < Rsum (map exp ss)). { destruct ss as [|s l]; [cbn in A1; lia|]. cbn. pose proof (exp_pos s). pose proof (Pp l). lra. }
    split; [exact B | split; [exact P | split; [exact Q | split; [|split; [|split]]]]].
    + unfold ss. rewrite !map_length. exact Lu.
    + apply Forall_map, Forall_forall. intros s _. apply Rdiv_lt_0_compat; [apply exp_pos | exact Sp].
    + unfold Rdiv. rewrite (Rsum_scal_r (/ Rsum (map exp ss)) exp ss). field. lra.
    + intros j. assert (N0 : forall i, (i < length ss)%nat -> nth i (map (fun s => exp s / Rsum (map exp ss)) ss) 0 = exp (nth i ss 0) / Rsum (map exp ss)).
      { intros i Hi. rewrite nth_indep with (d' := exp 0 / Rsum (map exp ss)) by (rewrite map_length; exact Hi). exact (map_nth (fun s => exp s / Rsum (map exp ss)) ss 0 i). }
      change (@nth R j (map (fun s : R => exp s / Rsum (map exp ss)) ss) 0 <= @nth R k (map (fun s : R => exp s / Rsum (map exp ss)) ss) 0).
      rewrite (N0 k A1). destruct (Nat.lt_ge_cases j (length ss)) as [L|L].
      * rewrite (N0 j L). unfold Rdiv. apply Rmult_le_compat_r; [left; now apply Rinv_0_lt_compat|]. destruct (A2 j L) as [K|K]; [left; now apply exp_increasing | right; now rewrite K].
      * rewrite nth_overflow by (rewrite map_length; exact L). left. apply Rdiv_lt_0_compat; [apply exp_pos | exact Sp].
Qed.
(** Only the first nFeatures_ columns count; wider data passes unnoticed, narrower data panics. *)
Theorem C104_columns {N : Num} lowest G (m : @lmodel N G) n n' (rows rows' : list (list N)) :
  Forall2 (agree (l_nf G m)) rows rows' -> lr_predict lowest G m (mkmat n rows) = lr_predict lowest G m (mkmat n' rows') /\ lr_proba lowest G m (mkmat n rows) = lr_proba lowest G m (mkmat n' rows').
Proof.
  intros H. assert (L : length rows = length rows') by (clear -H; induction H; cbn; auto).
  unfold lr_predict, lr_proba, nrows. cbn [mrows]. rewrite L. destruct (negb (l_fitted G m)); [split; reflexivity|].
  assert (E : mapM (predict_row lowest G m) rows = mapM (predict_row lowest G m) rows' /\ mapM (proba_row lowest G m) rows = mapM (proba_row lowest G m) rows').
  { clear L. induction H as [|r r' rs rs' A _ [I1 I2]]; [split; reflexivity|]. cbn [mapM]. destruct (predict_agree lowest G m r r' A) as [-> ->]. now rewrite I1, I2. }
  destruct E as [E1 E2]. split.
  - destruct (newdense _ _); try reflexivity. exact E1.
  - destruct (newdense _ _); try reflexivity. exact E2.
Qed.
Theorem C104_narrow {N : Num} lowest G (m : @lmodel N G) units (X : matrix N) : trained m units -> l_classes G m <> [] ->
  (exists x, In x (mrows X) /\ (length x < l_nf G m)%nat) -> lr_predict lowest G m X = Panic.
Proof.
  intros (F & Nc & _) C0 (x & Hx & Hl). rewrite predict_rows by (auto; intros E; rewrite E in Hx; destruct Hx).
  apply (mapM_panic_in _ _ x Hx).
  - intros y _ e. apply predict_row_ne.
  - apply predict_short; auto. rewrite Nc. destruct (l_classes G m); [congruence | discriminate].
Qed.
(** A model that has seen one class only predicts that class. *)
Theorem C104_single {N : Num} lowest G (m : @lmodel N G) units (X : matrix N) c : trained m units -> l_classes G m = [c] -> mrows X <> [] ->
  Forall (fun x => (l_nf G m <= length x)%nat) (mrows X) -> lr_predict lowest G m X = Ok (map (fun _ => nofZ c) (mrows X)).
Proof.
  intros T C Hn Hw. rewrite Forall_forall in Hw. pose proof T as (F & Nc & _ & _ & _ & Lu). rewrite predict_rows by assumption. apply mapM_all_ok. intros x Hx.
  assert (E : Nat.eqb (length (l_classes G m)) 2 = false) by (rewrite C; reflexivity). rewrite E, C in Lu. cbn in Lu.
  unfold predict_row. rewrite (scores_ok G m units x T E (Hw x Hx)), Nc, E. cbn [bind]. destruct units as [|u [|v us]]; try discriminate. cbn [map best_of].
  destruct (nlt _ _); unfold class_at; rewrite C; reflexivity.
Qed.
(** In floating point a row with a NaN among the features in use is put into the first class, with
    NaN probabilities and no error. *)
Theorem C104_nan fexp flog lowest G (m : @lmodel (FNum fexp flog) G) units (X : matrix (FNum fexp flog)) c cs :
  f64_isnan (fexp f64_nan) = true -> trained m units -> l_classes G m = c :: cs -> mrows X <> [] ->
  Forall (fun x => (l_nf G m <= length x)%nat /\ exists j, (j < l_nf G m)%nat /\ f64_isnan (nth j x f64_zero) = true) (mrows X) ->
  lr_predict lowest G m X = Ok (map (fun _ => nofZ c) (mrows X)) /\
  exists ps, lr_proba lowest G m X = Ok ps /\ Forall (fun q => length q = length (c :: cs) /\ Forall (fun p => f64_isnan p = true) q) ps.
Proof.
  intros He T C Hn Hw. rewrite Forall_forall in Hw. pose proof T as (F & Nc & _). split.
  - rewrite predict_rows by assumption. apply mapM_all_ok. intros x Hx. destruct (Hw x Hx) as [L J]. now destruct (nan_row fexp flog He lowest G m units x c cs T C L J).
  - rewrite proba_rows by (auto; rewrite Nc, C; discriminate). clear Hn. induction (mrows X) as [|x r IH]; [exists []; split; [reflexivity | constructor]|].
    destruct IH as (ps & E & Fo); [intros; apply Hw; now right|]. destruct (Hw x (or_introl eq_refl)) as [L J].
    destruct (nan_row fexp flog He lowest G m units x c cs T C L J) as (_ & q & Eq & A & B). exists (q :: ps). split; [|constructor; auto].
    cbn [mapM]. rewrite Eq. cbn [bind]. rewrite E. reflexivity.
Qed.
(** Score is the share of rows whose label equals the prediction; an unfitted model scores 0 without
    an error, and so does every model on labels that are not integers. *)
Theorem C104_score lowest G (m : @lmodel RNum G) X (y : matrix RNum) ps : @lr_predict RNum lowest G m X = Ok ps -> (nrows X <= nrows y)%nat ->
  @lr_score RNum lowest G m X y = Ok (INR (length (filter (fun i => if Req_EM_T (nth i ps 0) (nth 0 (nth i (mrows y) []) 0) then true else false) (seq 0 (nrows X)))) / INR (nrows X)).
Proof. apply score_count. Qed.
Theorem C104_score_unfitted {N : Num} lowest G (m : @lmodel N G) X y : l_fitted G m = false -> lr_score lowest G m X y = Ok n0.
Proof. intros H. unfold lr_score, lr_predict. now rewrite H. Qed.
Theorem C104_score_fractional lowest G (m : @lmodel RNum G) X (y : matrix RNum) ps : @lr_predict RNum lowest G m X = Ok ps -> (nrows X <= nrows y)%nat ->
  (forall row c, In row (mrows y) -> nth 0 row 0 <> IZR c) -> @lr_score RNum lowest G m X y = Ok 0.
Proof. apply score_fractional. Qed.

(** Three classes with weights 1, 2, 3 and one feature. *)
Definition ex_model : @lmodel RNum unit := mklm (N := RNum) unit (Some [[1]; [2]; [3]]) [0; 0; 0] [4; 5; 7]%Z 3 1 [0; 0; 0]%nat true tt.
Example C104_example_trained : trained ex_model [([1], 0); ([2], 0); ([3], 0)].
Proof. unfold trained. cbn. repeat split; auto. Qed.
Example C104_example : exists ps, @lr_predict RNum (-1000) unit ex_model (mkmat 1 [[1]; [-1]]) = Ok ps /\ ps = [7; 4].
Proof.
  destruct (C104_multi (-1000) unit ex_model _ (mkmat 1 [[1]; [-1]]) C104_example_trained) as [(ps & P & F2) _]; try discriminate; try (repeat constructor; cbn; lia).
  - repeat constructor; cbn; unfold score, Sum; cbn; lra.
  - exists ps. split; [exact P|]. cbn [mrows] in F2. inversion F2 as [|? p1 ? r1 (k1 & c1 & (A1 & B1 & D1) & E1 & ->) F3]; subst. inversion F3 as [|? p2 ? r2 (k2 & c2 & (A2 & B2 & D2) & E2 & ->) F4]; subst. inversion F4; subst.
    unfold score, Sum in *. cbn in A1, A2, E1, E2. f_equal; [|f_equal].
    + destruct k1 as [|[|[|k]]]; cbn in E1; [| | | destruct k; discriminate]; injection E1 as <-; [| | reflexivity]; specialize (B1 2%nat ltac:(cbn; lia)); cbn in B1; lra.
    + destruct k2 as [|[|[|k]]]; cbn in E2; [| | | destruct k; discriminate]; injection E2 as <-; [reflexivity | |]; specialize (B2 0%nat ltac:(cbn; lia)); cbn in B2; lra.
Qed.

(** *** C105 *)
(** The classes are the distinct labels in increasing order, whatever order the set of labels is
    visited in; so is the whole of Fit. *)
Theorem C105_classes {N : Num} toint order order' G draw minimize (h : @lhyper N) (m : lmodel G) X y :
  (forall l, Permutation (order l) l) -> (forall l, Permutation (order' l) l) ->
  lr_fit toint order G draw minimize h m X y = lr_fit toint order' G draw minimize h m X y /\
  (forall m', lr_fit toint order G draw minimize h m X y = (m', Ok tt) -> h_warm h = false ->
    StronglySorted Z.lt (l_classes G m') /\ forall c, In c (l_classes G m') <-> In c (labels_of toint y)).
Proof.
  intros Ho Ho'. destruct (extract_classes_spec order (labels_of toint y) Ho) as [S1 M1]. destruct (extract_classes_spec order' (labels_of toint y) Ho') as [S2 M2].
  split.
  - unfold lr_fit. rewrite (sorted_same _ _ S1 S2); [reflexivity|]. intros c. now rewrite M1, M2.
  - intros m' H Hw. destruct (fit_trained toint order G draw minimize h m m' X y Hw H) as (u & _ & -> & _). split; assumption.
Qed.

(** Intercept scaling, class weights, the random state and the l1 ratio have no effect at all. *)
Theorem C105_ignored {N : Num} toint order G draw minimize (h : @lhyper N) scale cweight rstate l1 (m : lmodel G) X y :
  lr_fit toint order G draw minimize
    (mklh (h_penalty h) (h_C h) (h_icpt h) scale cweight rstate (h_solver h) (h_maxit h) (h_multi h) (h_warm h) l1 (h_tol h)) m X y
  = lr_fit toint order G draw minimize h m X y.
Proof. apply ignored. Qed.
(** Every solver but "lbfgs" is the same gradient descent, and every penalty but "l2" means none: all
    names, known or not, are accepted, and so is every multi_class setting. *)
Theorem C105_names {N : Num} toint order G draw minimize (h : @lhyper N) penalty solver multi (m : lmodel G) X y :
  h_solver h <> "lbfgs" -> solver <> "lbfgs" -> (penalty = "l2" <-> h_penalty h = "l2") ->
  lr_fit toint order G draw minimize
    (mklh penalty (h_C h) (h_icpt h) (h_iscale h) (h_cweight h) (h_rstate h) solver (h_maxit h) multi (h_warm h) (h_l1 h) (h_tol h)) m X y
  = lr_fit toint order G draw minimize h m X y.
Proof. exact (renamed toint order n0 G draw minimize h penalty solver multi m X y). Qed.

(** A step of gradient descent moves against the slopes of the regularised negative log likelihood,
    at the rate 1 / (1 + i / 10); the third result is the largest slope, the intercept's included even
    when no intercept is fitted. *)
Theorem C105_step (h : @lhyper RNum) (S : list sample) i w b w' b' M : sound (length w) S ->
  @gd_step RNum h (length w, S) i w b = (w', b', M) ->
  let lambda := if String.eqb (h_penalty h) "l2" then 1 / h_C h else 0 in
  exists g gb, length g = length w /\
    (forall v c, length v = length w ->
       slope (fun t => risk lambda S (move t v w) (b + t * c)) 0 (Sum (length w) (fun j => nth j g 0 * nth j v 0) + gb * c)) /\
    w' = move (- (1 / (1 + INR i / 10))) g w /\ b' = (if h_icpt h then b - 1 / (1 + INR i / 10) * gb else b) /\
    (forall j, (j < length w)%nat -> Rabs (nth j g 0) <= M) /\ Rabs gb <= M /\ (M = Rabs gb \/ exists j, (j < length w)%nat /\ M = Rabs (nth j g 0)).
Proof. apply step_R. Qed.
(** After a Fit by gradient descent every row of coefficients and its intercept is the result of n
    steps from random weights and intercept 0: n is at most max_iter, and below it only if the last
    step looked at slopes smaller than the tolerance; no earlier step did. *)
Theorem C105_iterations {N : Num} toint order G draw minimize (h : @lhyper N) (m m' : lmodel G) X y k c w b n :
  h_warm h = false -> h_solver h <> "lbfgs" -> (0 < h_maxit h)%Z -> lr_fit toint order G draw minimize h m X y = (m', Ok tt) ->
  positive (l_classes G m') k = Some c -> get_unit G k m' = Some (w, b, n) ->
  exists w0, length w0 = mcols X /\ (w, b) = descent h (mkdata toint c X y) (w0, n0) n /\ (1 <= n)%nat /\ (Z.of_nat n <= h_maxit h)%Z /\
    (forall i, (i + 1 < n)%nat -> nlt (largest h (mkdata toint c X y) (w0, n0) i) (h_tol h) = false) /\
    ((Z.of_nat n < h_maxit h)%Z -> nlt (largest h (mkdata toint c X y) (w0, n0) (n - 1)) (h_tol h) = true).
Proof.
  intros Hw Hs Hm Hf Hp Hg. destruct (fit_ok toint order G draw minimize h m m' X y Hw Hf) as (E1 & E2 & _ & E3 & _ & _ & Lb & U). rewrite E3 in Hp.
  set (cls := extract_classes order (labels_of toint y)) in *.
  assert (Hk : (k < if Nat.eqb (length cls) 2 then 1 else length cls)%nat).
  { rewrite <- Lb. unfold get_unit in Hg. destruct (l_coef G m') as [c0|]; [|discriminate]. destruct (nth_error c0 k); [|discriminate].
    destruct (nth_error (l_b G m') k) eqn:En; [|discriminate]. apply nth_error_Some. congruence. }
  destruct (U k Hk) as (c' & w0 & u' & P & L & Sv & Gu). rewrite P in Hp. injection Hp as ->. rewrite Gu in Hg. injection Hg as ->.
  apply String.eqb_neq in Hs. unfold unit_solver in Sv. rewrite Hs in Sv. exists w0. split; [exact L|]. apply gd_fit_run; assumption.
Qed.
(** Gradient descent never fails, even on one class, on no samples or with C = 0. *)
Theorem C105_gd_succeeds {N : Num} toint order G draw minimize (h : @lhyper N) (m : lmodel G) X y :
  h_warm h = false -> nrows X = nrows y -> mcols y = 1%nat -> h_solver h <> "lbfgs" ->
  exists m', lr_fit toint order G draw minimize h m X y = (m', Ok tt).
Proof. apply gd_always. Qed.

(** With two classes and the default solver the outcome depends neither on the model before nor on
    chance. *)
Theorem C105_deterministic {N : Num} toint order G G' draw draw' minimize (h : @lhyper N) (m1 : lmodel G) (m2 : lmodel G') X y m1' :
  (forall f g x0 tol it th j, minimize f g x0 tol it = Some (th, j) -> length th = length x0) ->
  h_warm h = false -> h_solver h = "lbfgs" -> length (extract_classes order (labels_of toint y)) = 2%nat ->
  lr_fit toint order G draw minimize h m1 X y = (m1', Ok tt) ->
  exists m2' u, lr_fit toint order G' draw' minimize h m2 X y = (m2', Ok tt) /\
    get_unit G 0 m1' = Some u /\ get_unit G' 0 m2' = Some u /\ l_classes G' m2' = l_classes G m1' /\ l_nf G' m2' = l_nf G m1'.
Proof.
  intros Hmin Hw Hs Hc H1. destruct (fit_ok toint order G draw minimize h m1 m1' X y Hw H1) as (E1 & E2 & _).
  destruct (nth_error (extract_classes order (labels_of toint y)) 1) as [c|] eqn:Ec; [|apply nth_error_None in Ec; lia].
  pose proof (binary_lbfgs toint order G draw minimize h m1 X y c Hmin Hw E1 E2 Hs Hc Ec) as B1.
  pose proof (binary_lbfgs toint order G' draw' minimize h m2 X y c Hmin Hw E1 E2 Hs Hc Ec) as B2.
  assert (P : h_penalty h = "l2" \/ h_penalty h = "none").
  { destruct (String.eqb_spec (h_penalty h) "l2") as [|P1]; [tauto|]. destruct (String.eqb_spec (h_penalty h) "none") as [|P2]; [tauto|]. exfalso.
    rewrite (fit_fresh toint order G draw minimize h m1 X y Hw E1 E2), Hc in H1. cbn [Nat.eqb] in H1. unfold fit_binary, lr_validate in H1.
    apply String.eqb_neq in P1, P2. rewrite Hs, P1, P2 in H1. cbn in H1. discriminate. }
  destruct (lr_minimize minimize h _ _ _) as [[[w b] n]|e|]; [|destruct (B1 P) as (m' & K); congruence|destruct B1].
  destruct (B1 P) as (a & A1 & A2 & A3 & A4). destruct (B2 P) as (d & D1 & D2 & D3 & D4). rewrite H1 in A1. injection A1 as <-.
  exists d, (w, b, n). repeat split; auto; congruence.
Qed.

(** A failed Fit either leaves the model as it was (sizes that do not match, several target columns),
    or has already replaced classes and width; the fitted flag is kept in both cases. *)
Theorem C105_failed {N : Num} toint order G draw minimize (h : @lhyper N) (m m' : lmodel G) X y e :
  h_warm h = false -> lr_fit toint order G draw minimize h m X y = (m', Err e) ->
  l_fitted G m' = l_fitted G m /\
  (m' = m /\ (nrows X <> nrows y \/ mcols y <> 1%nat) \/
   nrows X = nrows y /\ mcols y = 1%nat /\ l_classes G m' = extract_classes order (labels_of toint y) /\ l_nf G m' = mcols X).
Proof.
  intros Hw H. destruct (failed toint order G draw minimize h m X y m' e Hw H) as [[-> K]|(E1 & E2 & F)].
  - split; [reflexivity|]. left. split; [reflexivity|]. tauto.
  - destruct (fresh_frame toint order G draw X y m) as (A & B & C & D). destruct F as (F1 & _ & F3 & F4 & _). split; [congruence|]. right. repeat split; congruence.
Qed.
(** So a fitted model whose Fit was refused because of the penalty keeps answering: with random
    weights (a hundredth of the next draws), and with the labels of the data it was refused. *)
Theorem C105_rejected {N : Num} toint order lowest G draw minimize (h : @lhyper N) (m : lmodel G) X y : (forall l, Permutation (order l) l) ->
  h_warm h = false -> nrows X = nrows y -> mcols y = 1%nat -> h_solver h = "lbfgs" -> h_multi h <> "multinomial" ->
  h_penalty h <> "l2" -> h_penalty h <> "none" -> l_fitted G m = true -> mrows X <> [] -> wf X ->
  exists m' units, lr_fit toint order G draw minimize h m X y = (m', Err e_penalty) /\ trained m' units /\
    concat (map fst units) = map (fun v => nmul v (nlit 1 100)) (successive draw (length units * mcols X) (l_gen G m)) /\ Forall (fun u => snd u = n0) units /\
    exists ps, lr_predict lowest G m' X = Ok ps /\ Forall (fun p => exists c, In c (labels_of toint y) /\ p = nofZ c) ps.
Proof.
  intros Ho Hw E1 E2 Hs Hm P1 P2 F Hn Hwf. pose proof (rejected toint order G draw minimize h m X y Hw E1 E2 Hs P1 P2 Hm) as R.
  destruct (fresh_trained toint order G draw X y m F) as (units & T & Z0 & Ec). exists (fresh toint order G draw X y m), units.
  split; [exact R|]. split; [exact T|]. pose proof T as (_ & _ & Cf & _). rewrite Cf in Ec. injection Ec as Ec. split; [rewrite Ec; apply draw_rows_draws|]. split; [exact Z0|].
  destruct (fresh_frame toint order G draw X y m) as (A & _ & C & _). destruct (extract_classes_spec order (labels_of toint y) Ho) as [_ Mem].
  destruct (predict_known lowest G (fresh toint order G draw X y m) units X T) as (ps & Pr & Fo); auto.
  - rewrite A. destruct (mrows X) as [|x r] eqn:Ex; [congruence|]. unfold nrows in E1. rewrite Ex in E1. unfold labels_of in Mem |- *. destruct (mrows y) as [|v q]; [discriminate|].
    intros E. specialize (Mem (toint (nth 0 v n0))). cbn [map] in Mem, E. rewrite E in Mem. apply Mem. now left.
  - rewrite C. apply Forall_forall. intros x Hx. rewrite (Hwf x Hx). lia.
  - exists ps. split; [exact Pr|]. eapply Forall_impl; [|exact Fo]. intros p (c & Hc & ->). exists c. split; [|reflexivity]. rewrite A in Hc. now apply Mem.
Qed.

(** Warm start with a third label: a model of two classes has one row of coefficients, and the second
    class panics. *)
Theorem C105_warm {N : Num} toint order G draw minimize (h : @lhyper N) (m : lmodel G) w b X y :
  h_warm h = true -> h_solver h <> "lbfgs" -> trained m [(w, b)] -> length (l_nit G m) = 1%nat -> l_nf G m = mcols X -> nrows X = nrows y -> mcols y = 1%nat ->
  (3 <= length (extract_classes order (labels_of toint y)))%nat -> snd (lr_fit toint order G draw minimize h m X y) = Panic.
Proof. apply warm_panics. Qed.

(** C = 0: an error from the default solver. *)
Theorem C105_C_zero {N : Num} toint order G draw minimize (h : @lhyper N) (m : lmodel G) X y :
  h_warm h = false -> nrows X = nrows y -> mcols y = 1%nat -> h_solver h = "lbfgs" -> h_penalty h = "l2" -> neqb (h_C h) n0 = true ->
  length (extract_classes order (labels_of toint y)) = 2%nat -> exists m', lr_fit toint order G draw minimize h m X y = (m', Err e_C).
Proof. apply C_zero. Qed.

(** Witnesses in binary64: two samples with the single feature 0 and labels 0 and 1; the model [g] draws
    the number [g] for ever.  The exponential is only taken of zeros, where it is 1. *)
Definition FE : Num := FNum (fun _ => f 1 1) (fun x => x).
Definition w105_toint (v : FE) : Z := if @nlt FE (f 0 1) v then 1%Z else 0%Z.
Definition w105_h (penalty solver : string) (C : F0) (warm : bool) (it : Z) : @lhyper FE :=
  @mklh FE penalty C true (f 1 1) "none" 42 solver it "auto" warm (f 1 2) (f 1 10000).
Definition w105_X : matrix FE := mkmat 1 [[f 0 1]; [f 0 1]].
Definition w105_y : matrix FE := mkmat 1 [[f 0 1]; [f 1 1]].
Definition w105_min (_ : list FE -> FE) (_ : list FE -> list FE) (x0 : list FE) (_ : FE) (_ : Z) : option (list FE * nat) := Some (x0, 1%nat).
Definition w105_fit (h : @lhyper FE) (m : @lmodel FE F0) (X y : matrix FE) : @lmodel FE F0 * res unit :=
  @lr_fit FE w105_toint (fun l => l) F0 (fun g => (g, g)) w105_min h m X y.
Definition w105_sf (m : @lmodel FE F0) : option (list (list SpecFloat.spec_float)) := option_map (map (map fs)) (l_coef F0 m).
Definition w105_ok (r : @lmodel FE F0 * res unit) : bool := match snd r with Ok _ => true | _ => false end.

(** Gradient descent depends on chance, whatever the random state: two Fits of new models with random
    state 42 on the same data converge after one step and differ in their coefficients. *)
Definition w105_run (g : F0) := w105_fit (w105_h "none" "saga" (f 1 1) false 100) (lr_new F0 g) w105_X w105_y.
Theorem C105_chance_refuted : exists (h : @lhyper FE) (X y : matrix FE) (g1 g2 : F0),
  let run g := w105_fit h (lr_new F0 g) X y in
  h_rstate h = 42%Z /\ wf X /\ w105_ok (run g1) = true /\ w105_ok (run g2) = true /\
  l_nit F0 (fst (run g1)) = [1%nat] /\ l_nit F0 (fst (run g2)) = [1%nat] /\ (1 < h_maxit h)%Z /\
  w105_sf (fst (run g1)) <> w105_sf (fst (run g2)).
Proof.
  exists (w105_h "none" "saga" (f 1 1) false 100), w105_X, w105_y, (f 1 1), (f 2 1). cbv zeta. repeat split.
  - intros row [<-|[<-|[]]]; reflexivity.
  - vm_compute. intros H. discriminate H.
Qed.
(** Gradient descent with C = 0 reports success with an infinite coefficient. *)
Theorem C105_C_zero_refuted : exists (h : @lhyper FE) (X y : matrix FE) (g : F0),
  let r := w105_fit h (lr_new F0 g) X y in
  h_penalty h = "l2" /\ fs (h_C h) = fs (f 0 1) /\ h_solver h = "saga" /\ wf X /\ w105_ok r = true /\ l_fitted F0 (fst r) = true /\
  w105_sf (fst r) = Some [[SpecFloat.S754_infinity true]].
Proof.
  exists (w105_h "l2" "saga" (f 0 1) false 1), w105_X, w105_y, (f 1 1). cbv zeta. repeat split.
  intros row [<-|[<-|[]]]; reflexivity.
Qed.
(** A fitted model of the labels 0 and 1 is refused other data because of its penalty, and then has
    the new class only. *)
Definition w105_m : @lmodel FE F0 := fst (w105_run (f 1 1)).
Definition w105_r := w105_fit (w105_h "l1" "lbfgs" (f 1 1) false 100) w105_m (mkmat 2 [[f 3 1; f 4 1]]) (mkmat 1 [[f 1 1]]).
Example C105_example_rejected : l_classes F0 w105_m = [0; 1]%Z /\ l_fitted F0 w105_m = true /\ snd w105_r = Err e_penalty /\
  l_classes F0 (fst w105_r) = [1%Z] /\ l_nf F0 (fst w105_r) = 2%nat /\ l_fitted F0 (fst w105_r) = true.
Proof. vm_compute. repeat split. Qed.
(** Warm start of the same model with three labels *)
Definition w105_toint3 (v : FE) : Z := if @nlt FE (f 1 1) v then 2%Z else w105_toint v.
Example C105_example_warm : 
  snd (@lr_fit FE w105_toint3 (fun l => l) F0 (fun g => (g, g)) w105_min (w105_h "none" "saga" (f 1 1) true 100) w105_m
    (mkmat 1 [[f 0 1]; [f 0 1]; [f 0 1]]) (mkmat 1 [[f 0 1]; [f 1 1]; [f 2 1]])) = Panic.
Proof. vm_compute. reflexivity. Qed.
(** One step from weight 0 with one sample of feature 2 and label 1, without penalty: the slope is -1. *)
Example C105_example_step : exists w' b' M, @gd_step RNum (@mklh RNum "none" 1 true 1 "none" (-1) "saga" 100 "auto" false 0 1) (1%nat, [([2], 1)]) 0 [0] 0 = (w', b', M)
  /\ w' = [1] /\ b' = 1 / 2 /\ M = 1.
Proof.
  eexists _, _, _. split; [reflexivity|]. unfold gd_grad, gd_rate, gd_errors, sigmoid. cbn [h_penalty h_icpt fst snd map combine seq length fold_left nth String.eqb Ascii.eqb Bool.eqb].
  cbn [nadd nmul ndiv nsub nneg nexp n0 n1 nlit nabs nlt RNum]. rewrite !nofnat_R. cbn [INR].
  replace (- (0 + 2 * 0)) with 0 by ring. rewrite exp_0. repeat split.
  - f_equal. match goal with |- ?a = ?b => change (@eq R a b) end. field.
  - match goal with |- ?a = ?b => change (@eq R a b) end. field.
  - replace ((0 + (1 / (1 + 1) - 1)) / 1) with (- (1 / 2)) by field. replace ((0 + (1 / (1 + 1) - 1) * 2) / 1) with (-1) by field.
    assert (A : Rabs (- (1 / 2)) = 1 / 2) by (rewrite Rabs_left; lra). assert (B : Rabs (-1) = 1) by (rewrite Rabs_left; lra).
    rewrite A, B, (proj2 (Rltb_true (1 / 2) 1)) by lra. reflexivity.
Qed.

Print Assumptions C103_func.
Print Assumptions C103_grad.
Print Assumptions C103_minimum.
Print Assumptions C103_fit.
Print Assumptions C103_clamp_refuted.
Print Assumptions C104_fit.
Print Assumptions C104_binary.
Print Assumptions C104_multi.
Print Assumptions C104_label.
Print Assumptions C104_columns.
Print Assumptions C104_narrow.
Print Assumptions C104_single.
Print Assumptions C104_nan.
Print Assumptions C104_score.
Print Assumptions C104_score_unfitted.
Print Assumptions C104_score_fractional.
Print Assumptions C105_classes.
Print Assumptions C105_ignored.
Print Assumptions C105_names.
Print Assumptions C105_step.
Print Assumptions C105_iterations.
Print Assumptions C105_gd_succeeds.
Print Assumptions C105_deterministic.
Print Assumptions C105_failed.
Print Assumptions C105_rejected.
Print Assumptions C105_warm.
Print Assumptions C105_C_zero.
Print Assumptions C105_chance_refuted.
Print Assumptions C105_C_zero_refuted.
