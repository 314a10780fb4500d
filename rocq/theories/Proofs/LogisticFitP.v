From Coq Require Import String List Arith ZArith Bool Permutation Lia Reals Lra.
From Verif Require Import Base.Num Base.GoRes Base.Mat Base.ListX Base.RTac Model.NaiveBayes Model.Logistic Spec.Logistic Spec.LgbObjective Proofs.LgbObjectiveP Proofs.LogisticP.
Import ListNotations.
Local Open Scope string_scope.
Local Open Scope list_scope.

Lemma map_fst_combine_seq {A} (l : list A) : map fst (combine (seq 0 (length l)) l) = seq 0 (length l).
Proof. generalize 0%nat as k. induction l as [|a l IH]; intros k; cbn; f_equal; auto. Qed.

Section Gen.
Context {N : Num}.
Variable toint : N -> Z.
Variable order : list Z -> list Z.
Variable G : Type.
Variable draw : G -> N * G.
Variable minimize : (list N -> N) -> (list N -> list N) -> list N -> N -> Z -> option (list N * nat).
Notation model := (@lmodel N G).
Notation hyper := (@lhyper N).

Lemma get_put_same k u v (m : model) : get_unit G k m = Some v -> get_unit G k (put_unit G k u m) = Some u.
Proof.
  unfold get_unit, put_unit. cbn [l_coef l_b l_nit]. destruct (l_coef G m) as [c|]; [|discriminate]. cbn [option_map].
  rewrite !nth_error_upd_same. destruct (nth_error c k), (nth_error (l_b G m) k), (nth_error (l_nit G m) k); try discriminate. intros _.
  cbn [option_map]. now destruct u as [[uw ub] un].
Qed.
Lemma get_put_other k k' u (m : model) : k' <> k -> get_unit G k' (put_unit G k u m) = get_unit G k' m.
Proof.
  intros H. unfold get_unit, put_unit. cbn [l_coef l_b l_nit]. destruct (l_coef G m) as [c|]; [|reflexivity]. cbn [option_map].
  now rewrite !nth_error_upd_other by auto.
Qed.
(** What a solver never touches. *)
Definition same_frame (m m' : model) : Prop :=
  l_classes G m' = l_classes G m /\ l_nc G m' = l_nc G m /\ l_nf G m' = l_nf G m /\ l_fitted G m' = l_fitted G m /\ l_gen G m' = l_gen G m /\
  length (l_b G m') = length (l_b G m) /\ length (l_nit G m') = length (l_nit G m) /\
  option_map (@length _) (l_coef G m') = option_map (@length _) (l_coef G m).
Lemma frame_refl m : same_frame m m.
Proof. unfold same_frame; tauto. Qed.
Lemma frame_trans a b c : same_frame a b -> same_frame b c -> same_frame a c.
Proof. unfold same_frame. intros H K. decompose [and] H. decompose [and] K. repeat split; congruence. Qed.
Lemma frame_put k u m : same_frame m (put_unit G k u m).
Proof. unfold same_frame, put_unit; cbn. rewrite !upd_length. repeat split; auto. destruct (l_coef G m); cbn; auto. now rewrite upd_length. Qed.

Lemma solve_ok k f (m m' : model) : solve G k f m = (m', Ok tt) ->
  exists u u', get_unit G k m = Some u /\ f u = Ok u' /\ m' = put_unit G k u' m /\ get_unit G k m' = Some u'.
Proof.
  unfold solve. destruct (get_unit G k m) as [u|] eqn:E; [|discriminate]. destruct (f u) as [u'|e|] eqn:F; try discriminate.
  intros H. injection H as <-. exists u, u'. repeat split; auto. eapply get_put_same; eauto.
Qed.
Lemma solve_frame k f (m : model) : same_frame m (fst (solve G k f m)).
Proof. unfold solve. destruct (get_unit G k m) as [u|]; [|apply frame_refl]. destruct (f u); cbn; try apply frame_refl. apply frame_put. Qed.

(** The solver of one class *)
Definition class_solver (h : hyper) (X y : matrix N) (c : Z) (u : unit_fit) : res unit_fit :=
  if String.eqb (h_solver h) "lbfgs" then lr_minimize minimize h (mkdata toint c X y) (start_class h (mcols X) u) u
  else gd_fit h (mkdata toint c X y) u.
Lemma classes_ok h X y : forall cs (m m' : model), NoDup (map fst cs) -> fit_classes toint G minimize h X y cs m = (m', Ok tt) ->
  (forall k c, In (k, c) cs -> exists u u', get_unit G k m = Some u /\ class_solver h X y c u = Ok u' /\ get_unit G k m' = Some u')
  /\ (forall k, ~ In k (map fst cs) -> get_unit G k m' = get_unit G k m) /\ same_frame m m'.
Proof.
  induction cs as [|[k c] cs IH]; intros m m' Hn H; cbn [fit_classes] in H.
  - injection H as <-. repeat split; auto. intros k c [].
  - inversion Hn as [|? ? Hk Hn']; subst.
    destruct (solve G k _ m) as [m1 r] eqn:E. destruct r as [[]|e|]; try discriminate.
    destruct (solve_ok _ _ _ _ E) as (u & u' & G1 & F & M & G2).
    destruct (IH m1 m' Hn' H) as (I1 & I2 & I3). split; [|split].
    + intros k' c' [Eq|Hi].
      * injection Eq as <- <-. exists u, u'. repeat split; auto. rewrite I2 by auto. exact G2.
      * destruct (I1 k' c' Hi) as (v & v' & V1 & V2 & V3). exists v, v'. repeat split; auto. rewrite <- V1. rewrite M. symmetry. apply get_put_other.
        intros ->. apply Hk. now apply (in_map fst) in Hi.
    + intros k' Hk'. cbn in Hk'. rewrite I2 by tauto. rewrite M. apply get_put_other. intros ->. tauto.
    + eapply frame_trans; [|exact I3]. rewrite M. apply frame_put.
Qed.

(** ** Fresh weights *)
Lemma draw_row_length n : forall g r g', draw_row G draw n g = (r, g') -> length r = n.
Proof.
  induction n as [|n IH]; intros g r g' H; cbn in H; [injection H as <- _; reflexivity|].
  destruct (draw g) as [v g1]. destruct (draw_row G draw n g1) as [r' g2] eqn:E. injection H as <- _. cbn. f_equal. eauto.
Qed.
Lemma draw_rows_shape k n : forall g rs g', draw_rows G draw k n g = (rs, g') -> length rs = k /\ Forall (fun r => length r = n) rs.
Proof.
  induction k as [|k IH]; intros g rs g' H; cbn in H; [injection H as <- _; split; [reflexivity | constructor]|].
  destruct (draw_row G draw n g) as [v g1] eqn:E1. destruct (draw_rows G draw k n g1) as [r' g2] eqn:E2. injection H as <- _.
  destruct (IH _ _ _ E2) as [L F]. split; [cbn; f_equal; exact L|]. constructor; auto. eapply draw_row_length; eauto.
Qed.
Lemma draw_row_draws n : forall g r g', draw_row G draw n g = (r, g') -> forall k,
  successive draw (n + k) g = map (fun v => v) (successive draw n g) ++ successive draw k g' /\ r = map (fun v => nmul v (nlit 1 100)) (successive draw n g).
Proof.
  induction n as [|n IH]; intros g r g' H k; cbn in H; [injection H as <- <-; split; reflexivity|].
  cbn [successive Nat.add]. destruct (draw g) as [v g1]. destruct (draw_row G draw n g1) as [r' g2] eqn:E. injection H as <- <-.
  destruct (IH _ _ _ E k) as [E1 E2]. cbn [map app]. rewrite E1, E2. split; reflexivity.
Qed.
Lemma draw_rows_draws k n : forall g, concat (fst (draw_rows G draw k n g)) = map (fun v => nmul v (nlit 1 100)) (successive draw (k * n) g).
Proof.
  induction k as [|k IH]; intros g; [reflexivity|]. cbn [draw_rows Nat.mul]. destruct (draw_row G draw n g) as [r g1] eqn:E1.
  specialize (IH g1). destruct (draw_rows G draw k n g1) as [rs g2]. cbn [fst concat] in *.
  destruct (draw_row_draws n g r g1 E1 (k * n)) as [A B]. rewrite A, map_app, map_id, <- IH, <- B. reflexivity.
Qed.
Lemma initialize_units nf (m : model) k : (k < if Nat.eqb (l_nc G m) 2 then 1 else l_nc G m)%nat ->
  exists w, get_unit G k (initialize G draw nf m) = Some (w, n0, 0%nat) /\ length w = nf.
Proof.
  intros Hk. unfold initialize. set (K := if Nat.eqb (l_nc G m) 2 then 1%nat else l_nc G m) in *.
  destruct (draw_rows G draw K nf (l_gen G m)) as [c g] eqn:E. destruct (draw_rows_shape _ _ _ _ _ E) as [L F].
  unfold get_unit. cbn [l_coef l_b l_nit].
  destruct (nth_error c k) as [w|] eqn:Ew; [| apply nth_error_None in Ew; lia].
  assert (Hr : forall A (v : A), nth_error (repeat v K) k = Some v).
  { intros A v. rewrite (nth_error_nth' (repeat v K) v) by (rewrite repeat_length; lia). now rewrite nth_repeat. }
  rewrite !Hr. exists w. split; auto. rewrite Forall_forall in F. apply F. eapply nth_error_In; eauto.
Qed.

(** ** What a successful Fit from scratch does *)
Definition positive (cls : list Z) (k : nat) : option Z := if Nat.eqb (length cls) 2 then nth_error cls 1 else nth_error cls k.
Definition starts (h : hyper) (cls : list Z) (nf : nat) (u : unit_fit) : list N :=
  if Nat.eqb (length cls) 2 then start_binary h nf u else start_class h nf u.
Definition unit_solver (h : hyper) (cls : list Z) (X y : matrix N) (c : Z) (u : unit_fit) : res unit_fit :=
  if String.eqb (h_solver h) "lbfgs" then lr_minimize minimize h (mkdata toint c X y) (starts h cls (mcols X) u) u
  else gd_fit h (mkdata toint c X y) u.

Lemma fit_ok h (m m' : model) X y : h_warm h = false -> lr_fit toint order G draw minimize h m X y = (m', Ok tt) ->
  let cls := extract_classes order (labels_of toint y) in
  nrows X = nrows y /\ mcols y = 1%nat /\ l_fitted G m' = true /\ l_classes G m' = cls /\ l_nc G m' = length cls /\ l_nf G m' = mcols X /\
  length (l_b G m') = (if Nat.eqb (length cls) 2 then 1 else length cls)%nat /\
  forall k, (k < if Nat.eqb (length cls) 2 then 1 else length cls)%nat ->
    exists c w u', positive cls k = Some c /\ length w = mcols X /\ unit_solver h cls X y c (w, n0, 0%nat) = Ok u' /\ get_unit G k m' = Some u'.
Proof.
  intros Hw H cls. unfold lr_fit in H. destruct (Nat.eqb_spec (nrows X) (nrows y)) as [E1|]; cbn [negb] in H; [|discriminate].
  destruct (Nat.eqb_spec (mcols y) 1) as [E2|]; cbn [negb] in H; [|discriminate]. rewrite Hw in H. cbn [negb orb] in H. fold cls in H.
  set (m1 := mklm G (l_coef G m) (l_b G m) cls (length cls) (mcols X) (l_nit G m) (l_fitted G m) (l_gen G m)) in *.
  set (m2 := initialize G draw (mcols X) m1) in *.
  assert (F2 : l_classes G m2 = cls /\ l_nc G m2 = length cls /\ l_nf G m2 = mcols X /\ length (l_b G m2) = (if Nat.eqb (length cls) 2 then 1 else length cls)%nat).
  { unfold m2, initialize. destruct (draw_rows _ _ _ _ _). cbn. rewrite repeat_length. auto. }
  destruct F2 as (F2a & F2b & F2c & F2d). rewrite F2b in H.
  assert (I : forall k, (k < if Nat.eqb (length cls) 2 then 1 else length cls)%nat -> exists w, get_unit G k m2 = Some (w, n0, 0%nat) /\ length w = mcols X)
    by (intros k Hk; exact (initialize_units (mcols X) m1 k Hk)).
  unfold positive, unit_solver, starts. destruct (Nat.eqb (length cls) 2) eqn:E3.
  - unfold fit_binary in H. destruct (lr_validate h) as [[]|e|]; try discriminate. rewrite F2a in H.
    destruct (nth_error cls 1) as [c|] eqn:Ec; [|discriminate].
    destruct (solve G 0 _ m2) as [m3 r] eqn:E. destruct r as [[]|e|]; try discriminate. injection H as <-.
    pose proof (solve_frame 0%nat (fun u => if String.eqb (h_solver h) "lbfgs" then lr_minimize minimize h (mkdata toint c X y) (start_binary h (mcols X) u) u else gd_fit h (mkdata toint c X y) u) m2) as Fr.
    rewrite E in Fr. cbn [fst] in Fr. destruct Fr as (R1 & R2 & R3 & _ & _ & R4 & _).
    destruct (solve_ok _ _ _ _ E) as (u & u' & G1 & S & M & G2). cbn [l_fitted l_classes l_nc l_nf l_b].
    repeat split; auto; try congruence. intros k Hk. assert (k = 0%nat) by lia. subst k. destruct (I 0%nat Hk) as (w & G3 & Lw).
    rewrite G1 in G3. injection G3 as ->. exists c, w, u'. repeat split; auto.
  - unfold fit_multi in H. destruct (String.eqb (h_multi h) "multinomial" && String.eqb (h_solver h) "lbfgs"); [discriminate|].
    destruct (lr_validate h) as [[]|e|]; try discriminate. rewrite F2a in H.
    destruct (fit_classes _ _ _ _ _ _ _ _) as [m3 r] eqn:E. destruct r as [[]|e|]; try discriminate. injection H as <-.
    apply classes_ok in E.
    + destruct E as (C1 & C2 & (R1 & R2 & R3 & _ & _ & R4 & _)). cbn [l_fitted l_classes l_nc l_nf l_b]. repeat split; auto; try congruence.
      intros k Hk. destruct (nth_error cls k) as [c|] eqn:Ec; [| apply nth_error_None in Ec; lia].
      destruct (C1 k c) as (u & u' & U1 & U2 & U3).
      { assert (Hi : In (nth k (combine (seq 0 (length cls)) cls) (0%nat, c)) (combine (seq 0 (length cls)) cls)) by (apply nth_In; rewrite combine_length, seq_length; lia).
        rewrite combine_nth in Hi by apply seq_length. rewrite seq_nth in Hi by lia. rewrite (nth_error_nth _ _ c Ec) in Hi. exact Hi. }
      destruct (I k Hk) as (w & G3 & Lw). rewrite U1 in G3. injection G3 as ->. exists c, w, u'. repeat split; auto.
    + rewrite (map_fst_combine_seq cls). apply seq_NoDup.
Qed.
End Gen.

Local Open Scope R_scope.
Lemma grad_nth (h : @lhyper RNum) lambda (S : list sample) (w : list R) (b : R) : (h_icpt h = false -> b = 0) -> 0 <= lambda -> sound (length w) S ->
  let g := @lr_grad RNum h lambda (length w, S) (packed h w b) in
  (forall j, (j < length w)%nat -> nth j g 0 = dw lambda S w b j) /\ nth (length w) g 0 = if h_icpt h then db S w b else 0.
Proof.
  intros Hb Hl Hs g. assert (E : g = map (dw lambda S w b) (seq 0 (length w)) ++ (if h_icpt h then [db S w b] else [])) by exact (grad_R h lambda S w b Hb Hl Hs).
  rewrite E. split.
  - intros j Hj. rewrite app_nth1 by (rewrite map_length, seq_length; lia).
    rewrite nth_indep with (d' := dw lambda S w b 0) by (rewrite map_length, seq_length; lia). rewrite map_nth, seq_nth by lia. reflexivity.
  - rewrite app_nth2 by (rewrite map_length, seq_length; lia). rewrite map_length, seq_length, Nat.sub_diag. now destruct (h_icpt h).
Qed.

Lemma near_minimum (h : @lhyper RNum) lambda (S : list sample) (w : list R) (b : R) w' b' eps : (h_icpt h = false -> b = 0 /\ b' = 0) -> 0 <= lambda ->
  sound (length w) S -> length w' = length w ->
  (forall v, In v (@lr_grad RNum h lambda (length w, S) (packed h w b)) -> Rabs v <= eps) ->
  risk lambda S w b <= risk lambda S w' b' + eps * (Sum (length w) (fun j => Rabs (nth j w' 0 - nth j w 0)) + Rabs (b' - b)).
Proof.
  intros Hb Hl Hs Hw He. assert (Hb' : h_icpt h = false -> b = 0) by (intros E; now destruct (Hb E)).
  pose proof (risk_tangent lambda S w b w' b' Hs Hl Hw) as T.
  assert (E : @lr_grad RNum h lambda (length w, S) (packed h w b) = map (dw lambda S w b) (seq 0 (length w)) ++ (if h_icpt h then [db S w b] else []))
    by exact (grad_R h lambda S w b Hb' Hl Hs).
  assert (B : forall g d e : R, Rabs g <= e -> - (e * Rabs d) <= g * d).
  { intros g d e Hg. assert (Rabs (g * d) <= e * Rabs d) by (rewrite Rabs_mult; apply Rmult_le_compat_r; [apply Rabs_pos | exact Hg]).
    pose proof (Rle_abs (- (g * d))) as A. rewrite Rabs_Ropp in A. lra. }
  assert (B1 : - (eps * Sum (length w) (fun j => Rabs (nth j w' 0 - nth j w 0))) <= Sum (length w) (fun j => dw lambda S w b j * (nth j w' 0 - nth j w 0))).
  { rewrite <- Sum_scal. replace (- Sum (length w) (fun j => eps * Rabs (nth j w' 0 - nth j w 0))) with (Sum (length w) (fun j => -1 * (eps * Rabs (nth j w' 0 - nth j w 0)))) by (rewrite Sum_scal; ring).
    apply Sum_le. intros j Hj. pose proof (B (dw lambda S w b j) (nth j w' 0 - nth j w 0) eps) as Q.
    assert (Rabs (dw lambda S w b j) <= eps). { apply He. rewrite E. apply in_or_app. left. apply in_map_iff. exists j. split; auto. apply in_seq. lia. }
    specialize (Q H). lra. }
  assert (B2 : - (eps * Rabs (b' - b)) <= db S w b * (b' - b)).
  { destruct (h_icpt h) eqn:I.
    - apply B. apply He. rewrite E. apply in_or_app. right. now left.
    - destruct (Hb eq_refl) as [-> ->]. rewrite Rminus_0_r, Rabs_R0. lra. }
  lra.
Qed.

Lemma combine_map_r {A B C} (f : B -> C) (l : list A) m : combine l (map f m) = map (fun p => (fst p, f (snd p))) (combine l m).
Proof. revert m. induction l as [|a l IH]; intros [|b m]; cbn; f_equal; auto. Qed.
Lemma mkdata_R toint c (X y : matrix RNum) : @mkdata RNum toint c X y = (mcols X, against c (mrows X) (@labels_of RNum toint y)).
Proof. unfold mkdata, targets, against. f_equal. exact (combine_map_r (fun l => if (l =? c)%Z then 1 else 0) (mrows X) (@labels_of RNum toint y)). Qed.
Lemma against_sound c (X y : matrix RNum) toint : wf X -> mrows X <> [] -> nrows X = nrows y ->
  sound (mcols X) (against c (mrows X) (@labels_of RNum toint y)).
Proof.
  intros Hw Hn Hr. unfold against, labels_of, nrows in *. split.
  - destruct (mrows X), (mrows y); cbn in *; congruence.
  - rewrite Forall_forall. intros s Hs. apply in_map_iff in Hs as [[x l] [<- Hi]]. cbn [fst snd]. split.
    + apply in_combine_l in Hi. now apply Hw.
    + destruct (l =? c)%Z; auto.
Qed.
Lemma copyto_same {N : Num} (dst src : list N) : length src = length dst -> copyto dst src = src.
Proof. intros H. unfold copyto. rewrite <- H, firstn_all, H, skipn_all. apply app_nil_r. Qed.

Lemma minimize_unit {N : Num} minimize (h : @lhyper N) (d : data) x0 w0 w b n :
  (forall f g x0 tol it th j, minimize f g x0 tol it = Some (th, j) -> length th = length x0) ->
  length w0 = fst d -> length x0 = (fst d + if h_icpt h then 1 else 0)%nat ->
  lr_minimize minimize h d x0 (w0, n0, 0%nat) = Ok (w, b, n) ->
  exists lambda, lr_lambda h = Ok lambda /\ minimize (lr_func h lambda d) (lr_grad h lambda d) x0 (h_tol h) (h_maxit h) = Some (packed h w b, n)
    /\ length w = fst d /\ (h_icpt h = false -> b = n0).
Proof.
  intros Hm L0 Lx H. unfold lr_minimize in H. destruct (lr_lambda h) as [lambda|e|] eqn:El; cbn [bind] in H; try discriminate.
  destruct (minimize _ _ _ _ _) as [[th k]|] eqn:Em; [|discriminate]. exists lambda. split; auto.
  pose proof (Hm _ _ _ _ _ _ _ Em) as Lt. rewrite Lx in Lt. cbn [fst snd] in H.
  rewrite copyto_same in H by (unfold weights; rewrite firstn_length; destruct (h_icpt h); lia). injection H as <- <- <-.
  assert (Lw : length (weights (fst d) th) = fst d) by (unfold weights; rewrite firstn_length; destruct (h_icpt h); lia).
  split; [|split; auto].
  - rewrite Em. do 2 f_equal. unfold packed, weights. destruct (h_icpt h) eqn:I.
    + rewrite <- (firstn_skipn (fst d) th) at 1. f_equal. destruct (skipn (fst d) th) as [|a r] eqn:Es.
      * apply (f_equal (@length _)) in Es. rewrite skipn_length in Es. cbn in Es. lia.
      * destruct r as [|a' r']; [|apply (f_equal (@length _)) in Es; rewrite skipn_length in Es; cbn in Es; lia].
        rewrite <- (firstn_skipn (fst d) th), Es. rewrite app_nth2; rewrite firstn_length; [|lia]. replace (fst d - _)%nat with 0%nat by lia. reflexivity.
    + rewrite app_nil_r. symmetry. apply firstn_all2. lia.
  - intros I. now rewrite I.
Qed.

Lemma fit_minimum toint order (G : Type) draw minimize (h : @lhyper RNum) (m m' : lmodel G) (X y : matrix RNum) k c (w : list R) (b : R) n :
  (forall f g x0 tol it th j, minimize f g x0 tol it = Some (th, j) -> length th = length x0) ->
  h_warm h = false -> h_solver h = "lbfgs" -> (h_penalty h = "l2" -> 0 < h_C h) -> wf X -> mrows X <> [] ->
  lr_fit toint order G draw minimize h m X y = (m', Ok tt) ->
  positive (l_classes G m') k = Some c -> get_unit G k m' = Some (w, b, n) ->
  let lambda := if String.eqb (h_penalty h) "l2" then 1 / h_C h else 0 in
  let S := against c (mrows X) (labels_of toint y) in
  exists x0, minimize (lr_func h lambda (mcols X, S)) (lr_grad h lambda (mcols X, S)) x0 (h_tol h) (h_maxit h) = Some (packed h w b, n) /\
  length w = mcols X /\ (h_icpt h = false -> b = 0) /\
  forall eps w' b', (h_icpt h = false -> b' = 0) -> length w' = mcols X ->
    (forall v, In v (@lr_grad RNum h lambda (mcols X, S) (packed h w b)) -> Rabs v <= eps) ->
    risk lambda S w b <= risk lambda S w' b' + eps * (Sum (mcols X) (fun j => Rabs (nth j w' 0 - nth j w 0)) + Rabs (b' - b)).
Proof.
  intros Hm Hw Hs HC Hwf Hne Hf Hp Hg lambda S.
  destruct (fit_ok toint order G draw minimize h m m' X y Hw Hf) as (E1 & E2 & _ & E3 & _ & _ & Lb & U). rewrite E3 in Hp.
  set (cls := extract_classes order (labels_of toint y)) in *.
  assert (Hk : (k < if Nat.eqb (length cls) 2 then 1 else length cls)%nat).
  { rewrite <- Lb. unfold get_unit in Hg. destruct (l_coef G m') as [c0|]; [|discriminate]. destruct (nth_error c0 k); [|discriminate].
    destruct (nth_error (l_b G m') k) eqn:En; [|discriminate]. apply nth_error_Some. congruence. }
  destruct (U k Hk) as (c' & w0 & u' & P & L & Sv & Gu). rewrite P in Hp. injection Hp as ->. rewrite Gu in Hg. injection Hg as ->.
  unfold unit_solver in Sv. rewrite Hs in Sv. cbn [String.eqb] in Sv. change (String.eqb "lbfgs" "lbfgs") with true in Sv. cbv iota in Sv.
  rewrite (mkdata_R toint c X y) in Sv. fold S in Sv.
  assert (Lx : length (starts h cls (mcols X) (w0, @n0 RNum, 0%nat)) = (mcols X + if h_icpt h then 1 else 0)%nat).
  { unfold starts, start_binary, start_class. rewrite Hw. cbn [andb fst snd]. destruct (Nat.eqb (length cls) 2).
    - rewrite app_length, repeat_length. destruct (h_icpt h); reflexivity.
    - rewrite copyto_same by (rewrite repeat_length; auto). rewrite app_length, L. destruct (h_icpt h); reflexivity. }
  destruct (minimize_unit minimize h (mcols X, S) _ w0 w b n Hm L Lx Sv) as (lam & El & Em & Lw & Hb0).
  assert (lam = lambda /\ 0 <= lambda) as [-> Hl].
  { unfold lr_lambda in El. unfold lambda. destruct (String.eqb_spec (h_penalty h) "l2") as [Ep|Ep].
    - specialize (HC Ep). destruct (neqb (h_C h) n0) eqn:Ec; [discriminate|]. injection El as <-. split; [reflexivity|]. left. apply Rdiv_lt_0_compat; [lra | exact HC].
    - injection El as <-. split; [reflexivity | lra]. }
  eexists. split; [exact Em|]. split; [exact Lw|]. split; [exact Hb0|]. intros eps w' b' Hb' Lw' He.
  cbn [fst] in Lw. pose proof (near_minimum h lambda S w b w' b' eps) as Nm.
  change (@length (num RNum) w) with (@length R w) in Lw. rewrite Lw in Nm.
  refine (Nm _ Hl (against_sound c X y toint Hwf Hne E1) Lw' He). intros I. split; [exact (Hb0 I) | exact (Hb' I)].
Qed.

(** A model of one weight, without penalty and intercept *)
Definition h_plain : @lhyper RNum := @mklh RNum "none" 1 false 1 "none" (-1) "lbfgs" 100 "auto" false 0 1.
Lemma exp_large t : 99 < t -> 1000000000000000 < exp t.
Proof.
  intros H. assert (E : exp 1 * exp 1 > 2 * 2) by (pose proof (exp_ineq1 1 ltac:(lra)); nra).
  assert (P : forall n, 2 ^ n <= exp (INR n)).
  { induction n as [|n IH]; [cbn; rewrite exp_0; lra|]. rewrite S_INR, exp_plus. cbn [pow]. pose proof (exp_ineq1 1 ltac:(lra)). pose proof (exp_pos (INR n)). pose proof (pow_lt 2 n ltac:(lra)). nra. }
  specialize (P 60%nat). assert (INR 60 = 60) by (cbn; lra). rewrite H0 in P. pose proof (exp_increasing 60 t ltac:(lra)). 
  assert (1000000000000000 < 2 ^ 60) by (cbn; lra). lra.
Qed.
Lemma logistic_large t : 99 < t -> 1 - 1 / 1000000000000000 < logistic t.
Proof.
  intros H. pose proof (exp_large t H) as E. pose proof (logistic_one t) as L.
  assert (/ (1 + exp t) < / 1000000000000000) by (apply Rinv_lt_contravar; [pose proof (exp_pos t); nra | lra]). lra.
Qed.
Lemma func_plain (t : R) : @lr_func RNum h_plain 0 (1%nat, [([1], 0)]) [t] = - ln (1 - @clamp RNum (logistic t)).
Proof.
  unfold lr_func, zscore, weights, bias. cbn [fst snd h_icpt h_plain firstn combine fold_left length].
  pose proof (stable_R (0 + t * 1)) as S. cbn [n0 n1 nlog nlt nadd nmul ndiv nsub nneg nofnat RNum]. unR. rewrite (proj2 (Rltb_false 0 0)) by lra.
  rewrite S. rewrite nofnat_R. cbn [INR]. replace (0 + t * 1) with t by ring. match goal with |- ?a = ?b => change (@eq R a b) end. field.
Qed.
Lemma clamp_flat : let S := [([1], 0)] in
  sound 1 S /\ slope (fun t => @lr_func RNum h_plain 0 (1%nat, S) [t]) 100 0 /\
  exists g, @lr_grad RNum h_plain 0 (1%nat, S) [100] = [g] /\ 1 / 2 < g.
Proof.
  intros S. split; [|split].
  - split; [discriminate|]. constructor; [cbn; auto | constructor].
  - apply slope_local with (g := fun _ => - ln (1 - (1 - 1 / 1000000000000000))) (e := 1).
    + lra.
    + intros t Ht. unfold S. rewrite func_plain. unfold clamp, eps15. cbn [nlt nlit nsub n1 RNum].
      assert (99 < t) by (apply Rabs_def2 in Ht; lra). pose proof (logistic_large t H). rewrite (proj2 (Rltb_false _ _)) by lra. rewrite (proj2 (Rltb_true _ _)) by lra. reflexivity.
    + apply derivable_pt_lim_const.
  - exists (logistic 100). split.
    + unfold lr_grad, lr_diffs, zscore, weights, bias. cbn [fst snd h_icpt h_plain firstn combine fold_left length map seq app nth S].
      pose proof (stable_R (0 + 100 * 1)) as E. cbn [n0 n1 nlog nlt nadd nmul ndiv nsub nneg nofnat RNum]. unR. rewrite (proj2 (Rltb_false 0 0)) by lra.
      rewrite E, nofnat_R. cbn [INR]. f_equal. replace (0 + 100 * 1) with 100 by ring. match goal with |- ?a = ?b => change (@eq R a b) end. field.
    + pose proof (logistic_large 100 ltac:(lra)). lra.
Qed.
