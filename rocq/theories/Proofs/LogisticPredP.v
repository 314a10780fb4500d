(** Lemmas behind the prediction and training theorems of logistic regression. *)
From Coq Require Import String List Arith ZArith Bool Permutation Sorted Lia Reals Lra.
From Verif Require Import Base.Num Base.GoRes Base.Mat Base.ListX Base.RTac Model.NaiveBayes Model.Logistic Spec.Logistic
  Proofs.LinearP Proofs.NaiveBayesP Proofs.LogisticP Proofs.LogisticFitP.
Import ListNotations.
Local Open Scope string_scope.
Local Open Scope list_scope.

Section Gen.
Context {N : Num}.
Variable toint : N -> Z.
Variable order : list Z -> list Z.
Variable lowest : N.
Variable G : Type.
Variable draw : G -> N * G.
Variable minimize : (list N -> N) -> (list N -> list N) -> list N -> N -> Z -> option (list N * nat).
Notation model := (@lmodel N G).
Notation hyper := (@lhyper N).

Definition dotted (x w : list N) (b : N) : N := fold_left (fun z p => nadd z (nmul (fst p) (snd p))) (combine x w) b.

Lemma raw_ok nf : forall row w z, length w = nf -> nf <= length row -> raw_score (N := N) nf row w z = Ok (dotted row w z).
Proof.
  unfold dotted. induction nf as [|nf IH]; intros [|a row] [|c w] z Lw Lr; cbn in *; try lia; try reflexivity. apply IH; lia.
Qed.
Lemma raw_panic nf : forall row w z, length row < nf -> raw_score (N := N) nf row w z = Panic.
Proof.
  induction nf as [|nf IH]; intros [|a row] [|c w] z L; cbn in *; try lia; try reflexivity. apply IH; lia.
Qed.
Lemma raw_agree nf : forall row row' w z, agree nf row row' -> raw_score (N := N) nf row w z = raw_score nf row' w z.
Proof.
  induction nf as [|nf IH]; intros row row' w z [L E]; cbn; [reflexivity|].
  destruct row as [|a row], row' as [|a' row']; cbn in *; try lia; try discriminate. injection E as <- E. destruct w as [|c w]; [reflexivity|].
  apply IH. split; [lia | exact E].
Qed.

Lemma score_unit (m : model) units k w b row : trained m units -> nth_error units k = Some (w, b) -> l_nf G m <= length row ->
  class_score G m row k = Ok (dotted row w b).
Proof.
  intros (_ & _ & Hc & Hb & Hf & _) Hk Hr. unfold class_score. rewrite Hc, Hb, !nth_error_map, Hk. cbn [option_map fst snd].
  apply raw_ok; auto. rewrite Forall_forall in Hf. apply (Hf (w, b)). eapply nth_error_In; eauto.
Qed.
Lemma score_short (m : model) row k : length row < l_nf G m -> class_score G m row k = Panic.
Proof. intros H. unfold class_score. destruct (nth_error _ _); [|reflexivity]. destruct (match l_coef G m with None => None | Some c => nth_error c k end); [now apply raw_panic | reflexivity]. Qed.
Lemma score_agree (m : model) row row' k : agree (l_nf G m) row row' -> class_score G m row k = class_score G m row' k.
Proof. intros H. unfold class_score. destruct (nth_error _ _); [|reflexivity]. destruct (match l_coef G m with None => None | Some c => nth_error c k end); [now apply raw_agree | reflexivity]. Qed.

Definition predict_row (m : model) (row : list N) : res N :=
  if Nat.eqb (l_nc G m) 2
  then let* z := class_score G m row 0 in class_at G m (if nle (nlit 1 2) (sigmoid z) then 1%nat else 0%nat)
  else let* ss := mapM (class_score G m row) (seq 0 (l_nc G m)) in class_at G m (best_of 0 ss lowest 0%nat).
Definition proba_row (m : model) (row : list N) : res (list N) :=
  if Nat.eqb (l_nc G m) 2
  then let* z := class_score G m row 0 in Ok [nsub n1 (sigmoid z); sigmoid z]
  else rmap (softmax lowest) (mapM (class_score G m row) (seq 0 (l_nc G m))).
Lemma predict_rows (m : model) X : l_fitted G m = true -> mrows X <> [] -> lr_predict lowest G m X = mapM (predict_row m) (mrows X).
Proof.
  intros Hf Hn. unfold lr_predict. rewrite Hf. cbn [negb]. unfold newdense, nrows. destruct (mrows X) as [|r rs] eqn:E; [congruence|]. reflexivity.
Qed.
Lemma proba_rows (m : model) X : l_fitted G m = true -> mrows X <> [] -> l_nc G m <> 0 -> lr_proba lowest G m X = mapM (proba_row m) (mrows X).
Proof.
  intros Hf Hn Hc. unfold lr_proba. rewrite Hf. cbn [negb]. 
  assert (E : newdense (nrows X) (l_nc G m) = Ok tt).
  { unfold newdense, nrows. destruct (mrows X) as [|r rs]; [congruence|]. destruct (l_nc G m) as [|c]; [congruence|]. reflexivity. }
  rewrite E. reflexivity.
Qed.
Lemma mapM_ext {A B} (f g : A -> res B) l : (forall x, In x l -> f x = g x) -> mapM f l = mapM g l.
Proof. induction l as [|a l IH]; intros H; cbn; [reflexivity|]. rewrite (H a (or_introl eq_refl)). rewrite IH by (intros; apply H; now right). reflexivity. Qed.
Lemma mapM_panic_in {A B} (f : A -> res B) l x : In x l -> (forall y, In y l -> (forall e, f y <> Err e)) -> f x = Panic -> mapM f l = Panic.
Proof.
  induction l as [|a l IH]; intros Hi Hn Hp; [easy|]. cbn. destruct Hi as [->|Hi].
  - rewrite Hp. reflexivity.
  - destruct (f a) as [v|e|] eqn:E; [| exfalso; eapply Hn; [now left | exact E] | reflexivity]. cbn. rewrite IH; auto. intros y Hy. apply Hn. now right.
Qed.
Lemma predict_agree (m : model) row row' : agree (l_nf G m) row row' -> predict_row m row = predict_row m row' /\ proba_row m row = proba_row m row'.
Proof.
  intros H. unfold predict_row, proba_row. rewrite (score_agree m row row' 0 H).
  rewrite (mapM_ext (class_score G m row) (class_score G m row') (seq 0 (l_nc G m))) by (intros; now apply score_agree). auto.
Qed.
Lemma class_score_ne (m : model) row k e : class_score G m row k <> Err e.
Proof.
  unfold class_score. destruct (nth_error _ _) as [b|]; [|discriminate]. destruct (match l_coef G m with None => None | Some c => nth_error c k end) as [w|]; [|discriminate].
  generalize b. revert row w. induction (l_nf G m) as [|n IH]; intros row w z; cbn; [discriminate|]. destruct row, w; try discriminate. apply IH.
Qed.
Lemma mapM_ne {A B} (f : A -> res B) l e : (forall x, f x <> Err e) -> mapM f l <> Err e.
Proof.
  intros H. induction l as [|a l IH]; cbn; [discriminate|]. destruct (f a) as [v|e'|] eqn:E; cbn; [|intros K; injection K as ->; now apply (H a)|discriminate].
  destruct (mapM f l) as [vs|e'|] eqn:E'; cbn; [discriminate|intros K; injection K as ->; now apply IH|discriminate].
Qed.
Lemma predict_row_ne (m : model) row e : predict_row m row <> Err e.
Proof.
  unfold predict_row. assert (C : forall k, class_at G m k <> Err e) by (intros k; unfold class_at; destruct (nth_error _ _); discriminate).
  destruct (Nat.eqb (l_nc G m) 2).
  - destruct (class_score G m row 0) as [z|e'|] eqn:E; cbn; [apply C | exfalso; eapply class_score_ne; eauto | discriminate].
  - destruct (mapM _ _) as [z|e'|] eqn:E; cbn; [apply C | exfalso; eapply (mapM_ne (class_score G m row) _ e'); eauto; intros; apply class_score_ne | discriminate].
Qed.
Lemma predict_short (m : model) row : l_nc G m <> 0 -> length row < l_nf G m -> predict_row m row = Panic /\ proba_row m row = Panic.
Proof.
  intros Hc H. unfold predict_row, proba_row. rewrite (score_short m row 0 H). destruct (l_nc G m) as [|c]; [congruence|].
  cbn [seq mapM]. rewrite (score_short m row 0 H). destruct (Nat.eqb (S c) 2); split; reflexivity.
Qed.

Lemma scores_ok (m : model) units row : trained m units -> Nat.eqb (length (l_classes G m)) 2 = false -> l_nf G m <= length row ->
  mapM (class_score G m row) (seq 0 (l_nc G m)) = Ok (map (fun u => dotted row (fst u) (snd u)) units).
Proof.
  intros T Hc Hr. pose proof T as (_ & Hn & _ & _ & _ & Hl). rewrite Hc in Hl. rewrite Hn, <- Hl.
  rewrite (mapM_all_ok _ (fun k => match nth_error units k with Some u => dotted row (fst u) (snd u) | None => n0 end)).
  - f_equal. clear. induction units as [|u us IH]; cbn [length seq map nth_error]; [reflexivity|]. f_equal. rewrite <- seq_shift, map_map. exact IH.
  - intros k Hk. apply in_seq in Hk. destruct (nth_error units k) as [[w b]|] eqn:E; [| apply nth_error_None in E; lia]. cbn. eapply score_unit; eauto.
Qed.

(** *** After Fit *)
Lemma copyto_length (dst src : list N) : length (copyto dst src) = length dst.
Proof. unfold copyto. rewrite app_length, firstn_length, skipn_length. lia. Qed.
Lemma gd_step_length (h : hyper) d iter w b w' b' mm : length w = fst d -> gd_step h d iter w b = (w', b', mm) -> length w' = fst d.
Proof.
  unfold gd_step, gd_grad. cbn [fst snd]. intros L H. injection H as <- _ _. rewrite map_length, combine_length.
  destruct (String.eqb (h_penalty h) "l2"); rewrite ?map_length, ?combine_length, ?map_length, ?seq_length; lia.
Qed.
Lemma gd_loop_length (h : hyper) d left : forall iter u, length (fst (fst u)) = fst d -> length (fst (fst (gd_loop h d left iter u))) = fst d.
Proof.
  induction left as [|left IH]; intros iter [[w b] n] L; cbn [gd_loop]; [exact L|]. cbn [fst snd] in *.
  destruct (gd_step h d iter w b) as [[w' b'] mm] eqn:E. pose proof (gd_step_length _ _ _ _ _ _ _ _ L E) as L'.
  destruct (nlt mm (h_tol h)); [exact L'|]. apply IH. exact L'.
Qed.
Lemma unit_solver_length (h : hyper) cls (X : matrix N) y c u u' : length (fst (fst u)) = mcols X -> unit_solver toint minimize h cls X y c u = Ok u' -> length (fst (fst u')) = mcols X.
Proof.
  intros L. unfold unit_solver. destruct (String.eqb (h_solver h) "lbfgs").
  - unfold lr_minimize. destruct (lr_lambda h) as [lambda|e|]; cbn [bind]; try discriminate. destruct (minimize _ _ _ _ _) as [[th k]|]; [|discriminate].
    intros H. injection H as <-. cbn. rewrite copyto_length. exact L.
  - unfold gd_fit. destruct (h_maxit h <=? 0)%Z; [intros H; injection H as <-; exact L|]. destruct (Nat.eqb_spec (length (fst (fst u))) (fst (mkdata toint c X y))) as [E|]; [|discriminate].
    intros H. injection H as <-. rewrite gd_loop_length; [reflexivity | exact E].
Qed.

Lemma fit_coef_length h (m m' : model) X y : h_warm h = false -> lr_fit toint order G draw minimize h m X y = (m', Ok tt) ->
  exists c, l_coef G m' = Some c /\ length c = length (l_b G m').
Proof.
  intros Hw H. unfold lr_fit in H. destruct (negb _); [discriminate|]. destruct (negb _); [discriminate|]. rewrite Hw in H. cbn [negb orb] in H.
  set (cls := extract_classes order (labels_of toint y)) in *.
  set (m1 := mklm G (l_coef G m) (l_b G m) cls (length cls) (mcols X) (l_nit G m) (l_fitted G m) (l_gen G m)) in *.
  set (m2 := initialize G draw (mcols X) m1) in *.
  assert (F2 : exists c, l_coef G m2 = Some c /\ length c = length (l_b G m2)).
  { unfold m2, initialize. destruct (draw_rows G draw _ _ _) as [c g] eqn:E. destruct (draw_rows_shape G draw _ _ _ _ _ E) as [L _]. cbn. exists c. rewrite repeat_length. auto. }
  assert (Fr : forall m3 r, (if Nat.eqb (l_nc G m2) 2 then fit_binary toint G minimize h m2 X y else fit_multi toint G minimize h m2 X y) = (m3, r) -> same_frame G m2 m3).
  { intros m3 r E. destruct (Nat.eqb (l_nc G m2) 2).
    - unfold fit_binary in E. destruct (lr_validate h) as [[]|e|]; try (injection E as <- _; apply frame_refl).
      destruct (nth_error (l_classes G m2) 1) as [c|]; [|injection E as <- _; apply frame_refl].
      pose proof (solve_frame G 0%nat (fun u => if String.eqb (h_solver h) "lbfgs" then lr_minimize minimize h (mkdata toint c X y) (start_binary h (mcols X) u) u else gd_fit h (mkdata toint c X y) u) m2) as F. rewrite E in F. exact F.
    - unfold fit_multi in E. destruct (_ && _); [injection E as <- _; apply frame_refl|].
      destruct (lr_validate h) as [[]|e|]; try (injection E as <- _; apply frame_refl).
      clear -E. revert E. generalize (combine (seq 0 (length (l_classes G m2))) (l_classes G m2)) as cs. clear. intros cs. generalize m2. clear -h. induction cs as [|[k c] cs IH]; intros m2 E; cbn [fit_classes] in E.
      + injection E as <- _. apply frame_refl.
      + destruct (solve G k _ m2) as [m4 q] eqn:Es. pose proof (solve_frame G k (fun u => if String.eqb (h_solver h) "lbfgs" then lr_minimize minimize h (mkdata toint c X y) (start_class h (mcols X) u) u else gd_fit h (mkdata toint c X y) u) m2) as F. rewrite Es in F. cbn [fst] in F.
        destruct q as [[]|e|]; [| injection E as <- _; exact F | injection E as <- _; exact F]. eapply frame_trans; [exact F|]. now apply IH. }
  destruct (if Nat.eqb (l_nc G m2) 2 then _ else _) as [m3 r] eqn:E. specialize (Fr _ _ eq_refl). destruct r as [[]|e|]; try discriminate. injection H as <-.
  destruct Fr as (_ & _ & _ & _ & _ & R1 & _ & R2). destruct F2 as (c & Ec & Lc). cbn [l_coef l_b]. rewrite Ec in R2. destruct (l_coef G m3) as [c'|]; [|discriminate].
  injection R2 as R2. exists c'. split; congruence.
Qed.
Lemma fit_trained h (m m' : model) X y : h_warm h = false -> lr_fit toint order G draw minimize h m X y = (m', Ok tt) ->
  exists units, trained m' units /\ l_classes G m' = extract_classes order (labels_of toint y) /\ l_nf G m' = mcols X.
Proof.
  intros Hw H. destruct (fit_coef_length h m m' X y Hw H) as (c & Ec & Lc).
  destruct (fit_ok toint order G draw minimize h m m' X y Hw H) as (_ & _ & F & C & Nc & Nf & Lb & U).
  exists (combine c (l_b G m')). split; [|auto]. unfold trained. rewrite C. 
  assert (M1 : map fst (combine c (l_b G m')) = c) by (clear -Lc; revert Lc; generalize (l_b G m') as l; induction c as [|a c IH]; intros [|b l] L; cbn in *; try discriminate; f_equal; auto).
  assert (M2 : map snd (combine c (l_b G m')) = l_b G m') by (clear -Lc; revert Lc; generalize (l_b G m') as l; induction c as [|a c IH]; intros [|b l] L; cbn in *; try discriminate; f_equal; auto).
  rewrite M1, M2. repeat split; auto; [|rewrite combine_length, Lc, Nat.min_id; exact Lb].
  apply Forall_forall. intros [w b] Hi. cbn [fst]. apply In_nth_error in Hi as [k Hk].
  assert (Hk' : k < length (l_b G m')). { assert (k < length (combine c (l_b G m'))) by (apply nth_error_Some; congruence). rewrite combine_length in H0. lia. }
  rewrite Lb in Hk'. destruct (U k Hk') as (cc & w0 & u' & P & L & Sv & Gu).
  apply unit_solver_length in Sv; [|exact L]. rewrite Nf. unfold get_unit in Gu. rewrite Ec in Gu.
  assert (nth_error c k = Some w) by (rewrite <- M1, nth_error_map, Hk; reflexivity).
  rewrite H0 in Gu. destruct (nth_error (l_b G m') k), (nth_error (l_nit G m') k); try discriminate. injection Gu as <-. exact Sv.
Qed.
End Gen.

(** *** Exact arithmetic *)
Section Real.
Local Open Scope R_scope.
Variable lowest : R.
Variable G : Type.
Notation model := (@lmodel RNum G).

Lemma dotted_R (x w : list R) (b : R) : @dotted RNum x w b = score w b x.
Proof.
  unfold dotted, score. transitivity (b + Rsum (map (fun p : R * R => fst p * snd p) (combine x w))); [exact (fold_left_sum (fun p : R * R => fst p * snd p) (combine x w) b)|].
  f_equal. unfold Sum. revert x. induction w as [|c w IH]; intros x; [destruct x; reflexivity|].
  cbn [length seq map Rsum]. rewrite <- seq_shift, map_map. destruct x as [|a x]; cbn [combine map Rsum fst snd nth].
  - rewrite (Rsum_zero (fun j => nth j w 0 * 0)) by (intros; ring). ring.
  - rewrite IH. ring.
Qed.
Lemma half_logistic z : 1 / 2 <= logistic z <-> 0 <= z.
Proof.
  unfold logistic. pose proof (exp_pos z) as P. assert (E : exp z / (1 + exp z) - 1 / 2 = (exp z - 1) / (2 * (1 + exp z))) by (field; lra).
  assert (Q : 0 < / (2 * (1 + exp z))) by (apply Rinv_0_lt_compat; lra). split; intros H.
  - destruct (Rle_lt_dec 0 z) as [|L]; [assumption|]. apply exp_increasing in L. rewrite exp_0 in L.
    assert ((exp z - 1) / (2 * (1 + exp z)) < 0) by (unfold Rdiv; nra). lra.
  - assert (1 <= exp z) by (rewrite <- exp_0; destruct H as [H|H]; [left; now apply exp_increasing | right; now rewrite H]).
    assert (0 <= (exp z - 1) / (2 * (1 + exp z))) by (unfold Rdiv; nra). lra.
Qed.
Lemma best_gen (ss : list R) : forall k mx best, let r := @best_of RNum k ss mx best in
  (r = best /\ (forall j, (j < length ss)%nat -> nth j ss 0 <= mx)) \/
  (exists i, r = (k + i)%nat /\ (i < length ss)%nat /\ mx < nth i ss 0 /\ (forall j, (j < length ss)%nat -> nth j ss 0 <= nth i ss 0) /\ (forall j, (j < i)%nat -> nth j ss 0 < nth i ss 0)).
Proof.
  induction ss as [|s ss IH]; intros k mx best; cbn [best_of].
  - left. split; [reflexivity|]. cbn. lia.
  - cbn [nlt RNum]. destruct (Rltb mx s) eqn:E.
    + apply Rltb_true in E. right. destruct (IH (S k) s k) as [[R Hm]|(i & R & Hi & Gt & Hm & Hp)].
      * exists 0%nat. cbn [nth length]. rewrite R. repeat split; [lia | lia | exact E | | lia]. intros [|j] Hj; [lra|]. apply Hm. cbn in Hj. lia.
      * exists (S i). cbn [nth length]. rewrite R. repeat split; [lia | lia | lra | |].
        -- intros [|j] Hj; [lra|]. apply Hm. cbn in Hj. lia.
        -- intros [|j] Hj; [lra|]. apply Hp. lia.
    + apply Rltb_false in E. destruct (IH (S k) mx best) as [[R Hm]|(i & R & Hi & Gt & Hm & Hp)].
      * left. split; [exact R|]. intros [|j] Hj; cbn in *; [lra|]. apply Hm. lia.
      * right. exists (S i). cbn [nth length]. rewrite R. repeat split; [lia | lia | lra | |].
        -- intros [|j] Hj; [lra|]. apply Hm. cbn in Hj. lia.
        -- intros [|j] Hj; [lra|]. apply Hp. lia.
Qed.
Lemma best_first (ss : list R) : ss <> [] -> Forall (Rlt lowest) ss -> first_largest ss (@best_of RNum 0 ss lowest 0).
Proof.
  intros Hn Hl. destruct (best_gen ss 0 lowest 0) as [[R Hm]|(i & R & Hi & Gt & Hm & Hp)].
  - exfalso. destruct ss as [|s ss]; [congruence|]. inversion Hl; subst. specialize (Hm 0%nat ltac:(cbn; lia)). cbn in Hm. lra.
  - unfold first_largest. rewrite R. cbn [plus]. auto.
Qed.
Lemma softmax_R (ss : list R) : @softmax RNum lowest ss = map (fun s => exp s / Rsum (map exp ss)) ss.
Proof.
  unfold softmax. set (mx := fold_left (fun m s : R => if Rltb m s then s else m) ss lowest).
  change (fold_left (fun m s : RNum => if nlt m s then s else m) ss lowest) with mx. cbn [nexp nsub ndiv RNum].
  assert (Sm : @fold_left RNum RNum nadd (map (fun s => exp (s - mx)) ss) 0 = exp (- mx) * Rsum (map exp ss)).
  { transitivity (Rsum (map (fun s => exp (s - mx)) ss)).
    - transitivity (0 + Rsum (map (fun s => exp (s - mx)) ss)); [exact (fold_left_Rplus (map (fun s => exp (s - mx)) ss) 0) | exact (Rplus_0_l _)].
    - transitivity (Rsum (map (fun s => exp (- mx) * exp s) ss)); [|exact (Rsum_map_scal (exp (- mx)) exp ss)].
      apply (Rsum_map_ext (A := R)). intros s _. unfold Rminus. rewrite exp_plus. apply Rmult_comm. }
  rewrite map_map. apply map_ext_in. intros s Hi. 
  assert (P : 0 < Rsum (map exp ss)).
  { clear -Hi. assert (0 <= Rsum (map exp ss)) by (clear; induction ss as [|a ss IH]; cbn; [lra | pose proof (exp_pos a); lra]).
    induction ss as [|a ss IH]; [easy|]. cbn. cbn in H. pose proof (exp_pos a). assert (0 <= Rsum (map exp ss)) by (clear; induction ss as [|b ss IH]; cbn; [lra | pose proof (exp_pos b); lra]). lra. }
  transitivity (exp (s - mx) / (exp (- mx) * Rsum (map exp ss))); [exact (f_equal (fun q => exp (s - mx) / q) Sm)|].
  unfold Rminus. rewrite exp_plus. pose proof (exp_pos (- mx)). field. lra.
Qed.

Definition scores (units : list (list R * R)) (x : list R) : list R := map (fun u => score (fst u) (snd u) x) units.

Lemma predict_row_binary (m : model) w b c0 c1 x : trained m [(w, b)] -> l_classes G m = [c0; c1] -> (l_nf G m <= length x)%nat ->
  @predict_row RNum lowest G m x = Ok (IZR (if Rleb 0 (score w b x) then c1 else c0))
  /\ @proba_row RNum lowest G m x = Ok [1 - logistic (score w b x); logistic (score w b x)].
Proof.
  intros T C Hr. pose proof T as (_ & Hn & _). unfold predict_row, proba_row. rewrite Hn, C. cbn [length Nat.eqb].
  pose proof (@score_unit RNum G m [(w, b)] 0 w b x T eq_refl Hr) as S. rewrite S. cbn [bind].
  pose proof (dotted_R x w b) as D. unR. rewrite D. pose proof (sigmoid_R (score w b x)) as Sg. unR. rewrite Sg. split; [|reflexivity].
  unfold class_at. rewrite C. change (@nle RNum (@nlit RNum 1 2) (logistic (score w b x))) with (Rleb (@nlit RNum 1 2) (logistic (score w b x))).
  pose proof (half_logistic (score w b x)) as Hh. change (@nlit RNum 1 2) with (IZR 1 / IZR 2).
  destruct (Rleb (1 / 2) (logistic (score w b x))) eqn:E1, (Rleb 0 (score w b x)) eqn:E2; cbn [nth_error].
  - f_equal. exact (nofZ_R c1).
  - apply Rleb_true in E1. apply Hh in E1. apply Rleb_false in E2. lra.
  - apply Rleb_true in E2. apply Hh in E2. apply Rleb_false in E1. lra.
  - f_equal. exact (nofZ_R c0).
Qed.
Lemma predict_row_multi (m : model) units x : trained m units -> length (l_classes G m) <> 2%nat -> l_classes G m <> [] -> (l_nf G m <= length x)%nat ->
  Forall (Rlt lowest) (scores units x) ->
  exists k c, first_largest (scores units x) k /\ nth_error (l_classes G m) k = Some c /\ @predict_row RNum lowest G m x = Ok (IZR c).
Proof.
  intros T C C0 Hr Hl. pose proof T as (_ & Hn & _ & _ & _ & Lu). apply Nat.eqb_neq in C. rewrite C in Lu.
  pose proof (@scores_ok RNum G m units x T C Hr) as S.
  assert (E : map (fun u => @dotted RNum x (fst u) (snd u)) units = scores units x) by (unfold scores; apply (map_ext (A := list R * R)); intros u; exact (dotted_R x (fst u) (snd u))).
  assert (Ne : scores units x <> []). { unfold scores. destruct units; [destruct (l_classes G m); [congruence | discriminate] | discriminate]. }
  pose proof (best_first (scores units x) Ne Hl) as F. set (k := @best_of RNum 0 (scores units x) lowest 0) in *.
  assert (Hk : (k < length (l_classes G m))%nat). { destruct F as [F _]. unfold scores in F. rewrite map_length in F. exact (eq_ind _ (fun n => (k < n)%nat) F _ Lu). }
  destruct (nth_error (l_classes G m) k) as [c|] eqn:Ec; [| apply nth_error_None in Ec; lia].
  exists k, c. repeat split; try apply F; auto. unfold predict_row. rewrite Hn, C. unfold trained in *. rewrite Hn in S. unR. rewrite S. cbn [bind].
  unfold scores in *. rewrite E. unfold class_at. fold k. rewrite Ec. f_equal. exact (nofZ_R c).
Qed.
Lemma proba_row_multi (m : model) units x : trained m units -> length (l_classes G m) <> 2%nat -> (l_nf G m <= length x)%nat ->
  @proba_row RNum lowest G m x = Ok (map (fun s => exp s / Rsum (map exp (scores units x))) (scores units x)).
Proof.
  intros T C Hr. pose proof T as (_ & Hn & _ & _ & _ & Lu). apply Nat.eqb_neq in C. rewrite C in Lu.
  pose proof (@scores_ok RNum G m units x T C Hr) as S.
  assert (E : map (fun u => @dotted RNum x (fst u) (snd u)) units = scores units x) by (unfold scores; apply (map_ext (A := list R * R)); intros u; exact (dotted_R x (fst u) (snd u))).
  unfold proba_row. rewrite Hn, C. rewrite Hn in S. unR. rewrite S. unfold rmap. cbn [bind]. f_equal. rewrite <- softmax_R. f_equal. exact E.
Qed.
End Real.
