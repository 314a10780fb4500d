(** Lemmas behind the training theorems of logistic regression. *)
From Coq Require Import String List Arith ZArith Bool Permutation Sorted Lia Reals Lra.
From Verif Require Import Base.Num Base.GoRes Base.Mat Base.ListX Base.RTac Model.NaiveBayes Model.Logistic Spec.Logistic Spec.LgbObjective
  Proofs.LinearP Proofs.NaiveBayesP Proofs.LgbObjectiveP Proofs.LogisticP Proofs.LogisticFitP Proofs.LogisticPredP.
Import ListNotations.
Local Open Scope string_scope.
Local Open Scope list_scope.

(** Increasing lists with the same members are equal. *)
Lemma sorted_same : forall a b : list Z, StronglySorted Z.lt a -> StronglySorted Z.lt b -> (forall c, In c a <-> In c b) -> a = b.
Proof.
  induction a as [|x a IH]; intros b Sa Sb M.
  - destruct b as [|y b]; [reflexivity|]. destruct (proj2 (M y) (or_introl eq_refl)).
  - destruct b as [|y b]; [destruct (proj1 (M x) (or_introl eq_refl))|].
    apply StronglySorted_inv in Sa as [Sa Fa]. apply StronglySorted_inv in Sb as [Sb Fb]. rewrite Forall_forall in Fa, Fb.
    assert (x = y). { destruct (proj1 (M x) (or_introl eq_refl)) as [|H1]; [auto|]. destruct (proj2 (M y) (or_introl eq_refl)) as [|H2]; [auto|]. specialize (Fa _ H2). specialize (Fb _ H1). lia. }
    subst y. f_equal. apply IH; auto. intros c. split; intros H.
    + destruct (proj1 (M c) (or_intror H)) as [<-|]; [|assumption]. specialize (Fa _ H). lia.
    + destruct (proj2 (M c) (or_intror H)) as [<-|]; [|assumption]. specialize (Fb _ H). lia.
Qed.

Section Gen.
Context {N : Num}.
Variable toint : N -> Z.
Variable order : list Z -> list Z.
Variable lowest : N.
Variable G : Type.
Variable draw : G -> N * G.
Variable minimize : (list N -> N) -> (list N -> list N) -> list N -> N -> Z -> option (list N * nat).
Notation model := (@lmodel N G).
Notation hyper := (@lhyper N).

(** *** Settings that play no part *)
Lemma gd_loop_penalty (h h' : hyper) d : String.eqb (h_penalty h') "l2" = String.eqb (h_penalty h) "l2" -> h_C h' = h_C h -> h_icpt h' = h_icpt h -> h_tol h' = h_tol h ->
  forall left iter u, gd_loop h' d left iter u = gd_loop h d left iter u.
Proof.
  intros P C I T. assert (S : forall iter w b, gd_step h' d iter w b = gd_step h d iter w b) by (intros; unfold gd_step, gd_grad; now rewrite P, C, I).
  induction left as [|left IH]; intros iter u; cbn [gd_loop]; [reflexivity|]. rewrite S, T. destruct (gd_step _ _ _ _ _) as [[w b] mm]. now rewrite IH.
Qed.
Definition rename (h : hyper) (penalty solver multi : string) : hyper :=
  mklh penalty (h_C h) (h_icpt h) (h_iscale h) (h_cweight h) (h_rstate h) solver (h_maxit h) multi (h_warm h) (h_l1 h) (h_tol h).
Lemma fit_ext (h h' : hyper) m X y : h_warm h' = h_warm h -> lr_validate h' = lr_validate h ->
  (String.eqb (h_multi h') "multinomial" && String.eqb (h_solver h') "lbfgs" = String.eqb (h_multi h) "multinomial" && String.eqb (h_solver h) "lbfgs")%bool ->
  (forall c u, (if String.eqb (h_solver h') "lbfgs" then lr_minimize minimize h' (mkdata toint c X y) (start_binary h' (mcols X) u) u else gd_fit h' (mkdata toint c X y) u)
     = if String.eqb (h_solver h) "lbfgs" then lr_minimize minimize h (mkdata toint c X y) (start_binary h (mcols X) u) u else gd_fit h (mkdata toint c X y) u) ->
  (forall c u, (if String.eqb (h_solver h') "lbfgs" then lr_minimize minimize h' (mkdata toint c X y) (start_class h' (mcols X) u) u else gd_fit h' (mkdata toint c X y) u)
     = if String.eqb (h_solver h) "lbfgs" then lr_minimize minimize h (mkdata toint c X y) (start_class h (mcols X) u) u else gd_fit h (mkdata toint c X y) u) ->
  lr_fit toint order G draw minimize h' m X y = lr_fit toint order G draw minimize h m X y.
Proof.
  intros Hw Hv Hm Hb Hc.
  assert (Sv : forall k f g (q : model), (forall u, f u = g u) -> solve G k f q = solve G k g q).
  { intros k f g q E. unfold solve. destruct (get_unit G k q); [now rewrite E | reflexivity]. }
  unfold lr_fit. rewrite Hw. destruct (negb _); [reflexivity|]. destruct (negb _); [reflexivity|].
  set (m2 := if negb (h_warm h) || _ then _ else _).
  assert (B : fit_binary toint G minimize h' m2 X y = fit_binary toint G minimize h m2 X y).
  { unfold fit_binary. rewrite Hv. destruct (lr_validate h); try reflexivity. destruct (nth_error (l_classes G m2) 1); [|reflexivity]. apply Sv. intros u. apply Hb. }
  assert (M : fit_multi toint G minimize h' m2 X y = fit_multi toint G minimize h m2 X y).
  { unfold fit_multi. rewrite Hm, Hv. destruct (String.eqb (h_multi h) "multinomial" && String.eqb (h_solver h) "lbfgs")%bool; [reflexivity|].
    destruct (lr_validate h); try reflexivity.
    generalize (combine (seq 0 (length (l_classes G m2))) (l_classes G m2)) as cs. generalize m2 as q. intros q cs. revert q.
    induction cs as [|[k c] cs IH]; intros q; cbn [fit_classes]; [reflexivity|].
    rewrite (Sv k _ (fun u => if String.eqb (h_solver h) "lbfgs" then lr_minimize minimize h (mkdata toint c X y) (start_class h (mcols X) u) u else gd_fit h (mkdata toint c X y) u) q)
      by (intros u; apply Hc).
    destruct (solve G k _ q) as [q' [[]|e|]]; try reflexivity. apply IH. }
  rewrite B, M. reflexivity.
Qed.
Lemma ignored (h : hyper) s cw rs l1 m X y :
  lr_fit toint order G draw minimize (mklh (h_penalty h) (h_C h) (h_icpt h) s cw rs (h_solver h) (h_maxit h) (h_multi h) (h_warm h) l1 (h_tol h)) m X y
  = lr_fit toint order G draw minimize h m X y.
Proof.
  set (h' := mklh (h_penalty h) _ _ _ _ _ _ _ _ _ _ _).
  assert (F : forall d u, gd_fit h' d u = gd_fit h d u).
  { intros d u. unfold gd_fit. cbn [h_maxit h']. now rewrite (gd_loop_penalty h h' d eq_refl eq_refl eq_refl eq_refl). }
  apply fit_ext; try reflexivity; intros c u; rewrite F; destruct h; reflexivity.
Qed.
Lemma renamed (h : hyper) penalty solver multi m X y : h_solver h <> "lbfgs" -> solver <> "lbfgs" -> (penalty = "l2" <-> h_penalty h = "l2") ->
  lr_fit toint order G draw minimize (rename h penalty solver multi) m X y = lr_fit toint order G draw minimize h m X y.
Proof.
  intros Hs Hs' Hp. apply String.eqb_neq in Hs, Hs'. set (h' := rename h penalty solver multi).
  assert (P : String.eqb (h_penalty h') "l2" = String.eqb (h_penalty h) "l2").
  { cbn. destruct (String.eqb_spec penalty "l2") as [E|E], (String.eqb_spec (h_penalty h) "l2") as [E'|E']; tauto. }
  assert (F : forall d u, gd_fit h' d u = gd_fit h d u).
  { intros d u. unfold gd_fit. cbn [h_maxit h' rename]. now rewrite (gd_loop_penalty h h' d P eq_refl eq_refl eq_refl). }
  assert (So : String.eqb (h_solver h') "lbfgs" = false) by exact Hs'.
  apply fit_ext; try reflexivity.
  - unfold lr_validate. now rewrite Hs, So.
  - now rewrite Hs, So, !andb_false_r.
  - intros c u. now rewrite Hs, So, F.
  - intros c u. now rewrite Hs, So, F.
Qed.

(** *** Gradient descent *)
Lemma descent_S (h : hyper) d u i : descent h d u (S i) = fst (gd_step h d i (fst (descent h d u i)) (snd (descent h d u i))).
Proof. unfold descent. rewrite seq_S, fold_left_app. reflexivity. Qed.
Lemma loop_run (h : hyper) d u0 left : forall iter n0', (0 < left)%nat ->
  exists n, gd_loop h d left iter (descent h d u0 iter, n0') = (descent h d u0 (iter + n), (iter + n)%nat) /\ (1 <= n <= left)%nat /\
    (forall i, (i + 1 < n)%nat -> nlt (largest h d u0 (iter + i)) (h_tol h) = false) /\
    (n < left -> nlt (largest h d u0 (iter + (n - 1))) (h_tol h) = true)%nat.
Proof.
  induction left as [|left IH]; intros iter n0' Hl; [lia|]. cbn [gd_loop fst snd].
  destruct (gd_step h d iter (fst (descent h d u0 iter)) (snd (descent h d u0 iter))) as [[w b] mm] eqn:E.
  assert (D : descent h d u0 (S iter) = (w, b)) by (rewrite descent_S, E; reflexivity).
  assert (M : largest h d u0 iter = mm) by (unfold largest; rewrite E; reflexivity).
  destruct (nlt mm (h_tol h)) eqn:T.
  - exists 1%nat. rewrite Nat.add_1_r, D. repeat split; try lia. intros _. rewrite Nat.add_0_r, M. exact T.
  - destruct left as [|left].
    + exists 1%nat. cbn [gd_loop]. rewrite Nat.add_1_r, D. repeat split; try lia.
    + rewrite <- D. destruct (IH (S iter) (S iter) ltac:(lia)) as (n & R & B & L & T'). exists (S n). replace (iter + S n)%nat with (S iter + n)%nat by lia.
      repeat split; try lia; try exact R.
      * intros [|i] Hi; [rewrite Nat.add_0_r, M; exact T|]. replace (iter + S i)%nat with (S iter + i)%nat by lia. apply L. lia.
      * intros Hn. replace (iter + (S n - 1))%nat with (S iter + (n - 1))%nat by lia. apply T'. lia.
Qed.
Lemma gd_fit_run (h : hyper) d (w0 : list N) b0 w b n : (0 < h_maxit h)%Z -> gd_fit h d (w0, b0, 0%nat) = Ok (w, b, n) ->
  (w, b) = descent h d (w0, b0) n /\ (1 <= n)%nat /\ (Z.of_nat n <= h_maxit h)%Z /\
  (forall i, (i + 1 < n)%nat -> nlt (largest h d (w0, b0) i) (h_tol h) = false) /\
  ((Z.of_nat n < h_maxit h)%Z -> nlt (largest h d (w0, b0) (n - 1)) (h_tol h) = true).
Proof.
  intros Hm. unfold gd_fit. destruct (Z.leb_spec (h_maxit h) 0) as [|_]; [lia|]. destruct (Nat.eqb _ _); [|discriminate]. intros H. injection H as H.
  destruct (loop_run h d (w0, b0) (Z.to_nat (h_maxit h)) 0 0%nat ltac:(lia)) as (k & R & B & L & T).
  assert (E : ((w, b), n) = (descent h d (w0, b0) k, k)) by (rewrite <- H; exact R). injection E as E1 E2. subst k. repeat split; try lia; auto. intros Hn. apply T. lia.
Qed.

(** *** The whole of Fit *)
Definition fresh (X y : matrix N) (m : model) : model :=
  let cls := extract_classes order (labels_of toint y) in
  initialize G draw (mcols X) (mklm G (l_coef G m) (l_b G m) cls (length cls) (mcols X) (l_nit G m) (l_fitted G m) (l_gen G m)).
Lemma fresh_frame X y m : l_classes G (fresh X y m) = extract_classes order (labels_of toint y) /\ l_nc G (fresh X y m) = length (extract_classes order (labels_of toint y)) /\
  l_nf G (fresh X y m) = mcols X /\ l_fitted G (fresh X y m) = l_fitted G m.
Proof. unfold fresh, initialize. destruct (draw_rows _ _ _ _ _). cbn. auto. Qed.
Lemma fit_fresh (h : hyper) m X y : h_warm h = false -> nrows X = nrows y -> mcols y = 1%nat ->
  lr_fit toint order G draw minimize h m X y =
  match (if Nat.eqb (length (extract_classes order (labels_of toint y))) 2 then fit_binary toint G minimize h (fresh X y m) X y else fit_multi toint G minimize h (fresh X y m) X y) with
  | (m3, Ok _) => (mklm G (l_coef G m3) (l_b G m3) (l_classes G m3) (l_nc G m3) (l_nf G m3) (l_nit G m3) true (l_gen G m3), Ok tt)
  | r => r
  end.
Proof.
  intros Hw E1 E2. unfold lr_fit. rewrite E1, E2, Hw, !Nat.eqb_refl. cbn [negb orb]. fold (fresh X y m).
  destruct (fresh_frame X y m) as (_ & -> & _). reflexivity.
Qed.
Lemma classes_frame (h : hyper) X y cs : forall m m' r, fit_classes toint G minimize h X y cs m = (m', r) -> same_frame G m m'.
Proof.
  induction cs as [|[k c] cs IH]; intros m m' r E; cbn [fit_classes] in E.
  - injection E as <- _. apply frame_refl.
  - destruct (solve G k _ m) as [m4 q] eqn:Es. pose proof (solve_frame G k (fun u => if String.eqb (h_solver h) "lbfgs" then lr_minimize minimize h (mkdata toint c X y) (start_class h (mcols X) u) u else gd_fit h (mkdata toint c X y) u) m) as F. rewrite Es in F. cbn [fst] in F.
    destruct q as [[]|e|]; [| injection E as <- _; exact F | injection E as <- _; exact F]. eapply frame_trans; [exact F|]. eapply IH; eauto.
Qed.
Lemma binary_frame (h : hyper) m X y m' r : fit_binary toint G minimize h m X y = (m', r) -> same_frame G m m'.
Proof.
  intros E. unfold fit_binary in E. destruct (lr_validate h) as [[]|e|]; try (injection E as <- _; apply frame_refl).
  destruct (nth_error (l_classes G m) 1) as [c|]; [|injection E as <- _; apply frame_refl].
  pose proof (solve_frame G 0%nat (fun u => if String.eqb (h_solver h) "lbfgs" then lr_minimize minimize h (mkdata toint c X y) (start_binary h (mcols X) u) u else gd_fit h (mkdata toint c X y) u) m) as F. rewrite E in F. exact F.
Qed.
Lemma multi_frame (h : hyper) m X y m' r : fit_multi toint G minimize h m X y = (m', r) -> same_frame G m m'.
Proof.
  intros E. unfold fit_multi in E. destruct (_ && _); [injection E as <- _; apply frame_refl|].
  destruct (lr_validate h) as [[]|e|]; try (injection E as <- _; apply frame_refl). eapply classes_frame; eauto.
Qed.
(** A failed Fit leaves the model alone or keeps only its fitted flag. *)
Lemma failed (h : hyper) m X y m' e : h_warm h = false -> lr_fit toint order G draw minimize h m X y = (m', Err e) ->
  (m' = m /\ (nrows X <> nrows y /\ e = EDimension (nrows X) (nrows y) \/ nrows X = nrows y /\ mcols y <> 1%nat /\ e = e_column)) \/
  (nrows X = nrows y /\ mcols y = 1%nat /\ same_frame G (fresh X y m) m').
Proof.
  intros Hw H. destruct (Nat.eq_dec (nrows X) (nrows y)) as [E1|E1].
  - destruct (Nat.eq_dec (mcols y) 1) as [E2|E2].
    + right. rewrite (fit_fresh h m X y Hw E1 E2) in H. split; [exact E1 | split; [exact E2|]].
      destruct (Nat.eqb (length (extract_classes order (labels_of toint y))) 2); [destruct (fit_binary _ _ _ _ _ _ _) as [m3 r] eqn:E; apply binary_frame in E | destruct (fit_multi _ _ _ _ _ _ _) as [m3 r] eqn:E; apply multi_frame in E];
        destruct r; try discriminate; injection H as <- _; exact E.
    + left. unfold lr_fit in H. rewrite E1, Nat.eqb_refl in H. apply Nat.eqb_neq in E2 as E2'. rewrite E2' in H. cbn [negb] in H. injection H as <- <-. auto.
  - left. unfold lr_fit in H. apply Nat.eqb_neq in E1 as E1'. rewrite E1' in H. cbn [negb] in H. injection H as <- <-. auto.
Qed.
(** With a penalty the solver does not know, the weights stay at their random start. *)
Lemma rejected (h : hyper) m X y : h_warm h = false -> nrows X = nrows y -> mcols y = 1%nat -> h_solver h = "lbfgs" -> h_penalty h <> "l2" -> h_penalty h <> "none" ->
  h_multi h <> "multinomial" -> lr_fit toint order G draw minimize h m X y = (fresh X y m, Err e_penalty).
Proof.
  intros Hw E1 E2 Hs P1 P2 Hm. rewrite (fit_fresh h m X y Hw E1 E2). apply String.eqb_neq in P1, P2, Hm.
  unfold fit_binary, fit_multi, lr_validate. rewrite Hs, P1, P2, Hm. cbn [negb andb]. change (String.eqb "lbfgs" "lbfgs") with true. cbn [andb].
  now destruct (Nat.eqb (length (extract_classes order (labels_of toint y))) 2).
Qed.
Lemma fresh_trained X y m : l_fitted G m = true -> exists units, trained (fresh X y m) units /\ Forall (fun u => snd u = n0) units /\
  l_coef G (fresh X y m) = Some (fst (draw_rows G draw (length units) (mcols X) (l_gen G m))).
Proof.
  intros F. unfold fresh, initialize. cbn [l_nc l_gen]. set (cls := extract_classes order (labels_of toint y)).
  set (K := if Nat.eqb (length cls) 2 then 1%nat else length cls). destruct (draw_rows G draw K (mcols X) (l_gen G m)) as [c g] eqn:E.
  destruct (draw_rows_shape G draw _ _ _ _ _ E) as [L Fo]. exists (map (fun w => (w, n0)) c). cbn [l_coef l_b l_classes l_nc l_nf l_fitted].
  unfold trained. cbn [l_coef l_b l_classes l_nc l_nf l_fitted]. rewrite !map_map, map_length. cbn [fst snd]. rewrite map_id.
  repeat split; auto.
  - clear -L. rewrite <- L. clear. induction c; cbn; f_equal; auto.
  - apply Forall_map. exact Fo.
  - apply Forall_map. apply Forall_forall. auto.
  - rewrite L, E. reflexivity.
Qed.

(** Gradient descent from scratch always succeeds. *)
Lemma gd_always (h : hyper) m X y : h_warm h = false -> nrows X = nrows y -> mcols y = 1%nat -> h_solver h <> "lbfgs" ->
  exists m', lr_fit toint order G draw minimize h m X y = (m', Ok tt).
Proof.
  intros Hw E1 E2 Hs. rewrite (fit_fresh h m X y Hw E1 E2). set (cls := extract_classes order (labels_of toint y)).
  apply String.eqb_neq in Hs. assert (V : lr_validate h = Ok tt) by (unfold lr_validate; now rewrite Hs).
  destruct (fresh_frame X y m) as (F1 & F2 & F3 & _). fold cls in F1, F2.
  assert (I : forall k, (k < if Nat.eqb (length cls) 2 then 1 else length cls)%nat -> exists w, get_unit G k (fresh X y m) = Some (w, n0, 0%nat) /\ length w = mcols X).
  { intros k Hk. apply initialize_units. exact Hk. }
  assert (Gd : forall c w b n, length w = mcols X -> exists u, gd_fit h (mkdata toint c X y) (w, b, n) = Ok u).
  { intros c w b n L. unfold gd_fit. destruct (h_maxit h <=? 0)%Z; [eauto|]. cbn [fst mkdata]. rewrite L, Nat.eqb_refl. eauto. }
  destruct (Nat.eqb_spec (length cls) 2) as [E|E].
  - unfold fit_binary. rewrite V, F1. destruct (nth_error cls 1) as [c|] eqn:Ec; [| apply nth_error_None in Ec; lia].
    unfold solve. destruct (I 0%nat ltac:(lia)) as (w & -> & L). rewrite Hs. destruct (Gd c w n0 0%nat L) as (u & ->). eauto.
  - unfold fit_multi. rewrite Hs, andb_false_r, V, F1.
    assert (Q : forall cs q, NoDup (map fst cs) -> (forall k, In k (map fst cs) -> exists w, get_unit G k q = Some (w, n0, 0%nat) /\ length w = mcols X) ->
      exists q', fit_classes toint G minimize h X y cs q = (q', Ok tt)).
    { induction cs as [|[k c] cs IH]; intros q Hn Hq; cbn [fit_classes]; [eauto|]. inversion Hn as [|? ? Hk Hn']; subst.
      destruct (Hq k (or_introl eq_refl)) as (w & Gw & L). unfold solve at 1. rewrite Gw, Hs. destruct (Gd c w n0 0%nat L) as (u & ->).
      apply IH; auto. intros k' Hk'. destruct (Hq k' (or_intror Hk')) as (w' & Gw' & L'). exists w'. split; auto. rewrite get_put_other; auto. intros ->. auto. }
    destruct (Q (combine (seq 0 (length cls)) cls) (fresh X y m)) as (q' & ->); eauto.
    + rewrite map_fst_combine_seq. apply seq_NoDup.
    + intros k Hk. rewrite map_fst_combine_seq in Hk. apply in_seq in Hk. apply I. lia.
Qed.

(** The default solver from scratch on two classes: what comes out does not depend on chance. *)
Lemma binary_lbfgs (h : hyper) m X y c :
  (forall f g x0 tol it th j, minimize f g x0 tol it = Some (th, j) -> length th = length x0) ->
  h_warm h = false -> nrows X = nrows y -> mcols y = 1%nat -> h_solver h = "lbfgs" ->
  length (extract_classes order (labels_of toint y)) = 2%nat -> nth_error (extract_classes order (labels_of toint y)) 1 = Some c ->
  match lr_minimize minimize h (mkdata toint c X y) (repeat n0 (mcols X) ++ if h_icpt h then [n0] else []) (repeat n0 (mcols X), n0, 0%nat) with
  | Ok (w, b, n) => (h_penalty h = "l2" \/ h_penalty h = "none") -> exists m', lr_fit toint order G draw minimize h m X y = (m', Ok tt) /\ get_unit G 0 m' = Some (w, b, n) /\
        l_classes G m' = extract_classes order (labels_of toint y) /\ l_nf G m' = mcols X
  | Err e => (h_penalty h = "l2" \/ h_penalty h = "none") -> exists m', lr_fit toint order G draw minimize h m X y = (m', Err e)
  | Panic => False
  end.
Proof.
  intros Hmin Hw E1 E2 Hs Hc Ec. pose proof (fit_fresh h m X y Hw E1 E2) as F. rewrite Hc in F. cbn [Nat.eqb] in F.
  destruct (fresh_frame X y m) as (F1 & F2 & F3 & _).
  destruct (initialize_units G draw (mcols X) (mklm G (l_coef G m) (l_b G m) (extract_classes order (labels_of toint y)) (length (extract_classes order (labels_of toint y))) (mcols X) (l_nit G m) (l_fitted G m) (l_gen G m)) 0) as (w0 & Gu & L0).
  { cbn [l_nc]. rewrite Hc. cbn. lia. }
  fold (fresh X y m) in Gu.
  assert (Eq : lr_minimize minimize h (mkdata toint c X y) (start_binary h (mcols X) (w0, n0, 0%nat)) (w0, n0, 0%nat)
    = lr_minimize minimize h (mkdata toint c X y) (repeat n0 (mcols X) ++ if h_icpt h then [n0] else []) (repeat n0 (mcols X), n0, 0%nat)).
  { unfold start_binary. rewrite Hw. cbn [andb]. unfold lr_minimize. destruct (lr_lambda h) as [lambda|e|]; cbn [bind]; try reflexivity.
    destruct (minimize _ _ _ _ _) as [[th k]|] eqn:Em; [|reflexivity]. apply Hmin in Em. rewrite app_length, repeat_length in Em. cbn [fst snd mkdata].
    rewrite !copyto_same; [reflexivity | |]; unfold weights; rewrite firstn_length, ?repeat_length; destruct (h_icpt h); cbn in Em; lia. }
  assert (Va : (h_penalty h = "l2" \/ h_penalty h = "none") -> lr_validate h = Ok tt).
  { intros P. unfold lr_validate. destruct P as [-> | ->]; cbn; now rewrite ?andb_false_r. }
  assert (Sv : (h_penalty h = "l2" \/ h_penalty h = "none") -> fit_binary toint G minimize h (fresh X y m) X y =
     match lr_minimize minimize h (mkdata toint c X y) (repeat n0 (mcols X) ++ if h_icpt h then [n0] else []) (repeat n0 (mcols X), n0, 0%nat) with
     | Ok u' => (put_unit G 0 u' (fresh X y m), Ok tt) | Err e => (fresh X y m, Err e) | Panic => (fresh X y m, Panic) end).
  { intros P. unfold fit_binary. rewrite (Va P), F1, Ec. unfold solve. rewrite Gu, Hs. change (String.eqb "lbfgs" "lbfgs") with true. cbv iota. rewrite Eq. reflexivity. }
  destruct (lr_minimize minimize h (mkdata toint c X y) (repeat n0 (mcols X) ++ _) _) as [[[w b] n]|e|] eqn:El.
  - intros P. rewrite (Sv P) in F. eexists. split; [exact F|]. cbn [l_classes l_nf]. split; [|split; [exact F1 | exact F3]].
    pose proof (get_put_same G 0 (w, b, n) _ _ Gu) as Q. exact Q.
  - intros P. rewrite (Sv P) in F. eauto.
  - unfold lr_minimize, lr_lambda in El. destruct (String.eqb (h_penalty h) "l2"); [destruct (neqb (h_C h) n0)|]; cbn [bind] in El; try discriminate;
      destruct (minimize _ _ _ _ _) as [[th k]|]; discriminate.
Qed.
(** *** Warm start, C = 0, predictions with any weights *)
Lemma trained_unit (m : model) units k u : trained m units -> length (l_nit G m) = length units -> nth_error units k = Some u ->
  exists n, get_unit G k m = Some (fst u, snd u, n).
Proof.
  intros (_ & _ & C & B & _) L H. unfold get_unit. rewrite C, B, !nth_error_map, H. cbn [option_map].
  destruct (nth_error (l_nit G m) k) as [n|] eqn:E; [eauto|]. apply nth_error_None in E.
  assert (k < length units)%nat by (apply nth_error_Some; congruence). lia.
Qed.
Lemma warm_panics (h : hyper) m w b X y : h_warm h = true -> h_solver h <> "lbfgs" -> trained m [(w, b)] -> length (l_nit G m) = 1%nat ->
  l_nf G m = mcols X -> nrows X = nrows y -> mcols y = 1%nat -> (3 <= length (extract_classes order (labels_of toint y)))%nat ->
  snd (lr_fit toint order G draw minimize h m X y) = Panic.
Proof.
  intros Hw Hs T Ln Hf E1 E2 H3. unfold lr_fit. rewrite E1, E2, Hw, !Nat.eqb_refl. cbn [negb orb]. apply String.eqb_neq in Hs.
  pose proof T as (_ & _ & C & B & Fo & _). rewrite C. set (cls := extract_classes order (labels_of toint y)) in *.
  set (m1 := mklm G _ _ cls _ _ _ _ _). change (l_nc G m1) with (length cls). replace (Nat.eqb (length cls) 2) with false by (symmetry; apply Nat.eqb_neq; lia).
  unfold fit_multi, lr_validate. rewrite Hs, !andb_false_r. cbn [andb]. change (l_classes G m1) with cls.
  destruct cls as [|c1 [|c2 cs]]; cbn in H3; try lia. cbn [length seq combine fit_classes]. rewrite Hs.
  destruct (trained_unit m [(w, b)] 0 (w, b) T Ln eq_refl) as (n & Gu). cbn [fst snd] in Gu.
  assert (Gu1 : get_unit G 0 m1 = Some (w, b, n)) by (rewrite <- Gu; unfold get_unit, m1; cbn [l_coef l_b l_nit]; now rewrite C).
  unfold solve at 1. rewrite Gu1. inversion Fo as [|? ? Lw _]; subst. cbn [fst] in Lw.
  assert (exists u', gd_fit h (mkdata toint c1 X y) (w, b, n) = Ok u') as (u' & ->).
  { unfold gd_fit. destruct (h_maxit h <=? 0)%Z; [eauto|]. cbn [fst mkdata]. rewrite Lw, Hf, Nat.eqb_refl. eauto. }
  assert (get_unit G 1 (put_unit G 0 u' m1) = None) as N1.
  { rewrite get_put_other by discriminate. unfold get_unit, m1. cbn [l_coef]. reflexivity. }
  unfold solve. rewrite N1. reflexivity.
Qed.
Lemma C_zero (h : hyper) m X y : h_warm h = false -> nrows X = nrows y -> mcols y = 1%nat -> h_solver h = "lbfgs" -> h_penalty h = "l2" -> neqb (h_C h) n0 = true ->
  length (extract_classes order (labels_of toint y)) = 2%nat -> exists m', lr_fit toint order G draw minimize h m X y = (m', Err e_C).
Proof.
  intros Hw E1 E2 Hs Hp Hc H2. rewrite (fit_fresh h m X y Hw E1 E2), H2. cbn [Nat.eqb]. destruct (fresh_frame X y m) as (F1 & F2 & _).
  unfold fit_binary, lr_validate. rewrite Hp, Hs, F1. change (String.eqb "l2" "l2") with true. cbn [negb andb]. rewrite andb_false_r. cbn [andb].
  destruct (nth_error (extract_classes order (labels_of toint y)) 1) as [c|] eqn:Ec; [|apply nth_error_None in Ec; lia].
  destruct (initialize_units G draw (mcols X) (mklm G (l_coef G m) (l_b G m) (extract_classes order (labels_of toint y)) (length (extract_classes order (labels_of toint y))) (mcols X) (l_nit G m) (l_fitted G m) (l_gen G m)) 0) as (w0 & Gu & L0).
  { cbn [l_nc]. rewrite H2. cbn. lia. }
  fold (fresh X y m) in Gu. unfold solve. rewrite Gu. change (String.eqb "lbfgs" "lbfgs") with true. cbv iota.
  unfold lr_minimize, lr_lambda. rewrite Hp, Hc. change (String.eqb "l2" "l2") with true. cbn [bind]. eauto.
Qed.
Lemma best_of_bound (ss : list N) : forall k mx best, (best < k + length ss)%nat -> (best_of k ss mx best < k + length ss)%nat.
Proof.
  induction ss as [|s ss IH]; intros k mx best H; cbn [best_of length] in *; [lia|]. replace (k + S (length ss))%nat with (S k + length ss)%nat in * by lia.
  destruct (nlt mx s); apply IH; lia.
Qed.
Lemma predict_known (m : model) units X : trained m units -> l_classes G m <> [] -> mrows X <> [] -> Forall (fun x => (l_nf G m <= length x)%nat) (mrows X) ->
  exists ps, lr_predict lowest G m X = Ok ps /\ Forall (fun p => exists c, In c (l_classes G m) /\ p = nofZ c) ps.
Proof.
  intros T C0 Hn Hw. pose proof T as (F & Nc & C & B & Fo & Lu). rewrite predict_rows by assumption. clear Hn.
  assert (R : forall x, (l_nf G m <= length x)%nat -> exists c, In c (l_classes G m) /\ predict_row lowest G m x = Ok (nofZ c)).
  { intros x Hx. assert (At : forall k, (k < length (l_classes G m))%nat -> exists c, In c (l_classes G m) /\ class_at G m k = Ok (nofZ c)).
    { intros k Hk. unfold class_at. destruct (nth_error (l_classes G m) k) as [c|] eqn:E; [|apply nth_error_None in E; lia]. exists c. split; [eapply nth_error_In; eauto | reflexivity]. }
    unfold predict_row. rewrite Nc. destruct (Nat.eqb (length (l_classes G m)) 2) eqn:E.
    - destruct units as [|[w b] [|u us]]; try discriminate. inversion Fo; subst. unfold class_score. rewrite C, B. cbn [map nth_error fst snd].
      rewrite raw_ok by (cbn [fst] in *; lia). cbn [bind]. apply At. apply Nat.eqb_eq in E. destruct (nle _ _); lia.
    - rewrite <- Nc. rewrite (scores_ok G m units x T E Hx). cbn [bind]. apply At. rewrite <- Lu.
      pose proof (best_of_bound (map (fun u => dotted x (fst u) (snd u)) units) 0 lowest 0) as Bb. rewrite map_length in Bb. apply Bb.
      rewrite Lu. destruct (l_classes G m); [congruence | cbn; lia]. }
  induction (mrows X) as [|x r IH]; [exists []; split; [reflexivity | constructor]|]. inversion Hw as [|? ? Hx Hr]; subst.
  destruct (IH Hr) as (ps & E & P). destruct (R x Hx) as (c & Hc & Ec). exists (nofZ c :: ps). split; [|constructor; eauto]. cbn [mapM]. rewrite Ec. cbn [bind]. rewrite E. reflexivity.
Qed.
End Gen.

(** *** One step over the reals *)
Section Real.
Local Open Scope R_scope.
Definition penalised (h : @lhyper RNum) : R := if String.eqb (h_penalty h) "l2" then 1 / h_C h else 0.

Lemma gd_errors_R (S : list sample) (w : list R) (b : R) n :
  @gd_errors RNum (n, S) w b = map (fun s => logistic (score w b (fst s)) - snd s) S.
Proof.
  unfold gd_errors. cbn [fst snd]. apply map_ext. intros s. pose proof (dotted_R (fst s) w b) as D. unfold dotted in D. unR. unfold sample in *. rewrite D.
  pose proof (sigmoid_R (score w b (fst s))) as Sg. unR. rewrite Sg. reflexivity.
Qed.
Lemma gd_grad_R (h : @lhyper RNum) (S : list sample) (w : list R) (b : R) :
  @gd_grad RNum h (length w, S) w b = (map (dw (penalised h) S w b) (seq 0 (length w)), db S w b).
Proof.
  unfold gd_grad. pose proof (gd_errors_R S w b (length w)) as E. unR. unfold sample in *. rewrite E. cbn [fst snd]. f_equal.
  - assert (G0 : map (fun j => fold_left (fun g s => g + fst s * nth j (snd s) 0) (combine (map (fun s : list R * R => logistic (score w b (fst s)) - snd s) S) (map fst S)) 0 / @nofnat RNum (length S)) (seq 0 (length w))
      = map (dw 0 S w b) (seq 0 (length w))).
    { apply map_ext. intros j. rewrite combine_map2, fold_left_map. cbn [fst snd]. unfold dw, sample. rewrite nofnat_R, Rmult_0_l, Rplus_0_r. f_equal.
      rewrite fold_left_sum. apply Rplus_0_l. }
    unfold penalised. destruct (String.eqb (h_penalty h) "l2").
    + transitivity (map (fun p => fst p + 1 / h_C h * snd p) (combine (map (dw 0 S w b) (seq 0 (length w))) w));
        [exact (f_equal (fun l => map (fun p : R * R => fst p + 1 / h_C h * snd p) (combine l w)) G0)|].
      clear. set (lam := 1 / h_C h). assert (Gen : forall k (v : list R), (forall j, (j < length v)%nat -> nth (k + j) w 0 = nth j v 0) ->
        map (fun p => fst p + lam * snd p) (combine (map (dw 0 S w b) (seq k (length v))) v) = map (dw lam S w b) (seq k (length v))).
      { intros k v. revert k. induction v as [|a v IH]; intros k H; [reflexivity|]. cbn [length seq map combine]. f_equal.
        - cbn [fst snd]. unfold dw. specialize (H 0%nat ltac:(cbn; lia)). rewrite Nat.add_0_r in H. cbn in H. rewrite H. ring.
        - apply IH. intros j Hj. replace (Datatypes.S k + j)%nat with (k + Datatypes.S j)%nat by lia. rewrite H by (cbn; lia). reflexivity. }
      apply (Gen 0%nat w). reflexivity.
    + exact G0.
  - unfold db, sample. rewrite nofnat_R.
    exact (f_equal (fun q => q / INR (length S)) (eq_trans (fold_left_Rplus (map (fun s : list R * R => logistic (score w b (fst s)) - snd s) S) 0) (Rplus_0_l _))).
Qed.
Lemma fold_max (l : list R) : forall m0, let M := fold_left (fun m v => if Rltb m (Rabs v) then Rabs v else m) l m0 in
  m0 <= M /\ (forall v, In v l -> Rabs v <= M) /\ (M = m0 \/ exists v, In v l /\ M = Rabs v).
Proof.
  induction l as [|a l IH]; intros m0; cbn [fold_left]; [repeat split; [lra | intros v [] | auto]|].
  destruct (Rltb m0 (Rabs a)) eqn:E.
  - apply Rltb_true in E. destruct (IH (Rabs a)) as (A & B & C). repeat split; [lra | |].
    + intros v [<-|Hv]; auto.
    + right. destruct C as [C|(v & Hv & C)]; [exists a; split; [now left | exact C] | exists v; split; [now right | exact C]].
  - apply Rltb_false in E. destruct (IH m0) as (A & B & C). repeat split; [lra | |].
    + intros v [<-|Hv]; [lra | auto].
    + destruct C as [C|(v & Hv & C)]; [now left | right; exists v; split; [now right | exact C]].
Qed.
Lemma rate_R i : @gd_rate RNum i = 1 / (1 + INR i / 10).
Proof. unfold gd_rate. rewrite nofnat_R. cbn [n1 nadd nmul ndiv nlit RNum]. f_equal. match goal with |- ?a = ?b => change (@eq R a b) end. lra. Qed.
Lemma step_R (h : @lhyper RNum) (S : list sample) i (w : list R) (b : R) w' b' M : sound (length w) S ->
  @gd_step RNum h (length w, S) i w b = (w', b', M) ->
  exists g gb, length g = length w /\
    (forall v c, length v = length w -> slope (fun t => risk (penalised h) S (move t v w) (b + t * c)) 0 (Sum (length w) (fun j => nth j g 0 * nth j v 0) + gb * c)) /\
    w' = move (- (1 / (1 + INR i / 10))) g w /\ b' = (if h_icpt h then b - 1 / (1 + INR i / 10) * gb else b) /\
    (forall j, (j < length w)%nat -> Rabs (nth j g 0) <= M) /\ Rabs gb <= M /\ (M = Rabs gb \/ exists j, (j < length w)%nat /\ M = Rabs (nth j g 0)).
Proof.
  intros Hs H. unfold gd_step in H. pose proof (gd_grad_R h S w b) as Gr. unR. unfold sample in *. rewrite Gr in H. cbn [fst snd] in H.
  set (g := map (dw (penalised h) S w b) (seq 0 (length w))) in *. exists g, (db S w b).
  assert (Lg : length g = length w) by (unfold g; now rewrite map_length, seq_length).
  assert (Ng : forall j, (j < length w)%nat -> nth j g 0 = dw (penalised h) S w b j).
  { intros j Hj. unfold g. rewrite nth_indep with (d' := dw (penalised h) S w b 0) by (rewrite map_length, seq_length; lia). rewrite map_nth, seq_nth by lia. reflexivity. }
  injection H as <- <- <-. split; [exact Lg|]. split; [|split; [|split]].
  - intros v c Hv. rewrite (Sum_ext _ (fun j => nth j g 0 * nth j v 0) (fun j => dw (penalised h) S w b j * nth j v 0)) by (intros j Hj; now rewrite Ng).
    now apply risk_slope.
  - unfold move. pose proof (rate_R i) as Rt. apply (map_ext (A := R * R)). intros [p q]. cbn [fst snd]. 
    change (p - @gd_rate RNum i * q = p + - (1 / (1 + INR i / 10)) * q). transitivity (p - 1 / (1 + INR i / 10) * q); [exact (f_equal (fun r => p - r * q) Rt) | ring].
  - destruct (h_icpt h); [|reflexivity]. pose proof (rate_R i) as Rt. exact (f_equal (fun r => b - r * db S w b) Rt).
  - pose proof (fold_max g (Rabs (db S w b))) as (A & B & C). repeat split.
    + intros j Hj. apply B. apply nth_In. lia.
    + exact A.
    + destruct C as [C|(v & Hv & C)]; [now left|]. right. apply (In_nth _ _ 0) in Hv as (j & Hj & <-). exists j. split; [lia | exact C].
Qed.
End Real.
