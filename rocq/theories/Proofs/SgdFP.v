From Coq Require Import List Arith Bool ZArith Reals Lra Lia.
From Flocq Require Import Core IEEE754.BinarySingleNaN.
From Verif Require Import Base.Num Base.GoRes Base.Mat Base.ListX Base.FTac Model.Numerical Model.Linear Model.NaiveBayes Model.PassiveAgg Model.Sgd Spec.Sgd Proofs.PassiveAggP.
Import ListNotations.
Local Open Scope list_scope.

Section Dead.
Variables fexp flog : F64 -> F64.
Notation FN := (FNum fexp flog).

Lemma unstable_broken (x : F64) : @unstable FN x = broken x.
Proof. reflexivity. Qed.
Lemma broken_plus_l x y : broken x = true -> broken (f64_plus x y) = true.
Proof. destruct x as [[]|[]| |[] mx ex hx]; try discriminate; intros _; destruct y as [[]|[]| |[] my ey hy]; reflexivity. Qed.
Lemma broken_plus_r x y : broken y = true -> broken (f64_plus x y) = true.
Proof. destruct y as [[]|[]| |[] mx ex hx]; try discriminate; intros _; destruct x as [[]|[]| |[] my ey hy]; reflexivity. Qed.
Lemma broken_mult_l x y : broken x = true -> broken (f64_mult x y) = true.
Proof. destruct x as [[]|[]| |[] mx ex hx]; try discriminate; intros _; destruct y as [[]|[]| |[] my ey hy]; reflexivity. Qed.
Lemma broken_mult_r x y : broken y = true -> broken (f64_mult x y) = true.
Proof. destruct y as [[]|[]| |[] mx ex hx]; try discriminate; intros _; destruct x as [[]|[]| |[] my ey hy]; reflexivity. Qed.

(** Adding the step back never repairs a coefficient. *)
Lemma rollback w d : broken (f64_minus w d) = true -> broken (f64_plus (f64_minus w d) d) = true.
Proof. apply broken_plus_l. Qed.
Lemma descend_broken lr gs w j v : nth_error (@descend FN lr gs w) j = Some v ->
  exists wj, nth_error w j = Some wj /\
    ((exists gj, nth_error gs j = Some gj /\ (v = f64_minus wj (f64_mult lr gj) \/ broken v = true /\ broken (f64_minus wj (f64_mult lr gj)) = true)) \/ (length gs <= j /\ v = wj)).
Proof.
  revert w j. induction gs as [|g gs IH]; intros w j H; cbn [descend] in H.
  - exists v. split; [exact H|]. right. split; [cbn; lia|reflexivity].
  - destruct w as [|wi ws]; [destruct j; discriminate|]. destruct j as [|j]; cbn [nth_error] in *.
    + exists wi. split; [reflexivity|]. left. exists g. split; [reflexivity|]. injection H as <-.
      change (@unstable FN ?a) with (broken a). change (@nsub FN) with f64_minus. change (@nmul FN) with f64_mult. change (@nadd FN) with f64_plus.
      destruct (broken (f64_minus wi (f64_mult lr g))) eqn:E; [right; split; [apply rollback, E|reflexivity]|left; reflexivity].
    + destruct (IH ws j H) as (wj & Hw & O). exists wj. split; [exact Hw|].
      destruct O as [(gj & Hg & O)|[O1 O2]]; [left; exists gj; auto|right; split; [exact (le_n_S _ _ O1)|exact O2]].
Qed.

Lemma fold_broken l b : (broken b = true \/ exists p, In p l /\ broken (fst p) = true) ->
  broken (fold_left (fun s p => f64_plus s (f64_mult (fst p) (snd p))) l b) = true.
Proof.
  revert b. induction l as [|q l IH]; intros b H; cbn [fold_left].
  - destruct H as [H|(p & [] & _)]. exact H.
  - apply IH. destruct H as [H|(p & [<-|Hp] & Hb)].
    + left. apply broken_plus_l, H.
    + left. apply broken_plus_r, broken_mult_l, Hb.
    + right. exists p. auto.
Qed.
Lemma combine_nth_in {A B} (l : list A) (r : list B) j v : nth_error l j = Some v -> j < length r -> exists u, In (v, u) (combine l r).
Proof.
  revert r j. induction l as [|a l IH]; intros r j H K; [destruct j; discriminate|]. destruct r as [|b r]; [cbn in K; lia|].
  destruct j as [|j]; cbn in *.
  - injection H as ->. exists b. auto.
  - destruct (IH r j H) as (u & Hu); [lia|]. exists u. auto.
Qed.
Lemma dead_score b w (x : list F64) : dead_weights (length x) b w -> exists v, @score FN b w x = Ok v /\ broken v = true.
Proof.
  intros [L H]. eexists. split; [exact (@score_fold FN b w x L)|]. apply fold_broken. destruct H as [H|(j & v & Hj & Hv & Hb)]; [left; exact H|].
  right. destruct (combine_nth_in w x j v Hv Hj) as (u & Hu). exists (v, u). auto.
Qed.
(** the same sum as written in Predict, with the factors swapped *)
Lemma dead_sum b w (x : list F64) : dead_weights (length x) b w ->
  exists v, foldM (fun (acc : F64) (q : nat * F64) => match nth_error w (fst q) with None => Panic | Some wj => Ok (f64_plus acc (f64_mult (snd q) wj)) end)
    b (combine (seq 0 (length x)) x) = Ok v /\ broken v = true.
Proof.
  assert (G : forall x k b, k + length x <= length w -> (broken b = true \/ exists j v, k <= j < k + length x /\ nth_error w j = Some v /\ broken v = true) ->
    exists v, foldM (fun (acc : F64) (q : nat * F64) => match nth_error w (fst q) with None => Panic | Some wj => Ok (f64_plus acc (f64_mult (snd q) wj)) end)
    b (combine (seq k (length x)) x) = Ok v /\ broken v = true).
  { clear x b. induction x as [|xi x IH]; intros k b L H; cbn [length seq combine foldM].
    - destruct H as [H|(j & v & Hj & _)]; [eauto|cbn in Hj; lia].
    - cbn [length] in *. cbn [fst snd]. destruct (nth_error w k) as [wk|] eqn:E; [|apply nth_error_None in E; lia]. cbn [bind].
      apply IH; [lia|]. destruct H as [H|(j & v & Hj & Hv & Hb)]; [left; apply broken_plus_l, H|].
      destruct (Nat.eq_dec j k) as [->|Hne].
      + left. rewrite E in Hv. injection Hv as ->. apply broken_plus_r, broken_mult_r, Hb.
      + right. exists j, v. split; [lia|]. auto. }
  intros [L H]. apply G; [exact L|]. destruct H as [H|(j & v & Hj & K)]; [left; exact H|right; exists j, v; split; [lia|exact K]].
Qed.

(** n >= 1 as a double is positive, and dividing zero by it gives zero. *)
Lemma zero_mean n : (1 <= n)%nat -> @ndiv FN (@n0 FN) (@nofnat FN n) = @n0 FN.
Proof.
  intros Hn. unfold nofnat, nofZ. cbn [nlit FNum ndiv n0 Pos.eqb].
  assert (Hz : (1 <= IZR (Z.of_nat n))%R) by (apply IZR_le; lia).
  pose proof (@binary_normalize_correct fprec femax fprec_gt_0 fprec_lt_emax mode_NE (Z.of_nat n) 0 false) as C. cbv zeta in C.
  fold (f64_ofZ (Z.of_nat n)) in C.
  assert (F2 : F2R (Float radix2 (Z.of_nat n) 0) = IZR (Z.of_nat n)) by (unfold F2R; cbn [Fnum Fexp bpow]; ring).
  rewrite F2 in C.
  destruct (Rlt_bool _ _).
  - destruct C as (C & Fin & _).
    assert (H1 : (1 <= B2R (f64_ofZ (Z.of_nat n)))%R).
    { rewrite C. apply round_ge_generic; [apply FLT_exp_valid; exact fprec_gt_0|apply valid_rnd_round_mode| |exact Hz].
      change 1%R with (bpow radix2 0). apply generic_format_bpow. unfold SpecFloat.fexp, SpecFloat.emin, fprec, femax. lia. }
    destruct (f64_ofZ (Z.of_nat n)) as [s|s| |[] m e h]; cbn in Fin; try discriminate.
    + cbn in H1. lra.
    + exfalso. assert (B2R (@B754_finite fprec femax true m e h) <= 0)%R; [|lra]. apply Rlt_le. cbn [B2R]. apply F2R_lt_0. reflexivity.
    + reflexivity.
  - replace (Rlt_bool (IZR (Z.of_nat n)) 0) with false in C by (symmetry; apply Rlt_bool_false; lra).
    destruct (f64_ofZ (Z.of_nat n)) as [s|[]| |s m e h]; cbn in C; try discriminate. reflexivity.
Qed.

Variable pow : F64 -> F64 -> F64.
Variable G : Type.
Variable shuffle : nat -> G -> list nat * G.
Definition weights_of (s : sreg FN G) : list F64 := match g_coef G s with None => [] | Some w => w end.
(** The model's weights for [cols] features contain a value that is not finite. *)
Definition dead (cols : nat) (s : sreg FN G) : Prop := dead_weights cols (g_icept G s) (weights_of s).

Lemma dead_update k p s x y : dead (length x) s -> exists s', @reg_update FN pow G k p s x y = Ok (s', f64_zero) /\
  g_coef G s' = g_coef G s /\ g_icept G s' = g_icept G s /\ g_t G s' = g_t G s /\ g_hist G s' = g_hist G s /\ g_niter G s' = g_niter G s /\ g_conv G s' = g_conv G s /\
  g_nfeat G s' = g_nfeat G s /\ g_fitted G s' = g_fitted G s.
Proof.
  intros D. destruct (dead_score _ _ _ D) as (v & E & B). unfold reg_update. unfold weights_of in E. change (num FN) with F64 in *. rewrite E. cbn [bind].
  change (@unstable FN v) with (broken v). rewrite B. eexists. split; [reflexivity|]. cbn. auto 10.
Qed.
Lemma dead_same cols s s' : g_coef G s' = g_coef G s -> g_icept G s' = g_icept G s -> dead cols s -> dead cols s'.
Proof. unfold dead, weights_of. intros -> ->. auto. Qed.
Lemma zero_plus : f64_plus f64_zero f64_zero = f64_zero.
Proof. reflexivity. Qed.
Lemma dead_pass k p l s : (forall x o, In (x, o) l -> dead (length x) s /\ o <> None) ->
  exists s', spass (@reg_update FN pow G k p) s f64_zero l = (s', f64_zero, Ok tt) /\
    g_coef G s' = g_coef G s /\ g_icept G s' = g_icept G s /\ g_t G s' = g_t G s /\ g_hist G s' = g_hist G s /\ g_niter G s' = g_niter G s /\ g_conv G s' = g_conv G s /\
    g_nfeat G s' = g_nfeat G s /\ g_fitted G s' = g_fitted G s.
Proof.
  revert s. induction l as [|[x o] l IH]; intros s H; cbn [spass].
  - exists s. auto 10.
  - destruct (H x o (or_introl eq_refl)) as [D Ho]. destruct o as [y|]; [|congruence].
    destruct (dead_update k p s x y D) as (s1 & E & A). change (num FN) with F64 in *. rewrite E.
    change (@nadd FN f64_zero f64_zero) with (f64_plus f64_zero f64_zero). rewrite zero_plus.
    destruct A as (A1 & A2 & A3 & A4 & A5 & A6 & A7 & A8).
    destruct (IH s1) as (s2 & E2 & B1 & B2 & B3 & B4 & B5 & B6 & B7 & B8).
    { intros x' o' Hi. destruct (H x' o' (or_intror Hi)) as [D' Ho']. split; [|exact Ho']. eapply dead_same; eauto. }
    exists s2. rewrite E2. split; [reflexivity|]. repeat split; congruence.
Qed.
Lemma in_order_in idx l x o : In (x, o) (@in_order FN idx l) -> Forall (fun i => i < length l) idx -> In (x, o) l.
Proof.
  unfold in_order. intros H F. apply in_map_iff in H. destruct H as (i & E & Hi). rewrite Forall_forall in F. apply F in Hi.
  change (num FN) with F64 in *.
  destruct (nth_error l i) as [q|] eqn:K; [subst q; eapply nth_error_In; eauto|]. apply nth_error_None in K. lia.
Qed.
Lemma spread_same n : @spread FN (repeat f64_zero n) f64_zero = (f64_zero, f64_zero).
Proof. unfold spread. induction n as [|n IH]; [reflexivity|]. cbn [repeat fold_left fst snd]. exact IH. Qed.
(** After nochange + 1 passes on dead weights the criterion holds. *)
Lemma dead_check (p : sparams FN) (h : list F64) m : 1 <= sp_nochange p -> sp_nochange p <= m -> Bltb f64_zero (sp_tol p) = true ->
  sp_nochange p + 1 <= length h + m ->
  @check_conv FN p (h ++ repeat f64_zero m) = Ok true.
Proof.
  intros H1 Hm Ht Hl. unfold check_conv. change (num FN) with F64 in *. rewrite app_length, repeat_length.
  destruct (Nat.ltb_spec (length h + m) (sp_nochange p + 1)); [lia|].
  assert (R : @recent FN (sp_nochange p) (h ++ repeat f64_zero m) = repeat f64_zero (sp_nochange p)).
  { unfold recent. change (num FN) with F64. rewrite app_length, repeat_length, skipn_app, skipn_all2 by lia. cbn [app].
    replace (length h + m - sp_nochange p - length h)%nat with (m - sp_nochange p)%nat by lia.
    replace m with ((m - sp_nochange p) + sp_nochange p)%nat at 2 by lia. rewrite repeat_app.
    rewrite skipn_app, skipn_all2 by (rewrite repeat_length; lia). rewrite repeat_length.
    replace (m - sp_nochange p - (m - sp_nochange p))%nat with 0%nat by lia. reflexivity. }
  change (num FN) with F64 in *. rewrite R. destruct (sp_nochange p) as [|n]; [lia|]. cbn [repeat].
  change (f64_zero :: repeat f64_zero n) with (repeat f64_zero (S n)). rewrite spread_same. cbn [fst snd]. f_equal. exact Ht.
Qed.
Definition shuffles : Prop := forall n g, Forall (fun i => i < n) (fst (shuffle n g)).

Lemma dead_epochs k (p : sparams FN) l n s m h : shuffles -> (1 <= length l) -> (forall x o, In (x, o) l -> dead (length x) s /\ o <> None) ->
  1 <= sp_nochange p -> Bltb f64_zero (sp_tol p) = true -> g_hist G s = h ++ repeat f64_zero m -> m <= sp_nochange p -> sp_nochange p + 1 <= m + n ->
  exists s' j, @reg_epochs FN pow G shuffle k p n s l = (s', Ok tt) /\ g_conv G s' = true /\ g_hist G s' = h ++ repeat f64_zero (m + j) /\ 1 <= j <= sp_nochange p + 1 - m /\
    g_coef G s' = g_coef G s /\ g_icept G s' = g_icept G s /\ g_t G s' = g_t G s /\ g_nfeat G s' = g_nfeat G s.
Proof.
  intros SH Hl. revert s m. induction n as [|n IH]; intros s m D H1 Ht Hh Hm Hn; [lia|]. cbn [reg_epochs].
  set (ig := if sp_shuffle p then shuffle (length l) (g_rng G s) else (seq 0 (length l), g_rng G s)).
  assert (Hi : Forall (fun i => i < length l) (fst ig)).
  { unfold ig. destruct (sp_shuffle p); [apply SH|]. cbn [fst]. apply Forall_forall. intros i Hi. apply in_seq in Hi. lia. }
  destruct ig as [idx g]. cbn [fst] in Hi.
  destruct (dead_pass k p (in_order idx l) (with_rng G g s)) as (s1 & E & A1 & A2 & A3 & A4 & A5 & A6 & A7 & A8).
  { intros x o Hx. apply in_order_in in Hx; [|exact Hi]. exact (D x o Hx). }
  change (@n0 FN) with f64_zero. change (num FN) with F64 in *. rewrite E.
  cbn [with_rng g_hist g_coef g_icept g_t g_niter g_conv g_nfeat] in *.
  cbn [recorded g_hist].
  assert (Z0 : @ndiv FN f64_zero (nofnat (length l)) = f64_zero) by exact (zero_mean (length l) Hl).
  change (num FN) with F64. rewrite Z0, A4, Hh, <- app_assoc.
  assert (Hz : repeat f64_zero m ++ [f64_zero] = repeat f64_zero (S m)) by (symmetry; apply repeat_cons).
  rewrite Hz.
  destruct (check_conv p (h ++ repeat f64_zero (S m))) as [[|]| |] eqn:K.
  - exists (with_conv G true (recorded G s1 f64_zero (length l))), 1. split; [reflexivity|]. split; [reflexivity|]. cbn [with_conv recorded g_hist g_coef g_icept g_t g_nfeat].
    change (num FN) with F64. rewrite Z0, A4, Hh, <- app_assoc, Hz. rewrite Nat.add_1_r. split; [reflexivity|]. split; [lia|]. repeat split; congruence.
  - assert (Hm' : S m <= sp_nochange p).
    { destruct (le_lt_dec (S m) (sp_nochange p)); [assumption|]. exfalso. rewrite dead_check in K; [discriminate|assumption|lia|assumption|]. lia. }
    destruct (IH (recorded G s1 f64_zero (length l)) (S m)) as (s' & j & E' & C' & H' & J' & B1 & B2 & B3 & B4).
    + intros x o Hx. destruct (D x o Hx) as [D1 D2]. split; [|exact D2]. eapply dead_same; [| |exact D1]; cbn; assumption.
    + assumption.
    + assumption.
    + cbn [recorded g_hist]. change (num FN) with F64. rewrite Z0, A4, Hh, <- app_assoc, Hz. reflexivity.
    + exact Hm'.
    + lia.
    + exists s', (S j). split; [exact E'|]. split; [exact C'|]. split; [rewrite H'; f_equal; f_equal; lia|]. split; [lia|].
      cbn [recorded g_coef g_icept g_t g_nfeat] in *. repeat split; congruence.
  - exfalso. unfold check_conv in K. destruct (Nat.ltb _ _); [discriminate|]. destruct (recent _ _); discriminate.
  - exfalso. unfold check_conv in K. change (num FN) with F64 in *. rewrite app_length, repeat_length in K. destruct (Nat.ltb_spec (length h + S m) (sp_nochange p + 1)); [discriminate|].
    destruct (recent _ _) as [|a r] eqn:R; [|discriminate]. apply (f_equal (@length _)) in R. unfold recent in R. change (num FN) with F64 in *. rewrite skipn_length, app_length, repeat_length in R. cbn in R. lia.
Qed.
End Dead.
Lemma mapM_forall {A B} (h : A -> res B) (P : B -> Prop) l : (forall a, In a l -> exists b, h a = Ok b /\ P b) ->
  exists l', mapM h l = Ok l' /\ length l' = length l /\ Forall P l'.
Proof.
  induction l as [|a l IH]; intros H; [exists []; auto|]. destruct (H a (or_introl eq_refl)) as (b & E & Pb).
  destruct IH as (l' & E' & L & F); [intros; apply H; now right|]. exists (b :: l'). cbn [mapM]. rewrite E. cbn [bind]. rewrite E'. cbn [bind length]. auto.
Qed.

(** exp overflowing to infinity makes a softmax entry NaN *)
Lemma fold_plus_broken l b : broken b = true -> broken (fold_left f64_plus l b) = true.
Proof. revert b. induction l as [|v l IH]; intros b H; cbn [fold_left]; [exact H|]. apply IH, broken_plus_l, H. Qed.
Lemma sum_broken l v b : In v l -> broken v = true -> broken (fold_left f64_plus l b) = true.
Proof.
  revert b. induction l as [|u l IH]; intros b H Hv; [destruct H|]. destruct H as [->|H]; cbn [fold_left]; [|apply IH; assumption].
  apply fold_plus_broken, broken_plus_r, Hv.
Qed.
Lemma inf_div_broken s y : broken y = true -> f64_div (B754_infinity s) y = B754_nan.
Proof. destruct y as [[]|[]| |[] m e h]; try discriminate; intros _; reflexivity. Qed.
