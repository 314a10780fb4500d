From Coq Require Import List Arith ZArith Bool Lia Reals Lra Permutation Sorting.
From Verif Require Import Base.Num Base.GoRes Base.GoSort Base.RTac Model.Metrics Model.LgbObjective Model.EvalMetrics Spec.Ranking Spec.EvalMetrics Proofs.EvalMetricsP.
Import ListNotations.
Local Open Scope R_scope.

Lemma ones_R k : @ones RNum k = INR k.
Proof. induction k as [|k IH]; [reflexivity|]. rewrite S_INR, <- IH. reflexivity. Qed.

(** *** Sums over the classes *)
Lemma Rsum_zero {A} (g : A -> R) l : (forall x, In x l -> g x = 0) -> Rsum (map g l) = 0.
Proof. induction l as [|x l IH]; intros H; cbn; [reflexivity|]. rewrite (H x (or_introl eq_refl)), IH by (intros; apply H; now right). lra. Qed.
Lemma indicator cl (a : Z) (v : R) : NoDup cl -> In a cl -> Rsum (map (fun c => if Z.eqb a c then v else 0) cl) = v.
Proof.
  induction cl as [|k cl IH]; intros Hn Ha; [easy|]. inversion Hn as [|? ? Hk Hn']; subst. cbn [map Rsum fold_right].
  change (fold_right Rplus 0 ?l) with (Rsum l). destruct (Z.eqb_spec a k) as [->|Hak].
  - rewrite Rsum_zero; [lra|]. intros x Hx. destruct (Z.eqb_spec k x) as [->|]; [contradiction|reflexivity].
  - destruct Ha as [->|Ha]; [congruence|]. rewrite IH by assumption. lra.
Qed.
(** Summing a label-wise count over all classes counts every sample. *)
Lemma class_sum {A} (key : A -> Z) (keep : A -> bool) cl l : NoDup cl -> (forall s, In s l -> In (key s) cl) ->
  Rsum (map (fun c => INR (length (filter (fun s => Z.eqb (key s) c && keep s) l))) cl) = INR (length (filter keep l)).
Proof.
  intros Hn. induction l as [|s l IH]; intros H.
  - cbn. apply Rsum_zero. reflexivity.
  - cbn [filter]. rewrite (Rsum_map_ext _ (fun c => (if Z.eqb (key s) c then (if keep s then 1 else 0) else 0) + INR (length (filter (fun s => Z.eqb (key s) c && keep s) l)))).
    2: { intros c _. destruct (Z.eqb (key s) c), (keep s); cbn [andb length]; rewrite ?S_INR; lra. }
    rewrite Rsum_map_plus, IH by (intros; apply H; now right). rewrite indicator; auto; [|apply H; now left].
    destruct (keep s); cbn [length]; rewrite ?S_INR; lra.
Qed.
Lemma seen_row yt yp cl a : NoDup cl -> length yt = length yp -> (forall c, In c yp -> In c cl) -> Rsum (map (fun b => INR (seen yt yp a b)) cl) = INR (times yt a).
Proof.
  intros Hn Hl Hc. unfold seen.
  rewrite (Rsum_map_ext _ (fun b => INR (length (filter (fun s => Z.eqb (snd s) b && Z.eqb (fst s) a) (combine yt yp))))).
  2: { intros b _. do 2 f_equal. apply filter_ext. intros s. apply andb_comm. }
  rewrite (class_sum snd (fun s => Z.eqb (fst s) a)); [|auto|intros [x y] H; apply Hc; eapply in_combine_r; exact H].
  f_equal. rewrite times_filter. revert yp Hl Hc. induction yt as [|x yt IH]; intros [|y yp] Hl Hc; try discriminate; [reflexivity|].
  cbn [combine filter fst]. destruct (Z.eqb x a); cbn [length]; rewrite (IH yp); try (cbn in Hl; lia); auto; intros; apply Hc; now right.
Qed.
Lemma seen_col yt yp cl b : NoDup cl -> length yt = length yp -> (forall c, In c yt -> In c cl) -> Rsum (map (fun a => INR (seen yt yp a b)) cl) = INR (times yp b).
Proof.
  intros Hn Hl Hc. unfold seen. rewrite (class_sum fst (fun s => Z.eqb (snd s) b)); [|auto|intros [x y] H; apply Hc; eapply in_combine_l; exact H].
  f_equal. rewrite times_filter. clear Hc. revert yp Hl. induction yt as [|x yt IH]; intros [|y yp] Hl; try discriminate; [reflexivity|].
  cbn [combine filter snd]. destruct (Z.eqb y b); cbn [length]; rewrite (IH yp); auto; cbn in Hl; lia.
Qed.
Lemma times_sum yt cl : NoDup cl -> (forall c, In c yt -> In c cl) -> Rsum (map (fun a => INR (times yt a)) cl) = INR (length yt).
Proof.
  intros Hn Hc. rewrite (Rsum_map_ext _ (fun a => INR (length (filter (fun s => Z.eqb s a && true) yt)))).
  2: { intros a _. rewrite times_filter. do 2 f_equal. apply filter_ext. intros s. now rewrite andb_true_r. }
  rewrite (class_sum (fun s => s) (fun _ => true)); auto. f_equal. f_equal. clear. induction yt; cbn; congruence.
Qed.
Lemma diagonal_sum yt yp cl : NoDup cl -> length yt = length yp -> (forall c, In c yt -> In c cl) -> Rsum (map (fun c => INR (seen yt yp c c)) cl) = INR (agreeing yt yp).
Proof.
  intros Hn Hl Hc. rewrite agreeing_count, count_filter, Nat.add_0_r by assumption. unfold seen.
  rewrite (Rsum_map_ext _ (fun c => INR (length (filter (fun s => Z.eqb (fst s) c && Z.eqb (fst s) (snd s)) (combine yt yp))))).
  2: { intros c _. do 2 f_equal. apply filter_ext. intros [a b]. cbn [fst snd]. destruct (Z.eqb_spec a c) as [->|]; cbn [andb]; auto. apply Z.eqb_sym. }
  apply class_sum; auto. intros [x y] H. apply Hc. eapply in_combine_l; exact H.
Qed.

(** *** Precision, recall and their means *)
Lemma seen_le_pred yt yp c : length yt = length yp -> (seen yt yp c c <= times yp c)%nat.
Proof. intros Hl. unfold seen. rewrite <- (col_total yt yp c Hl). lia. Qed.
Lemma seen_le_true yt yp c : length yt = length yp -> (seen yt yp c c <= times yt c)%nat.
Proof. intros Hl. unfold seen. rewrite <- (row_total yt yp c Hl). lia. Qed.
Lemma share_range (a b : nat) : (a <= b)%nat -> 0 <= (if Nat.eqb b 0 then 0 else INR a / INR b) <= 1.
Proof.
  intros H. destruct (Nat.eqb_spec b 0) as [->|Hb]; [lra|]. assert (0 < INR b) by (apply lt_0_INR; lia).
  pose proof (pos_INR a). pose proof (le_INR a b H). split.
  - apply Rmult_le_pos; [lra|]. left. now apply Rinv_0_lt_compat.
  - apply Rmult_le_reg_r with (INR b); auto. unfold Rdiv. rewrite Rmult_assoc, Rinv_l by lra. lra.
Qed.
Lemma precision_range yt yp c : length yt = length yp -> 0 <= precision_of yt yp c <= 1.
Proof. intros Hl. apply share_range, seen_le_pred, Hl. Qed.
Lemma recall_range yt yp c : length yt = length yp -> 0 <= recall_of yt yp c <= 1.
Proof. intros Hl. apply share_range, seen_le_true, Hl. Qed.

Lemma precision_R yt yp proba cm i c : made yt yp proba cm -> nth_error (cm_classes cm) i = Some c -> @class_precision RNum cm i = Ok (precision_of yt yp c).
Proof. intros H Hi. rewrite (precision_eq yt yp proba cm i c H Hi). unfold precision_of. f_equal. destruct (Nat.eqb _ 0); auto. now rewrite !nofnat_R. Qed.
Lemma recall_R yt yp proba cm i c : made yt yp proba cm -> nth_error (cm_classes cm) i = Some c -> @class_recall RNum cm i = Ok (recall_of yt yp c).
Proof. intros H Hi. rewrite (recall_eq yt yp proba cm i c H Hi). unfold recall_of. f_equal. destruct (Nat.eqb _ 0); auto. now rewrite !nofnat_R. Qed.
Lemma f1_R p r : @f1_of RNum p r = harmonic p r.
Proof.
  unfold f1_of, harmonic. rewrite nlit_R. cbn [neqb nadd nmul ndiv n0 RNum]. destruct (Reqb_spec (p + r) 0) as [E|E], (Req_EM_T (p + r) 0) as [E'|E']; try contradiction; auto.
  unR. field. exact E'.
Qed.

Lemma macro_R (f : nat -> res R) (v : Z -> R) cl : (forall i c, nth_error cl i = Some c -> f i = Ok (v c)) ->
  @macro RNum f (length cl) = Ok (Rsum (map v cl) / INR (length cl)).
Proof.
  intros H. unfold macro.
  assert (G : forall suf pre s, cl = pre ++ suf -> foldM (fun s i => let* x := f i in Ok (@nadd RNum s x)) s (seq (length pre) (length suf)) = Ok (s + Rsum (map v suf))).
  { induction suf as [|c suf IH]; intros pre s E; cbn [length seq foldM map].
    - cbn. f_equal. lra.
    - rewrite (H (length pre) c) by (rewrite E, nth_error_app2, Nat.sub_diag by lia; reflexivity). cbn [bind].
      specialize (IH (pre ++ [c]) (s + v c)). rewrite app_length in IH. cbn [length] in IH. rewrite Nat.add_1_r in IH.
      change (@nadd RNum s (v c)) with (s + v c). rewrite IH by (rewrite <- app_assoc; exact E). f_equal. change (Rsum (v c :: map v suf)) with (v c + Rsum (map v suf)). lra. }
  specialize (G cl [] 0 eq_refl). cbn [length] in G.
  match goal with |- bind ?m _ = _ => replace m with (Ok (0 + Rsum (map v cl))) by (symmetry; exact G) end.
  cbn [bind]. rewrite nofnat_R. cbn [ndiv RNum]. f_equal. unfold Rdiv. now rewrite Rplus_0_l.
Qed.

(** The harmonic mean is superadditive, hence the harmonic mean of means is at least the mean of
    harmonic means. *)
Lemma harmonic_scale k p r : 0 < k -> harmonic (k * p) (k * r) = k * harmonic p r.
Proof.
  intros Hk. unfold harmonic. destruct (Req_EM_T (k * p + k * r) 0) as [E|E], (Req_EM_T (p + r) 0) as [E'|E'].
  - lra.
  - exfalso. apply E'. apply Rmult_eq_reg_l with k; lra.
  - exfalso. apply E. replace (k * p + k * r) with (k * (p + r)) by ring. rewrite E'. lra.
  - field. split; auto.
Qed.
Lemma harmonic_super p1 r1 p2 r2 : 0 <= p1 -> 0 <= r1 -> 0 <= p2 -> 0 <= r2 -> harmonic p1 r1 + harmonic p2 r2 <= harmonic (p1 + p2) (r1 + r2).
Proof.
  intros A B C D. unfold harmonic. destruct (Req_EM_T (p1 + r1) 0) as [E1|E1], (Req_EM_T (p2 + r2) 0) as [E2|E2], (Req_EM_T (p1 + p2 + (r1 + r2)) 0) as [E|E];
    try (exfalso; lra).
  - lra.
  - assert (p1 = 0) by lra. assert (r1 = 0) by lra. subst. rewrite !Rplus_0_l. lra.
  - assert (p2 = 0) by lra. assert (r2 = 0) by lra. subst. rewrite !Rplus_0_r. lra.
  - assert (0 < p1 + r1) by lra. assert (0 < p2 + r2) by lra.
    assert (Q : 2 * (p1 + p2) * (r1 + r2) / (p1 + p2 + (r1 + r2)) - (2 * p1 * r1 / (p1 + r1) + 2 * p2 * r2 / (p2 + r2))
                = 2 * ((p1 * r2 - p2 * r1) * (p1 * r2 - p2 * r1)) * / ((p1 + p2 + (r1 + r2)) * (p1 + r1) * (p2 + r2))) by (field; lra).
    assert (0 <= 2 * ((p1 * r2 - p2 * r1) * (p1 * r2 - p2 * r1)) * / ((p1 + p2 + (r1 + r2)) * (p1 + r1) * (p2 + r2))).
    { apply Rmult_le_pos; [pose proof (sq_nonneg (p1 * r2 - p2 * r1)); lra|]. left. apply Rinv_0_lt_compat.
      apply Rmult_lt_0_compat; [apply Rmult_lt_0_compat; lra|lra]. }
    lra.
Qed.
Lemma harmonic_sum {A} (p r : A -> R) l : (forall x, In x l -> 0 <= p x /\ 0 <= r x) ->
  Rsum (map (fun x => harmonic (p x) (r x)) l) <= harmonic (Rsum (map p l)) (Rsum (map r l)).
Proof.
  induction l as [|x l IH]; intros H.
  - cbn. unfold harmonic. destruct (Req_EM_T (0 + 0) 0); lra.
  - cbn [map]. change (Rsum (?a :: ?m)) with (a + Rsum m). destruct (H x (or_introl eq_refl)) as [Hp Hr].
    assert (Hl : forall y, In y l -> 0 <= p y /\ 0 <= r y) by (intros; apply H; now right).
    specialize (IH Hl). pose proof (harmonic_super (p x) (r x) (Rsum (map p l)) (Rsum (map r l)) Hp Hr) as S.
    assert (0 <= Rsum (map p l)) by (apply Rsum_nonneg; intros y Hy; apply in_map_iff in Hy as [z [<- Hz]]; now apply Hl).
    assert (0 <= Rsum (map r l)) by (apply Rsum_nonneg; intros y Hy; apply in_map_iff in Hy as [z [<- Hz]]; now apply Hl).
    specialize (S ltac:(assumption) ltac:(assumption)). lra.
Qed.
Lemma harmonic_means {A} (p r : A -> R) l : l <> [] -> (forall x, In x l -> 0 <= p x /\ 0 <= r x) ->
  Rsum (map (fun x => harmonic (p x) (r x)) l) / INR (length l) <= harmonic (Rsum (map p l) / INR (length l)) (Rsum (map r l) / INR (length l)).
Proof.
  intros Hne H. assert (0 < INR (length l)) by (apply lt_0_INR; destruct l; [contradiction|cbn; lia]).
  assert (0 < / INR (length l)) by now apply Rinv_0_lt_compat. unfold Rdiv. rewrite !(Rmult_comm _ (/ INR (length l))), harmonic_scale by assumption.
  apply Rmult_le_compat_l; [lra|]. now apply harmonic_sum.
Qed.
Lemma harmonic_bounds p r : 0 <= p -> 0 <= r -> Rmin p r <= harmonic p r <= Rmax p r.
Proof.
  intros Hp Hr. unfold harmonic. destruct (Req_EM_T (p + r) 0) as [E|E].
  - assert (p = 0) by lra. assert (r = 0) by lra. subst. rewrite Rmin_left, Rmax_left by lra. lra.
  - assert (H : 0 < p + r) by lra. assert (Hi : 0 < / (p + r)) by now apply Rinv_0_lt_compat.
    assert (G1 : 2 * p * r / (p + r) - p = p * (r - p) * / (p + r)) by (field; lra).
    assert (G2 : 2 * p * r / (p + r) - r = r * (p - r) * / (p + r)) by (field; lra).
    assert (Q : forall a b, 0 <= a -> 0 <= b -> 0 <= a * b * / (p + r)) by (intros; apply Rmult_le_pos; [now apply Rmult_le_pos|lra]).
    unfold Rmin, Rmax. destruct (Rle_dec p r) as [L|L].
    + pose proof (Q p (r - p) Hp ltac:(lra)). pose proof (Q r (r - p) Hr ltac:(lra)). replace (r * (p - r)) with (- (r * (r - p))) in G2 by ring.
      rewrite Ropp_mult_distr_l_reverse in G2. lra.
    + pose proof (Q r (p - r) Hr ltac:(lra)). pose proof (Q p (p - r) Hp ltac:(lra)). replace (p * (r - p)) with (- (p * (p - r))) in G1 by ring.
      rewrite Ropp_mult_distr_l_reverse in G1. lra.
Qed.
