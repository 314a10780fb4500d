From Coq Require Import List Arith ZArith Bool Reals Lra Lia Permutation Sorted.
From Verif Require Import Base.Num Base.GoRes Base.RTac Base.GoSort Model.Metrics Spec.Ranking.
Import ListNotations.
Local Open Scope R_scope.

Notation cp l := (INR (length (pos_scores l))).
Notation cn l := (INR (length (neg_scores l))).

Lemma pos_app a b : pos_scores (a ++ b) = pos_scores a ++ pos_scores b.
Proof. unfold pos_scores. now rewrite filter_app, map_app. Qed.
Lemma neg_app a b : neg_scores (a ++ b) = neg_scores a ++ neg_scores b.
Proof. unfold neg_scores. now rewrite filter_app, map_app. Qed.
Lemma cp_app a b : cp (a ++ b) = cp a + cp b.
Proof. rewrite pos_app, app_length, plus_INR. reflexivity. Qed.
Lemma cn_app a b : cn (a ++ b) = cn a + cn b.
Proof. rewrite neg_app, app_length, plus_INR. reflexivity. Qed.

Lemma pair_sum_app_l a b qs : pair_sum (a ++ b) qs = pair_sum a qs + pair_sum b qs.
Proof. unfold pair_sum. now rewrite map_app, Rsum_app. Qed.
Lemma pair_sum_app_r ps a b : pair_sum ps (a ++ b) = pair_sum ps a + pair_sum ps b.
Proof.
  unfold pair_sum. rewrite <- Rsum_map_plus. apply Rsum_map_ext. intros p _.
  now rewrite map_app, Rsum_app.
Qed.
Lemma pair_sum_const ps qs c :
  (forall p q, In p ps -> In q qs -> pair_score p q = c) ->
  pair_sum ps qs = INR (length ps) * INR (length qs) * c.
Proof.
  intros H. unfold pair_sum.
  rewrite (Rsum_map_ext _ (fun _ => INR (length qs) * c)).
  - rewrite Rsum_map_const. ring.
  - intros p Hp. rewrite (Rsum_map_ext _ (fun _ => c)) by auto. apply Rsum_map_const.
Qed.

Lemma Rsum_swap {A B} (g : A -> B -> R) (la : list A) (lb : list B) :
  Rsum (map (fun a => Rsum (map (g a) lb)) la) = Rsum (map (fun b => Rsum (map (fun a => g a b) la)) lb).
Proof.
  induction la as [|a la IH]; cbn.
  - induction lb; cbn; lra.
  - rewrite IH, <- Rsum_map_plus. reflexivity.
Qed.

Lemma pair_sum_perm ps ps' qs qs' :
  Permutation ps ps' -> Permutation qs qs' -> pair_sum ps qs = pair_sum ps' qs'.
Proof.
  intros Hp Hq. unfold pair_sum.
  transitivity (Rsum (map (fun p => Rsum (map (fun q => pair_score p q) qs)) ps')).
  - apply Rsum_perm, Permutation_map, Hp.
  - apply Rsum_map_ext. intros p _. apply Rsum_perm, Permutation_map, Hq.
Qed.

Lemma filter_perm {A} (h : A -> bool) l l' : Permutation l l' -> Permutation (filter h l) (filter h l').
Proof.
  induction 1 as [|x a b _ IH|x y a|a b c _ IH1 _ IH2]; cbn.
  - constructor.
  - destruct (h x); [now apply perm_skip|exact IH].
  - destruct (h x), (h y); try reflexivity. apply perm_swap.
  - now transitivity (filter h b).
Qed.
Lemma pos_perm l l' : Permutation l l' -> Permutation (pos_scores l) (pos_scores l').
Proof. intros H. apply Permutation_map, filter_perm, H. Qed.
Lemma neg_perm l l' : Permutation l l' -> Permutation (neg_scores l) (neg_scores l').
Proof. intros H. apply Permutation_map, filter_perm, H. Qed.

(** ** The trapezoid sum *)
Definition seg (a b : R * R) : R := (snd b - snd a) * ((fst b + fst a) / 2).

Lemma trapezoid_cons acc (a b : R * R) (r : list (R * R)) :
  @trapezoid RNum acc (a :: b :: r) = @trapezoid RNum (acc + seg a b) (b :: r).
Proof. unfold seg. cbn. now replace (2 / 1) with 2 by lra. Qed.
Lemma trapezoid_acc pts acc : @trapezoid RNum acc pts = acc + @trapezoid RNum 0 pts.
Proof.
  revert acc. induction pts as [|a pts IH]; intros acc; [cbn; lra|].
  destruct pts as [|b r]; [cbn; lra|].
  rewrite !trapezoid_cons. rewrite IH. rewrite (IH (0 + _)). lra.
Qed.
Lemma trapezoid_snoc (pts : list (R * R)) (a b : R * R) :
  @trapezoid RNum 0 (pts ++ [a; b]) = @trapezoid RNum 0 (pts ++ [a]) + seg a b.
Proof.
  induction pts as [|x pts IH].
  - cbn [app]. rewrite trapezoid_cons. cbn. lra.
  - destruct pts as [|y pts].
    + cbn [app]. rewrite !trapezoid_cons. cbn. lra.
    + change ((x :: y :: pts) ++ [a; b]) with (x :: y :: (pts ++ [a; b])).
      change ((x :: y :: pts) ++ [a]) with (x :: y :: (pts ++ [a])).
      rewrite !trapezoid_cons.
      rewrite trapezoid_acc. rewrite (trapezoid_acc (y :: (pts ++ [a]))).
      change (y :: (pts ++ [a; b])) with ((y :: pts) ++ [a; b]).
      change (y :: (pts ++ [a])) with ((y :: pts) ++ [a]).
      rewrite IH. lra.
Qed.

Lemma pair_sum_gt ps qs : (forall p q, In p ps -> In q qs -> q < p) ->
  pair_sum ps qs = INR (length ps) * INR (length qs).
Proof.
  intros H. rewrite (pair_sum_const _ _ 1); [ring|]. intros p q Hp Hq.
  unfold pair_score. specialize (H p q Hp Hq). rdecide. reflexivity.
Qed.
Lemma pair_sum_lt ps qs : (forall p q, In p ps -> In q qs -> p < q) -> pair_sum ps qs = 0.
Proof.
  intros H. rewrite (pair_sum_const _ _ 0); [ring|]. intros p q Hp Hq.
  unfold pair_score. specialize (H p q Hp Hq). rdecide. reflexivity.
Qed.
Lemma pair_sum_eq ps qs : (forall p q, In p ps -> In q qs -> q = p) ->
  pair_sum ps qs = INR (length ps) * INR (length qs) / 2.
Proof.
  intros H. rewrite (pair_sum_const _ _ (1/2)); [field|]. intros p q Hp Hq.
  unfold pair_score. specialize (H p q Hp Hq). subst q. rdecide. reflexivity.
Qed.

Lemma in_pos l p : In p (pos_scores l) -> exists x, In x l /\ fst x = p.
Proof. intros H. apply in_map_iff in H as (x & <- & H). apply filter_In in H as [H _]. eauto. Qed.
Lemma in_neg l p : In p (neg_scores l) -> exists x, In x l /\ fst x = p.
Proof. intros H. apply in_map_iff in H as (x & <- & H). apply filter_In in H as [H _]. eauto. Qed.

Notation mw l := (pair_sum (pos_scores l) (neg_scores l)).

(** Adding a tie group below a prefix. *)
Lemma mw_group G E s :
  (forall x, In x G -> s < fst x) -> (forall x, In x E -> fst x = s) ->
  mw (G ++ E) = mw G + cn E * cp G + cn E * cp E / 2.
Proof.
  intros HG HE. rewrite pos_app, neg_app, pair_sum_app_l, !pair_sum_app_r.
  rewrite (pair_sum_gt (pos_scores G) (neg_scores E)).
  - rewrite (pair_sum_lt (pos_scores E) (neg_scores G)).
    + rewrite (pair_sum_eq (pos_scores E) (neg_scores E)); [field|].
      intros p q Hp Hq. apply in_pos in Hp as (x & Hx & <-). apply in_neg in Hq as (y & Hy & <-).
      now rewrite (HE x Hx), (HE y Hy).
    + intros p q Hp Hq. apply in_pos in Hp as (x & Hx & <-). apply in_neg in Hq as (y & Hy & <-).
      rewrite (HE x Hx). auto.
  - intros p q Hp Hq. apply in_pos in Hp as (x & Hx & <-). apply in_neg in Hq as (y & Hy & <-).
    rewrite (HE y Hy). auto.
Qed.

Lemma seg_group P Q G E s :
  P <> 0 -> Q <> 0 ->
  (forall x, In x G -> s < fst x) -> (forall x, In x E -> fst x = s) ->
  mw G / (P * Q) + seg (cp G / P, cn G / Q) (cp (G ++ E) / P, cn (G ++ E) / Q) = mw (G ++ E) / (P * Q).
Proof.
  intros HP HQ HG HE. rewrite (mw_group G E s) by assumption.
  rewrite cp_app, cn_app. unfold seg; cbn. field. auto.
Qed.

(** ** The main invariant *)
Lemma roc_points_area P Q : P <> 0 -> Q <> 0 -> forall ps G E s pts0,
  (forall x, In x G -> s < fst x) -> (forall x, In x E -> fst x = s) ->
  (forall x, In x ps -> fst x <= s) ->
  ordered (@score_desc RNum) ps ->
  cp (G ++ E ++ ps) = P -> cn (G ++ E ++ ps) = Q ->
  @trapezoid RNum 0 (pts0 ++ [(cp G / P, cn G / Q)]) = mw G / (P * Q) ->
  @trapezoid RNum 0
    (@roc_points RNum P Q ps (cp (G ++ E)) (cn (G ++ E)) s (pts0 ++ [(cp G / P, cn G / Q)]))
  = mw (G ++ E ++ ps) / (P * Q).
Proof.
  intros HP HQ ps. induction ps as [|[sc lb] ps IH]; intros G E s pts0 HG HE Hps Hord HcP HcN Htr.
  - cbn [roc_points]. rewrite <- app_assoc. cbn [app].
    unR. rewrite trapezoid_snoc, Htr. rewrite app_nil_r in *.
    rewrite <- (seg_group P Q G E s) by assumption.
    f_equal. f_equal. rewrite HcP, HcN. cbn. f_equal; field; auto.
  - cbn [roc_points]. cbn [neqb RNum].
    apply StronglySorted_inv in Hord as [Hord' Hall].
    assert (Hsc : sc <= s) by (apply (Hps (sc, lb)); now left).
    assert (Hrest : forall x, In x ps -> fst x <= sc).
    { intros x Hx. rewrite Forall_forall in Hall. specialize (Hall x Hx).
      unfold score_desc in Hall. cbn in Hall. rb. exact Hall. }
    assert (Hcnt : forall l, cp (l ++ [(sc, lb)]) = (if Reqb lb 1 then cp l + 1 else cp l) /\
                             cn (l ++ [(sc, lb)]) = (if Reqb lb 1 then cn l else cn l + 1)).
    { intros l. rewrite cp_app, cn_app. unfold pos_scores at 2, neg_scores at 2. cbn [filter snd].
      destruct (Reqb lb 1); cbn; lra. }
    destruct (Reqb_spec sc s) as [->|Hne]; cbn [negb].
    + (* same score: extend the tie group *)
      replace (G ++ E ++ (s, lb) :: ps) with (G ++ (E ++ [(s, lb)]) ++ ps) in *
        by (now rewrite <- !app_assoc).
      assert (HE' : forall x, In x (E ++ [(s, lb)]) -> fst x = s).
      { intros x Hx. apply in_app_iff in Hx as [Hx|[<-|[]]]; auto. }
      specialize (IH G (E ++ [(s, lb)]) s pts0 HG HE' Hrest Hord' HcP HcN Htr).
      destruct (Hcnt (G ++ E)) as [Hc1 Hc2]. rewrite <- app_assoc in Hc1, Hc2.
      rewrite Hc1, Hc2 in IH. cbn [n1 RNum]. destruct (Reqb lb 1); exact IH.
    + (* new score: close the group *)
      assert (Hlt : sc < s) by lra.
      replace (G ++ E ++ (sc, lb) :: ps) with ((G ++ E) ++ [(sc, lb)] ++ ps) in *
        by (now rewrite <- !app_assoc).
      assert (HG' : forall x, In x (G ++ E) -> sc < fst x).
      { intros x Hx. apply in_app_iff in Hx as [Hx|Hx];
          [specialize (HG x Hx)|specialize (HE x Hx)]; lra. }
      assert (HE' : forall x, In x [(sc, lb)] -> fst x = sc) by (intros x [<-|[]]; reflexivity).
      assert (Htr' : @trapezoid RNum 0
        ((pts0 ++ [(cp G / P, cn G / Q)]) ++ [(cp (G ++ E) / P, cn (G ++ E) / Q)])
        = mw (G ++ E) / (P * Q)).
      { rewrite <- app_assoc. cbn [app]. unR. rewrite trapezoid_snoc, Htr.
        now apply seg_group with (s := s). }
      specialize (IH (G ++ E) [(sc, lb)] sc (pts0 ++ [(cp G / P, cn G / Q)])
                     HG' HE' Hrest Hord' HcP HcN Htr').
      destruct (Hcnt (G ++ E)) as [Hc1 Hc2]. rewrite Hc1, Hc2 in IH.
      cbn [n1 RNum]. destruct (Reqb lb 1); exact IH.
Qed.

(** ** Counting *)
Lemma count_pos_R t p : length t = length p -> @count_pos RNum t = cp (combine p t).
Proof.
  unfold count_pos. cbn.
  assert (H : forall t p c, length t = length p ->
    fold_left (fun c y : R => if Reqb y 1 then c + 1 else c) t c = c + cp (combine p t)).
  { clear. induction t as [|y t IH]; intros [|x p] c Hl; try discriminate; [cbn; lra|].
    cbn [fold_left combine]. rewrite (IH p) by (now injection Hl).
    unfold pos_scores. cbn [filter snd]. destruct (Reqb y 1); cbn [negb map length]; rewrite ?S_INR; lra. }
  intros Hl. rewrite (H t p) by exact Hl. lra.
Qed.
Lemma count_neg_R t p : length t = length p -> @count_neg RNum t = cn (combine p t).
Proof.
  unfold count_neg. cbn.
  assert (H : forall t p c, length t = length p ->
    fold_left (fun c y : R => if Reqb y 1 then c else c + 1) t c = c + cn (combine p t)).
  { clear. induction t as [|y t IH]; intros [|x p] c Hl; try discriminate; [cbn; lra|].
    cbn [fold_left combine]. rewrite (IH p) by (now injection Hl).
    unfold neg_scores. cbn [filter snd]. destruct (Reqb y 1); cbn [negb map length]; rewrite ?S_INR; lra. }
  intros Hl. rewrite (H t p) by exact Hl. lra.
Qed.

Lemma all_binary_R t : @all_binary RNum t = true <-> (forall y, In y t -> y = 0 \/ y = 1).
Proof.
  unfold all_binary. rewrite forallb_forall. split; intros H y Hy; specialize (H y Hy).
  - apply orb_true_iff in H as [H|H]; cbn in H; rb; auto.
  - apply orb_true_iff. destruct H as [->| ->]; cbn; [left|right]; apply Reqb_true; reflexivity.
Qed.

Lemma checked_ok {N : Num} (t p : list N) : length t = length p -> t <> [] ->
  checked (Some t) (Some p) = Ok (t, p).
Proof.
  intros Hl Hne. unfold checked. destruct t; [easy|]. cbn [length Nat.eqb].
  rewrite <- Hl. cbn [length]. now rewrite Nat.eqb_refl.
Qed.

Lemma auc_R (sortf : list (R * R) -> list (R * R)) (t p : list R) :
  go_sort (@score_desc RNum) sortf ->
  length t = length p -> t <> [] -> (forall y, In y t -> y = 0 \/ y = 1) ->
  @auc RNum sortf (Some t) (Some p) =
  Ok (if (length (pos_scores (combine p t)) =? 0)%nat || (length (neg_scores (combine p t)) =? 0)%nat
      then 1 / 2 else mann_whitney (combine p t)).
Proof.
  intros Hs Hl Hne Hb. unfold auc. rewrite (@checked_ok RNum) by assumption. cbn [bind].
  apply all_binary_R in Hb. rewrite Hb. cbn [negb].
  rewrite (count_pos_R t p), (count_neg_R t p) by assumption. unR.
  set (l := combine p t). cbn [neqb RNum n0].
  assert (Hz : forall k, Reqb (INR k) 0 = (k =? 0)%nat).
  { intros [|k]; [apply Reqb_true; reflexivity|]. apply Reqb_false. apply not_0_INR. lia. }
  rewrite !Hz.
  destruct (_ || _) eqn:E; [unfold nhalf; cbn; f_equal; lra|].
  apply orb_false_iff in E as [EP EN]. apply Nat.eqb_neq in EP, EN.
  destruct (Hs l) as [Hp Ho]. unR. destruct (sortf l) as [|[s0 l0] r] eqn:Er.
  { exfalso. apply Permutation_sym, Permutation_nil in Hp. apply EP. now rewrite Hp. }
  f_equal. unfold mann_whitney.
  rewrite (pair_sum_perm _ _ _ _ (pos_perm _ _ Hp) (neg_perm _ _ Hp)).
  pose proof (Permutation_length (pos_perm _ _ Hp)) as HLP.
  pose proof (Permutation_length (neg_perm _ _ Hp)) as HLN.
  assert (HP : cp l <> 0) by now apply not_0_INR.
  assert (HQ : cn l <> 0) by now apply not_0_INR.
  pose proof (roc_points_area (cp l) (cn l) HP HQ ((s0, l0) :: r) [] [] (s0 + 1) []) as H.
  cbn [app] in H.
  change (INR (length (pos_scores []))) with 0 in H. change (INR (length (neg_scores []))) with 0 in H.
  replace (0 / cp l) with 0 in H by (field; assumption).
  replace (0 / cn l) with 0 in H by (field; assumption).
  apply H; try easy.
  - intros x Hx. apply StronglySorted_inv in Ho as [_ Hf]. rewrite Forall_forall in Hf.
    destruct Hx as [<-|Hx]; [cbn; lra|]. specialize (Hf x Hx). unfold score_desc in Hf. cbn in Hf. rb. apply Rle_trans with s0; [exact Hf|lra].
  - now rewrite HLP.
  - now rewrite HLN.
  - unfold pair_sum. cbn. field. auto.
Qed.

(** ** Consequences *)
Lemma pair_sum_bounds ps qs : 0 <= pair_sum ps qs <= INR (length ps) * INR (length qs).
Proof.
  assert (Hb : forall p q, 0 <= pair_score p q <= 1).
  { intros p q. unfold pair_score. repeat rcase; lra. }
  split.
  - apply Rsum_nonneg. intros x Hx. apply in_map_iff in Hx as (p & <- & _).
    apply Rsum_nonneg. intros y Hy. apply in_map_iff in Hy as (q & <- & _). apply Hb.
  - rewrite <- (Rmult_1_r (INR (length qs))). rewrite <- Rsum_map_const, <- Rsum_map_const.
    apply Rsum_le. intros p _. apply Rsum_le. intros q _. apply Hb.
Qed.

Lemma mann_whitney_bounds l : pos_scores l <> [] -> neg_scores l <> [] -> 0 <= mann_whitney l <= 1.
Proof.
  intros Hp Hn. unfold mann_whitney. pose proof (pair_sum_bounds (pos_scores l) (neg_scores l)) as [H1 H2].
  assert (0 < cp l) by (apply lt_0_INR; destruct (pos_scores l); [easy|cbn; lia]).
  assert (0 < cn l) by (apply lt_0_INR; destruct (neg_scores l); [easy|cbn; lia]).
  assert (0 < cp l * cn l) by now apply Rmult_lt_0_compat.
  split.
  - apply Rmult_le_pos; [exact H1|]. left. now apply Rinv_0_lt_compat.
  - apply Rmult_le_reg_r with (cp l * cn l); [assumption|].
    unfold Rdiv. rewrite Rmult_assoc, Rinv_l by lra. lra.
Qed.

Definition map_score (g : R -> R) (l : list (R * R)) : list (R * R) := map (fun x => (g (fst x), snd x)) l.

Lemma pos_map_score g l : pos_scores (map_score g l) = map g (pos_scores l).
Proof.
  unfold pos_scores, map_score. induction l as [|[s b] l IH]; [reflexivity|]. cbn.
  destruct (Reqb b 1); cbn; now rewrite IH.
Qed.
Lemma neg_map_score g l : neg_scores (map_score g l) = map g (neg_scores l).
Proof.
  unfold neg_scores, map_score. induction l as [|[s b] l IH]; [reflexivity|]. cbn.
  destruct (Reqb b 1); cbn; now rewrite IH.
Qed.

Lemma pair_sum_map (g : R -> R) (ps qs : list R) :
  pair_sum (map g ps) (map g qs) =
  Rsum (map (fun p => Rsum (map (fun q => pair_score (g p) (g q)) qs)) ps).
Proof.
  unfold pair_sum. rewrite map_map. apply Rsum_map_ext. intros p _. now rewrite map_map.
Qed.

Lemma mann_whitney_mono g l : (forall x y, x < y -> g x < g y) ->
  mann_whitney (map_score g l) = mann_whitney l.
Proof.
  intros Hg. unfold mann_whitney. rewrite pos_map_score, neg_map_score, !map_length. f_equal.
  rewrite pair_sum_map. unfold pair_sum. apply Rsum_map_ext. intros p _. apply Rsum_map_ext.
  intros q _. unfold pair_score.
  destruct (Rtotal_order q p) as [H|[->|H]].
  - pose proof (Hg _ _ H). rdecide; reflexivity.
  - rdecide; reflexivity.
  - pose proof (Hg _ _ H). rdecide; reflexivity.
Qed.

Lemma mann_whitney_neg l : pos_scores l <> [] -> neg_scores l <> [] ->
  mann_whitney (map_score Ropp l) = 1 - mann_whitney l.
Proof.
  intros Hp Hn. unfold mann_whitney. rewrite pos_map_score, neg_map_score, !map_length.
  rewrite pair_sum_map.
  assert (E : Rsum (map (fun p => Rsum (map (fun q => pair_score (- p) (- q)) (neg_scores l))) (pos_scores l))
            = cp l * cn l - pair_sum (pos_scores l) (neg_scores l)).
  { unfold pair_sum. rewrite <- (Rmult_1_r (cn l)), <- Rsum_map_const, <- Rsum_map_const, <- Rsum_map_minus.
    apply Rsum_map_ext. intros p _. rewrite <- Rsum_map_minus. apply Rsum_map_ext. intros q _.
    unfold pair_score. destruct (Rtotal_order q p) as [H|[->|H]]; rdecide; lra. }
  rewrite E. field. split; apply not_0_INR; intros H; apply length_zero_iff_nil in H; easy.
Qed.
