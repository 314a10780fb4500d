(** C08-C14 - package metrics.  The theorems at [RNum] are about exact
    arithmetic; rounding of float64 is not covered by them. *)
From Coq Require Import List Arith ZArith Bool Reals Lra Lia Permutation Sorted.
From Verif Require Import Base.Num Base.GoRes Base.RTac Base.GoSort Model.Metrics Spec.Ranking Spec.Stats
  Proofs.AucP Proofs.RegrP Proofs.RankP.
Import ListNotations.
Local Open Scope R_scope.

(** ** C08: AUC is the Mann-Whitney probability, whatever order the unstable sort
    gives to equal scores. *)
Theorem C08_auc_mann_whitney : forall (sortf : list (R * R) -> list (R * R)) (t p : list R),
  go_sort (@score_desc RNum) sortf ->
  length t = length p -> (forall y, In y t -> y = 0 \/ y = 1) -> In 0 t -> In 1 t ->
  @auc RNum sortf (Some t) (Some p) = Ok (mann_whitney (combine p t)).
Proof.
  intros sortf t p Hs Hl Hb H0 H1. rewrite auc_R; try assumption; [|intros ->; easy].
  assert (HP : pos_scores (combine p t) <> []).
  { apply In_nth with (d := 0) in H1 as (i & Hi & E). intros Hn.
    assert (Hin : In (nth i p 0, 1) (combine p t)).
    { rewrite <- E. rewrite <- combine_nth by easy. apply nth_In. rewrite combine_length. lia. }
    assert (Hin2 : In (nth i p 0) (pos_scores (combine p t))).
    { apply in_map_iff. exists (nth i p 0, 1). split; [reflexivity|]. apply filter_In. split; [exact Hin|].
      now apply Reqb_true. }
    rewrite Hn in Hin2. easy. }
  assert (HN : neg_scores (combine p t) <> []).
  { apply In_nth with (d := 0) in H0 as (i & Hi & E). intros Hn.
    assert (Hin : In (nth i p 0, 0) (combine p t)).
    { rewrite <- E at 2. rewrite <- combine_nth by easy. apply nth_In. rewrite combine_length. lia. }
    assert (Hin2 : In (nth i p 0) (neg_scores (combine p t))).
    { apply in_map_iff. exists (nth i p 0, 0). split; [reflexivity|]. apply filter_In. split; [exact Hin|].
      cbn. apply negb_true_iff, Reqb_false. lra. }
    rewrite Hn in Hin2. easy. }
  destruct (pos_scores (combine p t)); [easy|]. destruct (neg_scores (combine p t)); [easy|]. reflexivity.
Qed.
Print Assumptions C08_auc_mann_whitney.

(** One class missing: one half. *)
Theorem C08_auc_one_class : forall (sortf : list (R * R) -> list (R * R)) (t p : list R) c,
  go_sort (@score_desc RNum) sortf ->
  length t = length p -> t <> [] -> (c = 0 \/ c = 1) -> (forall y, In y t -> y = c) ->
  @auc RNum sortf (Some t) (Some p) = Ok (1 / 2).
Proof.
  intros sortf t p c Hs Hl Hne Hc Hall. rewrite auc_R; try assumption.
  2:{ intros y Hy. rewrite (Hall y Hy). exact Hc. }
  assert (Hsnd : forall x, In x (combine p t) -> snd x = c).
  { intros [a b] Hx. apply in_combine_r in Hx. now apply Hall. }
  destruct Hc as [->| ->].
  - replace (pos_scores (combine p t)) with (@nil R); [reflexivity|]. symmetry.
    unfold pos_scores. destruct (filter _ _) as [|x l] eqn:E; [reflexivity|].
    assert (Hx : In x (filter (fun x => Reqb (snd x) 1) (combine p t))) by (rewrite E; now left).
    apply filter_In in Hx as [Hx H1]. rb. rewrite (Hsnd x Hx) in H1. lra.
  - replace (neg_scores (combine p t)) with (@nil R).
    + rewrite orb_true_r. reflexivity.
    + symmetry. unfold neg_scores. destruct (filter _ _) as [|x l] eqn:E; [reflexivity|].
      assert (Hx : In x (filter (fun x => negb (Reqb (snd x) 1)) (combine p t))) by (rewrite E; now left).
      apply filter_In in Hx as [Hx H1]. apply negb_true_iff in H1. rb. rewrite (Hsnd x Hx) in H1. lra.
Qed.
Print Assumptions C08_auc_one_class.

(** Bad inputs are errors, never a number (any arithmetic). *)
Theorem C08_auc_rejects : forall (N : Num) sortf (yt yp : vec N) v,
  auc sortf yt yp = Ok v ->
  exists t p, yt = Some t /\ yp = Some p /\ length t = length p /\ t <> [] /\
  forall y, In y t -> neqb y n0 = true \/ neqb y n1 = true.
Proof.
  intros N sortf [t|] [p|] v H; try discriminate. unfold auc, checked in H.
  destruct (Nat.eqb_spec (length t) 0) as [E|E]; [discriminate|].
  destruct (Nat.eqb_spec (length t) (length p)) as [E2|E2]; [|discriminate]. cbn in H.
  destruct (all_binary t) eqn:Eb; [|discriminate].
  exists t, p. repeat split; try assumption. - intros ->; easy.
  - intros y Hy. unfold all_binary in Eb. rewrite forallb_forall in Eb.
    apply orb_true_iff. now apply Eb.
Qed.
Print Assumptions C08_auc_rejects.

Definition desc_sort : list (R * R) -> list (R * R) := isort (@score_desc RNum).
Lemma desc_sort_ok : go_sort (@score_desc RNum) desc_sort.
Proof.
  apply isort_go_sort.
  - intros a b H. unfold score_desc in *. cbn in *. rb. apply Rltb_false. now left.
  - intros a b c H1 H2. unfold score_desc in *. cbn in *. rb. apply Rltb_false. cbn in *. lra.
Qed.

(** Four items with a tie between a positive and a negative one: 3.5 of 4 pairs. *)
Example C08_example :
  @auc RNum desc_sort (Some [1; 0; 1; 0]) (Some [3; 2; 2; 1]) = Ok (7 / 8).
Proof.
  rewrite (C08_auc_mann_whitney _ _ _ desc_sort_ok); try reflexivity.
  - f_equal. unfold mann_whitney, pos_scores, neg_scores. cbn [combine filter snd].
    rdecide. cbn. unfold pair_sum, pair_score. cbn. rdecide. field.
  - intros y [<-|[<-|[<-|[<-|[]]]]]; auto.
  - cbn; auto.
  - cbn; auto.
Qed.

(** ** C09: range, antisymmetry, monotone invariance. *)
Theorem C09_auc_range : forall (sortf : list (R * R) -> list (R * R)) (t p : list R) a,
  go_sort (@score_desc RNum) sortf -> @auc RNum sortf (Some t) (Some p) = Ok a -> 0 <= a <= 1.
Proof.
  intros sortf t p a Hs H.
  destruct (C08_auc_rejects _ _ _ _ _ H) as (t' & p' & Et & Ep & Hl & Hne & Hb).
  injection Et as <-. injection Ep as <-.
  rewrite auc_R in H; try assumption.
  - injection H as <-. destruct (_ || _) eqn:E; [lra|].
    apply orb_false_iff in E as [E1 E2]. apply Nat.eqb_neq in E1, E2.
    apply mann_whitney_bounds; intros E; [apply E1|apply E2]; now rewrite E.
  - intros y Hy. destruct (Hb y Hy) as [E|E]; cbn in E; rb; auto.
Qed.
Print Assumptions C09_auc_range.

Theorem C09_auc_negated_scores : forall (sortf : list (R * R) -> list (R * R)) (t p : list R) a,
  go_sort (@score_desc RNum) sortf -> @auc RNum sortf (Some t) (Some p) = Ok a ->
  @auc RNum sortf (Some t) (Some (map Ropp p)) = Ok (1 - a).
Proof.
  intros sortf t p a Hs H.
  destruct (C08_auc_rejects _ _ _ _ _ H) as (t' & p' & Et & Ep & Hl & Hne & Hb).
  injection Et as <-. injection Ep as <-.
  assert (Hb' : forall y, In y t -> y = 0 \/ y = 1)
    by (intros y Hy; destruct (Hb y Hy) as [E|E]; cbn in E; rb; auto).
  rewrite auc_R in H by assumption. rewrite auc_R; try assumption; [|now rewrite map_length].
  assert (E : combine (map Ropp p) t = map_score Ropp (combine p t)).
  { clear. revert t. induction p as [|x p IH]; intros [|y t]; try reflexivity. cbn. now rewrite IH. }
  rewrite E, pos_map_score, neg_map_score, !map_length.
  injection H as <-. destruct (_ || _) eqn:Eo; [f_equal; lra|].
  apply orb_false_iff in Eo as [E1 E2]. apply Nat.eqb_neq in E1, E2.
  f_equal. apply mann_whitney_neg; intros E'; [apply E1|apply E2]; now rewrite E'.
Qed.
Print Assumptions C09_auc_negated_scores.

Theorem C09_auc_monotone_invariant :
  forall (sortf : list (R * R) -> list (R * R)) (t p : list R) (g : R -> R),
  go_sort (@score_desc RNum) sortf -> (forall x y, x < y -> g x < g y) ->
  length t = length p -> t <> [] -> (forall y, In y t -> y = 0 \/ y = 1) ->
  @auc RNum sortf (Some t) (Some (map g p)) = @auc RNum sortf (Some t) (Some p).
Proof.
  intros sortf t p g Hs Hg Hl Hne Hb. rewrite !auc_R; try assumption; [|now rewrite map_length].
  assert (E : combine (map g p) t = map_score g (combine p t)).
  { clear. revert t. induction p as [|x p IH]; intros [|y t]; try reflexivity. cbn. now rewrite IH. }
  rewrite E, pos_map_score, neg_map_score, !map_length, mann_whitney_mono by exact Hg. reflexivity.
Qed.
Print Assumptions C09_auc_monotone_invariant.

Example C09_example :
  @auc RNum desc_sort (Some [1; 0; 1; 0]) (Some (map Ropp [3; 2; 2; 1])) = Ok (1 / 8).
Proof.
  rewrite (C09_auc_negated_scores _ _ _ _ desc_sort_ok C08_example). f_equal. lra.
Qed.

(** ** C10: accuracy. *)
(** For every arithmetic, in particular doubles: the error rate is the number of
    positions whose labels differ, divided by the length. *)
Theorem C10_error_counts : forall (N : Num) (t p : list N), length t = length p -> t <> [] ->
  exists wrong, 
  wrong = length (filter (fun i => negb (neqb (nth i t n0) (nth i p n0))) (seq 0 (length t))) /\
  classification_error (Some t) (Some p) = Ok (ndiv (nofnat wrong) (nofnat (length t))) /\
  accuracy (Some t) (Some p) = Ok (nsub n1 (ndiv (nofnat wrong) (nofnat (length t)))).
Proof.
  intros N t p Hl Hne. eexists; split; [reflexivity|].
  assert (E : mismatches t p = length (filter (fun i => negb (neqb (nth i t n0) (nth i p n0))) (seq 0 (length t)))).
  { clear Hne. unfold mismatches. revert p Hl. induction t as [|x t IH]; intros [|y p] Hl; try discriminate; [reflexivity|].
    cbn [combine filter length seq nth fst snd]. rewrite <- seq_shift.
    assert (F : forall (h : nat -> bool) l, length (filter h (map S l)) = length (filter (fun i => h (S i)) l)).
    { clear. intros h l. induction l as [|a l IH]; [reflexivity|]. cbn. destruct (h (S a)); cbn; now rewrite IH. }
    injection Hl as Hl. specialize (IH p Hl).
    destruct (negb (neqb x y)); cbn [length]; rewrite F; cbn [nth]; rewrite IH; reflexivity. }
  unfold accuracy, classification_error. rewrite checked_ok by assumption. cbn [bind].
  rewrite E. split; reflexivity.
Qed.
Print Assumptions C10_error_counts.

Theorem C10_rejects : forall (N : Num) (yt yp : vec N),
  (forall t p, yt = Some t -> yp = Some p -> length t <> length p \/ t = []) ->
  (exists e, classification_error yt yp = Err e) /\ (exists e, accuracy yt yp = Err e).
Proof.
  intros N [t|] [p|] H; try (split; eexists; reflexivity).
  unfold accuracy, classification_error, checked.
  destruct (H t p eq_refl eq_refl) as [E| ->]; [|split; eexists; reflexivity].
  destruct (Nat.eqb (length t) 0); [split; eexists; reflexivity|].
  apply Nat.eqb_neq in E. rewrite E. split; eexists; reflexivity.
Qed.
Print Assumptions C10_rejects.

Theorem C10_complementary : forall (t p : list R), length t = length p -> t <> [] ->
  exists a e, @accuracy RNum (Some t) (Some p) = Ok a /\
  @classification_error RNum (Some t) (Some p) = Ok e /\
  a + e = 1 /\ 0 <= a <= 1 /\ 0 <= e <= 1 /\
  a = INR (length (filter (fun ab => Reqb (fst ab) (snd ab)) (combine t p))) / INR (length t) /\
  (e = 0 <-> t = p).
Proof.
  intros t p Hl Hne. unfold accuracy, classification_error. rewrite (@checked_ok RNum) by assumption.
  cbn [bind]. rewrite !nofnat_R. eexists; eexists. split; [reflexivity|]. split; [reflexivity|].
  pose proof (len_pos t Hne) as Hpos. pose proof (@agree_mismatch RNum t p Hl) as Ham.
  apply (f_equal INR) in Ham. rewrite plus_INR in Ham.
  change (INR (length (filter (fun ab => Reqb (fst ab) (snd ab)) (combine t p)))) with
    (INR (@agreements RNum t p)).
  set (A := INR (@agreements RNum t p)) in *. set (M := INR (@mismatches RNum t p)) in *.
  unR. set (n := INR (length t)) in *.
  assert (HA : 0 <= A) by apply pos_INR. assert (HM : 0 <= M) by apply pos_INR.
  cbn [nsub n1 ndiv RNum].
  assert (Ea : 1 - M / n = A / n) by (replace M with (n - A) by lra; field; lra).
  assert (0 <= A / n) by now apply div_nonneg. assert (0 <= M / n) by now apply div_nonneg.
  repeat split; try lra.
  - intros E. apply div_zero_iff in E; [|exact Hpos].
    apply combine_zero_eq; [exact Hl|]. intros ab Hab.
    unfold M in E. replace 0 with (INR 0) in E by reflexivity. apply INR_eq in E.
    apply length_zero_iff_nil in E.
    destruct (Req_EM_T (fst ab) (snd ab)) as [Eq|Ne]; [exact Eq|exfalso].
    apply (@in_nil (RNum * RNum) ab). rewrite <- E.
    apply filter_In. split; [exact Hab|]. apply negb_true_iff. now apply Reqb_false.
  - intros ->. replace M with 0; [unfold Rdiv; lra|]. unfold M, mismatches.
    destruct (filter _ _) as [|x l] eqn:E; [reflexivity|]. exfalso.
    pose proof (in_eq x l) as Hin. rewrite <- E in Hin.
    apply filter_In in Hin as [Hin Hx]. apply combine_same in Hin. apply negb_true_iff in Hx. cbn in Hx. rb.
    now apply Hx.
Qed.
Print Assumptions C10_complementary.

Example C10_example :
  @classification_error RNum (Some [0; 1; 2; 1; 0]) (Some [0; 1; 1; 1; 0]) = Ok (1 / 5) /\
  @accuracy RNum (Some [0; 1; 2; 1; 0]) (Some [0; 1; 1; 1; 0]) = Ok (1 - 1 / 5).
Proof.
  unfold accuracy, classification_error. cbn [checked length Nat.eqb negb bind].
  unfold mismatches. cbn [combine filter fst snd neqb RNum]. rdecide. cbn [negb length].
  rewrite !nofnat_R. cbn. split; f_equal; lra.
Qed.

(** ** C11: regression errors. *)
Theorem C11_mse : forall (t p : list R), length t = length p -> t <> [] -> exists m,
  @mse RNum (Some t) (Some p) = Ok m /\ @mse RNum (Some p) (Some t) = Ok m /\
  m = Rsum (map (fun ab => (fst ab - snd ab) * (fst ab - snd ab)) (combine t p)) / INR (length t) /\
  0 <= m /\ (m = 0 <-> t = p).
Proof.
  intros t p Hl Hne. destruct (mse_props t p Hl Hne) as (m & H1 & H2 & H3 & H4).
  exists m. repeat split; try assumption; try (now apply H4).
  rewrite mse_R in H1 by assumption. now injection H1.
Qed.
Print Assumptions C11_mse.

Theorem C11_rmse : forall (t p : list R), length t = length p -> t <> [] -> exists m s,
  @rmse RNum (Some t) (Some p) = Ok m /\ @rmse RNum (Some p) (Some t) = Ok m /\
  @mse RNum (Some t) (Some p) = Ok s /\ m * m = s /\ 0 <= m /\ (m = 0 <-> t = p).
Proof. exact rmse_props. Qed.
Print Assumptions C11_rmse.

Theorem C11_mae : forall (t p : list R), length t = length p -> t <> [] -> exists m,
  @mae RNum (Some t) (Some p) = Ok m /\ @mae RNum (Some p) (Some t) = Ok m /\
  m = Rsum (map (fun ab => Rabs (fst ab - snd ab)) (combine t p)) / INR (length t) /\
  0 <= m /\ (m = 0 <-> t = p).
Proof.
  intros t p Hl Hne. destruct (mae_props t p Hl Hne) as (m & H1 & H2 & H3 & H4).
  exists m. repeat split; try assumption; try (now apply H4).
  rewrite mae_R in H1 by assumption. now injection H1.
Qed.
Print Assumptions C11_mae.

Theorem C11_mae_le_rmse : forall (t p : list R) a r,
  @mae RNum (Some t) (Some p) = Ok a -> @rmse RNum (Some t) (Some p) = Ok r -> a <= r.
Proof. exact mae_le_rmse. Qed.
Print Assumptions C11_mae_le_rmse.

(** Mismatch or emptiness is an error; these functions have no nil check, so a
    nil vector panics. *)
Theorem C11_rejects : forall (N : Num) (t p : list N), length t <> length p \/ t = [] ->
  exists e, mse (Some t) (Some p) = Err e /\ rmse (Some t) (Some p) = Err e /\
            mae (Some t) (Some p) = Err e /\ mse None (Some p) = Panic.
Proof.
  intros N t p H. unfold rmse, mse, mae, rchecked.
  destruct H as [E| ->]; [|eexists; repeat split; reflexivity].
  destruct (Nat.eqb (length t) 0); [eexists; repeat split; reflexivity|].
  assert (E' : Nat.eqb (length p) (length t) = false) by (apply Nat.eqb_neq; lia).
  rewrite E'. eexists; repeat split; reflexivity.
Qed.
Print Assumptions C11_rejects.

Example C11_example :
  @mse RNum (Some [1; 2]) (Some [2; 4]) = Ok (5 / 2) /\ @mae RNum (Some [1; 2]) (Some [2; 4]) = Ok (3 / 2).
Proof.
  rewrite mse_R, mae_R by easy. unfold sqdiff, absdiff. cbn. split; f_equal; [lra|].
  rewrite !Rabs_left1 by lra. lra.
Qed.

(** ** C12: R2 and explained variance. *)
Theorem C12_r2 : forall (t p : list R) x y, length t = length p -> In x t -> In y t -> x <> y ->
  exists r e, @r2_score RNum (Some t) (Some p) = Ok r /\
  @explained_variance_score RNum (Some t) (Some p) = Ok e /\
  r <= 1 /\ (r = 1 <-> p = t) /\ r <= e /\ e <= 1.
Proof. exact r2_props. Qed.
Print Assumptions C12_r2.

(** The values, in terms of means and variances. *)
Definition residuals (t p : list R) : list R := map (fun ab => fst ab - snd ab) (combine t p).
Theorem C12_values : forall (t p : list R) x y, length t = length p -> In x t -> In y t -> x <> y ->
  @r2_score RNum (Some t) (Some p) =
    Ok (1 - mean_of (map (fun d => d * d) (residuals t p)) / var_of t) /\
  @explained_variance_score RNum (Some t) (Some p) = Ok (1 - var_of (residuals t p) / var_of t).
Proof.
  intros t p x y Hl Hx Hy Hxy. assert (Hne : t <> []) by (intros ->; easy).
  pose proof (tss_pos t x y Hx Hy Hxy) as Ht. pose proof (len_pos t Hne) as Hn.
  assert (Ev : var_of t = tss t / INR (length t)).
  { unfold var_of. unfold mean_of at 1. rewrite map_length. reflexivity. }
  assert (Hc : length (combine t p) = length t) by (rewrite combine_length; lia).
  rewrite r2_R, evs_R by assumption. cbv zeta.
  assert (E1 : Reqb (tss t) 0 = false) by (apply Reqb_false; lra).
  assert (E2 : Reqb (tss t / INR (length t)) 0 = false).
  { apply Reqb_false. intros H. apply div_zero_iff in H; lra. }
  rewrite E1, E2, Ev. unfold residuals. split; apply (f_equal (fun z : R => @Ok R (1 - z))).
  - unfold mean_of. rewrite !map_length, Hc, map_map. fold sqdiff. field. split; lra.
  - unfold var_of, mean_of. rewrite !map_length, Hc, !map_map. reflexivity.
Qed.
Print Assumptions C12_values.

Theorem C12_mean_prediction : forall (t : list R) x y, In x t -> In y t -> x <> y ->
  @r2_score RNum (Some t) (Some (repeat (Rsum t / INR (length t)) (length t))) = Ok 0.
Proof. exact r2_mean. Qed.
Print Assumptions C12_mean_prediction.

Theorem C12_constant_target : forall (t p : list R) c,
  length t = length p -> t <> [] -> (forall y, In y t -> y = c) ->
  (exists e, @r2_score RNum (Some t) (Some p) = Err e) /\
  (exists e, @explained_variance_score RNum (Some t) (Some p) = Err e).
Proof.
  intros t p c Hl Hne Hc. destruct (r2_constant t p c Hl Hne Hc) as [-> ->]. split; eexists; reflexivity.
Qed.
Print Assumptions C12_constant_target.

Example C12_example : @r2_score RNum (Some [1; 3]) (Some [2; 4]) = Ok 0 /\
  @explained_variance_score RNum (Some [1; 3]) (Some [2; 4]) = Ok 1.
Proof.
  rewrite r2_R, evs_R by easy. unfold tss, avg, sqdiff. cbn. rdecide.
  split; f_equal; field.
Qed.

(** ** C13: NDCG. *)
Theorem C13_value : forall (s1 s2 : list (R * R) -> list (R * R)) (t p : list R) (k : nat),
  length t = length p -> t <> [] -> (forall r, In r t -> 0 <= r) -> (0 < k)%nat ->
  let ranked := map snd (s1 (combine p t)) in
  let ideal := map snd (s2 (combine t t)) in
  let k' := Nat.min k (length t) in
  dcg_spec 0 k' ideal <> 0 ->
  @ndcg RNum s1 s2 (Some t) (Some p) (Z.of_nat k) = Ok (dcg_spec 0 k' ranked / dcg_spec 0 k' ideal).
Proof.
  intros s1 s2 t p k Hl Hne Hr Hk ranked ideal k' Hi. rewrite ndcg_ok; try assumption; [|lia].
  assert (E : k_of (length t) (Z.of_nat k) = k').
  { unfold k_of, k'. destruct (Z.eqb_spec (Z.of_nat k) (-1)); [lia|].
    destruct (Z.ltb_spec (Z.of_nat (length t)) (Z.of_nat k)); cbn; lia. }
  rewrite E. fold ranked. fold ideal. cbv zeta. apply Reqb_false in Hi. now rewrite Hi.
Qed.
Print Assumptions C13_value.

Theorem C13_range : forall (s1 s2 : list (R * R) -> list (R * R)) (t p : list R) (k : Z),
  go_sort (@score_desc RNum) s1 -> go_sort (@rel_desc RNum) s2 ->
  length t = length p -> t <> [] -> (forall r, In r t -> 0 <= r) -> (k = -1 \/ 0 < k)%Z ->
  exists v, @ndcg RNum s1 s2 (Some t) (Some p) k = Ok v /\ 0 <= v <= 1.
Proof. exact ndcg_range. Qed.
Print Assumptions C13_range.

Theorem C13_ideal_ranking : forall (s1 s2 : list (R * R) -> list (R * R)) (t p : list R) (k : Z),
  go_sort (@score_desc RNum) s1 -> go_sort (@rel_desc RNum) s2 ->
  length t = length p -> t <> [] -> (forall r, In r t -> 0 <= r) -> (k = -1 \/ 0 < k)%Z ->
  (exists r, In r t /\ 0 < r) ->
  (forall a b, In a (combine p t) -> In b (combine p t) -> snd b < snd a -> fst b < fst a) ->
  @ndcg RNum s1 s2 (Some t) (Some p) k = Ok 1.
Proof. exact ndcg_ideal. Qed.
Print Assumptions C13_ideal_ranking.

Theorem C13_no_relevant : forall (s1 s2 : list (R * R) -> list (R * R)) (t p : list R) (k : Z),
  go_sort (@rel_desc RNum) s2 ->
  length t = length p -> t <> [] -> (forall r, In r t -> r = 0) -> (k = -1 \/ 0 < k)%Z ->
  @ndcg RNum s1 s2 (Some t) (Some p) k = Ok 0.
Proof. exact ndcg_zero. Qed.
Print Assumptions C13_no_relevant.

(** Large k and k = -1 mean "all items"; other non-positive k and negative
    relevances are errors (any arithmetic). *)
Theorem C13_k : forall (N : Num) s1 s2 (t p : list N) (k : Z),
  ((Z.of_nat (length t) <= k)%Z \/ k = (-1)%Z ->
   t <> [] -> ndcg s1 s2 (Some t) (Some p) k = ndcg s1 s2 (Some t) (Some p) (Z.of_nat (length t))) /\
  ((k <= 0)%Z -> k <> (-1)%Z -> exists e, ndcg s1 s2 (Some t) (Some p) k = Err e) /\
  ((exists r, In r t /\ nlt r n0 = true) -> exists e, ndcg s1 s2 (Some t) (Some p) k = Err e).
Proof.
  intros N s1 s2 t p k. unfold ndcg, checked.
  destruct (Nat.eqb_spec (length t) 0) as [E0|E0].
  { repeat split; intros; cbn; try (eexists; reflexivity). }
  destruct (Nat.eqb (length t) (length p)); cbn [negb bind].
  2:{ repeat split; intros; cbn; try (eexists; reflexivity). }
  repeat split.
  - intros Hk Hne.
    assert (E1 : ((Z.of_nat (length t) <=? 0)%Z && negb (Z.of_nat (length t) =? -1)%Z)%bool = false)
      by (destruct (Z.leb_spec (Z.of_nat (length t)) 0); [lia|reflexivity]).
    assert (E2 : ((k <=? 0)%Z && negb (k =? -1)%Z)%bool = false).
    { destruct Hk as [Hk| ->]; [|reflexivity]. destruct (Z.leb_spec k 0); [lia|reflexivity]. }
    rewrite E1, E2.
    replace (if ((k =? -1)%Z || (Z.of_nat (length t) <? k)%Z)%bool then length t else Z.to_nat k) with (length t).
    2:{ destruct (Z.eqb_spec k (-1)), (Z.ltb_spec (Z.of_nat (length t)) k); cbn; lia. }
    replace (if ((Z.of_nat (length t) =? -1)%Z || (Z.of_nat (length t) <? Z.of_nat (length t))%Z)%bool
             then length t else Z.to_nat (Z.of_nat (length t))) with (length t).
    2:{ destruct (_ || _); lia. }
    reflexivity.
  - intros Hk1 Hk2. apply Z.leb_le in Hk1. apply Z.eqb_neq in Hk2. rewrite Hk1, Hk2. eexists; reflexivity.
  - intros (r & Hr & Hlt). destruct (_ && _)%bool; [eexists; reflexivity|].
    assert (E : existsb (fun r : N => nlt r n0) t = true) by (apply existsb_exists; eauto).
    rewrite E. eexists; reflexivity.
Qed.
Print Assumptions C13_k.

Definition rel_sort : list (R * R) -> list (R * R) := isort (@rel_desc RNum).
Lemma rel_sort_ok : go_sort (@rel_desc RNum) rel_sort.
Proof.
  apply isort_go_sort.
  - intros a b H. unfold rel_desc in *. cbn in *. rb. apply Rltb_false. now left.
  - intros a b c H1 H2. unfold rel_desc in *. cbn in *. rb. apply Rltb_false. cbn in *. lra.
Qed.
Example C13_example :
  @ndcg RNum desc_sort rel_sort (Some [0; 3; 1]) (Some [1/10; 9/10; 5/10]) 2 = Ok 1.
Proof.
  apply ndcg_ideal; try exact desc_sort_ok; try exact rel_sort_ok; try easy; try lia.
  - intros r [<-|[<-|[<-|[]]]]; lra.
  - exists 3. split; [cbn; auto|lra].
  - intros a b [<-|[<-|[<-|[]]]] [<-|[<-|[<-|[]]]]; cbn; lra.
Qed.

(** ** C14: average precision. *)
Theorem C14_value : forall (s : list (R * R) -> list (R * R)) (t p : list R),
  go_sort (@score_desc RNum) s ->
  length t = length p -> t <> [] -> (forall y, In y t -> y = 0 \/ y = 1) -> In 1 t ->
  @average_precision RNum s (Some t) (Some p) = Ok (ap_spec (map snd (s (combine p t)))).
Proof. exact ap_value. Qed.
Print Assumptions C14_value.

Theorem C14_range : forall (s : list (R * R) -> list (R * R)) (t p : list R),
  go_sort (@score_desc RNum) s ->
  length t = length p -> t <> [] -> (forall y, In y t -> y = 0 \/ y = 1) ->
  exists v, @average_precision RNum s (Some t) (Some p) = Ok v /\ 0 <= v <= 1.
Proof. exact ap_range. Qed.
Print Assumptions C14_range.

(** The value is 1 under every order of tied items exactly when every positive
    item is scored strictly above every negative one. *)
Theorem C14_perfect_iff_separated : forall (t p : list R),
  length t = length p -> t <> [] -> (forall y, In y t -> y = 0 \/ y = 1) -> In 1 t ->
  ((forall s, go_sort (@score_desc RNum) s -> @average_precision RNum s (Some t) (Some p) = Ok 1)
   <-> separated (combine p t)).
Proof. exact ap_separated. Qed.
Print Assumptions C14_perfect_iff_separated.

(** "Average precision is a function of the labels and scores" is false: with a
    tie the result depends on the order produced by the unstable sort. *)
Theorem C14_ties_order_independent_refuted : exists (t p : list R) s1 s2,
  go_sort (@score_desc RNum) s1 /\ go_sort (@score_desc RNum) s2 /\
  @average_precision RNum s1 (Some t) (Some p) = Ok 1 /\
  @average_precision RNum s2 (Some t) (Some p) = Ok (1 / 2).
Proof.
  exists [1; 0], [5; 5], desc_sort, (isort less2).
  split; [exact desc_sort_ok|]. split; [exact tie_sort_ok|].
  assert (Hb : forall y, In y [1; 0] -> y = 0 \/ y = 1) by (intros y [<-|[<-|[]]]; auto).
  rewrite !ap_ok; try easy.
  unfold desc_sort, less2. cbn [combine isort insert]. unfold score_desc. cbn. unfold is_rel, less2. cbn.
  rdecide. cbn. rdecide. cbn. split; f_equal; field.
Qed.
Print Assumptions C14_ties_order_independent_refuted.

Theorem C14_map_is_mean : forall (s : list (R * R) -> list (R * R)) ts ps vs,
  length ts = length ps -> ts <> [] ->
  Forall2 (fun q v => @average_precision RNum s (fst q) (snd q) = Ok v) (combine ts ps) vs ->
  @mean_average_precision RNum s ts ps = Ok (Rsum vs / INR (length ts)).
Proof.
  intros s ts ps vs Hl Hne H. unfold mean_average_precision.
  destruct ts as [|t0 ts]; [easy|]. destruct ps as [|p0 ps]; [discriminate|].
  cbn [length Nat.eqb orb]. injection Hl as Hl. rewrite Hl, Nat.eqb_refl. cbn [negb].
  rewrite (map_loop_ok s _ vs n0 H). cbn [bind]. rewrite nofnat_R. cbn [n0 RNum ndiv].
  f_equal. f_equal. lra.
Qed.
Print Assumptions C14_map_is_mean.

(** A failing query makes the whole call fail (any arithmetic). *)
Theorem C14_map_error : forall (N : Num) sortf (ts ps : list (vec N)) t p e,
  In (t, p) (combine ts ps) -> average_precision sortf t p = Err e ->
  exists e', mean_average_precision sortf ts ps = Err e'.
Proof.
  intros N sortf ts ps t p e Hin He. unfold mean_average_precision.
  destruct (_ || _)%bool; [eexists; reflexivity|].
  destruct (negb _); [eexists; reflexivity|].
  assert (H : forall acc, exists e', map_loop sortf (combine ts ps) acc = Err e').
  { revert Hin. generalize (combine ts ps) as qs. induction qs as [|[t' p'] qs IH]; intros Hin acc; [easy|].
    cbn. destruct Hin as [E|Hin].
    - injection E as -> ->. rewrite He. eexists; reflexivity.
    - destruct (average_precision sortf t' p') eqn:E; [apply IH, Hin|eexists; reflexivity|].
      exfalso. unfold average_precision, checked in E. destruct t', p'; try discriminate.
      repeat (destruct (Nat.eqb _ _); cbn in E; try discriminate);
      destruct (all_binary l); cbn in E; try discriminate;
      repeat (destruct (Nat.eqb _ _); cbn in E; try discriminate). }
  destruct (H n0) as [e' ->]. eexists; reflexivity.
Qed.
Print Assumptions C14_map_error.

Example C14_example : separated (combine [9/10; 5/10; 7/10] [1; 0; 1]) /\
  @average_precision RNum desc_sort (Some [1; 0; 1]) (Some [9/10; 5/10; 7/10]) = Ok 1.
Proof.
  assert (H : separated (combine [9/10; 5/10; 7/10] [1; 0; 1])).
  { intros a b [<-|[<-|[<-|[]]]] [<-|[<-|[<-|[]]]]; cbn; lra. }
  split; [exact H|]. apply ap_separated; try easy; [|cbn; auto|exact desc_sort_ok].
  intros y [<-|[<-|[<-|[]]]]; auto.
Qed.
