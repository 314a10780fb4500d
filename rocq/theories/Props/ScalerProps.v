(** C03, C15, C16 - preprocessing/scaler.go. *)
From Coq Require Import List Arith Bool Lia Reals Lra.
From Verif Require Import Base.Num Base.GoRes Base.Mat Base.RTac Model.Scaler Spec.Stats Proofs.ScalerP.
Import ListNotations.

(** ** C03.  The specification: the column count of the last fit with at least one
    row and column since the last reset, if there is one. *)
Fixpoint last_fit {N : Num} (calls : list (scall N)) : option nat :=
  match calls with   (* most recent call first *)
  | [] => None
  | CReset :: _ => None
  | CFit X :: r | CFitTransform X :: r =>
      if (Nat.eqb (nrows X) 0 || Nat.eqb (mcols X) 0)%bool then last_fit r else Some (mcols X)
  | _ :: r => last_fit r
  end.

Lemma last_fit_effect {N : Num} (cs : list (scall N)) : last_fit (rev cs) = fold_left effect cs None.
Proof.
  rewrite <- fold_left_rev_right. induction (rev cs) as [|c l IH]; [reflexivity|].
  cbn [fold_right last_fit]. rewrite <- IH.
  destruct c; cbn [effect]; unfold fit_effect, fit_valid; try reflexivity; destruct (_ || _)%bool; reflexivity.
Qed.

(** What Transform and InverseTransform must answer. *)
Definition answers_as {N : Num} (o : option nat) (call : matrix N -> res (matrix N)) : Prop :=
  match o with
  | None => forall X, call X = Err ENotFitted
  | Some c => forall X,
      (mcols X <> c -> call X = Err (EDimension c (mcols X))) /\
      (wf X -> mcols X = c -> mrows X <> [] ->
         exists Y, call X = Ok Y /\ wf Y /\ mcols Y = c /\ nrows Y = nrows X) /\
      (mcols X = c -> mrows X = [] -> call X = Err EPanic)
  end.

(** Any arithmetic, any history, any flags. *)
Theorem C03_standard_scaler : forall (N : Num) wm ws (history : list (scall N)),
  let s := fold_left ss_step history (ss_new wm ws) in
  answers_as (last_fit (rev history)) (ss_transform s) /\
  answers_as (last_fit (rev history)) (ss_inverse s).
Proof.
  intros N wm ws h s. rewrite last_fit_effect. apply ss_answers. apply ss_run_inv. reflexivity.
Qed.
Print Assumptions C03_standard_scaler.

Theorem C03_minmax_scaler : forall (N : Num) (lo hi : N) (history : list (scall N)),
  let s := fold_left mm_step history (mm_new lo hi) in
  answers_as (last_fit (rev history)) (mm_transform s) /\
  answers_as (last_fit (rev history)) (mm_inverse s).
Proof.
  intros N lo hi h s. rewrite last_fit_effect. apply mm_answers. apply mm_run_inv. reflexivity.
Qed.
Print Assumptions C03_minmax_scaler.

Local Open Scope R_scope.

Example C03_example : @last_fit RNum (rev [@CFit RNum (mkmat 2 [[1; 2]]); CReset; CFit (@mkmat RNum 0 []);
                                     @CTransform RNum (mkmat 1 [[1]]); @CFitTransform RNum (mkmat 1 [[3]; [4]])]) = Some 1%nat.
Proof. reflexivity. Qed.

(** ** C15 (exact arithmetic). *)
Theorem C15_standardised : forall (s : sscaler RNum) (X : matrix R),
  ss_with_mean s = true -> ss_with_std s = true ->
  wf X -> mrows X <> [] -> (0 < mcols X)%nat ->
  exists s' Y, ss_fit_transform s X = (s', Ok Y) /\ mcols Y = mcols X /\ wf Y /\ nrows Y = nrows X /\
  forall j, (j < mcols X)%nat ->
    mean_of (col j (mrows Y)) = 0 /\
    (1 / 100000000 <= std_of (col j (mrows X)) -> var_of (col j (mrows Y)) = 1) /\
    (std_of (col j (mrows X)) < 1 / 100000000 ->
       col j (mrows Y) = map (fun v => v - mean_of (col j (mrows X))) (col j (mrows X))).
Proof.
  intros s X Hm Hs Hwf Hr Hc. destruct (ss_ft_R s X Hwf Hr Hc) as (s' & Y & E & _ & H1 & H2 & H3 & H4).
  exists s', Y. repeat split; auto; rewrite Hm, Hs in H4; specialize (H4 j H);
  assert (Hne : col j (mrows X) <> []) by (unfold col; destruct (mrows X); easy);
  pose proof (ss_scale_at_pos true true X j) as Hp.
  - rewrite H4. set (sc := ss_scale_at true true X j) in *.
    rewrite (map_ext _ (fun v => / sc * v + - ss_mean_at true X j / sc)) by (intros; field; lra).
    rewrite mean_map_affine by easy. cbn [ss_mean_at]. field. lra.
  - intros Hsd. rewrite H4. set (sc := ss_scale_at true true X j) in *.
    rewrite (map_ext _ (fun v => / sc * v + - ss_mean_at true X j / sc)) by (intros; field; lra).
    rewrite var_map_affine by easy.
    assert (E1 : sc = std_of (col j (mrows X))).
    { unfold sc, ss_scale_at, ss_mean_at. cbv zeta. fold (var_of (col j (mrows X))).
      fold (std_of (col j (mrows X))). apply Rltb_false in Hsd. now rewrite Hsd. }
    assert (E2 : sc * sc = var_of (col j (mrows X))) by (rewrite E1; apply sqrt_sqrt, var_nonneg).
    rewrite <- E2. field. lra.
  - intros Hsd. rewrite H4. apply map_ext. intros v.
    unfold ss_scale_at, ss_mean_at. cbv zeta. fold (var_of (col j (mrows X))).
    fold (std_of (col j (mrows X))). apply Rltb_true in Hsd. rewrite Hsd. field.
Qed.
Print Assumptions C15_standardised.

(** InverseTransform undoes Transform on every matrix it accepts, for every
    successful fit with any flags. *)
Theorem C15_inverse : forall (s s' : sscaler RNum) X Z Y,
  ss_fit s X = (s', Ok tt) -> wf Z -> ss_transform s' Z = Ok Y -> ss_inverse s' Y = Ok Z.
Proof. intros s s' X Z Y E Hwf. now apply (ss_inverse_R s X s' E). Qed.
Print Assumptions C15_inverse.

(** Without centring the divisor is the root mean square, not the standard
    deviation: the result has unit mean square ... *)
Theorem C15_without_mean : forall (s : sscaler RNum) (X : matrix R),
  ss_with_mean s = false -> ss_with_std s = true ->
  wf X -> mrows X <> [] -> (0 < mcols X)%nat ->
  exists s' Y, ss_fit_transform s X = (s', Ok Y) /\
  forall j, (j < mcols X)%nat ->
    1 / 100000000 <= sqrt (mean_of (map (fun v => v * v) (col j (mrows X)))) ->
    mean_of (map (fun v => v * v) (col j (mrows Y))) = 1.
Proof.
  intros s X Hm Hs Hwf Hr Hc. destruct (ss_ft_R s X Hwf Hr Hc) as (s' & Y & E & _ & H1 & H2 & H3 & H4).
  exists s', Y. split; [exact E|]. intros j Hj Hsd. rewrite Hm, Hs in H4. specialize (H4 j Hj).
  pose proof (ss_scale_at_pos false true X j) as Hp. rewrite H4, map_map.
  set (q := mean_of (map (fun v => v * v) (col j (mrows X)))) in *.
  assert (E1 : ss_scale_at false true X j = sqrt q).
  { unfold ss_scale_at, ss_mean_at. cbv zeta.
    rewrite (map_ext (fun v => (v - 0) * (v - 0)) (fun v => v * v)) by (intros; ring).
    fold q. apply Rltb_false in Hsd. now rewrite Hsd. }
  rewrite E1 in *. cbn [ss_mean_at].
  assert (Hq : 0 <= q).
  { apply mean_nonneg. intros x Hx. apply in_map_iff in Hx as (y & <- & _). apply sq_nonneg. }
  pose proof (sqrt_sqrt q Hq) as E2.
  rewrite (map_ext _ (fun v => / q * (v * v))).
  - rewrite mean_scal. fold q. field. intros E0. rewrite E0, sqrt_0 in Hp. lra.
  - intros v. replace (/ q) with (/ (sqrt q * sqrt q)) by (now rewrite E2). field. lra.
Qed.
Print Assumptions C15_without_mean.

(** ... and the documented "scale to unit variance" fails. *)
Theorem C15_without_mean_unit_variance_refuted : exists (X : matrix R) s' Y,
  wf X /\ ss_fit_transform (@ss_new RNum false true) X = (s', Ok Y) /\
  1 / 100000000 <= std_of (col 0 (mrows X)) /\ var_of (col 0 (mrows Y)) <> 1.
Proof.
  set (X := mkmat 1 [[1]; [3]] : matrix R).
  assert (Hwf : wf X) by (intros row [<-|[<-|[]]]; reflexivity).
  destruct (ss_ft_R (ss_new false true) X Hwf) as (s' & Y & E & _ & _ & _ & _ & H4); [easy|cbn; lia|].
  exists X, s', Y. split; [exact Hwf|]. split; [exact E|].
  specialize (H4 0%nat ltac:(cbn; lia)). cbn [ss_with_mean ss_with_std ss_new] in H4.
  assert (Ev : var_of (col 0 (mrows X)) = 1) by (unfold var_of, mean_of; cbn; lra).
  split.
  - unfold std_of. rewrite Ev, sqrt_1. lra.
  - rewrite H4. pose proof (ss_scale_at_pos false true X 0) as Hp.
    set (sc := ss_scale_at false true X 0) in *.
    rewrite (map_ext _ (fun v => / sc * v + - ss_mean_at false X 0 / sc)) by (intros; field; lra).
    rewrite var_map_affine, Ev by easy.
    assert (E1 : sc = sqrt 5).
    { unfold sc, ss_scale_at, mean_of. cbn. replace (((1 - 0) * (1 - 0) + ((3 - 0) * (3 - 0) + 0)) / (1 + 1)) with 5 by lra.
      assert (1 <= sqrt 5) by (rewrite <- sqrt_1; apply sqrt_le_1_alt; lra).
      rcase; lra. }
    intros H. assert (E2 : sc * sc = 5) by (rewrite E1; apply sqrt_sqrt; lra).
    assert (sc * sc = 1); [|lra]. replace (sc * sc) with (/ (/ sc * / sc * 1)) by (field; lra).
    rewrite H. lra.
Qed.
Print Assumptions C15_without_mean_unit_variance_refuted.

Example C15_example : var_of (col 0 [[1]; [3]]) = 1 /\ 1 / 100000000 <= std_of (col 0 [[1]; [3]]) /\
  wf (mkmat 1 [[1]; [3]]).
Proof.
  assert (Ev : var_of (col 0 [[1]; [3]]) = 1) by (unfold var_of, mean_of; cbn; lra).
  split; [exact Ev|]. split; [unfold std_of; rewrite Ev, sqrt_1; lra|].
  intros row [<-|[<-|[]]]; reflexivity.
Qed.

(** ** C16 (exact arithmetic). *)
Theorem C16_range : forall (s : mmscaler RNum) (X : matrix R),
  mm_lo s < mm_hi s -> wf X -> mrows X <> [] -> (0 < mcols X)%nat ->
  exists s' Y, mm_fit_transform s X = (s', Ok Y) /\ mcols Y = mcols X /\ wf Y /\ nrows Y = nrows X /\
  forall j, (j < mcols X)%nat -> exists g,
    col j (mrows Y) = map g (col j (mrows X)) /\
    (forall x y, x < y -> g x < g y) /\
    (forall v, In v (col j (mrows Y)) -> mm_lo s <= v <= mm_hi s) /\
    In (mm_lo s) (col j (mrows Y)) /\
    (forall x y, In x (col j (mrows X)) -> In y (col j (mrows X)) -> 1 / 100000000 <= y - x ->
       In (mm_hi s) (col j (mrows Y))) /\
    ((forall x y, In x (col j (mrows X)) -> In y (col j (mrows X)) -> x = y) ->
       forall v, In v (col j (mrows Y)) -> v = mm_lo s).
Proof.
  intros s X Hlh Hwf Hr Hc. destruct (mm_ft_R s X Hwf Hr Hc) as (s' & Y & E & _ & H1 & H2 & H3 & H4).
  exists s', Y. repeat (split; [assumption|]). intros j Hj. specialize (H4 j Hj).
  destruct (mm_sc_at_val X j Hr) as [Hle Hsc]. pose proof (mm_sc_at_pos X j Hr) as Hp.
  assert (Hne : col j (mrows X) <> []) by (unfold col; destruct (mrows X); easy).
  destruct (col_min_R _ Hne) as [Hmn1 Hmn2]. destruct (col_max_R _ Hne) as [Hmx1 Hmx2].
  fold (mm_lo_at X j) in *. fold (mm_hi_at X j) in *.
  set (mn := mm_lo_at X j) in *. set (mx := mm_hi_at X j) in *. set (sc := mm_sc_at X j) in *.
  set (lo := mm_lo s : R) in *. set (hi := mm_hi s : R) in *.
  exists (fun v => (v - mn) / sc * (hi - lo) + lo).
  split; [exact H4|].
  assert (Hmono : forall x y, x < y -> (x - mn) / sc * (hi - lo) + lo < (y - mn) / sc * (hi - lo) + lo).
  { intros x y Hxy. apply Rplus_lt_compat_r, Rmult_lt_compat_r; [lra|].
    apply Rmult_lt_compat_r; [now apply Rinv_0_lt_compat|lra]. }
  assert (Hmin : (mn - mn) / sc * (hi - lo) + lo = lo) by (field; lra).
  assert (Hlow : forall v, mn <= v -> lo <= (v - mn) / sc * (hi - lo) + lo).
  { intros v Hv. destruct (Req_dec v mn) as [->|Hn]; [lra|].
    specialize (Hmono mn v ltac:(lra)). lra. }
  repeat split.
  - exact Hmono.
  - rewrite H4 in H. apply in_map_iff in H as (x & <- & Hx). apply Hlow. now apply Hmn2.
  - rewrite H4 in H. apply in_map_iff in H as (x & <- & Hx).
    assert (Hx2 : x - mn <= sc).
    { specialize (Hmx2 x Hx). destruct Hsc as [[? ->]|[? ->]]; lra. }
    assert (Hq : (x - mn) / sc <= 1).
    { apply Rmult_le_reg_r with sc; [exact Hp|]. unfold Rdiv. rewrite Rmult_assoc, Rinv_l by lra. lra. }
    assert ((x - mn) / sc * (hi - lo) <= 1 * (hi - lo)) by (apply Rmult_le_compat_r; lra). lra.
  - rewrite H4. apply in_map_iff. exists mn. auto.
  - intros x y Hx Hy Hxy. rewrite H4. apply in_map_iff. exists mx. split; [|exact Hmx1].
    specialize (Hmn2 x Hx). specialize (Hmx2 y Hy).
    destruct Hsc as [[? _]|[? ->]]; [lra|]. field. lra.
  - intros Hall v Hv. rewrite H4 in Hv. apply in_map_iff in Hv as (x & <- & Hx).
    rewrite (Hall x mn Hx Hmn1). exact Hmin.
Qed.
Print Assumptions C16_range.

Theorem C16_inverse : forall (s s' : mmscaler RNum) X Z Y,
  mm_fit s X = (s', Ok tt) -> mm_lo s <> mm_hi s -> wf Z ->
  mm_transform s' Z = Ok Y -> mm_inverse s' Y = Ok Z.
Proof. intros s s' X Z Y E Hlh Hwf. now apply (mm_inverse_R s X s' E Hlh). Qed.
Print Assumptions C16_inverse.

Example C16_example : exists s' Y, mm_fit_transform (@mm_new RNum 0 1) (mkmat 1 [[1]; [3]; [2]]) = (s', Ok Y) /\
  col 0 (mrows Y) = [0; 1; 1 / 2].
Proof.
  destruct (mm_ft_R (@mm_new RNum 0 1) (mkmat 1 [[1]; [3]; [2]])) as (s' & Y & E & _ & _ & _ & _ & H4).
  - intros row [<-|[<-|[<-|[]]]]; reflexivity.
  - easy.
  - cbn; lia.
  - exists s', Y. split; [exact E|]. rewrite H4 by (cbn; lia).
    set (X := mkmat 1 [[1]; [3]; [2]]).
    assert (El : mm_lo_at X 0 = 1) by (unfold mm_lo_at; cbn; rdecide; reflexivity).
    assert (Eh : mm_hi_at X 0 = 3) by (unfold mm_hi_at; cbn; rdecide; reflexivity).
    unfold mm_sc_at. rewrite El, Eh. unfold mm_col_scale, nthreshold. cbn.
    rewrite Rabs_pos_eq by lra. rdecide. repeat (f_equal; try lra).
Qed.
