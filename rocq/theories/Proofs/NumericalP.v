From Coq Require Import List Arith ZArith Bool Reals Lra Lia.
From Flocq Require Import IEEE754.BinarySingleNaN.
From Verif Require Import Base.Num Base.GoRes Base.RTac Base.FTac Model.Numerical.
Import ListNotations.

Local Arguments firstn : simpl never.

(** * Detection *)
Section Any.
  Context {N : Num}.

  Lemma check_loop_none (all values : list N) :
    check_stability_loop all values = None <-> forall v, In v values -> unstable v = false.
  Proof.
    induction values as [|v values IH]; simpl; [easy|].
    destruct (unstable v) eqn:E.
    - split; [easy|]. intros H. rewrite (H v (or_introl eq_refl)) in E. discriminate.
    - rewrite IH. split; intros H; [intros w [<-|Hw]; auto|auto].
  Qed.

  Lemma check_loop_some (all values vs : list N) :
    check_stability_loop all values = Some vs -> vs = all /\ exists v, In v values /\ unstable v = true.
  Proof.
    induction values as [|v values IH]; simpl; [easy|].
    destruct (unstable v) eqn:E; intros H.
    - injection H as <-. split; [reflexivity|]. exists v; auto.
    - destruct (IH H) as [-> (w & Hw & Ew)]. split; [reflexivity|]. exists w; auto.
  Qed.

  Lemma check_row_eq at_ js (acc : list N) :
    length acc < 10 ->
    check_row_loop at_ js acc
    = firstn 10 (acc ++ filter (@unstable N) (map at_ js)).
  Proof.
    revert acc; induction js as [|j js IH]; intros acc Hl.
    - cbn [check_row_loop map filter]. rewrite app_nil_r, firstn_all2; [reflexivity|lia].
    - cbn [check_row_loop map filter]. destruct (unstable (at_ j)) eqn:E.
      + cbv zeta. rewrite app_length. cbn [length].
        destruct (Nat.leb_spec 10 (length acc + 1)).
        * replace (acc ++ at_ j :: filter (@unstable N) (map at_ js))
            with ((acc ++ [at_ j]) ++ filter (@unstable N) (map at_ js))
            by (rewrite <- app_assoc; reflexivity).
          rewrite firstn_app, app_length. cbn [length].
          replace (10 - (length acc + 1)) with 0 by lia.
          rewrite firstn_O, app_nil_r, firstn_all2; [reflexivity|].
          rewrite app_length; cbn [length]; lia.
        * rewrite IH by (rewrite app_length; cbn [length]; lia).
          rewrite <- app_assoc. reflexivity.
      + apply IH; exact Hl.
  Qed.

  Definition bad_row (at_ : nat -> nat -> N) cols i : list N :=
    filter (@unstable N) (map (at_ i) (seq 0 cols)).

  Lemma check_rows_eq (at_ : nat -> nat -> N) cols is_ :
    check_rows_loop at_ cols is_ =
    match find (fun i => negb (Nat.eqb (length (bad_row at_ cols i)) 0)) is_ with
    | Some i => firstn 10 (bad_row at_ cols i)
    | None => []
    end.
  Proof.
    induction is_ as [|i is_ IH]; [reflexivity|]. cbn [check_rows_loop find].
    rewrite check_row_eq by (simpl; lia). cbn [app]. fold (bad_row at_ cols i).
    destruct (bad_row at_ cols i) as [|v l] eqn:E.
    - rewrite firstn_nil. exact IH.
    - rewrite firstn_length. cbn [length].
      replace (0 <? Nat.min 10 (S (length l))) with true
        by (symmetry; apply Nat.ltb_lt; lia).
      cbn [Nat.eqb negb]. rewrite E. reflexivity.
  Qed.

  Lemma bad_row_in at_ cols i v :
    In v (bad_row at_ cols i) <-> unstable v = true /\ exists j, j < cols /\ at_ i j = v.
  Proof.
    unfold bad_row. rewrite filter_In, in_map_iff. split.
    - intros [(j & <- & Hj) H]. apply in_seq in Hj. split; [exact H|]. exists j. split; [lia|reflexivity].
    - intros [H (j & Hj & <-)]. split; [|exact H]. exists j. split; [reflexivity|]. apply in_seq; lia.
  Qed.

  Lemma check_matrix_none at_ rows cols :
    @check_matrix N at_ rows cols = None <->
    forall i j, i < rows -> j < cols -> unstable (at_ i j) = false.
  Proof.
    unfold check_matrix. rewrite check_rows_eq.
    destruct (find _ (seq 0 rows)) as [i|] eqn:E.
    - apply find_some in E as [Hi Hb]. apply in_seq in Hi.
      destruct (bad_row at_ cols i) as [|v l] eqn:Eb; [discriminate|].
      split; [rewrite firstn_length; cbn [length]; simpl; easy|].
      intros H. exfalso.
      assert (In v (bad_row at_ cols i)) as Hv by (rewrite Eb; now left).
      apply bad_row_in in Hv as [Hv (j & Hj & Ev)].
      rewrite <- Ev, H in Hv; [discriminate|lia|exact Hj].
    - simpl. split; [|reflexivity]. intros _ i j Hi Hj.
      apply find_none with (x := i) in E; [|apply in_seq; lia].
      apply negb_false_iff, Nat.eqb_eq in E.
      destruct (unstable (at_ i j)) eqn:U; [|reflexivity].
      assert (In (at_ i j) (bad_row at_ cols i)) as Hv
        by (apply bad_row_in; split; [exact U|eauto]).
      destruct (bad_row at_ cols i); [easy|discriminate].
  Qed.

  Lemma check_matrix_some at_ rows cols vs :
    @check_matrix N at_ rows cols = Some vs ->
    vs <> [] /\ length vs <= 10 /\
    exists i, i < rows /\
      (forall v, In v vs -> unstable v = true /\ exists j, j < cols /\ at_ i j = v) /\
      (forall i' j, i' < i -> j < cols -> unstable (at_ i' j) = false).
  Proof.
    unfold check_matrix. rewrite check_rows_eq.
    destruct (find _ (seq 0 rows)) as [i|] eqn:E; [|discriminate].
    intros H. 
    destruct (Nat.ltb_spec 0 (length (firstn 10 (bad_row at_ cols i)))) as [Hl|]; [|discriminate].
    apply (f_equal (fun o => match o with Some l => l | None => vs end)) in H.
    cbv beta iota in H. subst vs.
    split; [intros H0; rewrite H0 in Hl; simpl in Hl; lia|].
    split; [rewrite firstn_length; lia|].
    exists i. pose proof E as E'. apply find_some in E' as [Hi _]. apply in_seq in Hi.
    split; [lia|]. split.
    - intros v Hv. apply bad_row_in.
      rewrite <- (firstn_skipn 10 (bad_row at_ cols i)). apply in_app_iff. now left.
    - intros i' j Hi' Hj.
      destruct (unstable (at_ i' j)) eqn:U; [|reflexivity]. exfalso.
      assert (In (at_ i' j) (bad_row at_ cols i')) as Hv
        by (apply bad_row_in; split; [exact U|eauto]).
      assert (forall k n s, find (fun i => negb (length (bad_row at_ cols i) =? 0)) (seq s n) = Some k ->
        forall k', s <= k' < k -> length (bad_row at_ cols k') = 0) as Hfirst.
      { clear. intros k n; induction n as [|n IH]; intros s; cbn [seq find]; [easy|].
        destruct (Nat.eqb_spec (length (bad_row at_ cols s)) 0) as [Hz|Hz]; cbn [negb].
        - intros Hf k' Hk'. destruct (Nat.eq_dec k' s) as [->|]; [exact Hz|].
          apply (IH (S s)); [exact Hf|lia].
        - intros Hf. injection Hf as <-. intros k' Hk'. lia. }
      specialize (Hfirst _ _ _ E i' ltac:(lia)).
      destruct (bad_row at_ cols i'); [easy|discriminate].
  Qed.
End Any.

Section Float.
  Variables fexp flog : F64 -> F64.
  Notation FN := (FNum fexp flog).

  Lemma unstable_finite (v : FN) : @unstable FN v = negb (is_finite v).
  Proof. unfold unstable; cbn. rewrite f64_finite_iff, negb_involutive. reflexivity. Qed.

  Lemma check_stability_float (values : list FN) :
    @check_numerical_stability FN values = None <-> forall v, In v values -> is_finite v = true.
  Proof.
    unfold check_numerical_stability. rewrite check_loop_none.
    split; intros H v Hv; specialize (H v Hv); rewrite unstable_finite in *;
      destruct (is_finite v); easy.
  Qed.

  Lemma check_matrix_float at_ rows cols :
    @check_matrix FN at_ rows cols = None <->
    forall i j, i < rows -> j < cols -> is_finite (at_ i j) = true.
  Proof.
    rewrite check_matrix_none.
    split; intros H i j Hi Hj; specialize (H i j Hi Hj); rewrite unstable_finite in *;
      destruct (is_finite (at_ i j)); easy.
  Qed.

  (** * ClipValue *)
  Lemma clip_in_range (v lo hi : F64) :
    f64_isnan v = false -> f64_isnan lo = false -> f64_isnan hi = false ->
    Bleb lo hi = true ->
    Bleb lo (@clip_value FN v lo hi) = true /\ Bleb (@clip_value FN v lo hi) hi = true.
  Proof.
    intros Hv Hlo Hhi Hle. unfold clip_value; cbn.
    destruct (Bltb v lo) eqn:E1; [split; [now apply Bleb_refl|exact Hle]|].
    destruct (Bltb hi v) eqn:E2; [split; [exact Hle|now apply Bleb_refl]|].
    split; now apply Bltb_false_leb.
  Qed.

  Lemma leb_not_ltb (x y : F64) : Bleb x y = true -> Bltb y x = false.
  Proof.
    rewrite Bleb_compare, Bltb_compare, (Bcompare_swap fprec femax x y).
    destruct (Bcompare x y) as [[]|]; simpl; congruence.
  Qed.

  Lemma clip_identity (v lo hi : F64) :
    Bleb lo v = true -> Bleb v hi = true -> @clip_value FN v lo hi = v.
  Proof.
    intros H1 H2. unfold clip_value; cbn.
    now rewrite (leb_not_ltb _ _ H1), (leb_not_ltb _ _ H2).
  Qed.

  Lemma clip_nan (lo hi : F64) : @clip_value FN f64_nan lo hi = f64_nan.
  Proof.
    unfold clip_value. cbn [nlt FNum num].
    now rewrite Bltb_nan_l, Bltb_nan_r.
  Qed.
End Float.

(** * ClipGradient over the reals *)
Local Open Scope R_scope.

Lemma sumsq_R (g : list R) a :
  fold_left (fun acc x => acc + x * x) g a = a + Rsum (map (fun x => x * x) g).
Proof. revert a; induction g as [|x g IH]; intros a; simpl; [lra|]. rewrite IH; lra. Qed.

Lemma l2norm_R (g : list R) : @l2norm RNum g = sqrt (Rsum (map (fun x => x * x) g)).
Proof. unfold l2norm; cbn. rewrite sumsq_R, Rplus_0_l. reflexivity. Qed.

Lemma sumsq_nonneg (g : list R) : 0 <= Rsum (map (fun x => x * x) g).
Proof.
  apply Rsum_nonneg. intros x Hx. apply in_map_iff in Hx as (y & <- & _).
  apply Rle_0_sqr.
Qed.

Lemma sumsq_scale c (g : list R) :
  Rsum (map (fun x => x * x) (map (fun x => x * c) g)) = c * c * Rsum (map (fun x => x * x) g).
Proof. induction g as [|x g IH]; simpl; [lra|]. rewrite IH. ring. Qed.

Lemma clip_gradient_norm (g : list R) (m : R) :
  0 <= m -> sqrt (Rsum (map (fun x => x * x) (@clip_gradient RNum g m))) <= m.
Proof.
  intros Hm. unfold clip_gradient. rewrite l2norm_R. cbn.
  destruct (Rltb_spec m (sqrt (Rsum (map (fun x => x * x) g)))) as [H|H]; [|exact H].
  rewrite sumsq_scale.
  set (s := Rsum (map (fun x => x * x) g)) in *.
  assert (0 < sqrt s) by lra.
  rewrite sqrt_mult; [|apply Rle_0_sqr|apply sumsq_nonneg].
  rewrite sqrt_square.
  - right. field. lra.
  - apply Rmult_le_pos; [exact Hm|]. left. now apply Rinv_0_lt_compat.
Qed.

Lemma clip_gradient_inside (g : list R) (m : R) :
  sqrt (Rsum (map (fun x => x * x) g)) <= m -> @clip_gradient RNum g m = g.
Proof.
  intros H. unfold clip_gradient. rewrite l2norm_R. cbn.
  destruct (Rltb_spec m (sqrt (Rsum (map (fun x => x * x) g)))); [lra|reflexivity].
Qed.

Lemma clip_gradient_outside (g : list R) (m : R) :
  0 <= m -> m < sqrt (Rsum (map (fun x => x * x) g)) ->
  (exists c, 0 <= c <= 1 /\ @clip_gradient RNum g m = map (fun x => x * c) g) /\
  sqrt (Rsum (map (fun x => x * x) (@clip_gradient RNum g m))) = m.
Proof.
  intros Hm H. unfold clip_gradient. rewrite l2norm_R. cbn.
  destruct (Rltb_spec m (sqrt (Rsum (map (fun x => x * x) g)))); [|lra].
  set (s := Rsum (map (fun x => x * x) g)) in *.
  assert (Hpos : 0 < sqrt s) by lra.
  assert (Hc : 0 <= m / sqrt s)
    by (apply Rmult_le_pos; [exact Hm|left; now apply Rinv_0_lt_compat]).
  split.
  - exists (m / sqrt s). split; [split; [exact Hc|]|reflexivity].
    apply Rmult_le_reg_r with (sqrt s); [exact Hpos|].
    unfold Rdiv. rewrite Rmult_assoc, Rinv_l; lra.
  - rewrite sumsq_scale. fold s.
    rewrite sqrt_mult; [|apply Rle_0_sqr|apply sumsq_nonneg].
    rewrite sqrt_square by exact Hc. field. lra.
Qed.

(** * LogSumExp over the reals *)
Lemma lse_max_ge v0 (rest : list R) :
  v0 <= @lse_max RNum v0 rest /\ (forall v, In v rest -> v <= @lse_max RNum v0 rest).
Proof.
  unfold lse_max; cbn. revert v0; induction rest as [|x rest IH]; intros v0; simpl.
  - split; [lra|easy].
  - destruct (Rltb_spec v0 x) as [H|H].
    + destruct (IH x) as [H1 H2]. split; [lra|]. intros v [<-|Hv]; auto.
    + destruct (IH v0) as [H1 H2]. split; [lra|]. intros v [<-|Hv]; [lra|auto].
Qed.

Lemma lse_max_in v0 (rest : list R) : In (@lse_max RNum v0 rest) (v0 :: rest).
Proof.
  unfold lse_max; cbn. revert v0; induction rest as [|x rest IH]; intros v0; simpl; [now left|].
  destruct (Rltb_spec v0 x).
  - right. apply IH.
  - destruct (IH v0) as [H1|H1]; [left; exact H1|right; right; exact H1].
Qed.

Lemma fold_exp_sum (l : list R) m a :
  fold_left (fun s v => s + exp (v - m)) l a = a + Rsum (map (fun v => exp (v - m)) l).
Proof. revert a; induction l as [|x l IH]; intros a; simpl; [lra|]. rewrite IH; lra. Qed.

Lemma Rsum_exp_pos (l : list R) : l <> [] -> 0 < Rsum (map exp l).
Proof.
  destruct l as [|x l]; [easy|]. intros _. simpl.
  assert (0 <= Rsum (map exp l)).
  { apply Rsum_nonneg. intros y Hy. apply in_map_iff in Hy as (z & <- & _).
    left; apply exp_pos. }
  pose proof (exp_pos x). lra.
Qed.

Lemma Rsum_exp_shift (l : list R) m :
  Rsum (map (fun v => exp (v - m)) l) = exp (- m) * Rsum (map exp l).
Proof.
  induction l as [|x l IH]; simpl; [lra|]. rewrite IH. unfold Rminus. rewrite exp_plus. ring.
Qed.

Lemma fold_left_map_exp m (l : list R) a :
  fold_left (fun s v => s + exp v) (map (fun v => v - m) l) a =
  fold_left (fun s v => s + exp (v - m)) l a.
Proof. revert a. induction l as [|x l IH]; intros a; [reflexivity|]. cbn. apply IH. Qed.

Lemma log_sum_exp_R (values : list R) :
  values <> [] -> @log_sum_exp RNum values = ln (Rsum (map exp values)).
Proof.
  destruct values as [|v0 rest]; [easy|]. intros Hne.
  unfold log_sum_exp. set (m := @lse_max RNum v0 rest). cbn [nisinf RNum andb].
  cbn. fold m. rewrite fold_left_map_exp, fold_exp_sum.
  replace (0 + exp (v0 - m) + Rsum (map (fun v => exp (v - m)) rest))
    with (Rsum (map (fun v => exp (v - m)) (v0 :: rest))) by (simpl; lra).
  rewrite Rsum_exp_shift.
  rewrite ln_mult; [|apply exp_pos|now apply Rsum_exp_pos].
  rewrite ln_exp. simpl. lra.
Qed.

Lemma Rsum_exp_bounds v0 (rest : list R) :
  exp (@lse_max RNum v0 rest) <= Rsum (map exp (v0 :: rest)) <=
  INR (length (v0 :: rest)) * exp (@lse_max RNum v0 rest).
Proof.
  set (m := @lse_max RNum v0 rest).
  assert (Hm : forall v, In v (v0 :: rest) -> v <= m).
  { destruct (lse_max_ge v0 rest) as [H1 H2]. intros v [<-|Hv]; auto. }
  pose proof (lse_max_in v0 rest) as Hin. fold m in Hin.
  revert Hm Hin. generalize (v0 :: rest) as l. clear. intros l Hm Hin. split.
  - apply in_split in Hin as (l1 & l2 & ->). rewrite map_app, Rsum_app. simpl.
    assert (forall k : list R, 0 <= Rsum (map exp k)) as Hp.
    { intros k. apply Rsum_nonneg. intros y Hy. apply in_map_iff in Hy as (z & <- & _).
      left; apply exp_pos. }
    pose proof (Hp l1). pose proof (Hp l2). lra.
  - rewrite <- (Rsum_map_const (exp m) l). apply Rsum_le. intros x Hx.
    destruct (Hm x Hx) as [H| ->]; [left; now apply exp_increasing|lra].
Qed.

Lemma log_sum_exp_bounds v0 (rest : list R) :
  @lse_max RNum v0 rest <= @log_sum_exp RNum (v0 :: rest) <=
  @lse_max RNum v0 rest + ln (INR (length (v0 :: rest))).
Proof.
  rewrite log_sum_exp_R by easy.
  destruct (Rsum_exp_bounds v0 rest) as [H1 H2].
  set (m := @lse_max RNum v0 rest) in *.
  assert (Hpos : 0 < Rsum (map exp (v0 :: rest))) by (apply Rsum_exp_pos; easy).
  split.
  - rewrite <- (ln_exp m) at 1. destruct H1 as [H1|H1].
    + left. apply ln_increasing; [apply exp_pos|exact H1].
    + right. now rewrite H1.
  - assert (Hn : 0 < INR (length (v0 :: rest))) by (apply lt_0_INR; simpl; lia).
    rewrite <- (ln_exp m) at 1. rewrite Rplus_comm, <- ln_mult; [|exact Hn|apply exp_pos].
    destruct H2 as [H2|H2].
    + left. apply ln_increasing; assumption.
    + right. now rewrite <- H2.
Qed.

Lemma lse_args_nonpos (values : list R) a : In a (@lse_exp_args RNum values) -> a <= 0.
Proof.
  destruct values as [|v0 rest]; [easy|]. unfold lse_exp_args.
  set (m := @lse_max RNum v0 rest). intros H. apply in_map_iff in H as (v & <- & Hv).
  destruct (lse_max_ge v0 rest) as [H1 H2]. fold m in H1, H2. cbn.
  destruct Hv as [<-|Hv]; [lra|]. specialize (H2 _ Hv). lra.
Qed.

Lemma log_sum_exp_shift (values : list R) c :
  values <> [] ->
  @log_sum_exp RNum (map (fun v => v + c) values) = @log_sum_exp RNum values + c.
Proof.
  intros H. rewrite !log_sum_exp_R by (destruct values; easy).
  rewrite map_map.
  assert (E : Rsum (map (fun x => exp (x + c)) values) = exp c * Rsum (map exp values)).
  { clear H. induction values as [|x l IH]; simpl; [lra|]. rewrite IH, exp_plus. ring. }
  rewrite E, ln_mult; [|apply exp_pos|now apply Rsum_exp_pos]. rewrite ln_exp. lra.
Qed.

(** * Recovery *)
Lemma safe_execute_spec p :
  safe_execute p =
  match call p with
  | Some e => e                (* the body's own result, unchanged *)
  | None => Some EPanic        (* a panic becomes an error *)
  end.
Proof. unfold safe_execute, safe_execute_of, recover_deferred. destruct (call p); reflexivity. Qed.
