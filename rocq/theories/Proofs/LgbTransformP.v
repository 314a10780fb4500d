(** Proofs about the output transformations of sklearn/lightgbm over the reals. *)
From Coq Require Import List Arith ZArith Bool Lia Reals Lra.
From Verif Require Import Base.Num Base.RTac Model.LgbTransform Spec.LgbTransform.
Import ListNotations.
Local Open Scope R_scope.

Lemma peps_eq : @peps RNum = peps_R.
Proof. reflexivity. Qed.
Lemma peps_pos : 0 < peps_R.
Proof. unfold peps_R. lra. Qed.
Lemma ensure_R (x : R) : @ensure RNum x = if Rltb (Rabs x) peps_R then 0 else x.
Proof. reflexivity. Qed.

Lemma ensure_bounds (x : R) : 0 <= x -> 0 <= @ensure RNum x <= x /\ x - peps_R <= @ensure RNum x.
Proof.
  intros H. rewrite ensure_R. destruct (Rltb (Rabs x) peps_R) eqn:E.
  - apply Rltb_true in E. rewrite Rabs_right in E by lra. lra.
  - pose proof peps_pos. lra.
Qed.
Lemma ensure_mono (x y : R) : 0 <= x -> x <= y -> @ensure RNum x <= @ensure RNum y.
Proof.
  intros H1 H2. rewrite !ensure_R. destruct (Rltb (Rabs x) peps_R) eqn:E.
  - destruct (Rltb (Rabs y) peps_R); lra.
  - apply Rltb_false in E. rewrite Rabs_right in E by lra.
    destruct (Rltb (Rabs y) peps_R) eqn:E2; [|lra]. apply Rltb_true in E2. rewrite Rabs_right in E2 by lra. lra.
Qed.

(** The maximum loop *)
Definition rmax (x : R) (r : list R) : R := fold_left (fun m v => if Rltb m v then v else m) r x.
Lemma rmax_spec (r : list R) : forall x, (forall v, In v (x :: r) -> v <= rmax x r) /\ In (rmax x r) (x :: r).
Proof.
  induction r as [|v r IH]; intros x.
  - cbn. split; [|now left]. intros v [<-|[]]. lra.
  - change (rmax x (v :: r)) with (rmax (if Rltb x v then v else x) r).
    destruct (IH (if Rltb x v then v else x)) as [H1 H2].
    set (m := rmax (if Rltb x v then v else x) r) in *. clearbody m.
    assert (Hm := H1 _ (or_introl eq_refl)). split.
    + intros w [<-|[<-|Hw]].
      * destruct (Rltb_spec x v); lra.
      * destruct (Rltb_spec x v); lra.
      * apply H1. now right.
    + destruct H2 as [H2|H2]; [|right; now right]. rewrite <- H2. destruct (Rltb x v); [right; now left|now left].
Qed.
Lemma slice_max_spec (l : list R) : l <> [] -> (forall v, In v l -> v <= @slice_max RNum l) /\ In (@slice_max RNum l) l.
Proof. destruct l as [|x r]; [easy|]. intros _. exact (rmax_spec r x). Qed.

Lemma Rsum_pos {A} (g : A -> R) (l : list A) : l <> [] -> (forall a, In a l -> 0 < g a) -> 0 < Rsum (map g l).
Proof.
  destruct l as [|a l]; [easy|]. intros _ H. cbn [map Rsum].
  assert (0 < g a) by (apply H; now left).
  assert (0 <= Rsum (map g l)); [|lra]. apply Rsum_nonneg. intros x Hx. apply in_map_iff in Hx. destruct Hx as [b [<- Hb]].
  left. apply H. now right.
Qed.
Lemma Rsum_div (l : list R) (c : R) : Rsum (map (fun e => e / c) l) = Rsum l / c.
Proof. induction l as [|a l IH]; cbn [map Rsum]; [unfold Rdiv; ring|]. rewrite IH. unfold Rdiv. ring. Qed.
Lemma Rsum_ge_in {A} (g : A -> R) (l : list A) a : In a l -> (forall b, In b l -> 0 <= g b) -> g a <= Rsum (map g l).
Proof.
  induction l as [|b l IH]; [easy|]. intros [->|Ha] H; cbn [map Rsum].
  - assert (0 <= Rsum (map g l)); [|lra]. apply Rsum_nonneg. intros x Hx. apply in_map_iff in Hx. destruct Hx as [c [<- Hc]]. apply H. now right.
  - assert (0 <= g b) by (apply H; now left). assert (g a <= Rsum (map g l)); [|lra]. apply IH; [exact Ha|]. intros c Hc. apply H. now right.
Qed.

(** exp is small far to the left *)
Lemma exp_small (x : R) : x <= -500 -> exp x <= peps_R.
Proof.
  intros H. apply Rle_trans with (exp (-50)); [destruct H as [H| ->]; [left; apply exp_increasing; lra|left; apply exp_increasing; lra]|].
  assert (E : exp (-50) = / exp 50) by (rewrite <- exp_Ropp; f_equal; lra). rewrite E.
  assert (H50 : 2 ^ 50 <= exp 50).
  { assert (Hpow : forall n, exp (INR n) = exp 1 ^ n).
    { induction n as [|n IH]; [exact exp_0|]. rewrite S_INR, exp_plus, IH. cbn [pow]. ring. }
    assert (E50 : INR 50 = 50) by (rewrite INR_IZR_INZ; reflexivity). rewrite <- E50, Hpow.
    apply pow_incr. pose proof (exp_ineq1 1 ltac:(lra)). lra. }
  assert (0 < 2 ^ 50) by (apply pow_lt; lra).
  apply Rle_trans with (/ 2 ^ 50); [apply Rinv_le_contravar; assumption|]. unfold peps_R.
  assert (E2 : 2 ^ 50 = 1125899906842624) by (cbn; lra). rewrite E2. lra.
Qed.

(** ** Softmax *)

Lemma shifted_exp (l : list R) (M v : R) : l <> [] -> exp (v - M) / Rsum (map (fun w => exp (w - M)) l) = softmax_of l v.
Proof.
  intros H. unfold softmax_of.
  assert (E : Rsum (map (fun w => exp (w - M)) l) = Rsum (map exp l) * exp (- M)).
  { rewrite <- (Rmult_comm (exp (-M))). rewrite <- (map_map (fun w => w) exp l) at 1. rewrite map_id.
    rewrite <- Rsum_map_scal. apply Rsum_map_ext. intros w _. unfold Rminus. rewrite exp_plus. ring. }
  rewrite E. unfold Rminus. rewrite exp_plus.
  assert (0 < Rsum (map exp l)) by (apply Rsum_pos; [exact H|intros; apply exp_pos]).
  pose proof (exp_pos (- M)). field. lra.
Qed.

Lemma leaves_softmax_R (l : list R) : l <> [] -> @leaves_softmax RNum l = map (softmax_of l) l.
Proof.
  intros H. unfold leaves_softmax. set (M := @slice_max RNum l).
  change (map (fun v : RNum => nexp (nsub v M)) l) with (map (fun v => exp (v - M)) l). rewrite nsum_R.
  assert (HS : 0 < Rsum (map (fun v => exp (v - M)) l)) by (apply Rsum_pos; [exact H|intros; apply exp_pos]).
  change (@nlt RNum n0 (Rsum (map (fun v => exp (v - M)) l))) with (Rltb 0 (Rsum (map (fun v => exp (v - M)) l))).
  apply Rltb_true in HS. rewrite HS. rewrite map_map. apply map_ext. intros v. now apply shifted_exp.
Qed.

(** One exponential of the rounded softmax *)
Lemma stable_exp_bounds (x : R) : x <= 0 -> 0 <= @stable_exp RNum x <= exp x /\ exp x - peps_R <= @stable_exp RNum x.
Proof.
  intros H. unfold stable_exp.
  replace (@nlt RNum (nlit 700 1) x) with false by (symmetry; rewrite nlit_R; apply Rltb_false; lra).
  destruct (@nlt RNum x (nlit (-700) 1)) eqn:E.
  - rewrite nlit_R in E. apply Rltb_true in E. pose proof (exp_pos x). cbn [n0 RNum].
    assert (exp x <= peps_R) by (apply exp_small; lra). lra.
  - apply ensure_bounds. left. apply exp_pos.
Qed.
Lemma stable_exp_mono (x y : R) : x <= y -> y <= 0 -> @stable_exp RNum x <= @stable_exp RNum y.
Proof.
  intros H H0. unfold stable_exp.
  replace (@nlt RNum (nlit 700 1) x) with false by (symmetry; rewrite nlit_R; apply Rltb_false; lra).
  replace (@nlt RNum (nlit 700 1) y) with false by (symmetry; rewrite nlit_R; apply Rltb_false; lra).
  rewrite nlit_R. cbn [nlt RNum].
  assert (Hp : forall u, 0 <= @ensure RNum (exp u)) by (intros u; apply ensure_bounds; left; apply exp_pos).
  assert (He : exp x <= exp y) by (destruct H as [H| ->]; [left; now apply exp_increasing|lra]).
  destruct (Rltb_spec x (-700 / 1)) as [H1|H1]; destruct (Rltb_spec y (-700 / 1)) as [H2|H2]; cbn [n0 RNum nexp].
  - lra.
  - apply Hp.
  - lra.
  - apply ensure_mono; [left; apply exp_pos|exact He].
Qed.
Lemma stable_exp_0 : @stable_exp RNum 0 = 1.
Proof.
  unfold stable_exp. replace (@nlt RNum (nlit 700 1) 0) with false by (symmetry; rewrite nlit_R; apply Rltb_false; lra).
  replace (@nlt RNum 0 (nlit (-700) 1)) with false by (symmetry; rewrite nlit_R; apply Rltb_false; lra).
  cbn [nexp RNum]. rewrite exp_0, ensure_R. replace (Rltb (Rabs 1) peps_R) with false; [reflexivity|].
  symmetry. apply Rltb_false. rewrite Rabs_R1. unfold peps_R. lra.
Qed.

Section Soft.
  Variable l : list R.
  Hypothesis Hne : l <> [].
  Let M := @slice_max RNum l.
  Let e := fun v : R => @stable_exp RNum (v - M).
  Let S := Rsum (map e l).

  Lemma e_le v : In v l -> v - M <= 0.
  Proof. intros H. destruct (slice_max_spec l Hne) as [H1 _]. specialize (H1 v H). unfold M. lra. Qed.
  Lemma S_ge_1 : 1 <= S.
  Proof.
    destruct (slice_max_spec l Hne) as [_ H2]. fold M in H2.
    assert (E : e M = 1) by (unfold e; replace (M - M) with 0 by ring; apply stable_exp_0).
    rewrite <- E. unfold S. apply (Rsum_ge_in e l M H2). intros b Hb. unfold e. apply stable_exp_bounds. now apply e_le.
  Qed.
  Lemma stable_softmax_R : @stable_softmax RNum l = map (fun v => @ensure RNum (e v / S)) l.
  Proof.
    unfold stable_softmax. fold M. change (map (fun v : RNum => stable_exp (nsub v M)) l) with (map e l). rewrite nsum_R. fold S.
    change (@nlt RNum n0 S) with (Rltb 0 S). pose proof S_ge_1 as H. assert (HS : Rltb 0 S = true) by (apply Rltb_true; lra).
    rewrite HS. now rewrite map_map.
  Qed.
  Lemma out_bounds v : In v l -> 0 <= @ensure RNum (e v / S) <= 1.
  Proof.
    intros H. pose proof S_ge_1 as HS. destruct (stable_exp_bounds (v - M) (e_le v H)) as [[H1 H2] _]. fold (e v) in H1.
    assert (HeS : e v <= S) by (unfold S; apply (Rsum_ge_in e l v H); intros b Hb; unfold e; apply stable_exp_bounds; now apply e_le).
    assert (0 <= e v / S <= 1).
    { split; [unfold Rdiv; apply Rmult_le_pos; [exact H1|left; apply Rinv_0_lt_compat; lra]|].
      apply Rmult_le_reg_r with S; [lra|]. unfold Rdiv. rewrite Rmult_assoc, Rinv_l by lra. lra. }
    destruct (ensure_bounds (e v / S)) as [H3 _]; [lra|]. lra.
  Qed.
  Lemma out_close v : In v l -> Rabs (@ensure RNum (e v / S) - softmax_of l v) <= (INR (List.length l) + 2) * peps_R.
  Proof.
    intros H. rewrite <- (shifted_exp l M v Hne). set (E := fun w => exp (w - M)). set (T := Rsum (map E l)).
    change (exp (v - M)) with (E v). change (Rsum (map (fun w => exp (w - M)) l)) with T.
    pose proof S_ge_1 as HS. pose proof peps_pos as Hp.
    assert (HeE : forall w, In w l -> 0 <= e w <= E w /\ E w - peps_R <= e w) by (intros w Hw; apply stable_exp_bounds; now apply e_le).
    assert (HST : S <= T) by (apply (Rsum_le e E); intros w Hw; apply HeE; exact Hw).
    assert (HTS : T - INR (List.length l) * peps_R <= S).
    { unfold T, S. rewrite <- (Rsum_map_const peps_R l). rewrite <- Rsum_map_minus. apply (Rsum_le (fun x => E x - peps_R) e).
      intros w Hw. apply HeE. exact Hw. }
    assert (HET : E v <= T) by (apply (Rsum_ge_in E l v H); intros; left; apply exp_pos).
    destruct (HeE v H) as [[A1 A2] A3].
    assert (Hq0 : 0 <= e v / S) by (unfold Rdiv; apply Rmult_le_pos; [exact A1|left; apply Rinv_0_lt_compat; lra]).
    destruct (ensure_bounds (e v / S) Hq0) as [[B1 B2] B3].
    assert (U : e v / S - E v / T <= INR (List.length l) * peps_R).
    { apply Rle_trans with (E v / S - E v / T); [apply Rplus_le_compat_r; unfold Rdiv; apply Rmult_le_compat_r; [left; apply Rinv_0_lt_compat; lra|lra]|].
      replace (E v / S - E v / T) with ((E v / T) * ((T - S) / S)) by (field; lra).
      apply Rle_trans with (1 * ((T - S) / S)).
      - apply Rmult_le_compat_r; [unfold Rdiv; apply Rmult_le_pos; [lra|left; apply Rinv_0_lt_compat; lra]|].
        apply Rmult_le_reg_r with T; [lra|]. unfold Rdiv. rewrite Rmult_assoc, Rinv_l by lra. lra.
      - rewrite Rmult_1_l. apply Rmult_le_reg_r with S; [lra|]. unfold Rdiv. rewrite Rmult_assoc, Rinv_l, Rmult_1_r by lra.
        apply Rle_trans with (INR (List.length l) * peps_R * 1); [lra|]. apply Rmult_le_compat_l; [|lra].
        apply Rmult_le_pos; [apply pos_INR|lra]. }
    assert (Lw : E v / T - e v / S <= peps_R).
    { apply Rle_trans with (E v / T - e v / T).
      - assert (e v / T <= e v / S); [|lra]. unfold Rdiv. apply Rmult_le_compat_l; [exact A1|]. apply Rinv_le_contravar; lra.
      - replace (E v / T - e v / T) with ((E v - e v) / T) by (field; lra).
        apply Rmult_le_reg_r with T; [lra|]. unfold Rdiv. rewrite Rmult_assoc, Rinv_l, Rmult_1_r by lra.
        apply Rle_trans with (peps_R * 1); [lra|]. apply Rmult_le_compat_l; lra. }
    assert (0 <= INR (List.length l)) by apply pos_INR.
    apply Rabs_le. split; nra.
  Qed.
  Lemma out_sum : 1 - INR (List.length l) * peps_R <= Rsum (map (fun v => @ensure RNum (e v / S)) l) <= 1.
  Proof.
    pose proof S_ge_1 as HS.
    assert (E1 : Rsum (map (fun v => e v / S) l) = 1).
    { rewrite <- (map_map e (fun x => x / S)), Rsum_div. fold S. field. lra. }
    assert (Hb : forall v, In v l -> 0 <= e v / S).
    { intros v H. unfold Rdiv. apply Rmult_le_pos; [apply stable_exp_bounds; now apply e_le|left; apply Rinv_0_lt_compat; lra]. }
    split.
    - rewrite <- E1, <- (Rsum_map_const peps_R l), <- Rsum_map_minus.
      apply (Rsum_le (fun x => e x / S - peps_R)). intros v H. apply ensure_bounds. now apply Hb.
    - rewrite <- E1. apply (Rsum_le _ (fun v => e v / S)). intros v H. apply ensure_bounds. now apply Hb.
  Qed.
  Lemma out_mono v w : In v l -> In w l -> v <= w -> @ensure RNum (e v / S) <= @ensure RNum (e w / S).
  Proof.
    intros Hv Hw H. pose proof S_ge_1 as HS. apply ensure_mono.
    - unfold Rdiv. apply Rmult_le_pos; [apply stable_exp_bounds; now apply e_le|left; apply Rinv_0_lt_compat; lra].
    - unfold Rdiv. apply Rmult_le_compat_r; [left; apply Rinv_0_lt_compat; lra|]. apply stable_exp_mono; [lra|now apply e_le].
  Qed.
End Soft.

(** ** Sigmoid *)
Lemma logistic_alt (x : R) : logistic x = exp x / (1 + exp x).
Proof.
  unfold logistic. rewrite exp_Ropp. pose proof (exp_pos x). field. lra.
Qed.
Lemma logistic_bounds (x : R) : 0 < logistic x < 1.
Proof.
  unfold logistic. pose proof (exp_pos (- x)). split.
  - apply Rdiv_lt_0_compat; lra.
  - apply Rmult_lt_reg_r with (1 + exp (- x)); [lra|]. unfold Rdiv. rewrite Rmult_assoc, Rinv_l by lra. lra.
Qed.
Lemma logistic_increasing (x y : R) : x < y -> logistic x < logistic y.
Proof.
  intros H. unfold logistic. assert (exp (- y) < exp (- x)) by (apply exp_increasing; lra). pose proof (exp_pos (- y)).
  unfold Rdiv. rewrite !Rmult_1_l. apply Rinv_lt_contravar; [apply Rmult_lt_0_compat; lra|lra].
Qed.
Lemma sigmoid_with_R (post : R -> R) (x : R) : @sigmoid_with RNum post x
  = if Rltb 500 x then 1 else if Rltb x (-500) then 0 else post (logistic x).
Proof.
  unfold sigmoid_with. rewrite !nlit_R. cbn [nlt nle n0 n1 RNum nadd ndiv nneg nexp].
  replace (500 / 1) with 500 by lra. replace (-500 / 1) with (-500) by lra.
  destruct (Rltb 500 x); [reflexivity|]. destruct (Rltb x (-500)); [reflexivity|]. fold (logistic x).
  rewrite <- logistic_alt. now destruct (Rleb 0 x).
Qed.
Lemma logistic_far (x : R) : 500 < x -> 1 - logistic x <= peps_R.
Proof.
  intros H. assert (E : 1 - logistic x = exp (- x) / (1 + exp (- x))) by (unfold logistic; pose proof (exp_pos (- x)); field; lra).
  rewrite E. pose proof (exp_pos (- x)). assert (exp (- x) <= peps_R) by (apply exp_small; lra).
  apply Rmult_le_reg_r with (1 + exp (- x)); [lra|]. unfold Rdiv. rewrite Rmult_assoc, Rinv_l, Rmult_1_r by lra. nra.
Qed.
Lemma logistic_near (x : R) : x < -500 -> logistic x <= peps_R.
Proof.
  intros H. rewrite logistic_alt. pose proof (exp_pos x). assert (exp x <= peps_R) by (apply exp_small; lra).
  apply Rmult_le_reg_r with (1 + exp x); [lra|]. unfold Rdiv. rewrite Rmult_assoc, Rinv_l, Rmult_1_r by lra. nra.
Qed.
