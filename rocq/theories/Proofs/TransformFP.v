(** Softmax and sigmoid in binary64. *)
From Coq Require Import List Arith ZArith Bool Lia Reals Lra.
From Flocq Require Import Core.Core IEEE754.BinarySingleNaN.
From Verif Require Import Base.Num Model.LgbTransform Proofs.ScalerFP.
From Verif Require Proofs.MetricsFP.
Import ListNotations.
Local Open Scope R_scope.

Notation rnd := (round radix2 (SpecFloat.fexp fprec femax) (round_mode mode_NE)).
Notation fin x := (is_finite x = true).
Definition pinf : F64 := B754_infinity false.
Definition minf : F64 := B754_infinity true.

(** Finite and within [0, 1] *)
Definition unit64 (x : F64) : Prop := fin x /\ 0 <= B2R x <= 1.
(** Finite and not below zero, or +Inf *)
Definition nn (x : F64) : Prop := x = pinf \/ fin x /\ 0 <= B2R x.
Definition below (x y : F64) : Prop := y = pinf \/ fin x /\ fin y /\ B2R x <= B2R y.

Lemma neg_B2R (x : F64) : Bsign x = true -> B2R x <= 0.
Proof. destruct x as [s|s| |s m e h]; cbn; intros E; try lra. rewrite E. apply F2R_le_0. easy. Qed.
Lemma plus_nn (a e : F64) : nn a -> fin e -> 0 <= B2R e -> nn (f64_plus a e) /\ below a (f64_plus a e) /\ below e (f64_plus a e).
Proof.
  intros [->|[Fa Ha]] Fe He.
  - assert (E : f64_plus pinf e = pinf) by (destruct e; [reflexivity|discriminate|discriminate|reflexivity]). rewrite E. split; [now left|]. split; now left.
  - pose proof (Bplus_correct fprec femax fprec_gt_0 fprec_lt_emax mode_NE a e Fa Fe) as C. fold (f64_plus a e) in C. destruct (Rlt_bool _ _) eqn:Ov in C.
    + destruct C as (C1 & C2 & _). pose proof (rnd_le (B2R a) (B2R a + B2R e) ltac:(lra)) as L1. pose proof (rnd_le (B2R e) (B2R a + B2R e) ltac:(lra)) as L2.
      rewrite !rnd_B2R in *. split; [right; split; [exact C2|rewrite C1; lra]|]. split; right; (split; [assumption|]); (split; [exact C2|rewrite C1; lra]).
    + destruct C as [C S]. assert (P : f64_plus a e = pinf \/ f64_plus a e = minf) by (apply MetricsFP.over_inf in C; rewrite C; destruct (Bsign a); [now right|now left]).
      destruct P as [P|P]; [rewrite P; split; [now left|]; split; now left|].
      exfalso. apply MetricsFP.over_inf in C. rewrite P in C. injection C as C.
      symmetry in C. rewrite C in S. symmetry in S. pose proof (neg_B2R a C). pose proof (neg_B2R e S). assert (Z1 : B2R a = 0) by lra. assert (Z2 : B2R e = 0) by lra.
      rewrite Z1, Z2, Rplus_0_r, rnd_0, Rabs_R0, Rlt_bool_true in Ov by apply bpow_gt_0. discriminate.
Qed.
Lemma below_trans (x a b : F64) : below x a -> below a b -> below x b.
Proof. intros [->|(Fx & Fa & A)] [->|(Fa' & Fb & B)]; try (now left). right. split; [exact Fx|]. split; [exact Fb|lra]. Qed.
Lemma below_refl (x : F64) : nn x -> below x x.
Proof. intros [->|[F _]]; [now left|]. right. split; [exact F|]. split; [exact F|lra]. Qed.
(** The running sum stays above each term *)
Lemma sum_nn (es : list F64) : (forall e, In e es -> fin e /\ 0 <= B2R e) -> forall a, nn a ->
  let s := fold_left f64_plus es a in nn s /\ below a s /\ forall e, In e es -> below e s.
Proof.
  induction es as [|e es IH]; intros H a Ha; cbn [fold_left].
  - split; [exact Ha|]. split; [now apply below_refl|easy].
  - destruct (H e (or_introl eq_refl)) as [Fe He]. destruct (plus_nn a e Ha Fe He) as (P1 & P2 & P3).
    destruct (IH ltac:(intros; apply H; now right) _ P1) as (I1 & I2 & I3). split; [exact I1|]. split; [exact (below_trans _ _ _ P2 I2)|].
    intros x [<-|Hx]; [exact (below_trans _ _ _ P3 I2)|now apply I3].
Qed.
Lemma div_inf (x : F64) : fin x -> fin (f64_div x pinf) /\ B2R (f64_div x pinf) = 0.
Proof. destruct x as [s|s| |s m e h]; intros F; try discriminate; now split. Qed.
(** A share of a positive total *)
Lemma div_unit (x y : F64) : fin x -> 0 <= B2R x -> below x y -> (y = pinf \/ 0 < B2R y) -> unit64 (f64_div x y) /\ (y = pinf \/ B2R (f64_div x y) = rnd (B2R x / B2R y)).
Proof.
  intros Fx Hx [->|(_ & Fy & L)] Hy.
  - destruct (div_inf x Fx) as [F V]. split; [|now left]. split; [exact F|rewrite V; lra].
  - destruct Hy as [->|Hy]; [discriminate|]. destruct one_val as [F1 V1].
    assert (Hq : 0 <= B2R x / B2R y <= 1).
    { split; [apply Rmult_le_pos; [lra|left; now apply Rinv_0_lt_compat]|]. apply Rmult_le_reg_r with (B2R y); [exact Hy|].
      unfold Rdiv. rewrite Rmult_assoc, Rinv_l by lra. lra. }
    pose proof (rnd_le _ _ (proj1 Hq)) as Q0. pose proof (rnd_le _ _ (proj2 Hq)) as Q1. rewrite rnd_0 in Q0. rewrite <- V1, rnd_B2R, V1 in Q1.
    pose proof (Bdiv_correct fprec femax fprec_gt_0 fprec_lt_emax mode_NE x y ltac:(lra)) as D. fold (f64_div x y) in D.
    rewrite (no_overflow _ one) in D by (rewrite V1, Rabs_R1, Rabs_pos_eq; lra). destruct D as (D1 & D2 & _). rewrite Fx in D2.
    split; [split; [exact D2|rewrite D1; lra]|now right].
Qed.
Lemma div_share_mono (x x' y : F64) : fin x -> fin x' -> 0 <= B2R x <= B2R x' -> below x' y -> (y = pinf \/ 0 < B2R y) -> B2R (f64_div x y) <= B2R (f64_div x' y).
Proof.
  intros F F' H B Hy.
  assert (Bx : below x y) by (destruct B as [B|(_ & B & L)]; [now left|right; split; [exact F|split; [exact B|lra]]]).
  destruct (div_unit x y F (proj1 H) Bx Hy) as [_ V]. destruct (div_unit x' y F' ltac:(lra) B Hy) as [_ V'].
  destruct B as [->|(_ & Fy & L)].
  - rewrite (proj2 (div_inf x F)), (proj2 (div_inf x' F')). lra.
  - destruct Hy as [->|Hy]; [discriminate|]. destruct V as [->|V]; [discriminate|]. destruct V' as [->|V']; [discriminate|]. rewrite V, V'. apply rnd_le.
    apply Rmult_le_compat_r; [left; now apply Rinv_0_lt_compat|lra].
Qed.
(** The distance of a score from the largest one *)
Lemma minus_max (v m : F64) : fin v -> fin m -> B2R v <= B2R m -> f64_minus v m = minf \/ fin (f64_minus v m) /\ B2R (f64_minus v m) <= 0.
Proof.
  intros Fv Fm L. pose proof (Bminus_correct fprec femax fprec_gt_0 fprec_lt_emax mode_NE v m Fv Fm) as C. fold (f64_minus v m) in C.
  destruct (Rlt_bool _ _) eqn:Ov in C.
  - right. destruct C as (C1 & C2 & _). split; [exact C2|]. rewrite C1, <- rnd_0. apply rnd_le. lra.
  - destruct C as [C S]. apply MetricsFP.over_inf in C. rewrite C. destruct (Bsign v) eqn:Sv; [now left|].
    exfalso. assert (0 <= B2R v) by now apply MetricsFP.pos_B2R.
    assert (B2R m <= 0) by (apply neg_B2R; destruct (Bsign m); [reflexivity|discriminate]).
    assert (E : B2R v - B2R m = 0) by lra. rewrite E, rnd_0, Rabs_R0, Rlt_bool_true in Ov by apply bpow_gt_0. discriminate.
Qed.
Lemma minus_top (v m : F64) : fin v -> fin m -> B2R v = B2R m -> fin (f64_minus v m) /\ B2R (f64_minus v m) = 0.
Proof.
  intros Fv Fm E. pose proof (Bminus_correct fprec femax fprec_gt_0 fprec_lt_emax mode_NE v m Fv Fm) as C. fold (f64_minus v m) in C.
  rewrite E, Rminus_diag_eq in C by reflexivity. rewrite rnd_0, Rabs_R0, Rlt_bool_true in C by apply bpow_gt_0. split; apply C.
Qed.

(** What is needed of math.Exp: on finite arguments up to 0 a value in [0, 1], 1 at both zeros
    and 0 at -Inf. *)
Definition exp_like (fe : F64 -> F64) : Prop :=
  (forall x, fin x -> B2R x <= 0 -> unit64 (fe x)) /\ (forall x, fin x -> B2R x = 0 -> fe x = one) /\ fe minf = f64_zero.

Lemma zero_unit : unit64 f64_zero.
Proof. split; [reflexivity|]. cbn. lra. Qed.
Lemma one_unit : unit64 one.
Proof. destruct one_val as [F V]. split; [exact F|]. rewrite V. lra. Qed.

Definition pe : F64 := f64_div (f64_ofZ 1) (f64_ofZ 1000000000000000).
Lemma pe_fin : fin pe.
Proof. vm_compute. reflexivity. Qed.
Definition ens (x : F64) : F64 := if f64_isnan x || f64_isinf x then x else if Bltb (Babs x) pe then f64_zero else x.
Lemma ens_fin (x : F64) : fin x -> ens x = if Bltb (Babs x) pe then f64_zero else x.
Proof. intros F. unfold ens. destruct x; try discriminate; reflexivity. Qed.
Lemma abs_unit (x : F64) : unit64 x -> fin (Babs x) /\ B2R (Babs x) = B2R x.
Proof. intros [F H]. split; [now rewrite is_finite_Babs|]. rewrite B2R_Babs. apply Rabs_pos_eq, H. Qed.
Lemma ens_unit (x : F64) : unit64 x -> unit64 (ens x).
Proof. intros U. rewrite ens_fin by apply U. destruct (Bltb _ _); [apply zero_unit|exact U]. Qed.
Lemma ens_mono (x y : F64) : unit64 x -> unit64 y -> B2R x <= B2R y -> B2R (ens x) <= B2R (ens y).
Proof.
  intros U U' L. rewrite !ens_fin by (apply U || apply U'). destruct (abs_unit x U) as [Fx Vx]. destruct (abs_unit y U') as [Fy Vy].
  destruct (Bltb_fin _ _ Fx pe_fin) as [A1 A2]. destruct (Bltb_fin _ _ Fy pe_fin) as [B1 B2]. rewrite Vx in *. rewrite Vy in *.
  destruct U as [_ U], U' as [_ U']. destruct (Bltb (Babs x) pe), (Bltb (Babs y) pe); change (B2R f64_zero) with 0; try lra.
Qed.
Lemma ens_one : ens one = one.
Proof.
  rewrite ens_fin by apply one_unit. assert (E : Bltb (Babs one) pe = false) by (vm_compute; reflexivity). now rewrite E.
Qed.

(** Shares of the total of any scores in [0, 1] *)
Lemma shares (h : F64 -> F64) (l : list F64) (w : F64) : (forall v, In v l -> unit64 (h v)) -> In w l -> h w = one ->
  let s := fold_left f64_plus (map h l) f64_zero in
  Bltb f64_zero s = true /\ (forall v, In v l -> unit64 (f64_div (h v) s)) /\ (forall v, In v l -> B2R (f64_div (h v) s) <= B2R (f64_div one s)).
Proof.
  intros H Hw Ew s. destruct one_val as [F1 V1].
  destruct (sum_nn (map h l)) with (a := f64_zero) as (S1 & _ & S3).
  { intros e He. apply in_map_iff in He. destruct He as (v & <- & Hv). destruct (H v Hv) as [F B]. split; [exact F|apply B]. }
  { right. split; [reflexivity|]. cbn. lra. }
  fold s in S1, S3. assert (B1 : below one s) by (apply S3; rewrite <- Ew; now apply in_map).
  assert (P : s = pinf \/ 0 < B2R s) by (destruct B1 as [B1|(_ & _ & B1)]; [now left|right; lra]).
  split; [|split].
  - destruct B1 as [->|(_ & Fs & B1)]; [reflexivity|]. rewrite Bltb_correct by (reflexivity || exact Fs). apply Rlt_bool_true. change (B2R f64_zero) with 0. lra.
  - intros v Hv. destruct (H v Hv) as [F B]. apply div_unit; [exact F|apply B|apply S3; now apply in_map|exact P].
  - intros v Hv. destruct (H v Hv) as [F B]. apply div_share_mono; [exact F|exact F1|lra|exact B1|exact P].
Qed.
(** At least the rounded n-th part for the largest *)
Lemma sum_le (es : list F64) : (forall e, In e es -> unit64 e) -> forall (k : nat) a, fin a -> 0 <= B2R a <= INR k -> (Z.of_nat (k + length es) < 2 ^ 53)%Z ->
  let s := fold_left f64_plus es a in fin s /\ 0 <= B2R s <= INR (k + length es).
Proof.
  induction es as [|e es IH]; intros H k a Fa Ha Hk; cbn [fold_left length] in *; [rewrite Nat.add_0_r in *; now split|].
  destruct (H e (or_introl eq_refl)) as [Fe He]. destruct (MetricsFP.count_val (S k) ltac:(lia)) as [Fk Vk].
  rewrite <- INR_IZR_INZ, S_INR in Vk.
  pose proof (Bplus_correct fprec femax fprec_gt_0 fprec_lt_emax mode_NE a e Fa Fe) as C. fold (f64_plus a e) in C.
  rewrite (no_overflow _ (f64_ofZ (Z.of_nat (S k)))) in C by (rewrite Vk, !Rabs_pos_eq; lra). destruct C as (C1 & C2 & _).
  replace (k + S (length es))%nat with (S k + length es)%nat by lia. apply IH; [intros; apply H; now right|exact C2| |lia].
  rewrite C1. pose proof (rnd_le 0 (B2R a + B2R e) ltac:(lra)) as L1. pose proof (rnd_le (B2R a + B2R e) (INR k + 1) ltac:(lra)) as L2.
  rewrite rnd_0 in L1. rewrite <- Vk, rnd_B2R, Vk in L2. rewrite S_INR. lra.
Qed.
Lemma top_share (es : list F64) : (forall e, In e es -> unit64 e) -> In one es -> (Z.of_nat (length es) < 2 ^ 53)%Z ->
  B2R (f64_div one (f64_ofZ (Z.of_nat (length es)))) <= B2R (f64_div one (fold_left f64_plus es f64_zero)).
Proof.
  intros H Hin Hlen. destruct one_val as [F1 V1]. destruct (sum_le es H 0 f64_zero eq_refl ltac:(cbn; lra) Hlen) as [Fs Bs]. cbn [Nat.add] in Bs.
  destruct (sum_nn es ltac:(intros e He; destruct (H e He); intuition lra) f64_zero ltac:(right; split; [reflexivity|cbn; lra])) as (_ & _ & S3).
  set (s := fold_left f64_plus es f64_zero) in *. clearbody s. specialize (S3 _ Hin). assert (1 <= B2R s) by (destruct S3 as [->|(_ & _ & S3)]; [discriminate|lra]).
  destruct (MetricsFP.count_val (length es) Hlen) as [Fn Vn]. rewrite <- INR_IZR_INZ in Vn. set (n := f64_ofZ (Z.of_nat (length es))) in *. clearbody n.
  destruct (div_unit one s F1 ltac:(lra) S3 ltac:(right; lra)) as [_ [->|V]]; [discriminate|].
  destruct (div_unit one n F1 ltac:(lra) ltac:(right; split; [exact F1|split; [exact Fn|lra]]) ltac:(right; lra)) as [_ [->|V']]; [discriminate|].
  rewrite V, V', V1. apply rnd_le. apply Rmult_le_compat_l; [lra|]. apply Rinv_le_contravar; lra.
Qed.

Section Exp.
  Variables fe fl : F64 -> F64.
  Hypothesis He : exp_like fe.
  Notation F := (FNum fe fl).
  Lemma slice_max_F (l : list F64) : l <> [] -> (forall v, In v l -> fin v) ->
    In (@slice_max F l : F64) l /\ forall v, In v l -> B2R v <= B2R (@slice_max F l : F64).
  Proof.
    intros Hne Hl. destruct l as [|x r]; [easy|]. exact (fold_max_F r x (Hl x (or_introl eq_refl)) (fun v Hv => Hl v (or_intror Hv))).
  Qed.
  Lemma exp_dist (v m : F64) : fin v -> fin m -> B2R v <= B2R m -> unit64 (fe (f64_minus v m)).
  Proof.
    destruct He as (E1 & _ & E3). intros Fv Fm L. destruct (minus_max v m Fv Fm L) as [->|[A B]]; [rewrite E3; apply zero_unit|now apply E1].
  Qed.
  Definition sexp (d : F64) : F64 := if Bltb (f64_ofZ 700) d then pinf else if Bltb d (f64_ofZ (-700)) then f64_zero else ens (fe d).
  Lemma sexp_eq (d : F64) : @stable_exp F d = sexp d.
  Proof. reflexivity. Qed.
  Lemma bound_val : fin (f64_ofZ 700) /\ 0 < B2R (f64_ofZ 700) /\ fin (f64_ofZ (-700)) /\ B2R (f64_ofZ (-700)) < 0.
  Proof.
    destruct (is_pos_finite (f64_ofZ 700)) as [A B]; [vm_compute; eauto|]. destruct (is_pos_finite (Bopp (f64_ofZ (-700)))) as [C D]; [vm_compute; eauto|].
    rewrite is_finite_Bopp in C. rewrite B2R_Bopp in D. split; [exact A|]. split; [exact B|]. split; [exact C|lra].
  Qed.
  Lemma sexp_dist (v m : F64) : fin v -> fin m -> B2R v <= B2R m -> unit64 (sexp (f64_minus v m)) /\ (B2R v = B2R m -> sexp (f64_minus v m) = one).
  Proof.
    intros Fv Fm L. destruct He as (E1 & E2 & E3). destruct bound_val as (A & B & C & D). unfold sexp. split.
    - destruct (minus_max v m Fv Fm L) as [->|[Fd Hd]].
      { assert (X : Bltb (f64_ofZ 700) minf = false) by (vm_compute; reflexivity). assert (Y : Bltb minf (f64_ofZ (-700)) = true) by (vm_compute; reflexivity). rewrite X, Y. apply zero_unit. }
      destruct (Bltb_fin _ _ A Fd) as [X1 _]. destruct (Bltb (f64_ofZ 700) (f64_minus v m)); [specialize (X1 eq_refl); lra|].
      destruct (Bltb _ _); [apply zero_unit|]. apply ens_unit. now apply E1.
    - intros E. destruct (minus_top v m Fv Fm E) as [Fd Vd]. destruct (Bltb_fin _ _ A Fd) as [X1 _]. destruct (Bltb_fin _ _ Fd C) as [X2 _].
      destruct (Bltb (f64_ofZ 700) (f64_minus v m)); [specialize (X1 eq_refl); lra|]. destruct (Bltb (f64_minus v m) (f64_ofZ (-700))); [specialize (X2 eq_refl); lra|].
      rewrite E2 by assumption. apply ens_one.
  Qed.
End Exp.
