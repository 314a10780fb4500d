(** The regression errors in binary64: signs, symmetry, perfect predictions. *)
From Coq Require Import List Arith ZArith Bool Lia Reals Lra.
From Flocq Require Import Core.Core IEEE754.BinarySingleNaN.
From Verif Require Import Base.Num Base.GoRes Model.Metrics.
Import ListNotations.
Local Open Scope R_scope.

Notation rnd := (round radix2 (SpecFloat.fexp fprec femax) (round_mode mode_NE)).
Notation fin x := (is_finite x = true).
(** In Flocq's single-NaN format the sign of NaN is [false]. *)
Notation pos x := (Bsign x = false).
Notation num_ok x := (f64_isnan x = false).

Lemma pos_B2R (x : F64) : pos x -> 0 <= B2R x.
Proof. destruct x as [s|s| |s m e h]; cbn; intros E; try lra. rewrite E. apply F2R_ge_0. easy. Qed.
Lemma over_inf (x : F64) s : B2SF x = binary_overflow fprec femax mode_NE s -> x = B754_infinity s.
Proof. destruct x as [s'|s'| |s' m e h]; cbn; intros E; try discriminate. now injection E as ->. Qed.
Lemma fin_ok (x : F64) : fin x -> num_ok x.
Proof. now destruct x. Qed.
Lemma fin_nan (x : F64) : fin x -> is_nan x = false.
Proof. now destruct x. Qed.

Lemma plus_pos (x y : F64) : pos x -> pos y -> pos (f64_plus x y) /\ (num_ok x -> num_ok y -> num_ok (f64_plus x y)).
Proof.
  intros Hx Hy. destruct (is_finite x) eqn:Fx; [destruct (is_finite y) eqn:Fy|].
  - pose proof (Bplus_correct fprec femax fprec_gt_0 fprec_lt_emax mode_NE x y Fx Fy) as C. fold (f64_plus x y) in C.
    pose proof (pos_B2R x Hx). pose proof (pos_B2R y Hy). destruct (Rlt_bool _ _) in C.
    + destruct C as (_ & C2 & C3). split; [|intros _ _; now apply fin_ok]. rewrite C3. destruct (Rcompare_spec (B2R x + B2R y) 0); [lra| |reflexivity].
      now rewrite Hx.
    + destruct C as (C & _). apply over_inf in C. rewrite C, Hx. now split.
  - destruct x as [s|s| |s m e h], y as [s'|s'| |s' m' e' h']; cbn in *; try discriminate; subst; now split.
  - destruct x as [s|s| |s m e h], y as [s'|s'| |s' m' e' h']; cbn in *; try discriminate; subst; now split.
Qed.
Lemma sq_pos (x : F64) : pos (f64_mult x x) /\ (num_ok x -> num_ok (f64_mult x x)).
Proof.
  destruct (is_finite x) eqn:Fx.
  - pose proof (Bmult_correct fprec femax fprec_gt_0 fprec_lt_emax mode_NE x x) as C. fold (f64_mult x x) in C. rewrite xorb_nilpotent in C.
    destruct (Rlt_bool _ _) in C.
    + destruct C as (_ & C2 & C3). rewrite Fx in C2. split; [apply C3; now apply fin_nan|intros _; now apply fin_ok].
    + apply over_inf in C. rewrite C. now split.
  - destruct x as [s|s| |s m e h]; try discriminate; [|split; [reflexivity|easy]]. destruct s; split; reflexivity.
Qed.
Lemma div_pos (x y : F64) : pos x -> pos y -> pos (f64_div x y).
Proof.
  intros Hx Hy. destruct y as [s|s| |s m e h]; cbn in Hy; subst.
  1-3: destruct x as [s|s| |s m e h]; cbn in *; subst; reflexivity.
  set (y := B754_finite false m e h) in *. assert (Hp : B2R y <> 0) by (apply Rgt_not_eq, F2R_gt_0; reflexivity).
  pose proof (Bdiv_correct fprec femax fprec_gt_0 fprec_lt_emax mode_NE x y Hp) as C. fold (f64_div x y) in C. rewrite Hx in C. change (Bsign y) with false in C.
  cbn [xorb] in C. destruct (Rlt_bool _ _) in C.
  - destruct C as (_ & _ & C3). destruct (f64_div x y); try reflexivity; now apply C3.
  - apply over_inf in C. now rewrite C.
Qed.
Lemma div_ok (x y : F64) : num_ok x -> fin y -> B2R y <> 0 -> num_ok (f64_div x y).
Proof.
  intros Hx Fy Hp. destruct (is_finite x) eqn:Fx.
  - pose proof (Bdiv_correct fprec femax fprec_gt_0 fprec_lt_emax mode_NE x y Hp) as C. fold (f64_div x y) in C. destruct (Rlt_bool _ _) in C.
    + destruct C as (_ & C2 & _). apply fin_ok. now rewrite C2.
    + apply over_inf in C. now rewrite C.
  - destruct x as [s|s| |s m e h]; try discriminate. destruct y as [s'|s'| |s' m' e' h']; try discriminate; reflexivity.
Qed.
Lemma sqrt_pos_ok (x : F64) : pos x -> pos (f64_sqrt x) /\ (num_ok x -> num_ok (f64_sqrt x)).
Proof.
  intros Hx. destruct (Bsqrt_correct fprec femax fprec_gt_0 fprec_lt_emax mode_NE x) as (_ & C2 & C3). fold (f64_sqrt x) in *.
  split.
  - destruct (f64_sqrt x) eqn:E; try reflexivity; rewrite C3; auto.
  - intros Hn. destruct x as [s|s| |s m e h]; cbn in Hx; subst; try discriminate; [now apply fin_ok|reflexivity|now apply fin_ok].
Qed.
Lemma abs_ok (x : F64) : num_ok x -> num_ok (Babs x).
Proof. now destruct x. Qed.
Lemma minus_ok (x y : F64) : fin x -> fin y -> num_ok (f64_minus x y).
Proof.
  intros Fx Fy. pose proof (Bminus_correct fprec femax fprec_gt_0 fprec_lt_emax mode_NE x y Fx Fy) as C. fold (f64_minus x y) in C.
  destruct (Rlt_bool _ _) in C; [now apply fin_ok|]. destruct C as [C _]. apply over_inf in C. now rewrite C.
Qed.
(** One minus something that is not negative *)
Lemma one_minus (o q : F64) : fin o -> pos o -> pos q -> Bltb o (f64_minus o q) = false.
Proof.
  intros Fo Po Hq. destruct (is_finite q) eqn:Fq.
  - pose proof (Bminus_correct fprec femax fprec_gt_0 fprec_lt_emax mode_NE o q Fo Fq) as C. fold (f64_minus o q) in C. destruct (Rlt_bool _ _) in C.
    + destruct C as (C1 & C2 & _). rewrite Bltb_correct by assumption. apply Rlt_bool_false. rewrite C1.
      rewrite <- (round_generic radix2 (SpecFloat.fexp fprec femax) (round_mode mode_NE) (B2R o)) at 2 by apply generic_format_B2R.
      apply round_le; [apply fexp_correct; reflexivity|apply valid_rnd_N|]. pose proof (pos_B2R q Hq). lra.
    + destruct C as [_ C]. rewrite Po, Hq in C. discriminate.
  - destruct q as [s|s| |s m e h]; try discriminate; cbn in Hq; subst; destruct o as [[]|[]| |[] ? ? ?]; try discriminate; reflexivity.
Qed.

(** Lengths as doubles *)
Lemma len_val (k : nat) : (0 < k)%nat -> pos (f64_ofZ (Z.of_nat k)) /\ ((Z.of_nat k < 2 ^ 63)%Z -> fin (f64_ofZ (Z.of_nat k)) /\ B2R (f64_ofZ (Z.of_nat k)) <> 0).
Proof.
  intros Hk. pose proof (binary_normalize_correct fprec femax fprec_gt_0 fprec_lt_emax mode_NE (Z.of_nat k) 0 false) as C. cbv zeta in C.
  fold (f64_ofZ (Z.of_nat k)) in C. set (x := f64_ofZ (Z.of_nat k)) in *. clearbody x.
  assert (Ex : F2R (Float radix2 (Z.of_nat k) 0) = IZR (Z.of_nat k)) by (unfold F2R; cbn; lra). rewrite Ex in C.
  assert (K1 : 1 <= IZR (Z.of_nat k)) by (apply IZR_le; lia).
  assert (R1 : 1 <= rnd (IZR (Z.of_nat k))).
  { apply round_ge_generic; [apply fexp_correct; reflexivity|apply valid_rnd_N| |exact K1]. change 1 with (bpow radix2 0).
    apply generic_format_bpow. cbn. lia. }
  destruct (Rlt_bool_spec (Rabs (rnd (IZR (Z.of_nat k)))) (bpow radix2 femax)) as [B|B].
  - destruct C as (C1 & C2 & C3). split; [rewrite C3; destruct (Rcompare_spec (IZR (Z.of_nat k)) 0); [lra|lra|reflexivity]|].
    intros _. split; [exact C2|rewrite C1; lra].
  - split.
    + apply over_inf in C. rewrite C. cbn. apply Rlt_bool_false. lra.
    + intros Hs. exfalso. assert (R2 : rnd (IZR (Z.of_nat k)) <= bpow radix2 63).
      { apply round_le_generic; [apply fexp_correct; reflexivity|apply valid_rnd_N|apply generic_format_bpow; cbn; lia|].
        rewrite bpow_powerRZ. change (IZR radix2) with 2. rewrite <- (Z2Nat.id 63) by lia. rewrite <- pow_powerRZ, pow_IZR. apply IZR_le. rewrite Z2Nat.id by lia. cbn -[Z.pow]. lia. }
      rewrite Rabs_pos_eq in B by lra. assert (bpow radix2 63 < bpow radix2 femax) by (apply bpow_lt; reflexivity). lra.
Qed.

(** Symmetry *)
Lemma rnd_opp r : rnd (- r) = - rnd r.
Proof. apply round_NE_opp. Qed.
Lemma minus_swap (a b : F64) : (fin (f64_minus a b) /\ fin (f64_minus b a) /\ B2R (f64_minus a b) = - B2R (f64_minus b a))
  \/ (exists s s', f64_minus a b = B754_infinity s /\ f64_minus b a = B754_infinity s') \/ (f64_minus a b = B754_nan /\ f64_minus b a = B754_nan).
Proof.
  destruct (is_finite a) eqn:Fa; [destruct (is_finite b) eqn:Fb|].
  - pose proof (Bminus_correct fprec femax fprec_gt_0 fprec_lt_emax mode_NE a b Fa Fb) as C. fold (f64_minus a b) in C.
    pose proof (Bminus_correct fprec femax fprec_gt_0 fprec_lt_emax mode_NE b a Fb Fa) as D. fold (f64_minus b a) in D.
    rewrite <- (Ropp_minus_distr (B2R a) (B2R b)) in D. rewrite rnd_opp, Rabs_Ropp in D.
    destruct (Rlt_bool _ _) in C, D.
    + left. destruct C as (C1 & C2 & _), D as (D1 & D2 & _). repeat split; [exact C2|exact D2|]. rewrite C1, D1. lra.
    + right. left. destruct C as (C & _), D as (D & _). apply over_inf in C, D. eauto.
  - right. destruct a as [s|s| |s m e h], b as [s'|s'| |s' m' e' h']; try discriminate; cbn; try (right; split; reflexivity); left; eauto.
  - right. destruct a as [s|s| |s m e h], b as [s'|s'| |s' m' e' h']; try discriminate; cbn; try (right; split; reflexivity); try (left; now eauto).
    destruct s, s'; cbn; try (right; split; reflexivity); left; eauto.
Qed.
Lemma sq_swap (a b : F64) : f64_mult (f64_minus a b) (f64_minus a b) = f64_mult (f64_minus b a) (f64_minus b a).
Proof.
  destruct (minus_swap a b) as [(F1 & F2 & E)|[(s & s' & -> & ->)|[-> ->]]]; [|destruct s, s'; reflexivity|reflexivity].
  set (x := f64_minus a b) in *. set (y := f64_minus b a) in *. clearbody x y.
  pose proof (Bmult_correct fprec femax fprec_gt_0 fprec_lt_emax mode_NE x x) as C. fold (f64_mult x x) in C.
  pose proof (Bmult_correct fprec femax fprec_gt_0 fprec_lt_emax mode_NE y y) as D. fold (f64_mult y y) in D.
  replace (B2R y * B2R y) with (B2R x * B2R x) in D by (rewrite E; ring). rewrite xorb_nilpotent in C, D. rewrite F1 in C. rewrite F2 in D. cbn [andb] in C, D.
  destruct (Rlt_bool _ _) in C, D.
  - destruct C as (C1 & C2 & C3), D as (D1 & D2 & D3). apply B2R_Bsign_inj; [exact C2|exact D2|now rewrite C1, D1|].
    rewrite C3, D3 by now apply fin_nan. reflexivity.
  - apply over_inf in C, D. now rewrite C, D.
Qed.
Lemma abs_swap (a b : F64) : Babs (f64_minus a b) = Babs (f64_minus b a).
Proof.
  destruct (minus_swap a b) as [(F1 & F2 & E)|[(s & s' & -> & ->)|[-> ->]]]; [|reflexivity|reflexivity].
  apply B2R_Bsign_inj; [now rewrite is_finite_Babs|now rewrite is_finite_Babs| |now rewrite !Bsign_Babs].
  rewrite !B2R_Babs, E. apply Rabs_Ropp.
Qed.
(** Perfect predictions *)
Lemma minus_self (a : F64) : fin a -> f64_minus a a = f64_zero.
Proof.
  intros Fa. pose proof (Bminus_correct fprec femax fprec_gt_0 fprec_lt_emax mode_NE a a Fa Fa) as C. fold (f64_minus a a) in C.
  rewrite Rminus_diag_eq in C by reflexivity. rewrite round_0 in C by apply valid_rnd_N. rewrite Rabs_R0, Rlt_bool_true in C by apply bpow_gt_0.
  destruct C as (C1 & C2 & C3). rewrite Rcompare_Eq in C3 by reflexivity. apply B2R_Bsign_inj; [exact C2|reflexivity|exact C1|]. rewrite C3. cbn. now destruct (Bsign a).
Qed.

(** The folds *)
Lemma fold_swap {A} (h h' : A * A -> F64) (g : forall a b, h (a, b) = h' (b, a)) : forall l m s,
  fold_left (fun s ab => f64_plus s (h ab)) (combine l m) s = fold_left (fun s ab => f64_plus s (h' ab)) (combine m l) s.
Proof. induction l as [|a l IH]; intros [|b m] s; cbn; try reflexivity. rewrite g. apply IH. Qed.
Lemma fold_pos {A} (h : A -> F64) (Hh : forall a, pos (h a)) : forall l s, pos s ->
  pos (fold_left (fun s ab => f64_plus s (h ab)) l s)
  /\ (num_ok s -> (forall a, In a l -> num_ok (h a)) -> num_ok (fold_left (fun s ab => f64_plus s (h ab)) l s)).
Proof.
  induction l as [|a l IH]; intros s Hs; cbn [fold_left]; [now split|]. destruct (plus_pos s (h a) Hs (Hh a)) as [P1 P2].
  destruct (IH _ P1) as [I1 I2]. split; [exact I1|]. intros O1 O2. apply I2; [apply P2; [exact O1|apply O2; now left]|intros; apply O2; now right].
Qed.
Lemma fold_zero {A} (h : A -> F64) : forall l, (forall a, In a l -> h a = f64_zero) -> fold_left (fun s ab => f64_plus s (h ab)) l f64_zero = f64_zero.
Proof.
  induction l as [|a l IH]; intros Hl; cbn [fold_left]; [reflexivity|]. rewrite (Hl a (or_introl eq_refl)). change (f64_plus f64_zero f64_zero) with f64_zero.
  apply IH. intros; apply Hl; now right.
Qed.
Lemma combine_self {A} (l : list A) a b : In (a, b) (combine l l) -> a = b /\ In a l.
Proof. induction l as [|x l IH]; cbn; [easy|]. intros [E|K]; [injection E as -> ->; auto|destruct (IH K); auto]. Qed.

(** Counts and rates *)
Lemma rnd_mono a b : a <= b -> rnd a <= rnd b.
Proof. apply round_le; [apply fexp_correct; reflexivity|apply valid_rnd_N]. Qed.
Lemma count_val (k : nat) : (Z.of_nat k < 2 ^ 53)%Z -> fin (f64_ofZ (Z.of_nat k)) /\ B2R (f64_ofZ (Z.of_nat k)) = IZR (Z.of_nat k).
Proof.
  intros Hk. pose proof (binary_normalize_correct fprec femax fprec_gt_0 fprec_lt_emax mode_NE (Z.of_nat k) 0 false) as C. cbv zeta in C.
  fold (f64_ofZ (Z.of_nat k)) in C.
  assert (Ex : F2R (Float radix2 (Z.of_nat k) 0) = IZR (Z.of_nat k)) by (unfold F2R; cbn; lra). rewrite Ex in C.
  assert (Er : rnd (IZR (Z.of_nat k)) = IZR (Z.of_nat k)).
  { apply round_generic; [apply valid_rnd_N|]. rewrite <- Ex. apply generic_format_FLT with (emin := SpecFloat.emin fprec femax) (prec := fprec).
    exists (Float radix2 (Z.of_nat k) 0); [reflexivity|cbn -[Z.pow]; rewrite Z.abs_eq by lia; exact Hk|cbn; lia]. }
  rewrite Er in C. rewrite Rlt_bool_true in C; [split; apply C|].
  rewrite Rabs_pos_eq by (apply IZR_le; lia). apply Rlt_le_trans with (bpow radix2 53).
  - change (bpow radix2 53) with (IZR (2 ^ 53)). now apply IZR_lt.
  - apply bpow_le. unfold femax. lia.
Qed.
Lemma format_53 : generic_format radix2 (SpecFloat.fexp fprec femax) (bpow radix2 (-53)) /\ generic_format radix2 (SpecFloat.fexp fprec femax) (1 - bpow radix2 (-53)).
Proof.
  split; [apply generic_format_bpow; cbn; lia|]. apply generic_format_FLT with (emin := SpecFloat.emin fprec femax) (prec := fprec).
  exists (Float radix2 9007199254740991 (-53)); [|cbn; lia|cbn; lia]. unfold F2R. cbn. lra.
Qed.
Lemma rate_val (k n : nat) : (0 < n)%nat -> (k <= n)%nat -> (Z.of_nat n < 2 ^ 53)%Z ->
  let e := f64_div (f64_ofZ (Z.of_nat k)) (f64_ofZ (Z.of_nat n)) in
  let a := f64_minus (f64_ofZ 1) e in
  fin e /\ fin a /\ B2R e = rnd (IZR (Z.of_nat k) / IZR (Z.of_nat n)) /\ B2R a = rnd (1 - B2R e)
  /\ 0 <= B2R e <= 1 /\ 0 <= B2R a <= 1
  /\ (k <> 0%nat -> bpow radix2 (-53) <= B2R e) /\ (k <> n -> B2R e <= 1 - bpow radix2 (-53)).
Proof.
  intros Hn Hkn Hl e a. destruct (count_val k ltac:(lia)) as [Fk Vk]. destruct (count_val n Hl) as [Fn Vn].
  assert (N1 : 1 <= IZR (Z.of_nat n)) by (apply IZR_le; lia). assert (N2 : IZR (Z.of_nat n) <= bpow radix2 53) by (change (bpow radix2 53) with (IZR (2 ^ 53)); apply IZR_le; lia).
  assert (K0 : 0 <= IZR (Z.of_nat k)) by (apply IZR_le; lia). assert (K1 : IZR (Z.of_nat k) <= IZR (Z.of_nat n)) by (apply IZR_le; lia).
  assert (I1 : bpow radix2 (-53) <= / IZR (Z.of_nat n)).
  { change (-53)%Z with (Z.opp 53). rewrite bpow_opp. apply Rinv_le; lra. }
  assert (Q : 0 <= IZR (Z.of_nat k) / IZR (Z.of_nat n) <= 1).
  { split; [apply Rmult_le_pos; [lra|left; apply Rinv_0_lt_compat; lra]|]. apply Rmult_le_reg_r with (IZR (Z.of_nat n)); [lra|]. unfold Rdiv. rewrite Rmult_assoc, Rinv_l by lra. lra. }
  assert (R0 : rnd 0 = 0) by (apply round_0; apply valid_rnd_N).
  assert (R1 : rnd 1 = 1). { apply round_generic; [apply valid_rnd_N|]. change 1 with (bpow radix2 0). apply generic_format_bpow. cbn. lia. }
  assert (B1 : 1 < bpow radix2 femax) by (change 1 with (bpow radix2 0); apply bpow_lt; reflexivity).
  pose proof (Bdiv_correct fprec femax fprec_gt_0 fprec_lt_emax mode_NE (f64_ofZ (Z.of_nat k)) (f64_ofZ (Z.of_nat n)) ltac:(rewrite Vn; lra)) as D.
  fold (f64_div (f64_ofZ (Z.of_nat k)) (f64_ofZ (Z.of_nat n))) in D. fold e in D. rewrite Vk, Vn in D.
  pose proof (rnd_mono _ _ (proj1 Q)) as L1. pose proof (rnd_mono _ _ (proj2 Q)) as L2. rewrite R0 in L1. rewrite R1 in L2.
  rewrite Rlt_bool_true in D by (rewrite Rabs_pos_eq; lra). destruct D as (D1 & D2 & _). rewrite Fk in D2.
  assert (O1 : is_finite (f64_ofZ 1) = true) by (vm_compute; reflexivity).
  assert (O2 : B2R (f64_ofZ 1) = 1) by (apply (count_val 1); lia).
  pose proof (Bminus_correct fprec femax fprec_gt_0 fprec_lt_emax mode_NE (f64_ofZ 1) e O1 D2) as M. fold (f64_minus (f64_ofZ 1) e) in M. fold a in M. rewrite O2 in M.
  assert (E01 : 0 <= B2R e <= 1) by (rewrite D1; lra).
  pose proof (rnd_mono 0 (1 - B2R e) ltac:(lra)) as A1. pose proof (rnd_mono (1 - B2R e) 1 ltac:(lra)) as A2. rewrite R0 in A1. rewrite R1 in A2.
  rewrite Rlt_bool_true in M by (rewrite Rabs_pos_eq; lra). destruct M as (M1 & M2 & _).
  split; [exact D2|]. split; [exact M2|]. split; [exact D1|]. split; [exact M1|]. split; [exact E01|]. split; [rewrite M1; lra|]. destruct format_53 as [F1 F2].
  split; intros Hk; rewrite D1.
  - rewrite <- (round_generic radix2 (SpecFloat.fexp fprec femax) (round_mode mode_NE) (bpow radix2 (-53))) by exact F1. apply rnd_mono.
    apply Rle_trans with (1 := I1). unfold Rdiv. rewrite <- (Rmult_1_l (/ _)) at 1. apply Rmult_le_compat_r; [left; apply Rinv_0_lt_compat; lra|apply IZR_le; lia].
  - rewrite <- (round_generic radix2 (SpecFloat.fexp fprec femax) (round_mode mode_NE) (1 - bpow radix2 (-53))) by exact F2. apply rnd_mono.
    assert (K2 : IZR (Z.of_nat k) <= IZR (Z.of_nat n) - 1) by (rewrite <- minus_IZR; apply IZR_le; lia).
    apply Rle_trans with (1 - / IZR (Z.of_nat n)); [|lra]. replace (1 - / IZR (Z.of_nat n)) with ((IZR (Z.of_nat n) - 1) * / IZR (Z.of_nat n)) by (field; lra).
    apply Rmult_le_compat_r; [left; apply Rinv_0_lt_compat; lra|exact K2].
Qed.
Lemma acc_ends (r : R) : 0 <= r <= 1 -> (bpow radix2 (-53) <= r -> rnd (1 - r) <= 1 - bpow radix2 (-53)) /\ (r <= 1 - bpow radix2 (-53) -> bpow radix2 (-53) <= rnd (1 - r)).
Proof.
  intros _. destruct format_53 as [F1 F2]. split; intros K.
  - apply round_le_generic; [apply fexp_correct; reflexivity|apply valid_rnd_N|exact F2|lra].
  - apply round_ge_generic; [apply fexp_correct; reflexivity|apply valid_rnd_N|exact F1|lra].
Qed.
