(** The comparison laws hold for both carriers. *)
From Coq Require Import ZArith Bool Lia Reals Lra.
From Flocq Require Import Core.Core IEEE754.BinarySingleNaN.
From Verif Require Import Base.Num Base.RTac Base.FTac Spec.Order.

Lemma lt_laws_R : lt_laws RNum.
Proof.
  split; cbn; unfold Rltb; intros; repeat destruct Rlt_dec; try easy; try lra.
Qed.

(** An integer-free view of a double: -Inf, a real number, +Inf. *)
Definition ext_lt (x y : F64) : Prop :=
  match x, y with
  | B754_nan, _ | _, B754_nan => False
  | B754_infinity true, B754_infinity true => False
  | B754_infinity true, _ => True
  | _, B754_infinity true => False
  | B754_infinity false, _ => False
  | _, B754_infinity false => True
  | _, _ => (B2R x < B2R y)%R
  end.

Lemma Bltb_ext (x y : F64) : Bltb x y = true <-> ext_lt x y.
Proof.
  destruct (is_finite x) eqn:Ex; [destruct (is_finite y) eqn:Ey|].
  - rewrite Bltb_correct by assumption.
    destruct (Raux.Rlt_bool_spec (B2R x) (B2R y)) as [H|H];
      destruct x as [|[]| |], y as [|[]| |]; cbn in Ex, Ey; try discriminate; cbn [ext_lt];
      (split; [intros; try easy; exact H|intros H'; try easy; lra]).
  - destruct x as [[]|[]| |[]], y as [[]|[]| |[]]; cbn in *; easy.
  - destruct x as [[]|[]| |[]], y as [[]|[]| |[]]; cbn in *; easy.
Qed.

Lemma Bltb_ext_false (x y : F64) : Bltb x y = false <-> ~ ext_lt x y.
Proof. rewrite <- Bltb_ext. destruct (Bltb x y); split; congruence. Qed.

Lemma Bminus_zero (x : F64) : is_finite x = true ->
  is_finite (f64_minus x f64_zero) = true /\ B2R (f64_minus x f64_zero) = B2R x.
Proof.
  intros H. pose proof (Bminus_correct fprec femax fprec_gt_0 fprec_lt_emax mode_NE x f64_zero H eq_refl) as C.
  cbn [B2R f64_zero] in C. rewrite Rminus_0_r in C.
  rewrite Generic_fmt.round_generic in C; [|apply valid_rnd_N|apply generic_format_B2R].
  rewrite Raux.Rlt_bool_true in C by apply abs_B2R_lt_emax.
  destruct C as [C1 [C2 _]]. split; assumption.
Qed.

Lemma Bplus_zero (x : F64) : is_finite x = true ->
  is_finite (f64_plus x f64_zero) = true /\ B2R (f64_plus x f64_zero) = B2R x.
Proof.
  intros H. pose proof (Bplus_correct fprec femax fprec_gt_0 fprec_lt_emax mode_NE x f64_zero H eq_refl) as C.
  cbn [B2R f64_zero] in C. rewrite Rplus_0_r in C.
  rewrite Generic_fmt.round_generic in C; [|apply valid_rnd_N|apply generic_format_B2R].
  rewrite Raux.Rlt_bool_true in C by apply abs_B2R_lt_emax.
  destruct C as [C1 [C2 _]]. split; assumption.
Qed.

(** Comparisons depend on the values only. *)
Lemma Bltb_value_r (a b b' : F64) : is_finite b = true -> is_finite b' = true -> B2R b = B2R b' ->
  Bltb a b = Bltb a b'.
Proof.
  intros Hb Hb' E. destruct (is_finite a) eqn:Ea.
  - rewrite !Bltb_correct by assumption. now rewrite E.
  - destruct a as [[]|[]| |[]], b as [[]|[]| |[]], b' as [[]|[]| |[]]; cbn in *; easy.
Qed.
Lemma Bltb_value_l (a b b' : F64) : is_finite b = true -> is_finite b' = true -> B2R b = B2R b' ->
  Bltb b a = Bltb b' a.
Proof.
  intros Hb Hb' E. destruct (is_finite a) eqn:Ea.
  - rewrite !Bltb_correct by assumption. now rewrite E.
  - destruct a as [[]|[]| |[]], b as [[]|[]| |[]], b' as [[]|[]| |[]]; cbn in *; easy.
Qed.

Lemma lt_laws_F fe fl : lt_laws (FNum fe fl).
Proof.
  split; cbn [FNum num nlt nisnan nisinf n0 nadd nsub].
  - intros a. apply Bltb_ext_false. destruct a as [|[]| |]; cbn; try easy; lra.
  - intros a b c. rewrite !Bltb_ext.
    destruct a as [|[]| |], b as [|[]| |], c as [|[]| |]; cbn [ext_lt]; try easy; lra.
  - intros a b H. apply Bltb_ext in H. destruct a as [|[]| |], b as [|[]| |]; cbn in *; easy.
  - intros a b c Ha Hb Hc. rewrite !Bltb_ext_false.
    destruct a as [|[]| |], b as [|[]| |], c as [|[]| |]; cbn [ext_lt]; try easy; try tauto; lra.
  - intros a b H. split; apply not_true_iff_false; intros E;
      apply andb_true_iff in E as [E1 E2]; apply Bltb_ext in E2, H;
      destruct a as [|[]| |], b as [|[]| |]; cbn in *; easy.
  - intros a b. destruct (is_finite b) eqn:Eb.
    + destruct (Bminus_zero b Eb). apply Bltb_value_r; auto.
    + destruct b as [|[]| |]; try discriminate; reflexivity.
  - intros a b. destruct (is_finite b) eqn:Eb.
    + destruct (Bplus_zero b Eb). apply Bltb_value_l; auto.
    + destruct b as [|[]| |]; try discriminate; reflexivity.
Qed.

Lemma cmp_laws_R : cmp_laws RNum.
Proof.
  split; cbn; unfold Rltb, Rleb, Reqb; intros a b; intros.
  - destruct Rlt_dec, Rle_dec; cbn; try easy; lra.
  - destruct (Rlt_dec a b), (Rlt_dec b a), Req_EM_T; cbn; try easy; lra.
  - destruct H; discriminate.
Qed.
Lemma cmp_laws_F fe fl : cmp_laws (FNum fe fl).
Proof.
  split; cbn [FNum num nlt nle neqb nisnan]; intros a b.
  - intros Ha Hb. rewrite Bleb_compare, Bltb_compare, (Bcompare_swap _ _ a b).
    destruct (Bcompare a b) as [[]|] eqn:E; cbn; try reflexivity.
    exfalso. destruct a as [[]|[]| |[]], b as [[]|[]| |[]]; cbn in *; discriminate.
  - intros Ha Hb. rewrite Beqb_compare, !Bltb_compare, (Bcompare_swap _ _ a b).
    destruct (Bcompare a b) as [[]|] eqn:E; cbn; try reflexivity.
    exfalso. destruct a as [[]|[]| |[]], b as [[]|[]| |[]]; cbn in *; discriminate.
  - intros [H|H].
    + destruct a; try discriminate. split; reflexivity.
    + destruct b; try discriminate. destruct a as [|[]| |]; split; reflexivity.
Qed.
