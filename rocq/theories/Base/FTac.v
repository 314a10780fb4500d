(** Lemmas about the comparisons of binary64 numbers. *)
From Coq Require Import ZArith Bool Lia.
From Flocq Require Import Core.Core IEEE754.BinarySingleNaN.
From Verif Require Import Base.Num.

Lemma f64_compare_total (x y : F64) :
  f64_isnan x = false -> f64_isnan y = false -> exists c, Bcompare x y = Some c.
Proof.
  intros Hx Hy.
  destruct x as [sx|sx| |sx mx ex hx], y as [sy|sy| |sy my ey hy]; try discriminate;
    unfold Bcompare; simpl; eauto; destruct sx; eauto; destruct sy; eauto;
    repeat match goal with
           | |- context [match ?c with Lt => _ | _ => _ end] => destruct c; eauto
           end.
Qed.

Lemma Bltb_compare (x y : F64) :
  Bltb x y = match Bcompare x y with Some Lt => true | _ => false end.
Proof. reflexivity. Qed.
Lemma Bleb_compare (x y : F64) :
  Bleb x y = match Bcompare x y with Some (Lt | Eq) => true | _ => false end.
Proof. reflexivity. Qed.
Lemma Beqb_compare (x y : F64) :
  Beqb x y = match Bcompare x y with Some Eq => true | _ => false end.
Proof. reflexivity. Qed.

Lemma Bltb_false_leb (x y : F64) :
  f64_isnan x = false -> f64_isnan y = false -> Bltb x y = false -> Bleb y x = true.
Proof.
  intros Hx Hy H. rewrite Bltb_compare in H. rewrite Bleb_compare, Bcompare_swap.
  destruct (f64_compare_total x y Hx Hy) as [c E]. rewrite E in *.
  destruct c; simpl; congruence.
Qed.

Lemma Bltb_leb (x y : F64) : Bltb x y = true -> Bleb x y = true.
Proof.
  rewrite Bltb_compare, Bleb_compare. destruct (Bcompare x y) as [[]|]; congruence.
Qed.

Lemma Bleb_refl (x : F64) : f64_isnan x = false -> Bleb x x = true.
Proof.
  intros H. rewrite Bleb_compare. destruct (f64_compare_total x x H H) as [c E].
  pose proof (Bcompare_swap fprec femax x x) as S. rewrite E in *. destruct c; simpl in S; congruence.
Qed.

Lemma Bltb_nan_l (y : F64) : Bltb f64_nan y = false.
Proof. now destruct y as [sy|[]| |sy my ey hy]. Qed.
Lemma Bltb_nan_r (x : F64) : Bltb x f64_nan = false.
Proof. now destruct x as [sx|[]| |sx mx ex hx]. Qed.

Lemma f64_finite_iff (x : F64) :
  is_finite x = negb (f64_isnan x || f64_isinf x).
Proof. now destruct x. Qed.
