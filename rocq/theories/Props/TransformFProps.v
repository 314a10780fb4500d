(** C58 in binary64: the transformations return numbers in [0, 1] - never NaN - whatever the
    rounding, and the class with the largest score never gets the smaller share.  Of math.Exp only
    [exp_like] is assumed. *)
From Coq Require Import List Arith ZArith Bool Lia Reals Lra.
From Flocq Require Import Core.Core IEEE754.BinarySingleNaN.
From Verif Require Import Base.Num Base.FTac Model.LgbTransform Proofs.ScalerFP Proofs.TransformFP.
From Verif Require Proofs.MetricsFP.
Import ListNotations.
Local Open Scope R_scope.

(** [p] assigns to each score of [l] a finite double between 0 and 1, none of them above that of
    a largest score. *)
Definition shares_of (l : list F64) (p : list F64) : Prop :=
  length p = length l
  /\ (forall q, In q p -> is_finite q = true /\ 0 <= B2R q <= 1)
  /\ forall i j, (i < length l)%nat -> (j < length l)%nat -> (forall v, In v l -> B2R v <= B2R (nth j l f64_zero)) ->
       B2R (nth i p f64_zero) <= B2R (nth j p f64_zero).
Lemma shares_map (l : list F64) (g : F64 -> F64) : (forall v, In v l -> unit64 (g v)) ->
  (forall v w, In v l -> In w l -> (forall u, In u l -> B2R u <= B2R w) -> B2R (g v) <= B2R (g w)) -> shares_of l (map g l).
Proof.
  intros U M. split; [apply map_length|]. split.
  - intros q Hq. apply in_map_iff in Hq. destruct Hq as (v & <- & Hv). now apply U.
  - intros i j Hi Hj Hm. rewrite !(nth_indep (map g l) f64_zero (g f64_zero)) by (now rewrite map_length). rewrite !map_nth.
    apply M; [now apply nth_In|now apply nth_In|exact Hm].
Qed.

Theorem C58_leaves_softmax_float : forall (fe fl : F64 -> F64) (l : list F64), exp_like fe -> l <> [] -> (forall v, In v l -> is_finite v = true) ->
  shares_of l (@leaves_softmax (FNum fe fl) l)
  /\ ((Z.of_nat (length l) < 2 ^ 53)%Z -> forall j, (j < length l)%nat -> (forall v, In v l -> B2R v <= B2R (nth j l f64_zero)) ->
        B2R (f64_div (f64_ofZ 1) (f64_ofZ (Z.of_nat (length l)))) <= B2R (nth j (@leaves_softmax (FNum fe fl) l) f64_zero : F64)).
Proof.
  intros fe fl l He Hne Hf. destruct (slice_max_F fe fl l Hne Hf) as [M1 M2]. set (m := @slice_max (FNum fe fl) l : F64) in *.
  set (h := fun v => fe (f64_minus v m)).
  assert (T : forall w, In w l -> (forall u, In u l -> B2R u <= B2R w) -> h w = one).
  { intros w Hw Hm. destruct (minus_top w m (Hf w Hw) (Hf m M1) ltac:(apply Rle_antisym; [now apply M2|now apply Hm])) as [A B]. now apply (proj1 (proj2 He)). }
  assert (U : forall v, In v l -> unit64 (h v)) by (intros v Hv; apply exp_dist; [exact He|now apply Hf|now apply Hf|now apply M2]).
  destruct (shares h l m U M1 (T m M1 M2)) as (S1 & S2 & S3).
  assert (E : @leaves_softmax (FNum fe fl) l = map (fun v => f64_div (h v) (fold_left f64_plus (map h l) f64_zero)) l).
  { unfold leaves_softmax. cbv zeta. change (@nsum (FNum fe fl) (map (fun v => @nexp (FNum fe fl) (@nsub (FNum fe fl) v (@slice_max (FNum fe fl) l))) l)) with (fold_left f64_plus (map h l) f64_zero).
    change (@nlt (FNum fe fl) n0 (fold_left f64_plus (map h l) f64_zero)) with (Bltb f64_zero (fold_left f64_plus (map h l) f64_zero)). rewrite S1. exact (map_map h (fun e => f64_div e (fold_left f64_plus (map h l) f64_zero)) l). }
  set (s := fold_left f64_plus (map h l) f64_zero) in *. rewrite E. split.
  - apply shares_map; [exact S2|]. intros v w Hv Hw Hm. rewrite (T w Hw Hm). now apply S3.
  - intros Hlen j Hj Hm. rewrite (nth_indep _ f64_zero (f64_div (h f64_zero) s)) by (now rewrite map_length).
    rewrite (map_nth (fun v => f64_div (h v) s)). rewrite (T _ (nth_In _ _ Hj) Hm).
    assert (Hin : In one (map h l)) by (rewrite <- (T m M1 M2); now apply in_map).
    pose proof (top_share (map h l)) as P. rewrite map_length in P. apply P; [|exact Hin|exact Hlen].
    intros e Hi. apply in_map_iff in Hi. destruct Hi as (v & <- & Hv). now apply U.
Qed.

Theorem C58_apply_softmax_float : forall (fe fl : F64 -> F64) (l : list F64), exp_like fe -> l <> [] -> (forall v, In v l -> is_finite v = true) ->
  shares_of l (@apply_softmax (FNum fe fl) l).
Proof.
  intros fe fl l He Hne Hf. destruct (slice_max_F fe fl l Hne Hf) as [M1 M2]. set (m := @slice_max (FNum fe fl) l : F64) in *.
  set (h := fun v => fe (f64_minus v m)).
  assert (T : forall w, In w l -> (forall u, In u l -> B2R u <= B2R w) -> h w = one).
  { intros w Hw Hm. destruct (minus_top w m (Hf w Hw) (Hf m M1) ltac:(apply Rle_antisym; [now apply M2|now apply Hm])) as [A B]. now apply (proj1 (proj2 He)). }
  assert (U : forall v, In v l -> unit64 (h v)) by (intros v Hv; apply exp_dist; [exact He|now apply Hf|now apply Hf|now apply M2]).
  destruct (shares h l m U M1 (T m M1 M2)) as (_ & S2 & S3).
  assert (E : @apply_softmax (FNum fe fl) l = map (fun v => ens (f64_div (h v) (fold_left f64_plus (map h l) f64_zero))) l) by (exact (map_map h (fun e => ens (f64_div e (fold_left f64_plus (map h l) f64_zero))) l)).
  rewrite E. apply shares_map; [intros v Hv; now apply ens_unit, S2|]. intros v w Hv Hw Hm. apply ens_mono; [now apply S2|now apply S2|]. rewrite (T w Hw Hm). now apply S3.
Qed.

Theorem C58_stable_softmax_float : forall (fe fl : F64 -> F64) (l : list F64), exp_like fe -> l <> [] -> (forall v, In v l -> is_finite v = true) ->
  shares_of l (@stable_softmax (FNum fe fl) l).
Proof.
  intros fe fl l He Hne Hf. destruct (slice_max_F fe fl l Hne Hf) as [M1 M2]. set (m := @slice_max (FNum fe fl) l : F64) in *.
  set (h := fun v => sexp fe (f64_minus v m)).
  assert (T : forall w, In w l -> (forall u, In u l -> B2R u <= B2R w) -> h w = one).
  { intros w Hw Hm. apply sexp_dist; [exact He|now apply Hf|now apply Hf|now apply M2|]. apply Rle_antisym; [now apply M2|now apply Hm]. }
  assert (U : forall v, In v l -> unit64 (h v)) by (intros v Hv; apply sexp_dist; [exact He|now apply Hf|now apply Hf|now apply M2]).
  destruct (shares h l m U M1 (T m M1 M2)) as (S1 & S2 & S3).
  assert (E : @stable_softmax (FNum fe fl) l = map (fun v => ens (f64_div (h v) (fold_left f64_plus (map h l) f64_zero))) l).
  { unfold stable_softmax. cbv zeta. change (@nsum (FNum fe fl) (map (fun v => @stable_exp (FNum fe fl) (@nsub (FNum fe fl) v (@slice_max (FNum fe fl) l))) l)) with (fold_left f64_plus (map h l) f64_zero).
    change (@nlt (FNum fe fl) n0 (fold_left f64_plus (map h l) f64_zero)) with (Bltb f64_zero (fold_left f64_plus (map h l) f64_zero)). rewrite S1. exact (map_map h (fun e => ens (f64_div e (fold_left f64_plus (map h l) f64_zero))) l). }
  rewrite E. apply shares_map; [intros v Hv; now apply ens_unit, S2|]. intros v w Hv Hw Hm. apply ens_mono; [now apply S2|now apply S2|]. rewrite (T w Hw Hm). now apply S3.
Qed.

(** Both sigmoids, for every finite raw score *)
Lemma plus_one_val (e : F64) : unit64 e -> is_finite (f64_plus one e) = true /\ 1 <= B2R (f64_plus one e).
Proof.
  intros [F B]. destruct one_val as [F1 V1]. destruct (MetricsFP.count_val 2 ltac:(lia)) as [F2 V2]. change (IZR (Z.of_nat 2)) with 2 in V2.
  pose proof (Bplus_correct fprec femax fprec_gt_0 fprec_lt_emax mode_NE one e F1 F) as C. fold (f64_plus one e) in C.
  rewrite (no_overflow _ (f64_ofZ (Z.of_nat 2))) in C by (rewrite V2, V1, !Rabs_pos_eq; lra). destruct C as (C1 & C2 & _). split; [exact C2|].
  rewrite C1. pose proof (rnd_le (B2R one) (B2R one + B2R e) ltac:(lra)) as L. rewrite rnd_B2R in L. lra.
Qed.
Lemma sigmoid_unit (fe fl : F64 -> F64) (post : F64 -> F64) (x : F64) : exp_like fe -> (forall y, unit64 y -> unit64 (post y)) -> is_finite x = true ->
  unit64 (@sigmoid_with (FNum fe fl) post x).
Proof.
  intros (E1 & _ & _) Hp Fx. destruct one_val as [F1 V1].
  assert (E : @sigmoid_with (FNum fe fl) post x = if Bltb (f64_ofZ 500) x then one else if Bltb x (f64_ofZ (-500)) then f64_zero
     else if Bleb f64_zero x then post (f64_div one (f64_plus one (fe (Bopp x)))) else post (f64_div (fe x) (f64_plus one (fe x)))) by reflexivity.
  rewrite E. clear E. destruct (Bltb _ _); [apply one_unit|]. destruct (Bltb _ _); [apply zero_unit|]. rewrite Bleb_correct by (reflexivity || exact Fx).
  change (B2R f64_zero) with 0. destruct (Rle_bool_spec 0 (B2R x)); apply Hp.
  - assert (U : unit64 (fe (Bopp x))) by (apply E1; [now rewrite is_finite_Bopp|rewrite B2R_Bopp; lra]). destruct (plus_one_val _ U) as [Fs Bs].
    apply div_unit; [exact F1|lra|right; split; [exact F1|]; split; [exact Fs|lra]|right; lra].
  - assert (U : unit64 (fe x)) by (apply E1; [exact Fx|lra]). destruct (plus_one_val _ U) as [Fs Bs]. destruct U as [Fu Bu].
    apply div_unit; [exact Fu|lra|right; split; [exact Fu|]; split; [exact Fs|lra]|right; lra].
Qed.
Theorem C58_sigmoids_float : forall (fe fl : F64 -> F64) (x : F64), exp_like fe -> is_finite x = true ->
  (is_finite (@leaves_sigmoid (FNum fe fl) x : F64) = true /\ 0 <= B2R (@leaves_sigmoid (FNum fe fl) x : F64) <= 1)
  /\ (is_finite (@stable_sigmoid (FNum fe fl) x : F64) = true /\ 0 <= B2R (@stable_sigmoid (FNum fe fl) x : F64) <= 1).
Proof.
  intros fe fl x He Fx. split.
  - exact (sigmoid_unit fe fl (fun x => x) x He (fun y Hy => Hy) Fx).
  - exact (sigmoid_unit fe fl ens x He ens_unit Fx).
Qed.

(** A crude exponential meeting [exp_like], for the examples. *)
Definition exp0 (x : F64) : F64 :=
  match x with B754_zero _ => one | B754_infinity true => f64_zero | B754_finite true _ _ _ => f64_div one (f64_ofZ 4) | _ => x end.
Lemma exp0_like : exp_like exp0.
Proof.
  destruct one_val as [F1 V1]. split; [|split; [|reflexivity]].
  - intros [s|s| |s m e h] Fx Hx; try discriminate; [apply one_unit|]. destruct s.
    + apply div_unit; [exact F1|lra| |]; destruct (MetricsFP.count_val 4 ltac:(lia)) as [F4 V4]; change (f64_ofZ (Z.of_nat 4)) with (f64_ofZ 4) in *;
        change (IZR (Z.of_nat 4)) with 4 in V4; right; [split; [exact F1|split; [exact F4|lra]]|lra].
    + cbn in Hx. pose proof (F2R_gt_0 radix2 (Float radix2 (Zpos m) e) eq_refl). lra.
  - intros [s|s| |s m e h] Fx Hx; try discriminate; [reflexivity|]. cbn in Hx. apply eq_0_F2R in Hx. destruct s; discriminate.
Qed.
Definition same (a b : F64) : bool := Beqb a b.
(** Three scores, the last of them the largest *)
Example C58_float_example :
  forallb (fun q => same (fst q) (snd q)) (combine (@leaves_softmax (FNum exp0 exp0) [f64_ofZ 1; f64_ofZ 2; f64_ofZ 5])
    [f64_div one (f64_ofZ 6); f64_div one (f64_ofZ 6); f64_div (f64_ofZ 2) (f64_ofZ 3)]) = true
  /\ same (@leaves_sigmoid (FNum exp0 exp0) (f64_ofZ (-3))) (f64_div one (f64_ofZ 5)) = true.
Proof. vm_compute. split; reflexivity. Qed.

(** What rounding and infinite scores break: ten equal scores get shares that do not add up to 1
    in floating point, and with one score +Inf the sum is NaN, which is not above 0, so that the
    compact predictor and the Predictor return unnormalised exponentials with a NaN among them. *)
Theorem C58_float_sum_refuted : exists fe l, exp_like fe /\ (forall v, In v l -> is_finite v = true)
  /\ same (fold_left f64_plus (@leaves_softmax (FNum fe fe) l) f64_zero) one = false.
Proof.
  exists exp0, (repeat f64_zero 10). split; [exact exp0_like|]. split; [intros v Hv; apply repeat_spec in Hv; now subst|].
  vm_compute. reflexivity.
Qed.
Theorem C58_float_infinite_refuted : exists fe, exp_like fe
  /\ match @leaves_softmax (FNum fe fe) [pinf; f64_ofZ 1] with [a; b] => f64_isnan a | _ => false end = true
  /\ match @stable_softmax (FNum fe fe) [pinf; f64_ofZ 1] with [a; b] => f64_isnan a | _ => false end = true.
Proof. exists exp0. split; [exact exp0_like|]. vm_compute. split; reflexivity. Qed.

Print Assumptions C58_leaves_softmax_float.
Print Assumptions C58_apply_softmax_float.
Print Assumptions C58_stable_softmax_float.
Print Assumptions C58_sigmoids_float.
Print Assumptions C58_float_sum_refuted.
Print Assumptions C58_float_infinite_refuted.
