(** C104 in binary64: PredictProba returns numbers in [0, 1] and agrees with Predict despite
    rounding.  math.Exp is an argument of which only the stated facts are assumed. *)
From Coq Require Import List Arith ZArith Bool Lia Reals Lra.
From Flocq Require Import Core.Core IEEE754.BinarySingleNaN.
From Verif Require Import Base.Num Base.GoRes Base.Mat Model.Logistic Proofs.ScalerFP Proofs.TransformFP Props.TransformFProps.
From Verif Require Proofs.MetricsFP.
Import ListNotations.
Local Open Scope R_scope.

Lemma sigmoid_nn (e : F64) : nn e -> unit64 (f64_div one (f64_plus one e)).
Proof.
  destruct one_val as [F1 V1]. intros [->|[Fe He]].
  - assert (E : f64_plus one pinf = pinf) by (vm_compute; reflexivity). rewrite E. destruct (div_inf one F1) as [F V]. split; [exact F|]. rewrite V. lra.
  - destruct (plus_nn one e ltac:(right; split; [exact F1|lra]) Fe He) as (_ & B & _).
    apply div_unit; [exact F1|lra|exact B|]. destruct B as [B|(_ & _ & B)]; [now left|right; lra].
Qed.
Lemma minus_unit (s : F64) : unit64 s -> unit64 (f64_minus one s) /\ B2R (f64_minus one s) = rnd (1 - B2R s).
Proof.
  intros [F B]. destruct one_val as [F1 V1]. pose proof (Bminus_correct fprec femax fprec_gt_0 fprec_lt_emax mode_NE one s F1 F) as C. fold (f64_minus one s) in C.
  rewrite V1 in C. rewrite (no_overflow _ one) in C by (rewrite V1, !Rabs_pos_eq; lra). destruct C as (C1 & C2 & _).
  pose proof (rnd_le 0 (1 - B2R s) ltac:(lra)) as L1. pose proof (rnd_le (1 - B2R s) (B2R one) ltac:(lra)) as L2. rewrite rnd_0 in L1. rewrite rnd_B2R in L2.
  split; [split; [exact C2|]; rewrite C1; lra|exact C1].
Qed.
Definition half : F64 := f64_div (f64_ofZ 1) (f64_ofZ 2).
Lemma half_val : is_finite half = true /\ B2R half = 1 / 2.
Proof.
  assert (E : B2SF half = SpecFloat.S754_finite false 4503599627370496 (-53)) by (vm_compute; reflexivity).
  destruct half as [s|s| |s m' e' h]; cbn in E; try discriminate. injection E as -> -> ->.
  split; [reflexivity|]. cbn. unfold F2R, bpow. cbn. lra.
Qed.
Lemma half_iff (s : F64) : unit64 s -> Bleb half s = Bleb (f64_minus one s) s.
Proof.
  intros U. destruct half_val as [Fh Vh]. destruct (minus_unit s U) as [[Fm _] Vm]. pose proof (proj1 U) as Fs.
  rewrite !Bleb_correct by assumption. rewrite Vm, Vh.
  assert (R2 : rnd (1 / 2) = 1 / 2) by (rewrite <- Vh; apply rnd_B2R).
  destruct (Rle_bool_spec (1 / 2) (B2R s)) as [H|H].
  - symmetry. apply Rle_bool_true. pose proof (rnd_le (1 - B2R s) (1 / 2) ltac:(lra)). lra.
  - symmetry. apply Rle_bool_false. pose proof (rnd_le (1 / 2) (1 - B2R s) ltac:(lra)). lra.
Qed.

(** Two classes: for every raw score that is not NaN - infinite ones included - the two
    probabilities are finite and in [0, 1], and Predict gives the class with the larger one (the
    second if they are equal). *)
Theorem C104_float_binary : forall (fe fl : F64 -> F64) lowest G (m : @lmodel (FNum fe fl) G) (x : list F64) n c0 c1 (z : F64),
  (forall v, f64_isnan v = false -> fe v = B754_infinity false \/ is_finite (fe v) = true /\ 0 <= B2R (fe v)) ->
  l_fitted G m = true -> l_nc G m = 2%nat -> l_classes G m = [c0; c1] -> class_score G m x 0 = Ok (z : FNum fe fl) -> f64_isnan z = false ->
  exists a b : F64, lr_proba lowest G m (mkmat n [x] : matrix (FNum fe fl)) = Ok [[a; b]]
  /\ (is_finite a = true /\ 0 <= B2R a <= 1) /\ (is_finite b = true /\ 0 <= B2R b <= 1)
  /\ lr_predict lowest G m (mkmat n [x] : matrix (FNum fe fl)) = Ok [nofZ (if Rle_dec (B2R a) (B2R b) then c1 else c0)].
Proof.
  intros fe fl lowest G m x n c0 c1 z He Ff Hnc Hc Hz Hn.
  set (s := f64_div one (f64_plus one (fe (Bopp z)))).
  assert (U : unit64 s) by (apply sigmoid_nn, He; now destruct z).
  destruct (minus_unit s U) as [Um _]. exists (f64_minus one s), s. split; [|split; [exact Um|split; [exact U|]]].
  - unfold lr_proba. rewrite Ff, Hnc. cbn [negb nrows mrows length newdense bind mapM Nat.eqb]. unfold newdense. cbn [Nat.eqb orb bind]. rewrite Hz. reflexivity.
  - unfold lr_predict. rewrite Ff, Hnc. cbn [negb nrows mrows length newdense bind mapM Nat.eqb]. unfold newdense. cbn [Nat.eqb orb bind]. rewrite Hz. cbn [bind].
    change (@nle (FNum fe fl) (@nlit (FNum fe fl) 1 2) (@sigmoid (FNum fe fl) z)) with (Bleb half s).
    rewrite half_iff, Bleb_correct by (exact U || apply Um || apply U). unfold class_at. rewrite Hc.
    destruct (Rle_bool_spec (B2R (f64_minus one s)) (B2R s)), (Rle_dec (B2R (f64_minus one s)) (B2R s)); try lra; reflexivity.
Qed.

(** Another number of classes, finite raw scores not below -MaxFloat64 (which [lowest] stands
    for): finite probabilities in [0, 1], none above that of a largest score. *)
Theorem C104_float_multi : forall (fe fl : F64 -> F64) (lowest : F64) G (m : @lmodel (FNum fe fl) G) (x : list F64) n (ss : list F64),
  exp_like fe -> is_finite lowest = true -> l_fitted G m = true -> l_nc G m <> 2%nat -> l_nc G m <> 0%nat ->
  mapM (@class_score (FNum fe fl) G m x) (seq 0 (l_nc G m)) = Ok (ss : list (FNum fe fl)) -> ss <> [] ->
  (forall v, In v ss -> is_finite v = true /\ B2R lowest <= B2R v) ->
  exists q : list F64, @lr_proba (FNum fe fl) lowest G m (mkmat n [x] : matrix (FNum fe fl)) = Ok [q] /\ shares_of ss q.
Proof.
  intros fe fl lowest G m x n ss He Fl Ff H2 H0 Es Hne Hs. exists (@softmax (FNum fe fl) lowest ss). split.
  - unfold lr_proba. rewrite Ff. cbn [negb nrows mrows length]. unfold newdense. apply Nat.eqb_neq in H2, H0. rewrite H0, H2. cbn [Nat.eqb orb bind mapM].
    rewrite Es. reflexivity.
  - destruct (fold_max_F ss lowest Fl (fun v Hv => proj1 (Hs v Hv))) as [M1 M2]. set (mx := fold_left (fun m v => if Bltb m v then v else m) ss lowest) in *.
    assert (Fm : is_finite mx = true) by (destruct M1 as [<-|M1]; [exact Fl|now apply Hs]).
    set (h := fun v => fe (f64_minus v mx)).
    assert (W : exists w, In w ss /\ B2R w = B2R mx).
    { destruct M1 as [E|M1]; [|now exists mx]. destruct ss as [|v r]; [easy|]. exists v. split; [now left|]. rewrite <- E. apply Rle_antisym; [rewrite E; apply M2; right; now left|apply Hs; now left]. }
    destruct W as (w0 & W1 & W2).
    assert (T : forall w, In w ss -> (forall u, In u ss -> B2R u <= B2R w) -> h w = one).
    { intros w Hw Hm. destruct (minus_top w mx (proj1 (Hs w Hw)) Fm) as [A B]; [apply Rle_antisym; [apply M2; now right|rewrite <- W2; now apply Hm]|]. now apply (proj1 (proj2 He)). }
    assert (U : forall v, In v ss -> unit64 (h v)) by (intros v Hv; apply exp_dist; [exact He|now apply Hs|exact Fm|apply M2; now right]).
    assert (T0 : h w0 = one) by (apply T; [exact W1|]; intros u Hu; rewrite W2; apply M2; now right).
    destruct (shares h ss w0 U W1 T0) as (_ & S2 & S3).
    assert (E : @softmax (FNum fe fl) lowest ss = map (fun v => f64_div (h v) (fold_left f64_plus (map h ss) f64_zero)) ss)
      by (exact (map_map h (fun e => f64_div e (fold_left f64_plus (map h ss) f64_zero)) ss)).
    rewrite E. apply shares_map; [exact S2|]. intros v w Hv Hw Hm. rewrite (T w Hw Hm). now apply S3.
Qed.

(** A fitted model for the classes 3 and 7, rows with scores 2, -2 and +Inf, and one with three
    classes; [exp0] meets both assumptions on the exponential. *)
Lemma exp0_nn : forall v, f64_isnan v = false -> exp0 v = B754_infinity false \/ is_finite (exp0 v) = true /\ 0 <= B2R (exp0 v).
Proof.
  intros [s|[]| |[] m e h] H; try discriminate.
  - right. destruct one_unit as [F B]. split; [exact F|apply B].
  - right. split; [reflexivity|]. cbn. lra.
  - now left.
  - right. destruct exp0_like as (E & _ & _). set (x := B754_finite true m e h). destruct (E x eq_refl) as [F B]; [now apply neg_B2R|]. split; [exact F|apply B].
  - right. split; [reflexivity|]. cbn [exp0]. now apply MetricsFP.pos_B2R.
Qed.
Definition FX : Num := FNum exp0 exp0.
Definition lm2 : @lmodel FX unit := @mklm FX unit (Some [[f64_ofZ 1]]) [f64_ofZ 0] [3%Z; 7%Z] 2 1 [] true tt.
Definition lm3 : @lmodel FX unit := @mklm FX unit (Some [[f64_ofZ 1]; [f64_ofZ 2]; [f64_ofZ 1]]) [f64_ofZ 0; f64_ofZ 0; f64_ofZ 1] [3%Z; 7%Z; 9%Z] 3 1 [] true tt.
Definition agree_all (a b : list F64) : bool := Nat.eqb (length a) (length b) && forallb (fun q => Beqb (fst q) (snd q)) (combine a b).
Definition low : F64 := f64_ofZ (- (2 ^ 1024 - 2 ^ 971)).
Example C104_float_example :
  match @lr_proba FX low unit lm2 (mkmat 1 [[f64_ofZ 2]; [f64_ofZ (-2)]; [pinf]]), @lr_predict FX low unit lm2 (mkmat 1 [[f64_ofZ 2]; [f64_ofZ (-2)]; [pinf]]) with
  | Ok [p; q; r], Ok c =>
      agree_all p [f64_minus one (f64_div (f64_ofZ 4) (f64_ofZ 5)); f64_div (f64_ofZ 4) (f64_ofZ 5)]
      && agree_all q [f64_minus one (f64_div one (f64_ofZ 3)); f64_div one (f64_ofZ 3)] && agree_all r [f64_zero; one]
      && agree_all c [f64_ofZ 7; f64_ofZ 3; f64_ofZ 7]
  | _, _ => false end = true
  /\ match @lr_proba FX low unit lm3 (mkmat 1 [[f64_ofZ 5]]) with
     | Ok [p] => agree_all p [f64_div one (f64_ofZ 6); f64_div (f64_ofZ 2) (f64_ofZ 3); f64_div one (f64_ofZ 6)]
     | _ => false end = true
  /\ is_finite low = true.
Proof. vm_compute. repeat split; reflexivity. Qed.

(** With three classes an infinite score gives NaN probabilities without an error. *)
Theorem C104_float_infinite_refuted : exists (m : @lmodel FX unit) (x : list F64), l_fitted unit m = true /\ (forall v, In v x -> f64_isnan v = false)
  /\ match @lr_proba FX low unit m (mkmat 1 [x]) with Ok [q] => forallb (fun p => f64_isnan p) q | _ => false end = true.
Proof. exists lm3, [pinf]. split; [reflexivity|]. split; [intros v [<-|[]]; reflexivity|]. vm_compute. reflexivity. Qed.

Print Assumptions C104_float_binary.
Print Assumptions C104_float_multi.
Print Assumptions C104_float_infinite_refuted.
