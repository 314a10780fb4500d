(** Min-max scaling to [0, 1] in binary64. *)
From Coq Require Import List Arith ZArith Bool Lia Reals Lra.
From Flocq Require Import Core.Core IEEE754.BinarySingleNaN.
From Verif Require Import Base.Num Base.GoRes Base.Mat Base.ListX Model.Scaler Proofs.ScalerP.
Import ListNotations.
Local Open Scope R_scope.

Notation rnd := (round radix2 (SpecFloat.fexp fprec femax) (round_mode mode_NE)).
Notation fin x := (is_finite x = true).

Lemma rnd_B2R (x : F64) : rnd (B2R x) = B2R x.
Proof. apply round_generic; [apply valid_rnd_N|apply generic_format_B2R]. Qed.
Lemma rnd_le a b : a <= b -> rnd a <= rnd b.
Proof. apply round_le; [apply fexp_correct; reflexivity|apply valid_rnd_N]. Qed.
Lemma rnd_0 : rnd 0 = 0.
Proof. apply round_0. apply valid_rnd_N. Qed.
Lemma is_pos_finite (x : F64) : (exists m e, B2SF x = SpecFloat.S754_finite false m e) -> fin x /\ 0 < B2R x.
Proof.
  intros (m & e & E). destruct x as [s|s| |s m' e' h]; cbn in E; try discriminate. injection E as -> <- <-.
  split; [reflexivity|]. cbn. apply F2R_gt_0. reflexivity.
Qed.
Definition one : F64 := f64_ofZ 1.
Lemma one_val : fin one /\ B2R one = 1.
Proof.
  assert (E : B2SF one = SpecFloat.S754_finite false 4503599627370496 (-52)) by (vm_compute; reflexivity).
  destruct one as [s|s| |s m' e' h]; cbn in E; try discriminate. injection E as -> -> ->.
  split; [reflexivity|]. cbn. unfold F2R, bpow. cbn. lra.
Qed.
Lemma range_val : let r := f64_minus one f64_zero in fin r /\ B2R r = 1.
Proof.
  assert (E : B2SF (f64_minus one f64_zero) = SpecFloat.S754_finite false 4503599627370496 (-52)) by (vm_compute; reflexivity).
  destruct (f64_minus one f64_zero) as [s|s| |s m' e' h]; cbn in E; try discriminate. injection E as -> -> ->.
  split; [reflexivity|]. cbn. unfold F2R, bpow. cbn. lra.
Qed.
Definition thr : F64 := f64_div (f64_ofZ 1) (f64_ofZ 100000000).
Lemma thr_val : fin thr /\ 0 < B2R thr <= 1.
Proof.
  destruct (is_pos_finite thr) as [F P]; [vm_compute; eauto|]. destruct one_val as [F1 V1]. split; [exact F|]. split; [exact P|].
  assert (K : Bleb thr one = true) by (vm_compute; reflexivity). rewrite Bleb_correct in K by assumption. rewrite <- V1.
  now destruct (Rle_bool_spec (B2R thr) (B2R one)).
Qed.

(** An operation whose exact result is bounded by a double does not overflow *)
Lemma no_overflow r (y : F64) : Rabs r <= Rabs (B2R y) -> Rlt_bool (Rabs (rnd r)) (bpow radix2 femax) = true.
Proof.
  intros K. apply Rlt_bool_true. apply Rle_lt_trans with (Rabs (B2R y)); [|apply abs_B2R_lt_emax].
  unfold Rabs in *. rewrite <- (rnd_B2R y). destruct (Rcase_abs (B2R y)); destruct (Rcase_abs r).
  - assert (B2R y <= r) by lra. pose proof (rnd_le _ _ H). pose proof (rnd_le r 0 ltac:(lra)). rewrite rnd_0 in *.
    destruct (Rcase_abs (rnd r)); destruct (Rcase_abs (rnd (B2R y))); lra.
  - assert (Hr : r <= B2R (Bopp y)) by (rewrite B2R_Bopp; lra). pose proof (rnd_le _ _ Hr) as Q. rewrite (rnd_B2R (Bopp y)), B2R_Bopp in Q. rewrite rnd_B2R.
    pose proof (rnd_le 0 r ltac:(lra)). rewrite rnd_0 in *. destruct (Rcase_abs (rnd r)); destruct (Rcase_abs (B2R y)); lra.
  - assert (Hr : B2R (Bopp y) <= r) by (rewrite B2R_Bopp; lra). pose proof (rnd_le _ _ Hr) as Q. rewrite (rnd_B2R (Bopp y)), B2R_Bopp in Q. rewrite rnd_B2R.
    pose proof (rnd_le r 0 ltac:(lra)). rewrite rnd_0 in *. destruct (Rcase_abs (rnd r)); destruct (Rcase_abs (B2R y)); lra.
  - assert (Hr : r <= B2R y) by lra. pose proof (rnd_le _ _ Hr). pose proof (rnd_le 0 r ltac:(lra)). rewrite rnd_0, rnd_B2R in *.
    destruct (Rcase_abs (rnd r)); destruct (Rcase_abs (B2R y)); lra.
Qed.
Lemma fits (x : F64) : Rlt_bool (Rabs (B2R x)) (bpow radix2 femax) = true.
Proof. apply Rlt_bool_true, abs_B2R_lt_emax. Qed.
Lemma minus_val (x y : F64) : fin x -> fin y -> fin (f64_minus x y) -> B2R (f64_minus x y) = rnd (B2R x - B2R y).
Proof.
  intros Hx Hy Hd. pose proof (Bminus_correct fprec femax fprec_gt_0 fprec_lt_emax mode_NE x y Hx Hy) as C. fold (f64_minus x y) in C.
  destruct (Rlt_bool _ _) in C; [apply C|]. destruct C as [C _]. exfalso. destruct (f64_minus x y); cbn in *; discriminate.
Qed.

(** The value computed by Transform for the range [0, 1] *)
Definition unit_elem (mn sc v : F64) : F64 := f64_plus (f64_mult (f64_div (f64_minus v mn) sc) (f64_minus one f64_zero)) f64_zero.
Lemma unit_elem_val (mn sc v : F64) : fin (f64_minus v mn) -> fin sc -> 0 < B2R sc -> 0 <= B2R (f64_minus v mn) <= B2R sc ->
  fin (unit_elem mn sc v) /\ B2R (unit_elem mn sc v) = rnd (B2R (f64_minus v mn) / B2R sc) /\ 0 <= B2R (unit_elem mn sc v) <= 1.
Proof.
  intros Ha Hs Hp Hb. unfold unit_elem. set (a := f64_minus v mn) in *. clearbody a. destruct one_val as [F1 V1]. destruct range_val as [Fr Vr].
  assert (Hq : 0 <= B2R a / B2R sc <= 1).
  { split; [apply Rmult_le_pos; [lra|left; now apply Rinv_0_lt_compat]|]. apply Rmult_le_reg_r with (B2R sc); [exact Hp|].
    unfold Rdiv. rewrite Rmult_assoc, Rinv_l by lra. lra. }
  pose proof (rnd_le _ _ (proj1 Hq)) as Q0. pose proof (rnd_le _ _ (proj2 Hq)) as Q1. rewrite rnd_0 in Q0. rewrite <- V1, rnd_B2R, V1 in Q1.
  pose proof (Bdiv_correct fprec femax fprec_gt_0 fprec_lt_emax mode_NE a sc ltac:(lra)) as D. fold (f64_div a sc) in D.
  rewrite (no_overflow _ one) in D by (rewrite V1, Rabs_R1, Rabs_pos_eq; lra). destruct D as (D1 & D2 & _). rewrite Ha in D2.
  set (q := f64_div a sc) in *. clearbody q. set (r := f64_minus one f64_zero) in *. clearbody r.
  pose proof (Bmult_correct fprec femax fprec_gt_0 fprec_lt_emax mode_NE q r) as M. fold (f64_mult q r) in M.
  rewrite Vr, Rmult_1_r, rnd_B2R in M. rewrite (fits q) in M. destruct M as (M1 & M2 & _). rewrite D2, Fr in M2.
  set (p := f64_mult q r) in *. clearbody p.
  pose proof (Bplus_correct fprec femax fprec_gt_0 fprec_lt_emax mode_NE p f64_zero M2 eq_refl) as P. fold (f64_plus p f64_zero) in P.
  change (B2R f64_zero) with 0 in P. rewrite Rplus_0_r, rnd_B2R in P. rewrite (fits p) in P. destruct P as (P1 & P2 & _).
  split; [exact P2|]. rewrite P1, M1, D1. split; [reflexivity|lra].
Qed.

(** The loops for minimum and maximum *)
Lemma Bltb_fin (x y : F64) : fin x -> fin y -> (Bltb x y = true -> B2R x < B2R y) /\ (Bltb x y = false -> B2R y <= B2R x).
Proof. intros Hx Hy. rewrite Bltb_correct by assumption. destruct (Rlt_bool_spec (B2R x) (B2R y)); split; intros; try discriminate; lra. Qed.
Lemma fold_min_F (l : list F64) : forall x, fin x -> (forall v, In v l -> fin v) ->
  let m := fold_left (fun m v => if Bltb v m then v else m) l x in In m (x :: l) /\ forall v, In v (x :: l) -> B2R m <= B2R v.
Proof.
  induction l as [|y l IH]; intros x Hx Hl; cbn [fold_left]; [split; [now left|intros v [<-|[]]; lra]|].
  assert (Hy : fin y) by (apply Hl; now left). destruct (Bltb_fin y x Hy Hx) as [B1 B2]. destruct (Bltb y x).
  - destruct (IH y Hy ltac:(intros; apply Hl; now right)) as [I1 I2]. split; [now right|]. specialize (B1 eq_refl).
    intros v [<-|Hv]; [pose proof (I2 y (or_introl eq_refl)); lra|now apply I2].
  - destruct (IH x Hx ltac:(intros; apply Hl; now right)) as [I1 I2]. split; [destruct I1; [now left|right; now right]|]. specialize (B2 eq_refl).
    intros v [<-|[<-|Hv]]; [apply I2; now left|pose proof (I2 x (or_introl eq_refl)); lra|apply I2; now right].
Qed.
Lemma fold_max_F (l : list F64) : forall x, fin x -> (forall v, In v l -> fin v) ->
  let m := fold_left (fun m v => if Bltb m v then v else m) l x in In m (x :: l) /\ forall v, In v (x :: l) -> B2R v <= B2R m.
Proof.
  induction l as [|y l IH]; intros x Hx Hl; cbn [fold_left]; [split; [now left|intros v [<-|[]]; lra]|].
  assert (Hy : fin y) by (apply Hl; now left). destruct (Bltb_fin x y Hx Hy) as [B1 B2]. destruct (Bltb x y).
  - destruct (IH y Hy ltac:(intros; apply Hl; now right)) as [I1 I2]. split; [now right|]. specialize (B1 eq_refl).
    intros v [<-|Hv]; [pose proof (I2 y (or_introl eq_refl)); lra|now apply I2].
  - destruct (IH x Hx ltac:(intros; apply Hl; now right)) as [I1 I2]. split; [destruct I1; [now left|right; now right]|]. specialize (B2 eq_refl).
    intros v [<-|[<-|Hv]]; [apply I2; now left|pose proof (I2 x (or_introl eq_refl)); lra|apply I2; now right].
Qed.

(** FitTransform, any arithmetic *)
Lemma mm_ft_any {N : Num} (s : mmscaler N) (X : matrix N) : wf X -> mrows X <> [] -> (0 < mcols X)%nat ->
  exists s' Y, mm_fit_transform s X = (s', Ok Y) /\ mcols Y = mcols X /\ wf Y /\ nrows Y = nrows X /\
  forall j, (j < mcols X)%nat ->
    let mn := col_min (column j (mrows X)) in
    column j (mrows Y) = map (fun v => mm_elem (mm_lo s) (mm_hi s) v (mn, mm_col_scale mn (col_max (column j (mrows X))))) (column j (mrows X)).
Proof.
  intros Hwf Hr Hc. unfold mm_fit_transform, mm_fit.
  replace (_ || _)%bool with false by (symmetry; apply orb_false_iff; split; apply Nat.eqb_neq; [|lia]; unfold nrows; destruct (mrows X); [easy|discriminate]).
  set (cols := seq 0 (mcols X)). unfold mm_transform. cbn [mm_fitted negb mm_lo mm_hi mm_nf]. unfold mm_params. cbn [mm_dmin mm_scale].
  rewrite combine_map_seq.
  match goal with |- context [map_matrix _ _ ?p X] => set (ps := p) end.
  assert (Hl : length ps = mcols X) by (unfold ps, cols; now rewrite map_length, seq_length).
  rewrite (map_matrix_ok _ _ _ _ Hwf eq_refl Hl Hr Hc). do 2 eexists. split; [reflexivity|]. split; [reflexivity|].
  split; [apply map_matrix_wf; first [assumption|reflexivity]|]. split; [unfold nrows; cbn; now rewrite map_length|].
  intros j Hj. cbn [mrows]. rewrite (column_zrow _ (mcols X) ps (mrows X) (n0, n0) j) by auto.
  unfold ps, cols. rewrite nth_map_seq by exact Hj. reflexivity.
Qed.

(** StandardScaler.FitTransform, any arithmetic *)
Lemma ss_ft_any {N : Num} (s : sscaler N) (X : matrix N) : wf X -> mrows X <> [] -> (0 < mcols X)%nat ->
  exists s' Y, ss_fit_transform s X = (s', Ok Y) /\ mcols Y = mcols X /\ wf Y /\ nrows Y = nrows X /\
  forall j, (j < mcols X)%nat ->
    column j (mrows Y) = map (fun v => ss_elem v (ss_col_mean (ss_with_mean s) X j, ss_col_scale (ss_with_std s) X j (ss_col_mean (ss_with_mean s) X j))) (column j (mrows X)).
Proof.
  intros Hwf Hr Hc. unfold ss_fit_transform, ss_fit.
  replace (_ || _)%bool with false by (symmetry; apply orb_false_iff; split; apply Nat.eqb_neq; [|lia]; unfold nrows; destruct (mrows X); [easy|discriminate]).
  unfold ss_transform. cbn [ss_fitted negb ss_nf]. unfold ss_params. cbn [ss_mean ss_scale].
  rewrite combine_map_seq.
  match goal with |- context [map_matrix _ _ ?p X] => set (ps := p) end.
  assert (Hl : length ps = mcols X) by (unfold ps; now rewrite map_length, seq_length).
  rewrite (map_matrix_ok _ _ _ _ Hwf eq_refl Hl Hr Hc). do 2 eexists. split; [reflexivity|]. split; [reflexivity|].
  split; [apply map_matrix_wf; first [assumption|reflexivity]|]. split; [unfold nrows; cbn; now rewrite map_length|].
  intros j Hj. cbn [mrows]. rewrite (column_zrow _ (mcols X) ps (mrows X) (n0, n0) j) by auto.
  unfold ps. rewrite nth_map_seq by exact Hj. rewrite nth_map_seq by exact Hj. reflexivity.
Qed.
Lemma div_val (a sc : F64) : 0 < B2R sc -> fin (f64_div a sc) -> fin a /\ B2R (f64_div a sc) = rnd (B2R a / B2R sc).
Proof.
  intros Hp F. pose proof (Bdiv_correct fprec femax fprec_gt_0 fprec_lt_emax mode_NE a sc ltac:(lra)) as D. fold (f64_div a sc) in D.
  destruct (Rlt_bool _ _) in D; [split; [now rewrite <- (proj1 (proj2 D))|apply D]|]. exfalso. destruct (f64_div a sc); cbn in *; discriminate.
Qed.
Lemma div_inf_zero (a sc : F64) : is_finite sc = false -> fin (f64_div a sc) -> B2R (f64_div a sc) = 0.
Proof. destruct a as [b|b| |b m e h], sc as [b'|b'| |b' m' e' h']; cbn; intros; try discriminate; reflexivity. Qed.
Lemma minus_fin (x m : F64) : fin x -> fin (f64_minus x m) -> fin m.
Proof. destruct x as [b|b| |b m1 e h], m as [b'|b'| |b' m' e' h']; cbn; intros; try discriminate; reflexivity. Qed.
