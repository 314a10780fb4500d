(** C15 and C16 in binary64: standardising keeps the order of a column but can invent a
    deviation for a constant one; min-max scaling to [0, 1] keeps its promises with rounding; other
    ranges, very wide data and the way back do not. *)
From Coq Require Import List Arith ZArith Bool Lia Reals Lra.
From Flocq Require Import Core.Core IEEE754.BinarySingleNaN.
From Verif Require Import Base.Num Base.GoRes Base.Mat Base.ListX Base.FTac Model.Scaler Proofs.MetricsFP Proofs.ScalerP Proofs.ScalerFP.
Import ListNotations.
Local Open Scope R_scope.

(** StandardScaler with any settings and finite data of any size: in a column whose results
    are finite, rounding never inverts the order of two values. *)
Theorem C15_float_order : forall (fe fl : F64 -> F64) (s : sscaler (FNum fe fl)) (X : matrix (FNum fe fl)),
  wf X -> mrows X <> [] -> (0 < mcols X)%nat -> (forall j x, (j < mcols X)%nat -> In x (column j (mrows X)) -> is_finite x = true) ->
  exists s' Y, ss_fit_transform s X = (s', Ok Y) /\ mcols Y = mcols X /\ nrows Y = nrows X /\
  forall j, (j < mcols X)%nat -> (forall v, In v (column j (mrows Y)) -> is_finite v = true) -> exists g : F64 -> F64,
    column j (mrows Y) = map g (column j (mrows X)) /\
    (forall x y, In x (column j (mrows X)) -> In y (column j (mrows X)) -> B2R x <= B2R y -> B2R (g x) <= B2R (g y)).
Proof.
  intros fe fl s X Hwf Hr Hc Hfin. destruct (ss_ft_any s X Hwf Hr Hc) as (s' & Y & E & E1 & _ & E3 & E4).
  exists s', Y. split; [exact E|]. split; [exact E1|]. split; [exact E3|]. intros j Hj HY. specialize (E4 j Hj). specialize (Hfin j).
  set (m := ss_col_mean (ss_with_mean s) X j : F64) in *. set (sc := @ss_col_scale (FNum fe fl) (ss_with_std s) X j m : F64) in *.
  set (c := column j (mrows X)) in *. set (g := fun v : F64 => f64_div (f64_minus v m) sc).
  assert (EY : column j (mrows Y) = map g c) by exact E4. exists g. split; [exact EY|].
  assert (FY : forall x, In x c -> fin (g x)) by (intros x Hx; apply HY; rewrite EY; now apply in_map).
  destruct thr_val as (T1 & T2 & T3). destruct one_val as [O1 O2].
  assert (Hsc : fin sc -> 0 < B2R sc).
  { unfold sc, ss_col_scale. destruct (ss_with_std s); [|intros _; change (0 < B2R one); lra].
    set (sd := @nsqrt (FNum fe fl) _ : F64).
    assert (Psd : Bsign sd = false).
    { apply sqrt_pos_ok, div_pos.
      - apply (fold_pos (fun v : F64 => f64_mult (f64_minus v m) (f64_minus v m))); [intros; apply sq_pos|reflexivity].
      - apply len_val. unfold nrows. destruct (mrows X); [easy|cbn; lia]. }
    change (fin (if Bltb (Babs sd) thr then one else sd) -> 0 < B2R (if Bltb (Babs sd) thr then one else sd)).
    destruct (Bltb (Babs sd) thr) eqn:B; [intros _; lra|]. intros Fs. assert (Fa : fin (Babs sd)) by now rewrite is_finite_Babs.
    destruct (Bltb_fin (Babs sd) thr Fa T1) as [_ B2]. specialize (B2 B). rewrite B2R_Babs, (Rabs_pos_eq _ (pos_B2R _ Psd)) in B2. lra. }
  intros x y Hx Hy Hxy. destruct (is_finite sc) eqn:Fs.
  - specialize (Hsc eq_refl). destruct (div_val _ _ Hsc (FY x Hx)) as [Fx Vx]. destruct (div_val _ _ Hsc (FY y Hy)) as [Fy Vy].
    unfold g. rewrite Vx, Vy. apply rnd_le. apply Rmult_le_compat_r; [left; now apply Rinv_0_lt_compat|].
    assert (Fm : fin m) by (apply (minus_fin x); [now apply Hfin|exact Fx]).
    rewrite !minus_val by (try assumption; now apply Hfin). apply rnd_le. lra.
  - assert (Zero : forall v, In v c -> B2R (g v) = 0).
    { intros v Hv. apply div_inf_zero; [exact Fs|exact (FY v Hv)]. }
    rewrite !Zero by assumption. lra.
Qed.

(** A constant column can be standardised to -1: the mean of three times 1000000000.2 is the
    next larger double, and the deviation from it exceeds the threshold. *)
Definition standardised (l : list F0) : option (list F0) :=
  match snd (ss_fit_transform (@ss_new F0 true true) (mkmat 1 (map (fun x => [x]) l))) with
  | Ok Y => Some (column 0 (mrows Y)) | _ => None end.
Theorem C15_float_constant_refuted : exists c : F0,
  match standardised [c; c; c] with Some [x; y; z] => Beqb x (f (-1) 1) && Beqb y (f (-1) 1) && Beqb z (f (-1) 1) | _ => false end = true
  /\ match standardised [f 7 1; f 7 1; f 7 1] with Some [x; y; z] => Beqb x (f 0 1) && Beqb y (f 0 1) && Beqb z (f 0 1) | _ => false end = true
  /\ match standardised [f 1 1; f 3 1] with Some [x; y] => Beqb x (f (-1) 1) && Beqb y (f 1 1) | _ => false end = true.
Proof. exists (f 10000000002 10). vm_compute. repeat split; reflexivity. Qed.

(** For the range [0, 1], finite data of any size, and no difference of two values of a
    column overflowing: every result is a finite double between 0 and 1, the order of a
    column is kept, each column contains a 0, a column with a computed spread of at least
    1e-8 contains exactly 1, and a constant column becomes 0.  [B2R] is the value of a
    double. *)
Theorem C16_unit_float : forall (fe fl : F64 -> F64) (s : mmscaler (FNum fe fl)) (X : matrix (FNum fe fl)),
  mm_lo s = f64_zero -> mm_hi s = f64_ofZ 1 -> wf X -> mrows X <> [] -> (0 < mcols X)%nat ->
  (forall j x, (j < mcols X)%nat -> In x (column j (mrows X)) -> is_finite x = true) ->
  (forall j x y, (j < mcols X)%nat -> In x (column j (mrows X)) -> In y (column j (mrows X)) -> is_finite (f64_minus x y) = true) ->
  exists s' Y, mm_fit_transform s X = (s', Ok Y) /\ mcols Y = mcols X /\ wf Y /\ nrows Y = nrows X /\
  forall j, (j < mcols X)%nat -> exists g : F64 -> F64,
    column j (mrows Y) = map g (column j (mrows X)) /\
    (forall x y, In x (column j (mrows X)) -> In y (column j (mrows X)) -> B2R x <= B2R y -> B2R (g x) <= B2R (g y)) /\
    (forall v, In v (column j (mrows Y)) -> is_finite v = true /\ 0 <= B2R v <= 1) /\
    (exists v, In v (column j (mrows Y)) /\ B2R v = 0) /\
    (forall x y, In x (column j (mrows X)) -> In y (column j (mrows X)) -> Bleb (f 1 100000000) (f64_minus y x) = true ->
       exists v, In v (column j (mrows Y)) /\ B2R v = 1) /\
    ((forall x y, In x (column j (mrows X)) -> In y (column j (mrows X)) -> B2R x = B2R y) ->
       forall v, In v (column j (mrows Y)) -> B2R v = 0).
Proof.
  intros fe fl s X Hlo Hhi Hwf Hr Hc Hfin Hdiff. destruct (mm_ft_any s X Hwf Hr Hc) as (s' & Y & E & E1 & E2 & E3 & E4).
  exists s', Y. repeat (split; [assumption|]). intros j Hj. specialize (E4 j Hj). cbv zeta in E4. specialize (Hfin j). specialize (Hdiff j).
  assert (Hne : column j (mrows X) <> []) by (unfold column; destruct (mrows X); easy).
  set (c := column j (mrows X)) in *. clearbody c.
  assert (Hmn : In (col_min c) c /\ forall v, In v c -> B2R (col_min c : F64) <= B2R v).
  { destruct c as [|x0 c]; [easy|]. apply (fold_min_F c x0); [apply Hfin; [exact Hj|now left]|intros; apply Hfin; [exact Hj|now right]]. }
  assert (Hmx : In (col_max c) c /\ forall v, In v c -> B2R v <= B2R (col_max c : F64)).
  { destruct c as [|x0 c]; [easy|]. apply (fold_max_F c x0); [apply Hfin; [exact Hj|now left]|intros; apply Hfin; [exact Hj|now right]]. }
  destruct Hmn as [In1 Le1]. destruct Hmx as [In2 Le2]. set (mn := col_min c : F64) in *. set (mx := col_max c : F64) in *.
  set (sc := @mm_col_scale (FNum fe fl) mn mx : F64) in *.
  assert (Fin : forall x, In x c -> fin x) by (intros; now apply Hfin). assert (Fd : forall x y, In x c -> In y c -> fin (f64_minus x y)) by (intros; now apply Hdiff).
  assert (Vd : forall x y, In x c -> In y c -> B2R (f64_minus x y) = rnd (B2R x - B2R y)) by (intros; apply minus_val; auto).
  destruct thr_val as (T1 & T2 & T3). destruct one_val as [O1 O2].
  assert (Dpos : 0 <= B2R (f64_minus mx mn)).
  { rewrite Vd by assumption. rewrite <- rnd_0. apply rnd_le. specialize (Le1 mx In2). lra. }
  assert (Hsc : fin sc /\ 0 < B2R sc /\ (forall v, In v c -> B2R (f64_minus v mn) <= B2R sc)
                /\ (B2R thr <= B2R (f64_minus mx mn) -> sc = f64_minus mx mn)).
  { assert (Up : forall v, In v c -> B2R (f64_minus v mn) <= B2R (f64_minus mx mn)).
    { intros v Hv. rewrite !Vd by assumption. apply rnd_le. specialize (Le2 v Hv). lra. }
    assert (Es : sc = (if Bltb (Babs (f64_minus mx mn)) thr then one else f64_minus mx mn)) by reflexivity. rewrite Es.
    assert (Fa : fin (Babs (f64_minus mx mn))) by (rewrite is_finite_Babs; now apply Fd).
    destruct (Bltb_fin (Babs (f64_minus mx mn)) thr Fa T1) as [B1 B2]. rewrite B2R_Babs, (Rabs_pos_eq _ Dpos) in *.
    destruct (Bltb (Babs (f64_minus mx mn)) thr).
    - specialize (B1 eq_refl). rewrite O2. split; [exact O1|]. split; [lra|]. split; [|lra]. intros v Hv. specialize (Up v Hv). lra.
    - specialize (B2 eq_refl). split; [now apply Fd|]. split; [lra|]. split; [exact Up|reflexivity]. }
  destruct Hsc as (S1 & S2 & S3 & S4).
  exists (unit_elem mn sc).
  assert (EY : column j (mrows Y) = map (unit_elem mn sc) c).
  { rewrite E4. rewrite Hlo, Hhi. reflexivity. }
  assert (Low : forall v, In v c -> 0 <= B2R (f64_minus v mn)).
  { intros v Hv. rewrite Vd by assumption. rewrite <- rnd_0. apply rnd_le. specialize (Le1 v Hv). lra. }
  assert (Val : forall v, In v c -> fin (unit_elem mn sc v) /\ B2R (unit_elem mn sc v) = rnd (B2R (f64_minus v mn) / B2R sc) /\ 0 <= B2R (unit_elem mn sc v) <= 1).
  { intros v Hv. apply unit_elem_val; [now apply Fd|exact S1|exact S2|]. split; [now apply Low|now apply S3]. }
  assert (Zero : forall v, In v c -> B2R v = B2R mn -> B2R (unit_elem mn sc v) = 0).
  { intros v Hv Ev. destruct (Val v Hv) as (_ & -> & _). rewrite Vd by assumption. rewrite Ev, Rminus_diag_eq, rnd_0 by reflexivity.
    unfold Rdiv. now rewrite Rmult_0_l, rnd_0. }
  split; [exact EY|]. split; [|split; [|split; [|split]]].
  - intros x y Hx Hy Hxy. destruct (Val x Hx) as (_ & -> & _). destruct (Val y Hy) as (_ & -> & _). apply rnd_le.
    apply Rmult_le_compat_r; [left; now apply Rinv_0_lt_compat|]. rewrite !Vd by assumption. apply rnd_le. lra.
  - intros v Hv. rewrite EY in Hv. apply in_map_iff in Hv as (x & <- & Hx). destruct (Val x Hx) as (V1 & _ & V2). now split.
  - exists (unit_elem mn sc mn). split; [rewrite EY; now apply in_map|]. now apply Zero.
  - intros x y Hx Hy Hxy. exists (unit_elem mn sc mx). split; [rewrite EY; now apply in_map|].
    assert (Hb : B2R thr <= B2R (f64_minus mx mn)).
    { change (f 1 100000000) with thr in Hxy. rewrite Bleb_correct in Hxy by auto. destruct (Rle_bool_spec (B2R thr) (B2R (f64_minus y x))) as [K|K]; [|discriminate].
      apply Rle_trans with (1 := K). rewrite !Vd by assumption. apply rnd_le. specialize (Le1 x Hx). specialize (Le2 y Hy). lra. }
    destruct (Val mx In2) as (_ & -> & _). rewrite <- (S4 Hb). unfold Rdiv. rewrite Rinv_r by lra. rewrite <- O2. apply rnd_B2R.
  - intros Hall v Hv. rewrite EY in Hv. apply in_map_iff in Hv as (x & <- & Hx). apply Zero; [exact Hx|now apply Hall].
Qed.

(** The training data 1, 3, 2 meet the hypotheses and become 0, 1, 1/2. *)
Definition scaled (lo hi : F0) (l : list F0) : option (list F0) :=
  match snd (mm_fit_transform (@mm_new F0 lo hi) (mkmat 1 (map (fun x => [x]) l))) with
  | Ok Y => Some (column 0 (mrows Y)) | _ => None end.
Definition same (a b : option (list F0)) : bool :=
  match a, b with
  | Some a, Some b => Nat.eqb (List.length a) (List.length b) && forallb (fun p => Beqb (fst p) (snd p)) (combine a b)
  | _, _ => false end.
Example C16_unit_example :
  same (scaled (f 0 1) (f 1 1) [f 1 1; f 3 1; f 2 1]) (Some [f 0 1; f 1 1; f 1 2]) = true
  /\ forallb (fun p => is_finite (f64_minus (fst p) (snd p))) (list_prod [f 1 1; f 3 1; f 2 1] [f 1 1; f 3 1; f 2 1]) = true.
Proof. vm_compute. split; reflexivity. Qed.

(** Another range: [-1, 0.1].  The largest training value is scaled to
    0.10000000000000009, outside the requested range. *)
Theorem C16_upper_end_refuted : exists (lo hi x y v : F0),
  Bltb lo hi = true /\ same (scaled lo hi [x; y]) (Some [lo; v]) = true /\ Bltb hi v = true.
Proof. exists (f (-1) 1), (f 1 10), (f 0 1), (f 1 1), (f64_plus (f64_minus (f 1 10) (f (-1) 1)) (f (-1) 1)). vm_compute. repeat split; reflexivity. Qed.

(** Finite data whose spread overflows: the largest value becomes NaN and everything finite
    below it the lower end. *)
Theorem C16_overflow_refuted : exists x y z : F0, forallb (fun v => is_finite v) [x; y; z] = true /\ Bltb y z = true /\
  match scaled (f 0 1) (f 1 1) [x; y; z] with Some [a; b; c] => Beqb a (f 0 1) && Beqb b (f 0 1) && f64_isnan c | _ => false end = true.
Proof.
  exists (f (- (10 ^ 308)) 1), (f 0 1), (f (10 ^ 308) 1).
  vm_compute. repeat split; reflexivity.
Qed.

(** Order is kept but not strictly, and InverseTransform does not restore the data: beside
    -2, the neighbours 1 - 2^-53 and 1 are both scaled to 1. *)
Definition restored (lo hi : F0) (l : list F0) : option (list F0) :=
  match mm_fit_transform (@mm_new F0 lo hi) (mkmat 1 (map (fun x => [x]) l)) with
  | (s, Ok Y) => match mm_inverse s Y with Ok Z => Some (column 0 (mrows Z)) | _ => None end
  | _ => None end.
Theorem C16_inverse_refuted : exists x y z : F0, Bltb y z = true /\
  match scaled (f 0 1) (f 1 1) [x; y; z] with Some [a; b; c] => Beqb b c | _ => false end = true /\
  match restored (f 0 1) (f 1 1) [x; y; z] with Some [a; b; c] => negb (Beqb b y) && Beqb c z | _ => false end = true.
Proof.
  exists (f (-2) 1), (f 9007199254740991 9007199254740992), (f 1 1). vm_compute. repeat split; reflexivity.
Qed.

Print Assumptions C15_float_order.
Print Assumptions C15_float_constant_refuted.
Print Assumptions C16_unit_float.
Print Assumptions C16_upper_end_refuted.
Print Assumptions C16_overflow_refuted.
Print Assumptions C16_inverse_refuted.
