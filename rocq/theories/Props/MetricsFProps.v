(** C10, C11 and C12 in binary64: what of the laws of the regression metrics survives rounding,
    for vectors of doubles of any length, and what does not. *)
From Coq Require Import List Arith ZArith Bool Lia Reals Lra.
From Flocq Require Import Core.Core IEEE754.BinarySingleNaN.
From Verif Require Import Base.Num Base.GoRes Base.FTac Model.Metrics Proofs.MetricsFP Props.MetricsProps.
Import ListNotations.
Local Open Scope R_scope.

Lemma rchecked_ok {N : Num} (t p : list N) : length t = length p -> t <> [] -> rchecked (Some t) (Some p) = Ok (t, p).
Proof. intros Hl Hne. unfold rchecked. rewrite <- Hl, Nat.eqb_refl. destruct t; [easy|reflexivity]. Qed.
Lemma mse_val {N : Num} (t p : list N) : length t = length p -> t <> [] ->
  mse (Some t) (Some p) = Ok (ndiv (fold_left (fun s ab => nadd s (sq (nsub (fst ab) (snd ab)))) (combine t p) n0) (nofnat (length t))).
Proof. intros Hl Hne. unfold mse. now rewrite (rchecked_ok t p Hl Hne). Qed.
Lemma mae_val {N : Num} (t p : list N) : length t = length p -> t <> [] ->
  mae (Some t) (Some p) = Ok (ndiv (fold_left (fun s ab => nadd s (nabs (nsub (fst ab) (snd ab)))) (combine t p) n0) (nofnat (length t))).
Proof. intros Hl Hne. unfold mae. now rewrite (rchecked_ok t p Hl Hne). Qed.
Lemma rmse_val {N : Num} (t p : list N) m : mse (Some t) (Some p) = Ok m -> rmse (Some t) (Some p) = Ok (nsqrt m).
Proof. intros E. unfold rmse. now rewrite E. Qed.
Lemma r2_val {N : Num} (t p : list N) r : r2_score (Some t) (Some p) = Ok r -> t <> [] /\ length t = length p /\
  exists m, let tss := fold_left (fun s ab => nadd s (sq (nsub (fst ab) m))) (combine t p) n0 in neqb tss n0 = false /\
  r = nsub n1 (ndiv (fold_left (fun s ab => nadd s (sq (nsub (fst ab) (snd ab)))) (combine t p) n0) tss).
Proof.
  unfold r2_score, rchecked. destruct (Nat.eqb_spec (length t) 0) as [E|E]; [discriminate|]. destruct (Nat.eqb_spec (length p) (length t)) as [F|F]; [|discriminate].
  cbn [negb bind]. intros K. split; [intros ->; now apply E|]. split; [now symmetry|]. exists (mean t). cbv zeta.
  destruct (neqb _ _); [discriminate|]. split; [reflexivity|]. now injection K as <-.
Qed.
Lemma ev_val {N : Num} (t p : list N) r : explained_variance_score (Some t) (Some p) = Ok r -> t <> [] /\
  exists m d, r = nsub n1 (ndiv (ndiv (fold_left (fun s ab => nadd s (sq (nsub (nsub (fst ab) (snd ab)) d))) (combine t p) n0) (nofnat (length t)))
                                (ndiv (fold_left (fun s ab => nadd s (sq (nsub (fst ab) m))) (combine t p) n0) (nofnat (length t)))).
Proof.
  unfold explained_variance_score, rchecked. destruct (Nat.eqb_spec (length t) 0) as [E|E]; [discriminate|]. destruct (Nat.eqb_spec (length p) (length t)) as [F|F]; [|discriminate].
  cbn [negb bind]. intros K. split; [intros ->; now apply E|].
  destruct (neqb _ _); [discriminate|]. injection K as <-. do 2 eexists. reflexivity.
Qed.

(** Accuracy and error rate of up to 2^53 - 1 labels: finite doubles between 0 and 1;
    despite the rounding of the quotient and of the difference, the accuracy is 1 and the
    error 0 exactly when no position disagrees, the accuracy is 0 and the error 1 exactly when
    all disagree, and fewer disagreeing positions never give a smaller accuracy. *)
Definition wrong (t p : list F64) : nat := length (filter (fun i => negb (Beqb (nth i t f64_zero) (nth i p f64_zero))) (seq 0 (length t))).
Theorem C10_float : forall (fe fl : F64 -> F64) (t p : list F64), length t = length p -> t <> [] -> (Z.of_nat (length t) < 2 ^ 53)%Z ->
  exists a e, @accuracy (FNum fe fl) (Some t) (Some p) = Ok a /\ @classification_error (FNum fe fl) (Some t) (Some p) = Ok e
  /\ is_finite a = true /\ is_finite e = true /\ 0 <= B2R a <= 1 /\ 0 <= B2R e <= 1
  /\ (B2R a = 1 <-> wrong t p = 0%nat) /\ (B2R e = 0 <-> wrong t p = 0%nat)
  /\ (B2R a = 0 <-> wrong t p = length t) /\ (B2R e = 1 <-> wrong t p = length t)
  /\ forall q a', length t = length q -> @accuracy (FNum fe fl) (Some t) (Some q) = Ok a' -> (wrong t p <= wrong t q)%nat -> B2R (a' : F64) <= B2R a.
Proof.
  intros fe fl t p Hl Hne Hlen.
  assert (V : forall q, length t = length q ->
    @classification_error (FNum fe fl) (Some t) (Some q) = Ok (f64_div (f64_ofZ (Z.of_nat (wrong t q))) (f64_ofZ (Z.of_nat (length t))))
    /\ @accuracy (FNum fe fl) (Some t) (Some q) = Ok (f64_minus (f64_ofZ 1) (f64_div (f64_ofZ (Z.of_nat (wrong t q))) (f64_ofZ (Z.of_nat (length t)))))).
  { intros q Hq. destruct (C10_error_counts (FNum fe fl) t q Hq Hne) as (w & -> & E1 & E2). split; [exact E1|exact E2]. }
  assert (Hn : (0 < length t)%nat) by (destruct t; [easy|cbn; lia]).
  assert (W : forall q, (wrong t q <= length t)%nat).
  { intros q. unfold wrong. rewrite <- (seq_length (length t) 0) at 2. generalize (seq 0 (length t)). induction l as [|x l IH]; cbn; [lia|]. destruct (negb _); cbn; lia. }
  destruct (V p Hl) as [E A]. destruct (rate_val (wrong t p) (length t) Hn (W p) Hlen) as (F1 & F2 & V1 & V2 & B1 & B2 & L1 & L2).
  set (e := f64_div (f64_ofZ (Z.of_nat (wrong t p))) (f64_ofZ (Z.of_nat (length t)))) in *.
  assert (P53 : 0 < bpow radix2 (-53)) by apply bpow_gt_0. destruct (acc_ends (B2R e) B1) as [X1 X2].
  assert (R0 : rnd 0 = 0) by (apply round_0; apply valid_rnd_N).
  assert (R1 : rnd 1 = 1). { apply round_generic; [apply valid_rnd_N|]. change 1 with (bpow radix2 0). apply generic_format_bpow. cbn. lia. }
  assert (Nn : IZR (Z.of_nat (length t)) <> 0) by (apply not_0_IZR; lia).
  assert (Z0 : wrong t p = 0%nat -> B2R e = 0) by (intros Ew; rewrite V1, Ew; unfold Rdiv; cbn [Z.of_nat]; now rewrite Rmult_0_l).
  assert (Z1 : wrong t p = length t -> B2R e = 1) by (intros Ew; rewrite V1, Ew; unfold Rdiv; rewrite Rinv_r by exact Nn; exact R1).
  exists (f64_minus (f64_ofZ 1) e), e. split; [exact A|]. split; [exact E|]. split; [exact F2|]. split; [exact F1|]. split; [exact B2|]. split; [exact B1|].
  split; [|split; [|split; [|split]]].
  - split; [|intros Ew; rewrite V2, (Z0 Ew), Rminus_0_r; exact R1]. intros Ea. destruct (Nat.eq_dec (wrong t p) 0) as [|Hw]; [assumption|]. exfalso.
    specialize (X1 (L1 Hw)). lra.
  - split; [|exact Z0]. intros Ee. destruct (Nat.eq_dec (wrong t p) 0) as [|Hw]; [assumption|]. specialize (L1 Hw). lra.
  - split; [|intros Ew; rewrite V2, (Z1 Ew), Rminus_diag_eq by reflexivity; exact R0]. intros Ea. destruct (Nat.eq_dec (wrong t p) (length t)) as [|Hw]; [assumption|]. exfalso.
    specialize (X2 (L2 Hw)). lra.
  - split; [|exact Z1]. intros Ee. destruct (Nat.eq_dec (wrong t p) (length t)) as [|Hw]; [assumption|]. specialize (L2 Hw). lra.
  - intros q a' Hq Ea Hw. destruct (V q Hq) as [_ A']. assert (Eq : a' = f64_minus (f64_ofZ 1) (f64_div (f64_ofZ (Z.of_nat (wrong t q))) (f64_ofZ (Z.of_nat (length t))))).
    { pose proof (eq_trans (eq_sym Ea) A') as K. now injection K. }
    destruct (rate_val (wrong t q) (length t) Hn (W q) Hlen) as (_ & _ & V1' & V2' & _). rewrite Eq, V2, V2', V1, V1'. apply rnd_mono.
    assert (Km : rnd (IZR (Z.of_nat (wrong t p)) / IZR (Z.of_nat (length t))) <= rnd (IZR (Z.of_nat (wrong t q)) / IZR (Z.of_nat (length t)))); [|lra].
    apply rnd_mono. apply Rmult_le_compat_r; [left; apply Rinv_0_lt_compat, IZR_lt; lia|apply IZR_le; lia].
Qed.
(** The accuracy need not be the double next to the fraction of agreeing positions, and a NaN
    label disagrees with itself. *)
Theorem C10_float_refuted : exists t p q : list F0, length t = 3%nat /\ length p = 3%nat /\ wrong t p = 2%nat
  /\ match accuracy (Some t) (Some p) with Ok a => negb (Beqb a (f 1 3)) | _ => false end = true
  /\ q = [@nnan F0] /\ match accuracy (Some q) (Some q) with Ok a => Beqb a (f 0 1) | _ => false end = true.
Proof. exists [f 0 1; f 1 1; f 1 1], [f 0 1; f 0 1; f 0 1], [@nnan F0]. vm_compute. repeat split; reflexivity. Qed.
Example C10_float_example : wrong [f 0 1; f 1 1] [f 0 1; f 0 1] = 1%nat
  /\ match accuracy (Some [f 0 1; f 1 1]) (Some [f 0 1; f 0 1]) with Ok a => Beqb a (f 1 2) | _ => false end = true.
Proof. vm_compute. repeat split; reflexivity. Qed.

(** All doubles, NaN and infinities included: the three errors have no sign bit (they are
    NaN, +0 or positive), and exchanging the vectors changes no bit of the result. *)
Theorem C11_float_sign : forall (fe fl : F64 -> F64) (t p : list F64), length t = length p -> t <> [] ->
  exists m r a : F64,
    @mse (FNum fe fl) (Some t) (Some p) = Ok m /\ @rmse (FNum fe fl) (Some t) (Some p) = Ok r /\ @mae (FNum fe fl) (Some t) (Some p) = Ok a
    /\ Bsign m = false /\ Bsign r = false /\ Bsign a = false
    /\ @mse (FNum fe fl) (Some p) (Some t) = Ok m /\ @rmse (FNum fe fl) (Some p) (Some t) = Ok r /\ @mae (FNum fe fl) (Some p) (Some t) = Ok a.
Proof.
  intros fe fl t p Hl Hne.
  set (S := fold_left (fun s ab => f64_plus s (f64_mult (f64_minus (fst ab) (snd ab)) (f64_minus (fst ab) (snd ab)))) (combine t p) f64_zero).
  set (A := fold_left (fun s ab => f64_plus s (Babs (f64_minus (fst ab) (snd ab)))) (combine t p) f64_zero).
  set (n := f64_ofZ (Z.of_nat (length t))).
  assert (Hp : p <> []) by (intros ->; destruct t; easy).
  destruct (len_val (length t)) as [Pn _]; [destruct t; [easy|cbn; lia]|]. fold n in Pn.
  assert (PS : Bsign S = false) by (apply (fold_pos (fun ab : F64 * F64 => f64_mult (f64_minus (fst ab) (snd ab)) (f64_minus (fst ab) (snd ab)))); [intros; apply sq_pos|reflexivity]).
  assert (PA : Bsign A = false) by (apply (fold_pos (fun ab : F64 * F64 => Babs (f64_minus (fst ab) (snd ab)))); [intros; apply Bsign_Babs|reflexivity]).
  assert (E1 : forall u v : list F64, length u = length v -> u <> [] -> @mse (FNum fe fl) (Some u) (Some v)
    = Ok (f64_div (fold_left (fun s ab => f64_plus s (f64_mult (f64_minus (fst ab) (snd ab)) (f64_minus (fst ab) (snd ab)))) (combine u v) f64_zero) (f64_ofZ (Z.of_nat (length u))))).
  { intros u v Huv Hu. exact (@mse_val (FNum fe fl) u v Huv Hu). }
  assert (E2 : forall u v : list F64, length u = length v -> u <> [] -> @mae (FNum fe fl) (Some u) (Some v)
    = Ok (f64_div (fold_left (fun s ab => f64_plus s (Babs (f64_minus (fst ab) (snd ab)))) (combine u v) f64_zero) (f64_ofZ (Z.of_nat (length u))))).
  { intros u v Huv Hu. exact (@mae_val (FNum fe fl) u v Huv Hu). }
  assert (E3 : forall (u v : list F64) x, @mse (FNum fe fl) (Some u) (Some v) = Ok x -> @rmse (FNum fe fl) (Some u) (Some v) = Ok (f64_sqrt x)).
  { intros u v x E. exact (@rmse_val (FNum fe fl) u v x E). }
  exists (f64_div S n), (f64_sqrt (f64_div S n)), (f64_div A n).
  assert (M1 : @mse (FNum fe fl) (Some t) (Some p) = Ok (f64_div S n)) by (apply E1; assumption).
  assert (M2 : @mse (FNum fe fl) (Some p) (Some t) = Ok (f64_div S n)).
  { rewrite E1 by (try symmetry; assumption). rewrite <- Hl. unfold S, n. do 2 f_equal.
    apply (fold_swap (fun ab : F64 * F64 => f64_mult (f64_minus (fst ab) (snd ab)) (f64_minus (fst ab) (snd ab)))). intros a b. apply sq_swap. }
  split; [exact M1|]. split; [now apply E3|]. split; [apply E2; assumption|].
  split; [now apply div_pos|]. split; [apply sqrt_pos_ok; now apply div_pos|]. split; [now apply div_pos|].
  split; [exact M2|]. split; [now apply E3|]. rewrite E2 by (try symmetry; assumption). rewrite <- Hl. unfold A, n. do 2 f_equal.
  apply (fold_swap (fun ab : F64 * F64 => Babs (f64_minus (fst ab) (snd ab)))). intros a b. apply abs_swap.
Qed.

(** Finite data: the errors are never NaN, and those of a perfect prediction are exactly +0. *)
Theorem C11_float_finite : forall (fe fl : F64 -> F64) (t p : list F64), length t = length p -> t <> [] -> (Z.of_nat (length t) < 2 ^ 63)%Z ->
  (forall x, In x t -> is_finite x = true) -> (forall x, In x p -> is_finite x = true) ->
  exists m r a : F64,
    @mse (FNum fe fl) (Some t) (Some p) = Ok m /\ @rmse (FNum fe fl) (Some t) (Some p) = Ok r /\ @mae (FNum fe fl) (Some t) (Some p) = Ok a
    /\ f64_isnan m = false /\ f64_isnan r = false /\ f64_isnan a = false
    /\ (p = t -> m = f64_zero /\ r = f64_zero /\ a = f64_zero).
Proof.
  intros fe fl t p Hl Hne Hlen Ht Hp.
  set (S := fold_left (fun s ab => f64_plus s (f64_mult (f64_minus (fst ab) (snd ab)) (f64_minus (fst ab) (snd ab)))) (combine t p) f64_zero).
  set (A := fold_left (fun s ab => f64_plus s (Babs (f64_minus (fst ab) (snd ab)))) (combine t p) f64_zero).
  set (n := f64_ofZ (Z.of_nat (length t))).
  destruct (len_val (length t)) as [Pn Fn]; [destruct t; [easy|cbn; lia]|]. fold n in Pn, Fn. destruct (Fn Hlen) as [F1 F2].
  assert (D : forall ab, In ab (combine t p) -> f64_isnan (f64_minus (fst ab) (snd ab)) = false).
  { intros [a b] K. apply minus_ok; [apply Ht; eapply in_combine_l; exact K|apply Hp; eapply in_combine_r; exact K]. }
  destruct (fold_pos (fun ab : F64 * F64 => f64_mult (f64_minus (fst ab) (snd ab)) (f64_minus (fst ab) (snd ab))) ltac:(intros; apply sq_pos) (combine t p) f64_zero eq_refl) as [S1 S2].
  destruct (fold_pos (fun ab : F64 * F64 => Babs (f64_minus (fst ab) (snd ab))) ltac:(intros; apply Bsign_Babs) (combine t p) f64_zero eq_refl) as [A1 A2].
  fold S in S1, S2. fold A in A1, A2.
  assert (NS : f64_isnan S = false) by (apply S2; [reflexivity|intros ab K; apply sq_pos; now apply D]).
  assert (NA : f64_isnan A = false) by (apply A2; [reflexivity|intros ab K; apply abs_ok; now apply D]).
  assert (M1 : @mse (FNum fe fl) (Some t) (Some p) = Ok (f64_div S n)) by (exact (@mse_val (FNum fe fl) t p Hl Hne)).
  exists (f64_div S n), (f64_sqrt (f64_div S n)), (f64_div A n).
  split; [exact M1|]. split; [exact (@rmse_val (FNum fe fl) t p _ M1)|].
  split; [exact (@mae_val (FNum fe fl) t p Hl Hne)|].
  split; [now apply div_ok|]. split; [apply sqrt_pos_ok; [now apply div_pos|now apply div_ok]|]. split; [now apply div_ok|].
  intros ->. assert (Z : forall ab, In ab (combine t t) -> f64_minus (fst ab) (snd ab) = f64_zero).
  { intros [a b] K. apply combine_self in K as [<- K]. apply minus_self. now apply Ht. }
  assert (ES : S = f64_zero) by (apply (fold_zero (fun ab : F64 * F64 => f64_mult (f64_minus (fst ab) (snd ab)) (f64_minus (fst ab) (snd ab)))); intros ab K; rewrite (Z ab K); reflexivity).
  assert (EA : A = f64_zero) by (apply (fold_zero (fun ab : F64 * F64 => Babs (f64_minus (fst ab) (snd ab)))); intros ab K; rewrite (Z ab K); reflexivity).
  assert (E0 : f64_div f64_zero n = f64_zero).
  { clear -Pn F1 F2. destruct n as [s|s| |s m e h]; cbn in Pn; subst; try discriminate; [|reflexivity]. now elim F2. }
  rewrite ES, EA, E0. repeat split; reflexivity.
Qed.

(** R2 and the explained variance are never above 1, for all doubles (an undefined score is
    an error or NaN). *)
Theorem C12_float : forall (fe fl : F64 -> F64) (t p : list F64) r,
  @r2_score (FNum fe fl) (Some t) (Some p) = Ok r \/ @explained_variance_score (FNum fe fl) (Some t) (Some p) = Ok r ->
  Bltb (f64_ofZ 1) r = false.
Proof.
  intros fe fl t p r K.
  assert (O1 : is_finite (f64_ofZ 1) = true) by (vm_compute; reflexivity). assert (O2 : Bsign (f64_ofZ 1) = false) by (vm_compute; reflexivity).
  assert (Sq : forall g : F64 * F64 -> F64, Bsign (fold_left (fun s ab => f64_plus s (f64_mult (g ab) (g ab))) (combine t p) f64_zero) = false).
  { intros g. apply (fold_pos (fun ab : F64 * F64 => f64_mult (g ab) (g ab))); [intros; apply sq_pos|reflexivity]. }
  destruct K as [K|K].
  - apply r2_val in K as (_ & _ & m & K). destruct K as [_ K]. rewrite K. apply one_minus; [exact O1|exact O2|].
    apply div_pos; [exact (Sq (fun ab => f64_minus (fst ab) (snd ab)))|exact (Sq (fun ab => f64_minus (fst ab) m))].
  - apply ev_val in K as (Hne & m & d & ->). destruct (len_val (length t)) as [Pn _]; [destruct t; [easy|cbn; lia]|].
    apply one_minus; [exact O1|exact O2|]. apply div_pos; (apply div_pos; [|exact Pn]).
    + exact (Sq (fun ab => f64_minus (f64_minus (fst ab) (snd ab)) d)).
    + exact (Sq (fun ab => f64_minus (fst ab) m)).
Qed.
(** A perfect prediction of finite values is scored exactly 1, unless the sum of squares is
    NaN. *)
Theorem C12_float_perfect : forall (fe fl : F64 -> F64) (t : list F64) r, (forall x, In x t -> is_finite x = true) ->
  @r2_score (FNum fe fl) (Some t) (Some t) = Ok r -> f64_isnan r = true \/ Beqb r (f64_ofZ 1) = true.
Proof.
  intros fe fl t r Ht K. apply r2_val in K as (_ & _ & m0 & K). cbv zeta in K. destruct K as [E K].
  match type of E with neqb ?x _ = false => set (tss := x) in * end.
  assert (ES : fold_left (fun s ab => f64_plus s (f64_mult (f64_minus (fst ab) (snd ab)) (f64_minus (fst ab) (snd ab)))) (combine t t) f64_zero = f64_zero).
  { apply (fold_zero (fun ab : F64 * F64 => f64_mult (f64_minus (fst ab) (snd ab)) (f64_minus (fst ab) (snd ab)))). intros [a b] Q. apply combine_self in Q as [<- Q].
    cbn [fst snd]. rewrite minus_self by now apply Ht. reflexivity. }
  assert (K' : r = f64_minus (f64_ofZ 1) (f64_div f64_zero tss)) by (rewrite <- ES; exact K). rewrite K'. clear K K' ES.
  clearbody tss. change (num (FNum fe fl)) with F64 in tss. change (Beqb tss f64_zero = false) in E.
  destruct tss as [s|s| |s m e h]; [destruct s; discriminate E| | |].
  - right. destruct s; vm_compute; reflexivity.
  - left. vm_compute. reflexivity.
  - right. destruct s; vm_compute; reflexivity.
Qed.

(** The hypotheses are met, and the values are the expected ones. *)
Definition fok (r : res F0) (v : F0) : bool := match r with Ok x => Beqb x v | _ => false end.
Example C11_float_example :
  fok (mse (Some [f 1 1; f 2 1]) (Some [f 1 1; f 4 1])) (f 2 1) = true /\ fok (mae (Some [f 1 1; f 2 1]) (Some [f 1 1; f 4 1])) (f 1 1) = true
  /\ fok (r2_score (Some [f 1 1; f 3 1]) (Some [f 1 1; f 3 1])) (f 1 1) = true /\ fok (r2_score (Some [f 1 1; f 3 1]) (Some [f 1 1; f 2 1])) (f 1 2) = true.
Proof. vm_compute. repeat split; reflexivity. Qed.

(** An error of zero does not mean equal vectors (the square underflows), and the mean
    absolute error can exceed the root mean squared error. *)
Theorem C11_float_zero_refuted : exists x y : F0, is_finite x = true /\ Beqb x y = false /\
  fok (mse (Some [x]) (Some [y])) (f 0 1) = true /\ fok (rmse (Some [x]) (Some [y])) (f 0 1) = true /\ fok (mae (Some [x]) (Some [y])) x = true /\ Bltb (f 0 1) x = true.
Proof. exists (f64_div (f 1 1) (f (2 ^ 600) 1)), (f 0 1). vm_compute. repeat split; reflexivity. Qed.

(** A constant target is not always recognised: the mean of three times 0.1 is not 0.1, so
    R2 returns a score (1 for the perfect and less than -10^30 for another constant
    prediction) where it promises an error. *)
Theorem C12_float_constant_refuted : exists c : F0,
  fok (r2_score (Some [c; c; c]) (Some [c; c; c])) (f 1 1) = true
  /\ match r2_score (Some [c; c; c]) (Some [f 1 5; f 1 5; f 1 5]) with Ok r => Bltb r (f (- (10 ^ 30)) 1) | _ => false end = true
  /\ match r2_score (Some [f 1 2; f 1 2; f 1 2]) (Some [f 1 5; f 1 5; f 1 5]) with Err _ => true | _ => false end = true.
Proof. exists (f 1 10). vm_compute. repeat split; reflexivity. Qed.

Print Assumptions C10_float.
Print Assumptions C10_float_refuted.
Print Assumptions C11_float_sign.
Print Assumptions C11_float_finite.
Print Assumptions C11_float_zero_refuted.
Print Assumptions C12_float.
Print Assumptions C12_float_perfect.
Print Assumptions C12_float_constant_refuted.
