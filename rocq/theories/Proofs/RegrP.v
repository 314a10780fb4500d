From Coq Require Import List Arith ZArith Bool Reals Lra Lia.
From Verif Require Import Base.Num Base.GoRes Base.RTac Model.Metrics.
Import ListNotations.
Local Open Scope R_scope.

Lemma rchecked_ok {N : Num} (t p : list N) : length t = length p -> t <> [] ->
  rchecked (Some t) (Some p) = Ok (t, p).
Proof.
  intros Hl Hne. unfold rchecked. destruct t; [easy|]. cbn [length Nat.eqb].
  rewrite <- Hl. cbn [length]. now rewrite Nat.eqb_refl.
Qed.

Lemma len_pos {A} (t : list A) : t <> [] -> 0 < INR (length t).
Proof. intros H. apply lt_0_INR. destruct t; [easy|cbn; lia]. Qed.

(** Sums over paired lists. *)
Lemma combine_fst_map {A B C} (g : A -> C) (t : list A) (p : list B) : length t = length p ->
  map (fun ab => g (fst ab)) (combine t p) = map g t.
Proof.
  revert p; induction t as [|x t IH]; intros [|y p] H; try discriminate; [reflexivity|].
  cbn. now rewrite IH by (now injection H).
Qed.
Lemma combine_swap_sum (g : R -> R -> R) (t p : list R) : length t = length p ->
  (forall a b, g a b = g b a) ->
  Rsum (map (fun ab => g (fst ab) (snd ab)) (combine t p)) =
  Rsum (map (fun ab => g (fst ab) (snd ab)) (combine p t)).
Proof.
  intros H Hg. revert p H; induction t as [|x t IH]; intros [|y p] H; try discriminate; [reflexivity|].
  cbn. rewrite IH by (now injection H). now rewrite (Hg x y).
Qed.
Lemma combine_zero_eq (t p : list R) : length t = length p ->
  (forall ab, In ab (combine t p) -> fst ab = snd ab) -> t = p.
Proof.
  revert p; induction t as [|x t IH]; intros [|y p] H Hz; try discriminate; [reflexivity|].
  f_equal; [apply (Hz (x, y)); now left|]. apply IH; [now injection H|].
  intros ab Hab. apply Hz. now right.
Qed.
Lemma combine_same (t : list R) ab : In ab (combine t t) -> fst ab = snd ab.
Proof. induction t as [|x t IH]; [easy|]. cbn. intros [<-|H]; auto. Qed.

Definition sqdiff (ab : R * R) : R := (fst ab - snd ab) * (fst ab - snd ab).
Definition absdiff (ab : R * R) : R := Rabs (fst ab - snd ab).

Lemma mse_R (t p : list R) : length t = length p -> t <> [] ->
  @mse RNum (Some t) (Some p) = Ok (Rsum (map sqdiff (combine t p)) / INR (length t)).
Proof.
  intros Hl Hne. unfold mse. rewrite (@rchecked_ok RNum) by assumption. cbn [bind].
  rewrite nofnat_R. do 2 f_equal. unfold sq. cbn.
  rewrite (fold_left_sum (A := R * R) sqdiff). lra.
Qed.
Lemma mae_R (t p : list R) : length t = length p -> t <> [] ->
  @mae RNum (Some t) (Some p) = Ok (Rsum (map absdiff (combine t p)) / INR (length t)).
Proof.
  intros Hl Hne. unfold mae. rewrite (@rchecked_ok RNum) by assumption. cbn [bind].
  rewrite nofnat_R. do 2 f_equal. cbn.
  rewrite (fold_left_sum (A := R * R) absdiff). lra.
Qed.

Lemma sqdiff_nonneg l x : In x (map sqdiff l) -> 0 <= x.
Proof. intros H. apply in_map_iff in H as (ab & <- & _). apply sq_nonneg. Qed.
Lemma absdiff_nonneg l x : In x (map absdiff l) -> 0 <= x.
Proof. intros H. apply in_map_iff in H as (ab & <- & _). apply Rabs_pos. Qed.

Lemma sqdiff_zero (t p : list R) : length t = length p ->
  (Rsum (map sqdiff (combine t p)) = 0 <-> t = p).
Proof.
  intros Hl. split.
  - intros H. apply combine_zero_eq; [exact Hl|]. intros ab Hab.
    pose proof (Rsum_nonneg_eq0 _ (sqdiff_nonneg _) H (sqdiff ab) (in_map _ _ _ Hab)) as E.
    apply sq_zero in E. lra.
  - intros ->. rewrite (Rsum_map_ext _ (fun _ => 0)); [rewrite Rsum_map_const; lra|].
    intros ab Hab. apply combine_same in Hab. unfold sqdiff. rewrite Hab. lra.
Qed.
Lemma absdiff_zero (t p : list R) : length t = length p ->
  (Rsum (map absdiff (combine t p)) = 0 <-> t = p).
Proof.
  intros Hl. split.
  - intros H. apply combine_zero_eq; [exact Hl|]. intros ab Hab.
    pose proof (Rsum_nonneg_eq0 _ (absdiff_nonneg _) H (absdiff ab) (in_map _ _ _ Hab)) as E.
    unfold absdiff in E. destruct (Req_dec (fst ab - snd ab) 0) as [E'|E']; [lra|].
    now apply Rabs_no_R0 in E'.
  - intros ->. rewrite (Rsum_map_ext _ (fun _ => 0)); [rewrite Rsum_map_const; lra|].
    intros ab Hab. apply combine_same in Hab. unfold absdiff. rewrite Hab.
    rewrite Rminus_eq_0. apply Rabs_R0.
Qed.

Lemma div_zero_iff a b : 0 < b -> (a / b = 0 <-> a = 0).
Proof.
  intros Hb. split; intros H.
  - apply Rmult_eq_reg_r with (/ b); [|apply Rinv_neq_0_compat; lra]. unfold Rdiv in H. lra.
  - subst. unfold Rdiv. lra.
Qed.
Lemma div_nonneg a b : 0 < b -> 0 <= a -> 0 <= a / b.
Proof. intros Hb Ha. apply Rmult_le_pos; [exact Ha|]. left. now apply Rinv_0_lt_compat. Qed.

Lemma mse_props (t p : list R) : length t = length p -> t <> [] -> exists m,
  @mse RNum (Some t) (Some p) = Ok m /\ @mse RNum (Some p) (Some t) = Ok m /\
  0 <= m /\ (m = 0 <-> t = p).
Proof.
  intros Hl Hne. exists (Rsum (map sqdiff (combine t p)) / INR (length t)).
  pose proof (len_pos t Hne) as Hpos.
  split; [now apply mse_R|]. split.
  - rewrite mse_R; [|easy|destruct p; [destruct t; easy|easy]]. rewrite Hl. symmetry.
    apply (f_equal (fun z : R => @Ok R (z / INR (length p)))). apply (combine_swap_sum (fun a b => (a - b) * (a - b))); [exact Hl|]. intros; ring.
  - split; [apply div_nonneg; [exact Hpos|]; apply Rsum_nonneg, sqdiff_nonneg|].
    rewrite div_zero_iff by exact Hpos. now apply sqdiff_zero.
Qed.
Lemma mae_props (t p : list R) : length t = length p -> t <> [] -> exists m,
  @mae RNum (Some t) (Some p) = Ok m /\ @mae RNum (Some p) (Some t) = Ok m /\
  0 <= m /\ (m = 0 <-> t = p).
Proof.
  intros Hl Hne. exists (Rsum (map absdiff (combine t p)) / INR (length t)).
  pose proof (len_pos t Hne) as Hpos.
  split; [now apply mae_R|]. split.
  - rewrite mae_R; [|easy|destruct p; [destruct t; easy|easy]]. rewrite Hl. symmetry.
    apply (f_equal (fun z : R => @Ok R (z / INR (length p)))). apply (combine_swap_sum (fun a b => Rabs (a - b))); [exact Hl|].
    intros; apply Rabs_minus_sym.
  - split; [apply div_nonneg; [exact Hpos|]; apply Rsum_nonneg, absdiff_nonneg|].
    rewrite div_zero_iff by exact Hpos. now apply absdiff_zero.
Qed.
Lemma rmse_props (t p : list R) : length t = length p -> t <> [] -> exists m s,
  @rmse RNum (Some t) (Some p) = Ok m /\ @rmse RNum (Some p) (Some t) = Ok m /\
  @mse RNum (Some t) (Some p) = Ok s /\ m * m = s /\
  0 <= m /\ (m = 0 <-> t = p).
Proof.
  intros Hl Hne. destruct (mse_props t p Hl Hne) as (s & H1 & H2 & H3 & H4).
  exists (sqrt s), s. unfold rmse. rewrite H1, H2. cbn [bind].
  repeat split; try reflexivity.
  - now apply sqrt_sqrt.
  - apply sqrt_pos.
  - intros H. apply H4. now apply sqrt_eq_0.
  - intros H. apply H4 in H. rewrite H. apply sqrt_0.
Qed.

(** Cauchy-Schwarz in the form needed for MAE <= RMSE. *)
Lemma sum_sq_ge {A} (h : A -> R) l :
  Rsum (map h l) * Rsum (map h l) <= INR (length l) * Rsum (map (fun x => h x * h x) l).
Proof.
  destruct l as [|x l]; [cbn; lra|]. set (k := x :: l).
  set (n := INR (length k)). assert (Hn : 0 < n) by (apply lt_0_INR; cbn; lia).
  set (S1 := Rsum (map h k)). set (S2 := Rsum (map (fun x => h x * h x) k)).
  assert (H : 0 <= Rsum (map (fun x => (h x - S1 / n) * (h x - S1 / n)) k)).
  { apply Rsum_nonneg. intros y Hy. apply in_map_iff in Hy as (z & <- & _). apply sq_nonneg. }
  assert (E : Rsum (map (fun x => (h x - S1 / n) * (h x - S1 / n)) k) = S2 - S1 * S1 / n).
  { transitivity (Rsum (map (fun x => h x * h x) k) - Rsum (map (fun x => 2 * (S1 / n) * h x - (S1 / n) * (S1 / n)) k)).
    - rewrite <- Rsum_map_minus. apply Rsum_map_ext. intros y _. ring.
    - rewrite Rsum_map_minus, Rsum_map_scal, Rsum_map_const. fold S1 S2 n. field. lra. }
  rewrite E in H.
  assert (H' : 0 <= (S2 - S1 * S1 / n) * n) by (apply Rmult_le_pos; lra).
  replace ((S2 - S1 * S1 / n) * n) with (n * S2 - S1 * S1) in H' by (field; lra). lra.
Qed.

Lemma combine_length_eq {A B} (t : list A) (p : list B) : length t = length p -> length (combine t p) = length t.
Proof. intros H. rewrite combine_length. lia. Qed.

Lemma mae_le_rmse (t p : list R) a r : 
  @mae RNum (Some t) (Some p) = Ok a -> @rmse RNum (Some t) (Some p) = Ok r -> a <= r.
Proof.
  intros Ha Hr.
  assert (Hl : length t = length p /\ t <> []).
  { unfold mae, rchecked in Ha. unR. destruct (Nat.eqb (length t) 0) eqn:E1; [discriminate|].
    destruct (Nat.eqb (length p) (length t)) eqn:E2; [|discriminate].
    apply Nat.eqb_eq in E2. apply Nat.eqb_neq in E1. split; [easy|]. intros ->. easy. }
  destruct Hl as [Hl Hne]. rewrite mae_R in Ha by assumption. injection Ha as <-.
  unfold rmse in Hr. rewrite mse_R in Hr by assumption. injection Hr as <-.
  pose proof (len_pos t Hne) as Hpos. set (n := INR (length t)) in *.
  assert (HA : 0 <= Rsum (map absdiff (combine t p))) by apply Rsum_nonneg, absdiff_nonneg.
  assert (HS : 0 <= Rsum (map sqdiff (combine t p))) by apply Rsum_nonneg, sqdiff_nonneg.
  cbn [nsqrt RNum].
  rewrite <- (sqrt_square (Rsum (map absdiff (combine t p)) / n)) by now apply div_nonneg.
  apply sqrt_le_1_alt.
  pose proof (sum_sq_ge absdiff (combine t p)) as H. rewrite combine_length_eq in H by exact Hl.
  rewrite (Rsum_map_ext (fun x => absdiff x * absdiff x) sqdiff) in H.
  2:{ intros ab _. unfold absdiff, sqdiff. rewrite <- Rabs_mult. apply Rabs_pos_eq, sq_nonneg. }
  fold n in H.
  apply Rmult_le_reg_r with (n * n); [nra|].
  replace (Rsum (map absdiff (combine t p)) / n * (Rsum (map absdiff (combine t p)) / n) * (n * n))
    with (Rsum (map absdiff (combine t p)) * Rsum (map absdiff (combine t p))) by (field; lra).
  replace (Rsum (map sqdiff (combine t p)) / n * (n * n)) with (n * Rsum (map sqdiff (combine t p))) by (field; lra).
  exact H.
Qed.

(** ** R2 and explained variance *)
Definition avg (t : list R) : R := Rsum t / INR (length t).
Definition tss (t : list R) : R := Rsum (map (fun y => (y - avg t) * (y - avg t)) t).

Lemma tss_nonneg t : 0 <= tss t.
Proof. apply Rsum_nonneg. intros y Hy. apply in_map_iff in Hy as (z & <- & _). apply sq_nonneg. Qed.
Lemma tss_pos t x y : In x t -> In y t -> x <> y -> 0 < tss t.
Proof.
  intros Hx Hy Hn. destruct (tss_nonneg t) as [H|H]; [exact H|]. exfalso. apply Hn.
  assert (Hz : forall z, In z t -> z = avg t).
  { intros z Hz. assert (E : (z - avg t) * (z - avg t) = 0).
    { apply (Rsum_nonneg_eq0 (map (fun y => (y - avg t) * (y - avg t)) t)).
      - intros w Hw. apply in_map_iff in Hw as (v & <- & _). apply sq_nonneg.
      - now symmetry.
      - apply (in_map (fun y => (y - avg t) * (y - avg t))), Hz. }
    apply sq_zero in E. lra. }
  now rewrite (Hz x Hx), (Hz y Hy).
Qed.
Lemma tss_const t c : t <> [] -> (forall y, In y t -> y = c) -> tss t = 0.
Proof.
  intros Hne H. assert (Ha : avg t = c).
  { unfold avg. rewrite <- (map_id t) at 1. rewrite (Rsum_map_ext _ (fun _ => c)) by auto.
    rewrite Rsum_map_const. field. apply Rgt_not_eq, len_pos, Hne. }
  unfold tss. rewrite (Rsum_map_ext _ (fun _ => 0)); [rewrite Rsum_map_const; lra|].
  intros y Hy. rewrite Ha, (H y Hy). lra.
Qed.

Lemma mean_R t : @mean RNum t = avg t.
Proof.
  unfold mean, avg. change (fold_left nadd t n0) with (@nsum RNum t).
  rewrite nsum_R, nofnat_R. reflexivity.
Qed.

Lemma r2_R (t p : list R) : length t = length p -> t <> [] ->
  @r2_score RNum (Some t) (Some p) =
  if Reqb (tss t) 0 then Err (EOther 0) else Ok (1 - Rsum (map sqdiff (combine t p)) / tss t).
Proof.
  intros Hl Hne. unfold r2_score. rewrite (@rchecked_ok RNum) by assumption. cbn [bind].
  rewrite mean_R. unfold sq. cbn.
  rewrite (fold_left_sum (A := R * R) (fun ab => (fst ab - avg t) * (fst ab - avg t))).
  rewrite (combine_fst_map (fun y => (y - avg t) * (y - avg t)) t p Hl).
  rewrite (fold_left_sum (A := R * R) sqdiff). fold (tss t).
  rewrite !Rplus_0_l. reflexivity.
Qed.

Lemma evs_R (t p : list R) : length t = length p -> t <> [] ->
  let n := INR (length t) in
  let dm := Rsum (map (fun ab => fst ab - snd ab) (combine t p)) / n in
  @explained_variance_score RNum (Some t) (Some p) =
  if Reqb (tss t / n) 0 then Err (EOther 2)
  else Ok (1 - (Rsum (map (fun ab => (fst ab - snd ab - dm) * (fst ab - snd ab - dm)) (combine t p)) / n) / (tss t / n)).
Proof.
  intros Hl Hne n dm. unfold explained_variance_score. rewrite (@rchecked_ok RNum) by assumption. cbn [bind].
  rewrite nofnat_R. unfold sq. cbn.
  rewrite (fold_left_sum (A := R * R) (fun ab => fst ab - snd ab)).
  rewrite fold_left_Rplus, !Rplus_0_l. fold n. fold (avg t). fold dm.
  rewrite (fold_left_sum (A := R * R) (fun ab => (fst ab - avg t) * (fst ab - avg t))).
  rewrite (combine_fst_map (fun y => (y - avg t) * (y - avg t)) t p Hl).
  rewrite (fold_left_sum (A := R * R) (fun ab => (fst ab - snd ab - dm) * (fst ab - snd ab - dm))).
  fold (tss t). rewrite !Rplus_0_l. reflexivity.
Qed.

Lemma r2_props (t p : list R) x y : length t = length p -> In x t -> In y t -> x <> y -> exists r e,
  @r2_score RNum (Some t) (Some p) = Ok r /\
  @explained_variance_score RNum (Some t) (Some p) = Ok e /\
  r <= 1 /\ (r = 1 <-> p = t) /\ r <= e /\ e <= 1.
Proof.
  intros Hl Hx Hy Hn.
  assert (Hne : t <> []) by (intros ->; easy).
  pose proof (tss_pos t x y Hx Hy Hn) as Ht. pose proof (len_pos t Hne) as Hpos.
  set (n := INR (length t)) in *.
  set (rss := Rsum (map sqdiff (combine t p))).
  set (dm := Rsum (map (fun ab => fst ab - snd ab) (combine t p)) / n).
  set (vd := Rsum (map (fun ab => (fst ab - snd ab - dm) * (fst ab - snd ab - dm)) (combine t p))).
  exists (1 - rss / tss t), (1 - (vd / n) / (tss t / n)).
  assert (Hr : 0 <= rss) by apply Rsum_nonneg, sqdiff_nonneg.
  assert (Hvd : 0 <= vd).
  { apply Rsum_nonneg. intros z Hz. apply in_map_iff in Hz as (ab & <- & _). apply sq_nonneg. }
  assert (Hle : vd <= rss).
  { assert (E : vd = rss - n * (dm * dm)).
    { unfold vd. transitivity (rss - Rsum (map (fun ab => 2 * dm * (fst ab - snd ab) - dm * dm) (combine t p))).
      - unfold rss. rewrite <- Rsum_map_minus. apply Rsum_map_ext. intros ab _. unfold sqdiff. ring.
      - rewrite Rsum_map_minus, Rsum_map_scal, Rsum_map_const.
        rewrite combine_length_eq by exact Hl. fold n.
        replace (Rsum (map (fun x0 : R * R => fst x0 - snd x0) (combine t p))) with (dm * n)
          by (unfold dm; field; lra). ring. }
    rewrite E. pose proof (sq_nonneg dm). nra. }
  rewrite r2_R by assumption. rewrite evs_R by assumption. fold n. fold rss. fold dm. fold vd.
  replace (vd / n / (tss t / n)) with (vd / tss t) by (field; lra).
  assert (Hq : Reqb (tss t) 0 = false) by (apply Reqb_false; lra). rewrite Hq.
  assert (Hq2 : Reqb (tss t / n) 0 = false).
  { apply Reqb_false. intros E. apply div_zero_iff in E; lra. }
  rewrite Hq2. repeat split.
  - pose proof (div_nonneg rss (tss t) Ht Hr). lra.
  - intros H. assert (E : rss / tss t = 0) by lra. apply div_zero_iff in E; [|exact Ht].
    symmetry. now apply sqdiff_zero.
  - intros ->. assert (E : rss = 0) by (unfold rss; now apply sqdiff_zero).
    rewrite E. unfold Rdiv. lra.
  - assert (vd / tss t <= rss / tss t); [|lra].
    apply Rmult_le_compat_r; [left; now apply Rinv_0_lt_compat|exact Hle].
  - pose proof (div_nonneg vd (tss t) Ht Hvd). lra.
Qed.

Lemma combine_repeat {A B} (t : list A) (c : B) : combine t (repeat c (length t)) = map (fun x => (x, c)) t.
Proof. induction t as [|x t IH]; [reflexivity|]. cbn. now rewrite IH. Qed.

Lemma r2_mean (t : list R) x y : In x t -> In y t -> x <> y ->
  @r2_score RNum (Some t) (Some (repeat (avg t) (length t))) = Ok 0.
Proof.
  intros Hx Hy Hn. assert (Hne : t <> []) by (intros ->; easy).
  pose proof (tss_pos t x y Hx Hy Hn) as Ht.
  rewrite r2_R; [|now rewrite repeat_length|exact Hne].
  assert (Hq : Reqb (tss t) 0 = false) by (apply Reqb_false; lra). rewrite Hq.
  f_equal. rewrite combine_repeat, map_map. unfold sqdiff; cbn. fold (tss t). field. lra.
Qed.

Lemma r2_constant (t p : list R) c : length t = length p -> t <> [] -> (forall y, In y t -> y = c) ->
  @r2_score RNum (Some t) (Some p) = Err (EOther 0) /\
  @explained_variance_score RNum (Some t) (Some p) = Err (EOther 2).
Proof.
  intros Hl Hne Hc. rewrite r2_R, evs_R by assumption. rewrite (tss_const t c) by assumption.
  assert (E : Reqb (0 / INR (length t)) 0 = true) by (apply Reqb_true; unfold Rdiv; lra).
  rewrite E. assert (E' : Reqb 0 0 = true) by now apply Reqb_true. now rewrite E'.
Qed.

(** ** Accuracy *)
Definition agreements {N : Num} (t p : list N) : nat :=
  length (filter (fun ab => neqb (fst ab) (snd ab)) (combine t p)).
Lemma agree_mismatch {N : Num} (t p : list N) : length t = length p ->
  (agreements t p + mismatches t p = length t)%nat.
Proof.
  unfold agreements, mismatches.
  revert p; induction t as [|x t IH]; intros [|y p] H; try discriminate; [reflexivity|].
  injection H as H. specialize (IH p H). cbn [combine filter].
  destruct (neqb (fst (x, y)) (snd (x, y))); cbn [negb length]; lia.
Qed.
Lemma mismatches_le {N : Num} (t p : list N) : length t = length p -> (mismatches t p <= length t)%nat.
Proof. intros H. pose proof (agree_mismatch t p H). lia. Qed.
