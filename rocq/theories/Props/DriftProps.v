(** C21, C22 - sklearn/drift/ddm.go. *)
From Coq Require Import List Arith ZArith Bool Lia Reals Lra.
From Verif Require Import Base.Num Base.RTac Model.Drift Spec.Stats Spec.Drift Proofs.DriftP.
Import ListNotations.
Local Open Scope R_scope.

(** ** C21.  A detector together with the outcomes since it was created, last reset
    or last reported a drift. *)
Inductive reachable (m : Z) (wl ol : R) : ddm RNum -> list bool -> Prop :=
| reach_new : reachable m wl ol (@ddm_new RNum m wl ol) []
| reach_update d h b d' r : reachable m wl ol d h -> ddm_update d b = (d', r) ->
    reachable m wl ol d' (if r_drift r then [] else h ++ [b])
| reach_reset d h : reachable m wl ol d h -> reachable m wl ol (ddm_reset d) [].

Lemma reachable_inv m wl ol d h : reachable m wl ol d h -> ddm_inv m wl ol d h.
Proof.
  induction 1 as [|d h b d' r H IH E|d h H IH].
  - apply ddm_inv_nil.
  - destruct (ddm_update_R m wl ol d h b IH) as (d2 & r2 & E2 & I & _).
    rewrite E in E2. injection E2 as -> ->. exact I.
  - rewrite (ddm_reset_new d m wl ol h IH). apply ddm_inv_nil.
Qed.

(** What an update reports, in terms of the outcomes alone. *)
Theorem C21_update : forall m wl ol d h b d' r,
  reachable m wl ol d h -> ddm_update d b = (d', r) ->
  let h' := h ++ [b] in
  (~ examined m h' -> r = @mkres RNum false false 0 0) /\
  (examined m h' -> exists p, reference m h' p /\ r_rate r = rate h' /\
     (r_warning r = true <-> level h' > rate p + wl * dev p) /\
     (r_drift r = true <-> level h' > rate p + ol * dev p) /\
     r_conf r = if Rltb 0 (dev p) then level h' / level p else 1).
Proof.
  intros m wl ol d h b d' r H E h'. apply reachable_inv in H.
  destruct (ddm_update_R m wl ol d h b H) as (d2 & r2 & E2 & _ & H1 & H2).
  rewrite E in E2. injection E2 as -> ->. auto.
Qed.
Print Assumptions C21_update.

(** What GetStatistics shows: counts, rate and deviation of the outcomes, the
    reference point - and never a drift. *)
Theorem C21_statistics : forall m wl ol d h, reachable m wl ol d h ->
  d_n d = length h /\ d_errs d = errors h /\ d_drift d = false /\
  (examined m h -> d_rate d = rate h /\ d_dev d = dev h /\
     exists p, reference m h p /\ d_min d = Some (rate p, dev p)) /\
  (~ examined m h -> d_rate d = 0 /\ d_dev d = 0 /\ d_min d = None).
Proof.
  intros m wl ol d h H. apply reachable_inv in H as [E1 E2 E3 E4 E5 [M1 M2] Er Eu Ed].
  split; [exact E4|]. split; [exact E5|]. split; [exact Ed|]. split.
  - intros He. destruct (Er He). auto.
  - intros He. destruct (Eu He). auto.
Qed.
Print Assumptions C21_statistics.

Theorem C21_no_early_alarm : forall m wl ol d h b d' r,
  reachable m wl ol d h -> ddm_update d b = (d', r) ->
  (Z.of_nat (S (length h)) < m)%Z -> r_warning r = false /\ r_drift r = false.
Proof.
  intros m wl ol d h b d' r H E Hlt. destruct (C21_update m wl ol d h b d' r H E) as [H1 _].
  rewrite H1; [easy|]. rewrite examined_snoc. lia.
Qed.
Print Assumptions C21_no_early_alarm.

(** A drift report forgets everything. *)
Theorem C21_drift_resets : forall m wl ol d h b d' r,
  reachable m wl ol d h -> ddm_update d b = (d', r) -> r_drift r = true ->
  d' = @ddm_new RNum m wl ol.
Proof.
  intros m wl ol d h b d' r H E Hd. apply reachable_inv in H as [E1 E2 E3 _ _ _ _ _ _].
  unfold ddm_update in E. destruct (Z.ltb _ _).
  - injection E as _ <-. discriminate.
  - injection E as <- <-. cbn [r_drift] in Hd. rewrite Hd. unfold ddm_reset, ddm_new. cbn. congruence.
Qed.
Print Assumptions C21_drift_resets.

(** Between resets the recorded minimum never increases. *)
Theorem C21_minimum_decreases : forall m wl ol d h b d' r mr ms,
  reachable m wl ol d h -> ddm_update d b = (d', r) -> r_drift r = false -> d_min d = Some (mr, ms) ->
  exists mr' ms', d_min d' = Some (mr', ms') /\ mr' + ms' <= mr + ms.
Proof.
  intros m wl ol d h b d' r mr ms H E Hd Hm.
  pose proof (reach_update m wl ol d h b d' r H E) as H'. rewrite Hd in H'.
  destruct (C21_statistics _ _ _ _ _ H) as (_ & _ & _ & S1 & S2).
  destruct (C21_statistics _ _ _ _ _ H') as (_ & _ & _ & S1' & S2').
  destruct (examined_dec m h) as [He|He]; [|destruct (S2 He) as (_ & _ & E0); congruence].
  destruct (S1 He) as (_ & _ & p & [Hp1 [Hp2 Hp3]] & Ep).
  assert (He' : examined m (h ++ [b])) by (apply examined_snoc; destruct He; lia).
  destruct (S1' He') as (_ & _ & q & [Hq1 [Hq2 Hq3]] & Eq).
  exists (rate q), (dev q). split; [exact Eq|]. rewrite Ep in Hm. injection Hm as <- <-.
  apply (Hq3 p); [apply prefix_snoc; now left|exact Hp2].
Qed.
Print Assumptions C21_minimum_decreases.

Theorem C21_drift_implies_warning : forall m wl ol d h b d' r,
  reachable m wl ol d h -> ddm_update d b = (d', r) -> wl <= ol ->
  r_drift r = true -> r_warning r = true.
Proof.
  intros m wl ol d h b d' r H E Hle Hd.
  destruct (C21_update m wl ol d h b d' r H E) as [H1 H2].
  destruct (examined_dec m (h ++ [b])) as [He|He]; [|rewrite (H1 He) in Hd; discriminate].
  destruct (H2 He) as (p & _ & _ & Hw & Hdr & _). apply Hw. apply Hdr in Hd.
  pose proof (dev_nonneg p). assert (wl * dev p <= ol * dev p) by (apply Rmult_le_compat_r; lra). lra.
Qed.
Print Assumptions C21_drift_implies_warning.

(** After any number of exclusively correct predictions (at least the minimum), the
    very first error is reported as a drift, whatever the levels. *)
Lemma errors_repeat k : errors (repeat true k) = 0%nat.
Proof. unfold errors. induction k; [reflexivity|]. exact IHk. Qed.
Lemma level_zero h : errors h = 0%nat -> rate h = 0 /\ dev h = 0.
Proof.
  intros H. assert (E : rate h = 0) by (unfold rate; rewrite H; cbn; unfold Rdiv; ring).
  split; [exact E|]. unfold dev. rewrite E.
  replace (0 * (1 - 0) / INR (length h)) with 0 by (unfold Rdiv; ring). apply sqrt_0.
Qed.
Lemma repeat_snoc {A} (x : A) k : repeat x k ++ [x] = repeat x (S k).
Proof. induction k; [reflexivity|]. cbn. now rewrite IHk. Qed.
Lemma prefix_errors p h : prefix p h -> (errors p <= errors h)%nat.
Proof. intros [t ->]. unfold errors. rewrite count_occ_app. lia. Qed.

Lemma perfect_run m wl ol k :
  exists d, fold_left (fun d b => fst (ddm_update d b)) (repeat true k) (@ddm_new RNum m wl ol) = d /\
  reachable m wl ol d (repeat true k).
Proof.
  induction k as [|k (d & E & H)]; [eexists; split; [reflexivity|constructor]|].
  rewrite <- repeat_snoc, fold_left_app, E. cbn [fold_left].
  destruct (ddm_update d true) as [d' r] eqn:Eu. exists d'. split; [reflexivity|].
  pose proof (reach_update m wl ol d (repeat true k) true d' r H Eu) as H'.
  destruct (r_drift r) eqn:Ed; [|exact H']. exfalso.
  destruct (C21_update m wl ol d _ true d' r H Eu) as [H1 H2]. rewrite repeat_snoc in *.
  destruct (examined_dec m (repeat true (S k))) as [He|He]; [|rewrite (H1 He) in Ed; discriminate].
  destruct (H2 He) as (p & [Hp _] & _ & _ & Hdr & _). apply Hdr in Ed.
  destruct (level_zero _ (errors_repeat (S k))) as [R1 R2].
  assert (Ep : errors p = 0%nat).
  { apply prefix_errors in Hp. rewrite errors_repeat in Hp. lia. }
  destruct (level_zero p Ep) as [R3 R4]. unfold level in Ed. rewrite R1, R2, R3, R4 in Ed. lra.
Qed.

Theorem C21_first_error_is_drift : forall m wl ol k, (0 < k)%nat -> (m <= Z.of_nat k)%Z ->
  r_drift (snd (ddm_update
    (fold_left (fun d b => fst (ddm_update d b)) (repeat true k) (@ddm_new RNum m wl ol)) false)) = true.
Proof.
  intros m wl ol k Hk Hm. destruct (perfect_run m wl ol k) as (d & -> & H).
  destruct (ddm_update d false) as [d' r] eqn:Eu. cbn [snd].
  destruct (C21_update m wl ol d _ false d' r H Eu) as [_ H2]. set (h := repeat true k) in *.
  assert (He : examined m (h ++ [false])) by (apply examined_snoc; unfold h; rewrite repeat_length; lia).
  destruct (H2 He) as (p & [Hp1 [Hp2 Hp3]] & _ & _ & Hdr & _). apply Hdr.
  assert (Hh : level h = 0).
  { destruct (level_zero h (errors_repeat k)). unfold level. lra. }
  assert (Heh : examined m h).
  { unfold examined, h. rewrite repeat_length. split; [|exact Hm]. destruct k; [lia|discriminate]. }
  assert (Hrt : 0 < rate (h ++ [false])).
  { unfold rate. rewrite errors_snoc. unfold h. rewrite errors_repeat, app_length, repeat_length. cbn [length].
    apply Rdiv_lt_0_compat; apply lt_0_INR; lia. }
  pose proof (dev_nonneg (h ++ [false])).
  assert (Hlp : level p <= 0).
  { rewrite <- Hh. apply Hp3; [apply prefix_snoc; left; apply prefix_refl|exact Heh]. }
  pose proof (rate_range p) as [Hr0 _]. pose proof (dev_nonneg p) as Hd0. unfold level in *.
  assert (rate p = 0) by lra. assert (Hdp : dev p = 0) by lra. rewrite Hdp. lra.
Qed.
Print Assumptions C21_first_error_is_drift.

(** The defaults: thirty correct predictions and one error. *)
Example C21_example : r_drift (snd (ddm_update
  (fold_left (fun d b => fst (ddm_update d b)) (repeat true 30) (@ddm_new RNum 30 2 3)) false)) = true.
Proof. apply C21_first_error_is_drift; lia. Qed.

(** ** C22 *)
Inductive aop (A : Type) : Type := AUpdate (v : A) | AReset.
Arguments AUpdate {A} v. Arguments AReset {A}.
Definition astep {N : Num} (st : adwin N * list bool) (o : aop N) : adwin N * list bool :=
  match o with
  | AUpdate v => (fst (adwin_update (fst st) v), snd st ++ [snd (adwin_update (fst st) v)])
  | AReset => (adwin_reset (fst st), snd st)
  end.
Definition arun {N : Num} (delta : N) (maxb : Z) (ops : list (aop N)) : adwin N * list bool :=
  fold_left astep ops (adwin_new delta maxb, []).

Lemma arun_snoc {N : Num} (delta : N) maxb ops o :
  arun delta maxb (ops ++ [o]) = astep (arun delta maxb ops) o.
Proof. unfold arun. now rewrite fold_left_app. Qed.

(** The values since the last reset, oldest first. *)
Definition since_reset {A} (ops : list (aop A)) : list A :=
  fold_left (fun h o => match o with AUpdate v => h ++ [v] | AReset => [] end) ops [].

(** Any arithmetic, in particular IEEE doubles: the reported width is the length of a
    suffix of the values since the last reset, at most twice the bucket limit. *)
Theorem C22_suffix : forall (N : Num) (delta : N) maxb ops,
  exists w, suffix w (since_reset ops) /\
    adwin_width (fst (arun delta maxb ops)) = Z.of_nat (length w) /\
    (Z.of_nat (length w) <= 2 * Z.max 0 maxb)%Z.
Proof.
  intros N delta maxb ops.
  cut (exists w, suffix w (since_reset ops) /\ adwin_shape delta maxb (fst (arun delta maxb ops)) w /\
         (Z.of_nat (pairs_of (length w)) <= Z.max 0 maxb)%Z).
  { intros (w & H1 & H2 & H3). exists w. split; [exact H1|]. split; [apply H2|].
    pose proof (pairs_bound (length w)). lia. }
  induction ops as [|o ops IH] using rev_ind.
  - exists []. split; [exists []; reflexivity|]. split; [constructor; reflexivity|]. unfold pairs_of. cbn. lia.
  - destruct IH as (w & [t Ht] & HS & HB). unfold arun, since_reset in *. rewrite !fold_left_app. cbn [fold_left].
    destruct (fold_left astep ops (adwin_new delta maxb, [])) as [a rs]. cbn [fst] in HS.
    destruct o as [v|]; cbn [astep fst snd].
    + unfold adwin_update. pose proof (add_shape delta maxb a w v HS) as HA.
      destruct (detect_shape delta maxb _ _ HA) as (w' & HD & [t' Hs] & _).
      exists w'. rewrite Ht. split; [|split; [exact HD|]].
      * assert (Hn : suffix (nappended maxb w v) (w ++ [v])).
        { unfold nappended. destruct (Z.ltb _ _); [|exists []; reflexivity].
          exists (firstn 2 (w ++ [v])). symmetry. apply firstn_skipn. }
        destruct Hn as [t2 Ht2]. exists (t ++ t2 ++ t'). rewrite <- app_assoc, Ht2, Hs, !app_assoc. reflexivity.
      * assert (Hb : (Z.of_nat (pairs_of (length (nappended maxb w v))) <= Z.max 0 maxb)%Z).
        { unfold nappended. destruct (Z.ltb_spec maxb (Z.of_nat (pairs_of (length (w ++ [v]))))) as [H|H]; [|lia].
          rewrite skipn_length, app_length in *. cbn [length] in *.
          pose proof (pairs_bound (length w + 1 - 2)). pose proof (pairs_bound (length w)). lia. }
        apply (f_equal (@length N)) in Hs. rewrite app_length in Hs.
        pose proof (pairs_bound (length w')). pose proof (pairs_bound (length (nappended maxb w v))). lia.
    + exists []. split; [exists []; reflexivity|]. destruct HS as [E1 E2 _ _ _].
      split; [constructor; cbn; auto|]. unfold pairs_of. cbn. lia.
Qed.
Print Assumptions C22_suffix.

(** Exact arithmetic: ADWIN behaves as the following machine on plain windows. *)
Inductive windows (delta : R) (maxb : Z) : list (aop R) -> list bool -> list R -> Prop :=
| win_nil : windows delta maxb [] [] []
| win_update ops rs w v w' d : windows delta maxb ops rs w -> adwin_step delta maxb w v w' d ->
    windows delta maxb (ops ++ [AUpdate v]) (rs ++ [d]) w'
| win_reset ops rs w : windows delta maxb ops rs w -> windows delta maxb (ops ++ [AReset]) rs [].

Theorem C22_refines : forall (delta : R) maxb (ops : list (aop R)), 0 < delta <= 2 ->
  let (a, rs) := @arun RNum delta maxb ops in
  exists w, windows delta maxb ops rs w /\
    adwin_width a = Z.of_nat (length w) /\
    adwin_mean a = match w with [] => 0 | _ => mean_of w end.
Proof.
  intros delta maxb ops _.
  cut (exists w, windows delta maxb ops (snd (@arun RNum delta maxb ops)) w /\
         adwin_inv delta maxb (fst (@arun RNum delta maxb ops)) w).
  { intros (w & H1 & H2). destruct (@arun RNum delta maxb ops) as [a rs]. cbn [fst snd] in *.
    exists w. split; [exact H1|]. split; [apply H2|]. exact (mean_inv delta maxb a w H2). }
  induction ops as [|o ops (w & HW & HI)] using rev_ind.
  - exists []. split; [constructor|]. constructor; [constructor; reflexivity|reflexivity].
  - pose proof (arun_snoc (N := RNum) delta maxb ops o) as Hsn. unR. rewrite Hsn. clear Hsn.
    destruct (@arun RNum delta maxb ops) as [a rs]. cbn [fst snd] in *.
    destruct o as [v|]; cbn [astep fst snd].
    + unfold adwin_update. pose proof (add_inv delta maxb a w v HI) as HA.
      destruct (detect_R delta maxb _ _ HA) as (w' & HD & Hs).
      exists w'. split; [|exact HD]. econstructor; [exact HW|exact Hs].
    + exists []. split; [econstructor; exact HW|]. destruct HI as [[E1 E2 _ _ _] _].
      constructor; [constructor; cbn; auto|reflexivity].
Qed.
Print Assumptions C22_refines.

(** A drift: the two oldest values are dropped. *)
Example C22_example : adwin_step 2 10 [0; 0; 0; 0] 5 [0; 0; 5] true.
Proof.
  assert (Hl : ln (2 / 2) = 0) by (replace (2 / 2) with 1 by lra; apply ln_1).
  exists 2%nat. change (appended 10 [0; 0; 0; 0] 5) with [0; 0; 0; 0; 5].
  split; [split; [cbn; lia|split; [cbn; lia|now exists 1%nat]]|].
  split; [|split; [|reflexivity]].
  - unfold cut_differs. rewrite Hl, Rmult_0_r, sqrt_0. unfold mean_of. cbn.
    rewrite Rabs_left; lra.
  - intros j Hj (_ & Hk & [i ->]). lia.
Qed.
