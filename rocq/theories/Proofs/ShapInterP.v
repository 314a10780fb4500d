From Coq Require Import List Arith ZArith Bool Lia Reals Lra.
From Verif Require Import Base.Num Base.GoRes Base.Mat Base.ListX Base.RTac Model.LgbTransform Model.LgbTree Model.Shap Model.ShapInter Spec.ShapInter.
Import ListNotations.

Section Gen.
Context {N : Num}.
Variable toint : N -> Z.
Variable ord : list (Z * nat) -> list (Z * nat).

Lemma entry_mset n (M : list (list N)) i j v a b : square n M -> i < n -> j < n ->
  entry (mset i j v M) a b = if Nat.eqb a i && Nat.eqb b j then Some v else entry M a b.
Proof.
  intros [HL HF] Hi Hj. unfold entry, mset. destruct (Nat.eqb_spec a i) as [->|Ha]; cbn [andb].
  - rewrite nth_error_upd_same. destruct (nth_error M i) as [r|] eqn:E; [|apply nth_error_None in E; lia]. cbn [option_map].
    rewrite Forall_forall in HF. pose proof (HF r (nth_error_In _ _ E)) as Hr.
    destruct (Nat.eqb_spec b j) as [->|Hb].
    + rewrite nth_error_upd_same. destruct (nth_error r j) eqn:K; [reflexivity|apply nth_error_None in K; lia].
    + rewrite nth_error_upd_other by auto. reflexivity.
  - rewrite nth_error_upd_other by auto. reflexivity.
Qed.
Lemma Forall_upd {A} (P : A -> Prop) g i l : (forall a, P a -> P (g a)) -> Forall P l -> Forall P (upd i g l).
Proof. intros Hg H. revert i. induction H as [|a l Ha H IH]; intros [|i]; cbn [upd]; constructor; auto. Qed.
Lemma square_mset n (M : list (list N)) i j v : square n M -> square n (mset i j v M).
Proof. intros [H1 H2]. split; unfold mset; [now rewrite upd_length|]. apply Forall_upd; auto. intros a Ha. now rewrite upd_length. Qed.
Lemma square_zero n : square n (repeat (repeat (@n0 N) n) n).
Proof. split; [apply repeat_length|]. apply Forall_forall. intros r Hr. apply repeat_spec in Hr. subst. apply repeat_length. Qed.

Lemma diag_fold n main : forall l (M : list (list N)), square n M -> (forall i, In i l -> i < n) -> NoDup l ->
  let M' := fold_left (fun M i => mset i i (nth i main n0) M) l M in
  square n M' /\ forall a b, entry M' a b = if Nat.eqb a b && existsb (Nat.eqb a) l then Some (nth a main n0) else entry M a b.
Proof.
  induction l as [|i l IH]; intros M HM HL ND; cbn [fold_left existsb].
  - split; auto. intros a b. now rewrite andb_false_r.
  - inversion ND as [|? ? Hn ND']; subst. destruct (IH (mset i i (nth i main n0) M)) as [H1 H2]; auto using square_mset.
    { intros k Hk. apply HL. now right. }
    split; auto. intros a b. rewrite H2. rewrite (entry_mset n) by (auto; apply HL; now left).
    destruct (Nat.eqb_spec a b) as [->|Hab]; cbn [andb].
    + destruct (Nat.eqb_spec b i) as [->|]; cbn [andb orb]; [|reflexivity]. destruct (existsb _ l); reflexivity.
    + destruct (Nat.eqb_spec a i) as [->|]; cbn [andb]; [|reflexivity]. destruct (Nat.eqb_spec b i); [congruence|reflexivity].
Qed.

Lemma in_pairs n i j : In (i, j) (pairs n) <-> i < j < n.
Proof.
  unfold pairs. rewrite in_flat_map. split.
  - intros (k & Hk & H). apply in_seq in Hk. apply in_map_iff in H. destruct H as (l & [= <- <-] & Hl). apply in_seq in Hl. lia.
  - intros H. exists i. split; [apply in_seq; lia|]. apply in_map_iff. exists j. split; auto. apply in_seq. lia.
Qed.

Definition pstep (pw : nat -> nat -> option (res N)) (acc : option (res (list (list N)))) (ij : nat * nat) :=
  match acc with
  | Some (Ok M) => omap (fun v => mset (snd ij) (fst ij) v (mset (fst ij) (snd ij) v M)) (pw (fst ij) (snd ij))
  | _ => acc
  end.
Lemma pair_stop pw l : forall acc, (forall M, acc <> Some (Ok M)) -> fold_left (pstep pw) l acc = acc.
Proof.
  induction l as [|ij l IH]; intros acc H; cbn [fold_left]; auto. rewrite IH.
  - destruct acc as [[M| |]|]; cbn; auto. now destruct (H M).
  - intros M. destruct acc as [[M'| |]|]; cbn; try discriminate. now destruct (H M').
Qed.
Lemma pair_fold n (pw : nat -> nat -> option (res N)) : forall l M M', square n M -> (forall i j, In (i, j) l -> i < j < n) ->
  fold_left (pstep pw) l (Some (Ok M)) = Some (Ok M') ->
  square n M' /\ (forall a b, ~ In (a, b) l -> ~ In (b, a) l -> entry M' a b = entry M a b) /\
  (forall i j, In (i, j) l -> exists v, pw i j = Some (Ok v) /\ entry M' i j = Some v /\ entry M' j i = Some v).
Proof.
  induction l as [|[i j] l IH] using rev_ind; intros M M' HM HL E.
  - injection E as <-. split; auto. split; auto. intros i j [].
  - rewrite fold_left_app in E. cbn [fold_left] in E. destruct (fold_left (pstep pw) l (Some (Ok M))) as [[M1| |]|] eqn:E1; try discriminate.
    cbn [pstep fst snd] in E. destruct (pw i j) as [[v| |]|] eqn:Ev; try discriminate. cbn in E. injection E as <-.
    destruct (IH M M1) as (S1 & K1 & K2); auto. { intros a b H. apply HL. apply in_or_app. now left. }
    assert (Hij : i < j < n) by (apply HL; apply in_or_app; right; now left).
    assert (EE : forall a b, entry (mset j i v (mset i j v M1)) a b = if (Nat.eqb a j && Nat.eqb b i) || (Nat.eqb a i && Nat.eqb b j) then Some v else entry M1 a b).
    { intros a b. rewrite (entry_mset n) by (auto using square_mset; lia). rewrite (entry_mset n) by (auto; lia).
      destruct (Nat.eqb a j && Nat.eqb b i); reflexivity. }
    split; [auto using square_mset|]. split.
    + intros a b H1 H2. rewrite EE. rewrite in_app_iff in H1, H2. cbn [In] in H1, H2. rewrite K1 by tauto.
      destruct (Nat.eqb_spec a j), (Nat.eqb_spec b i), (Nat.eqb_spec a i), (Nat.eqb_spec b j); subst; cbn; auto; exfalso; tauto.
    + intros a b H. rewrite !EE. apply in_app_iff in H. destruct (Nat.eqb a i && Nat.eqb b j) eqn:Q.
      { apply andb_true_iff in Q. destruct Q as [Q1 Q2]. apply Nat.eqb_eq in Q1, Q2. subst. exists v. rewrite !Nat.eqb_refl. cbn. now rewrite orb_true_r. }
      destruct H as [H|[[= <- <-]|[]]]; [|now rewrite !Nat.eqb_refl in Q].
      pose proof (HL a b ltac:(apply in_or_app; now left)) as Hab. destruct (K2 a b H) as (w & W1 & W2 & W3). exists w. split; auto.
      replace (Nat.eqb a j && Nat.eqb b i) with false. 2:{ symmetry. apply andb_false_iff. destruct (Nat.eqb_spec a j); auto. right. apply Nat.eqb_neq. lia. }
      replace (Nat.eqb b j && Nat.eqb a i) with false by (now rewrite andb_comm, Q).
      replace (Nat.eqb b i && Nat.eqb a j) with false. 2:{ symmetry. apply andb_false_iff. destruct (Nat.eqb_spec b i); auto. right. apply Nat.eqb_neq. lia. }
      now rewrite orb_false_r.
Qed.
Lemma pair_runs (pw : nat -> nat -> option (res N)) : forall l M, (forall i j, In (i, j) l -> exists v, pw i j = Some (Ok v)) ->
  exists M', fold_left (pstep pw) l (Some (Ok M)) = Some (Ok M').
Proof.
  induction l as [|[p q] l IH]; intros M H. { exists M. reflexivity. } cbn [fold_left]. destruct (H p q) as [v Hv]; [now left|].
  cbn [pstep fst snd]. rewrite Hv. apply IH. intros a b K. apply H. now right.
Qed.

Lemma shap_length fuel (m : gmodel N) x s : sample_shap toint ord fuel m x = Some s -> length s = length x.
Proof.
  unfold sample_shap. assert (G : forall l acc, (forall a, acc = Some a -> length a = length x) -> forall s0,
    fold_left (fun acc t => match gt_nodes t with [] => acc | _ => match acc, tree_shap toint ord fuel t x with
       | Some s, Some ts => Some (mapi (fun j v => nadd v (nmul (nth j ts n0) (m_lr m))) s) | _, _ => None end end) l acc = Some s0 -> length s0 = length x).
  { induction l as [|t l IH]; intros acc Ha s0 E; cbn [fold_left] in E; [now apply Ha|]. apply IH in E; auto.
    intros a Ea. destruct (gt_nodes t); [now apply Ha|]. destruct acc as [s1|]; [|discriminate]. destruct (tree_shap _ _ _ _ _); [|discriminate].
    injection Ea as <-. unfold mapi. rewrite mapi_from_length. now apply Ha. }
  apply G. intros a [= <-]. apply map_length.
Qed.

Lemma sample_entries fuel (m : gmodel N) x M : sample_interactions toint ord fuel m x = Some (Ok M) ->
  exists s, sample_shap toint ord fuel m x = Some s /\ square (length x) M /\
    (forall i, i < length x -> entry M i i = nth_error s i) /\
    (forall i j, i < j < length x -> exists v, pairwise toint fuel m x i j = Some (Ok v) /\ entry M i j = Some v /\ entry M j i = Some v).
Proof.
  unfold sample_interactions. destruct (sample_shap toint ord fuel m x) as [s|] eqn:Es; [|discriminate]. intros E. exists s. split; auto.
  pose proof (shap_length _ _ _ _ Es) as Ls.
  destruct (diag_fold (length x) s (seq 0 (length x)) _ (square_zero _)) as [S0 D0].
  { intros i Hi. apply in_seq in Hi. lia. } { apply seq_NoDup. }
  change (fold_left (pstep (pairwise toint fuel m x)) (pairs (length x)) (Some (Ok (fold_left (fun M i => mset i i (nth i s n0) M) (seq 0 (length x)) (repeat (repeat n0 (length x)) (length x))))) = Some (Ok M)) in E.
  apply (pair_fold (length x)) in E; auto; [|intros i j H; now apply in_pairs].
  destruct E as (S1 & K1 & K2). split; auto. split.
  - intros i Hi. rewrite K1 by (rewrite in_pairs; lia). rewrite D0, Nat.eqb_refl. cbn [andb].
    replace (existsb (Nat.eqb i) (seq 0 (length x))) with true.
    + symmetry. apply nth_error_nth'. lia.
    + symmetry. apply existsb_exists. exists i. split; [apply in_seq; lia|apply Nat.eqb_refl].
  - intros i j H. apply K2. now apply in_pairs.
Qed.
Lemma sample_runs fuel (m : gmodel N) x s : sample_shap toint ord fuel m x = Some s ->
  (forall i j, i < j < length x -> exists v, pairwise toint fuel m x i j = Some (Ok v)) ->
  exists M, sample_interactions toint ord fuel m x = Some (Ok M).
Proof.
  intros Es H. unfold sample_interactions. rewrite Es. apply (pair_runs (pairwise toint fuel m x)).
  intros i j K. apply H. now apply in_pairs.
Qed.

(** ** Which features a tree tests *)
Lemma check_vstores (t : gtree N) f1 f2 : forall T id fuel, vstores (gt_nodes t) id T -> vheight T < fuel ->
  check_subtree fuel t (Z.of_nat f1) (Z.of_nat f2) id
  = Some (if in_dec Nat.eq_dec f1 (tested T) then true else false, if in_dec Nat.eq_dec f2 (tested T) then true else false).
Proof.
  induction T as [v|v f thr l IHl r IHr]; intros id fuel H Hf; (destruct fuel as [|fuel]; [lia|]); inversion H as [i n E Ht|i n f' l' r' E Ht Hc Hg Hl Hr]; subst; cbn [check_subtree]; rewrite E.
  - now rewrite Ht.
  - cbn [vheight] in Hf. rewrite (IHl _ fuel Hl), (IHr _ fuel Hr) by lia.
    rewrite Hg. assert (Q : forall k, (Z.of_nat f =? Z.of_nat k)%Z || (if in_dec Nat.eq_dec k (tested l) then true else false) || (if in_dec Nat.eq_dec k (tested r) then true else false)
      = if in_dec Nat.eq_dec k (tested (VNode (g_ival n) f (g_thr n) l r)) then true else false).
    { intros k. cbn [tested]. destruct (in_dec Nat.eq_dec k (f :: tested l ++ tested r)) as [J|J]; cbn [In] in J; rewrite in_app_iff in J;
      destruct (Z.eqb_spec (Z.of_nat f) (Z.of_nat k)), (in_dec Nat.eq_dec k (tested l)), (in_dec Nat.eq_dec k (tested r)); cbn; auto; exfalso; try tauto;
      try (apply Nat2Z.inj in e; tauto). destruct J as [J|J]; [subst; congruence|tauto]. }
    destruct (g_type n); [congruence| |]; now rewrite !Q.
Qed.
Lemma uses_vstores (t : gtree N) f1 f2 T fuel : vstores (gt_nodes t) 0 T -> vheight T < fuel ->
  uses_features fuel t (Z.of_nat f1) (Z.of_nat f2)
  = Some ((if in_dec Nat.eq_dec f1 (tested T) then true else false) && (if in_dec Nat.eq_dec f2 (tested T) then true else false)).
Proof.
  intros H Hf. pose proof (check_vstores t f1 f2 T 0%Z (S fuel) H ltac:(lia)) as C. cbn [check_subtree] in C. unfold uses_features.
  destruct (getZ (gt_nodes t) 0) as [n|].
  - destruct (g_type n); [now injection C as <- <-| |];
    (destruct (check_subtree fuel t (Z.of_nat f1) (Z.of_nat f2) (g_left n)) as [[? ?]|]; [|discriminate];
     destruct (check_subtree fuel t (Z.of_nat f1) (Z.of_nat f2) (g_right n)) as [[? ?]|]; [|discriminate];
     injection C as <- <-; reflexivity).
  - now injection C as <- <-.
Qed.
Lemma child_vstores (t : gtree N) id T : vstores (gt_nodes t) id T -> child_value t id = node_val T.
Proof. intros H. inversion H; subst; unfold child_value, node_value; match goal with E : getZ _ _ = Some _ |- _ => rewrite E end; destruct (g_type n); auto; congruence. Qed.
Lemma vstores_in (nodes : list (gnode N)) id T : vstores nodes id T -> exists n, getZ nodes id = Some n.
Proof. intros H. inversion H; eauto. Qed.
End Gen.

Lemma getZ_of_nat {A} (l : list A) f : getZ l (Z.of_nat f) = nth_error l f.
Proof. unfold getZ. destruct (Z.of_nat f <? 0)%Z eqn:Z0; [apply Z.ltb_lt in Z0; lia|]. now rewrite Nat2Z.id. Qed.

Local Open Scope R_scope.
Lemma contribution_R toint (t : gtree RNum) x i j : i <> j -> forall T id fuel, vstores (gt_nodes t) id T ->
  (forall f, In f (tested T) -> (f < length x)%nat) -> (vheight T < fuel)%nat ->
  @contribution RNum toint fuel t x (Z.of_nat i) (Z.of_nat j) id = Some (Ok (1 / 10 * (Rsum (gaps T x i) + Rsum (gaps T x j)))).
Proof.
  intros Hij. induction T as [v|v f thr l IHl r IHr]; intros id fuel H Hx Hf; (destruct fuel as [|fuel]; [lia|]); inversion H as [k n E Ht|k n f' l' r' E Ht Hc Hg Hl Hr]; subst; cbn [contribution]; rewrite E.
  - rewrite Ht. cbn [gaps Rsum]. do 2 f_equal. cbn. lra.
  - cbn [gaps]. cbn [vheight] in Hf. assert (Lf : (f < length x)%nat) by (apply Hx; now left).
    rewrite Hg. rewrite getZ_of_nat.
    change (@nth_error (num RNum)) with (@nth_error R). destruct (@nth_error R x f) as [a|] eqn:Ea; [|apply nth_error_None in Ea; exfalso; revert Ea Lf; change (num RNum) with R; lia].
    rewrite Hc. rewrite (child_vstores t _ _ Hl), (child_vstores t _ _ Hr).
    assert (Q : (Z.of_nat f =? Z.of_nat i)%Z = Nat.eqb f i /\ (Z.of_nat f =? Z.of_nat j)%Z = Nat.eqb f j).
    { split; [destruct (Nat.eqb_spec f i), (Z.eqb_spec (Z.of_nat f) (Z.of_nat i))|destruct (Nat.eqb_spec f j), (Z.eqb_spec (Z.of_nat f) (Z.of_nat j))]; auto; exfalso; lia. }
    destruct Q as [-> ->].
    set (c := if (Nat.eqb f i || Nat.eqb f j)%bool then _ else _).
    assert (Hcv : c = 1 / 10 * (Rsum (if Nat.eqb f i then [Rabs (node_val l - node_val r)] else []) + Rsum (if Nat.eqb f j then [Rabs (node_val l - node_val r)] else []))).
    { unfold c. destruct (Nat.eqb_spec f i), (Nat.eqb_spec f j); subst; try congruence; cbn [orb Rsum fold_right]; cbn; lra. }
    destruct (vstores_in _ _ _ Hl) as [nl El]. destruct (vstores_in _ _ _ Hr) as [nr Er].
    assert (Xl : forall g, In g (tested l) -> (g < length x)%nat) by (intros g Hi; apply Hx; cbn; right; apply in_or_app; now left).
    assert (Xr : forall g, In g (tested r) -> (g < length x)%nat) by (intros g Hi; apply Hx; cbn; right; apply in_or_app; now right).
    change (@nle RNum a (g_thr n)) with (if Rle_dec a (g_thr n) then true else false).
    destruct (Rle_dec a (g_thr n)); destruct (g_type n); try congruence.
    all: first [rewrite El, (IHl _ fuel Hl Xl) by lia | rewrite Er, (IHr _ fuel Hr Xr) by lia].
    all: unfold omap; cbn [option_map]; unfold rmap; f_equal; apply (f_equal (@Ok R)); refine (eq_trans (f_equal2 Rplus Hcv eq_refl) _); rewrite !Rsum_app; ring.
Qed.
Lemma pairwise_R toint fuel (m : gmodel RNum) Ts x i j : i <> j -> models fuel m Ts x ->
  @pairwise RNum toint fuel m x i j = Some (Ok (m_lr m * (1 / 10) * Rsum (map (fun T => joint T x i j) Ts))).
Proof.
  intros Hij H. unfold pairwise. unfold models in H.
  assert (G : forall a, fold_left (fun acc t => match acc with Some (Ok a) => match gt_nodes t with [] => acc | _ =>
      match @uses_features RNum fuel t (Z.of_nat i) (Z.of_nat j) with None => None | Some false => acc
      | Some true => omap (fun c => nadd a (nmul c (m_lr m))) (@contribution RNum toint fuel t x (Z.of_nat i) (Z.of_nat j) 0) end end | _ => acc end) (m_trees m) (Some (Ok a))
    = Some (Ok (a + m_lr m * (1 / 10) * Rsum (map (fun T => joint T x i j) Ts)))).
  { induction H as [|t T l Ts (V & X & F) H IH]; intros a; cbn [fold_left map Rsum fold_right].
    - do 2 f_equal. cbn. lra.
    - destruct (gt_nodes t) as [|g gs] eqn:Eg. { exfalso. destruct (vstores_in _ _ _ V) as [n E]. unfold getZ in E. cbn in E. discriminate. }
      rewrite <- Eg in V. rewrite (uses_vstores t i j T fuel V F). unfold joint at 1.
      destruct (in_dec Nat.eq_dec i (tested T)); cbn [andb]; [destruct (in_dec Nat.eq_dec j (tested T)); cbn [andb]|].
      + rewrite (contribution_R toint t x i j Hij T 0 fuel V X F). refine (eq_trans (IH _) _). do 2 f_equal. cbn [nadd nmul RNum]. unfold Rsum. ring.
      + refine (eq_trans (IH _) _). do 2 f_equal. unfold Rsum. ring.
      + refine (eq_trans (IH _) _). do 2 f_equal. unfold Rsum. ring. }
  change (@n0 RNum) with 0. rewrite G. do 2 f_equal. lra.
Qed.
Lemma gaps_nonneg x j : forall T v, In v (gaps T x j) -> 0 <= v.
Proof.
  induction T as [v|v f thr l IHl r IHr]; intros w H; [destruct H|]. cbn [gaps] in H. destruct (nth_error x f) as [a|]; [|destruct H].
  apply in_app_iff in H. destruct H as [H|H].
  - destruct (Nat.eqb f j); [|destruct H]. destruct H as [<-|[]]. apply Rabs_pos.
  - destruct (Rle_dec a thr); auto.
Qed.
Lemma joint_nonneg T x i j : 0 <= joint T x i j.
Proof.
  unfold joint. destruct (in_dec Nat.eq_dec i (tested T)); [destruct (in_dec Nat.eq_dec j (tested T))|]; try lra.
  pose proof (Rsum_nonneg (gaps T x i) (gaps_nonneg x i T)). pose proof (Rsum_nonneg (gaps T x j) (gaps_nonneg x j T)). lra.
Qed.

(** ** The contributions exist *)
Lemma collect_v {N : Num} (t : gtree N) : forall T id fuel, vstores (gt_nodes t) id T -> (vheight T < fuel)%nat ->
  exists l, collect_leaves fuel t id = Some l.
Proof.
  induction T as [v|v f thr l IHl r IHr]; intros id fuel H Hf; (destruct fuel as [|fuel]; [lia|]); inversion H as [k n E Ht|k n f' l' r' E Ht Hc Hg Hl Hr]; subst; cbn [collect_leaves]; rewrite E.
  - rewrite Ht. eauto.
  - cbn [vheight] in Hf. destruct (IHl _ fuel Hl ltac:(lia)) as [a ->], (IHr _ fuel Hr ltac:(lia)) as [b ->]. destruct (g_type n); eauto.
Qed.
Lemma path_v {N : Num} (toint : N -> Z) (t : gtree N) x : forall T id fuel, vstores (gt_nodes t) id T -> (vheight T < fuel)%nat ->
  exists l, tree_path toint fuel t x id = Some l.
Proof.
  induction T as [v|v f thr l IHl r IHr]; intros id fuel H Hf; (destruct fuel as [|fuel]; [lia|]); inversion H as [k n E Ht|k n f' l' r' E Ht Hc Hg Hl Hr]; subst; cbn [tree_path]; rewrite E.
  - rewrite Ht. eauto.
  - cbn [vheight] in Hf. destruct (IHl _ fuel Hl ltac:(lia)) as [a Ea], (IHr _ fuel Hr ltac:(lia)) as [b Eb]. rewrite Hc.
    destruct (g_type n); [eauto| |]; (destruct (getZ x (g_feat n)) as [w|]; [|eauto]; destruct (nle w (g_thr n)); [rewrite Ea|rewrite Eb]; cbn; eauto).
Qed.
Lemma tree_shap_v {N : Num} (toint : N -> Z) ord (t : gtree N) x T fuel : vstores (gt_nodes t) 0 T -> (vheight T < fuel)%nat ->
  exists s, tree_shap toint ord fuel t x = Some s.
Proof.
  intros V F. unfold tree_shap, tree_baseline. destruct (path_v toint t x T 0 fuel V F) as [p ->]. destruct (collect_v t T 0 fuel V F) as [l ->].
  destruct (gt_nodes t); [eauto|]. destruct p; [eauto|]. destruct (getZ _ _); [|eauto]. destruct l; eauto.
Qed.
Lemma shap_v {N : Num} (toint : N -> Z) ord fuel (m : gmodel N) x :
  Forall (fun t => exists T, vstores (gt_nodes t) 0 T /\ (vheight T < fuel)%nat) (m_trees m) ->
  exists s, sample_shap toint ord fuel m x = Some s.
Proof.
  intros H. unfold sample_shap. generalize (map (fun _ => @n0 N) x) as s0. induction H as [|t l (T & V & F) H IH]; intros s0; cbn [fold_left]; [eauto|].
  destruct (gt_nodes t) eqn:E; [apply IH|]. rewrite <- E in V. destruct (tree_shap_v toint ord t x T fuel V F) as [s ->]. apply IH.
Qed.

Lemma row_sum (r : list R) i a : nth_error r i = Some a -> (forall j b, j <> i -> nth_error r j = Some b -> 0 <= b) ->
  a <= Rsum r /\ (Rsum r = a <-> forall j b, j <> i -> nth_error r j = Some b -> b = 0).
Proof.
  revert i. induction r as [|b r IH]; intros i E H; [destruct i; discriminate|]. destruct i as [|i]; cbn [nth_error] in E.
  - injection E as ->. cbn [Rsum].
    assert (P : forall x, In x r -> 0 <= x). { intros x Hx. apply In_nth_error in Hx. destruct Hx as [k Hk]. apply (H (S k) x); auto. }
    pose proof (Rsum_nonneg r P). split; [lra|]. split.
    + intros Q j c Hj Hc. destruct j as [|j]; [congruence|]. cbn in Hc. assert (Z : Rsum r = 0) by lra.
      eapply Rsum_nonneg_eq0; eauto. apply nth_error_In in Hc. exact Hc.
    + intros Q. assert (Z : Rsum r = 0). { assert (forall x, In x r -> x = 0). { intros x Hx. apply In_nth_error in Hx. destruct Hx as [k Hk]. apply (Q (S k) x); auto. }
        clear - H1. induction r as [|c r IH]; [reflexivity|]. cbn [Rsum]. rewrite IH by (intros; apply H1; now right). rewrite (H1 c) by now left. lra. }
      lra.
  - destruct (IH i E) as [I1 I2]. { intros j c Hj Hc. apply (H (S j)); auto. }
    assert (Hb : 0 <= b) by (apply (H 0%nat); auto). cbn [Rsum]. split; [lra|]. split.
    + intros Q j c Hj Hc. destruct j as [|j]; cbn in Hc; [injection Hc as <-; lra|]. apply (proj1 I2) with j; auto. lra.
    + intros Q. rewrite (Q 0%nat b) by auto. assert (Rsum r = a) by (apply I2; intros j c Hj Hc; apply (Q (S j)); auto). lra.
Qed.
