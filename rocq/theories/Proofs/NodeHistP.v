(** The trainer's own histograms over the real numbers. *)
From Coq Require Import List Arith ZArith Bool Lia Sorted Permutation Reals Lra.
From Verif Require Import Base.Num Base.GoRes Base.ListX Base.RTac Base.GoSort Spec.Order Model.LgbTree Model.LgbHist Model.LgbTrain Model.LgbTrainer
  Model.NodeHist Spec.LgbHist Spec.LgbSplit Spec.NodeHist Proofs.OrderP Proofs.LgbTreeP Proofs.LgbArrayP Proofs.LgbHistP Proofs.LgbHistRP Proofs.LgbSplitP.
Import ListNotations.
Local Open Scope list_scope.
Local Open Scope R_scope.

(** ** Boundaries *)
Definition midq (u : list R) (q : nat) : R := (nth q u 0 + nth (S q) u 0) / 2.
Definition qbounds (u : list R) (qs : list nat) : list R := (nth 0 u 0 - e10) :: map (midq u) qs ++ [last u 0 + e10].

Lemma mid_R (a b : R) : @mid RNum a b = (a + b) / 2.
Proof. unfold mid. cbn [nadd ndiv nlit RNum]. cbn [num RNum]. change (IZR 2 / IZR 1) with (2 / 1). lra. Qed.
Lemma mids_R (u : list R) : @mids RNum u = map (midq u) (seq 0 (List.length u - 1)).
Proof.
  induction u as [|a [|b u] IH]; [reflexivity|reflexivity|].
  change (@mids RNum (a :: b :: u)) with ((a + b) / (IZR 2 / IZR 1) :: @mids RNum (b :: u)). change (num RNum) with R in *. rewrite IH.
  cbn [List.length Nat.sub]. rewrite Nat.sub_0_r. cbn [seq map]. f_equal.
  - unfold midq; cbn [nth]. lra.
  - rewrite <- seq_shift, map_map. apply map_ext. intros q. reflexivity.
Qed.
Lemma seq_sorted n : forall s, StronglySorted lt (seq s n).
Proof.
  induction n as [|n IH]; intros s; cbn; constructor; [apply IH|]. rewrite Forall_forall. intros x Hx. apply in_seq in Hx. lia.
Qed.
Lemma map_sorted {A B} (P : A -> A -> Prop) (Q : B -> B -> Prop) (g : A -> B) l :
  (forall a b, In a l -> In b l -> P a b -> Q (g a) (g b)) -> StronglySorted P l -> StronglySorted Q (map g l).
Proof.
  intros Hg Hs. induction Hs as [|a l Hs IH Hf]; cbn; constructor.
  - apply IH. intros; apply Hg; try right; assumption.
  - rewrite Forall_forall in *. intros b Hb. apply in_map_iff in Hb as (c & <- & Hc). apply Hg; [now left|now right|auto].
Qed.

Section Bounds.
  Variable sortf : list R -> list R.
  Hypothesis Hsort : go_sort (@fless RNum) sortf.

  Lemma quant_step (n m i j : nat) : (0 < m)%nat -> (m <= n)%nat -> (i < j)%nat -> (n * i / m < n * j / m)%nat.
  Proof.
    intros Hm Hn Hij. apply (Nat.lt_le_trans _ ((n * i + m * 1) / m)).
    - replace (n * i + m * 1)%nat with (n * i + 1 * m)%nat by lia. rewrite Nat.div_add by lia. lia.
    - apply Nat.div_le_mono; [lia|]. nia.
  Qed.
  Lemma node_bounds_R (maxbin : Z) (values : list R) : (1 <= maxbin)%Z -> values <> [] ->
    exists u qs, @node_bounds RNum sortf maxbin values = Ok (qbounds u qs)
      /\ sasc u /\ (forall v, In v u <-> In v values) /\ u <> []
      /\ StronglySorted lt qs /\ (forall q, In q qs -> (S q < List.length u)%nat)
      /\ (S (List.length qs) <= Z.to_nat maxbin)%nat
      /\ (@few_values RNum values (Z.to_nat maxbin) -> qs = seq 0 (List.length u - 1)).
  Proof.
    intros Hm Hne. unfold node_bounds. pose proof (sortf_asc sortf Hsort values) as Hs.
    assert (Hin : forall v, In v (sortf values) <-> In v values) by (intros v; apply sortf_in; exact Hsort).
    change (list (num RNum)) with (list R) in *. change (num RNum) with R in *.
    destruct (sortf values) as [|s0 sl] eqn:E.
    { destruct values as [|v values]; [easy|]. exfalso. apply (Hin v). now left. }
    destruct (uniq_R (s0 :: sl) Hs) as [U1 U2]. set (u := @uniq RNum (s0 :: sl)) in *.
    assert (E0 : @nth R 0 u 0 = s0) by reflexivity.
    assert (Hu : u <> []) by discriminate.
    assert (Hlu : (1 <= List.length u)%nat) by (destruct u; [easy|cbn; lia]).
    rewrite (eps10_R : @eps10 RNum = e10). change (@nadd RNum) with Rplus. change (@nsub RNum) with Rminus. change (@n0 RNum) with 0.
    assert (Huv : forall v, In v u <-> In v values) by (intros v; rewrite U2; apply Hin).
    clearbody u. cbn beta iota zeta. change (num RNum) with R in *.
    destruct (Z.leb_spec (Z.of_nat (List.length u)) maxbin) as [Hl|Hl].
    - exists u, (seq 0 (List.length u - 1)). split; [rewrite mids_R; unfold qbounds; rewrite E0; reflexivity|].
      split; [exact U1|]. split; [exact Huv|]. split; [exact Hu|]. split; [apply seq_sorted|]. split; [intros q Hq; apply in_seq in Hq; lia|].
      split; [rewrite seq_length; lia|reflexivity].
    - destruct (Z.ltb_spec maxbin 0); [lia|]. destruct (Z.eqb_spec maxbin 0) as [Hz|Hz]; [lia|]. set (m := Z.to_nat maxbin). set (n := List.length u).
      assert (Hmn : (m < n)%nat) by (unfold m, n; lia). assert (Hm0 : (0 < m)%nat) by (unfold m; lia).
      assert (Hq : forall i, (1 <= i < m)%nat -> ((n - 1) * i / m < n - 1)%nat).
      { intros i Hi. apply Nat.div_lt_upper_bound; [lia|]. nia. }
      exists u, (map (fun i => ((n - 1) * i / m)%nat) (seq 1 (m - 1))).
      split.
      { unfold qbounds. rewrite E0, map_map. f_equal. f_equal. f_equal. apply map_ext_in. intros i Hi. apply in_seq in Hi.
        unfold quantile. cbv zeta. change (num RNum) with R. fold n. destruct (Nat.ltb_spec ((n - 1) * i / m) (n - 1)) as [_|Hc]; [|specialize (Hq i ltac:(lia)); lia].
        apply mid_R. }
      split; [exact U1|]. split; [exact Huv|]. split; [exact Hu|]. split.
      { apply map_sorted with (P := lt); [|apply seq_sorted]. intros a b _ _ Hab. apply quant_step; lia. }
      split; [intros q Hq'; apply in_map_iff in Hq' as (i & <- & Hi); apply in_seq in Hi; specialize (Hq i ltac:(lia)); fold n; lia|].
      split; [rewrite map_length, seq_length; lia|].
      intros (us & Hus & Hi). exfalso.
      assert (Hle : (List.length u <= List.length us)%nat).
      { apply NoDup_incl_length; [now apply sasc_NoDup|]. intros v Hv. apply Hi. now apply Huv. }
      fold n m in Hle, Hus. change (num RNum) with R in *. lia.
  Qed.

  Lemma midq_between u q : sasc u -> (S q < List.length u)%nat -> nth q u 0 < midq u q < nth (S q) u 0.
  Proof. intros Hu Hq. pose proof (sasc_nth u Hu q (S q) ltac:(lia)). unfold midq. lra. Qed.
  Lemma midq_order u j q : sasc u -> (S q < List.length u)%nat -> (j < List.length u)%nat ->
    ((j <= q)%nat -> nth j u 0 < midq u q) /\ ((q < j)%nat -> midq u q < nth j u 0).
  Proof.
    intros Hu Hq Hj. pose proof (midq_between u q Hu Hq) as [A B]. split; intros H.
    - destruct (Nat.eq_dec j q) as [->|]; [exact A|]. pose proof (sasc_nth u Hu j q ltac:(lia)). lra.
    - destruct (Nat.eq_dec j (S q)) as [->|]; [exact B|]. pose proof (sasc_nth u Hu (S q) j ltac:(lia)). lra.
  Qed.
  Lemma qbounds_facts u qs : sasc u -> u <> [] -> StronglySorted lt qs -> (forall q, In q qs -> (S q < List.length u)%nat) ->
    sasc (qbounds u qs) /\ List.length (qbounds u qs) = S (S (List.length qs))
    /\ (forall v, In v u -> nth 0 (qbounds u qs) 0 < v < last (qbounds u qs) 0)
    /\ (forall v, In v u -> ~ In v (qbounds u qs)).
  Proof.
    intros Hu Hne Hqs Hq. pose proof e10_pos as He.
    assert (Hlo : forall v, In v u -> nth 0 u 0 <= v).
    { intros v Hv. destruct u as [|a u]; [easy|]. exact (asc_head a u v (sasc_asc _ Hu) Hv). }
    assert (Hhi : forall v, In v u -> v <= last u 0) by (intros v Hv; apply asc_last; [now apply sasc_asc|exact Hv]).
    assert (Hm : forall q, In q qs -> nth 0 u 0 < midq u q < last u 0).
    { intros q Hi. specialize (Hq q Hi). pose proof (midq_between u q Hu Hq).
      pose proof (Hlo (nth q u 0) ltac:(apply nth_In; lia)). pose proof (Hhi (nth (S q) u 0) ltac:(apply nth_In; lia)). lra. }
    assert (Hl0 : nth 0 u 0 <= last u 0) by (apply Hhi; destruct u; [easy|now left]).
    assert (Hlast : last (qbounds u qs) 0 = last u 0 + e10).
    { unfold qbounds. change (?a :: ?l ++ ?r) with ((a :: l) ++ r). apply last_last. }
    split; [|split; [|split]].
    - unfold qbounds. constructor.
      + apply sasc_snoc.
        * apply map_sorted with (P := lt); [|exact Hqs]. intros a b Ha Hb Hab.
          pose proof (midq_between u a Hu (Hq a Ha)). pose proof (midq_order u (S a) b Hu (Hq b Hb) ltac:(specialize (Hq a Ha); lia)) as [K _].
          destruct (Nat.eq_dec (S a) b) as [<-|]; [pose proof (midq_between u (S a) Hu (Hq _ Hb)); lra|]. specialize (K ltac:(lia)). lra.
        * intros x Hx. apply in_map_iff in Hx as (q & <- & Hi). specialize (Hm q Hi). lra.
      + rewrite Forall_forall. intros x Hx. apply in_app_iff in Hx as [Hx|[<-|[]]]; [|lra].
        apply in_map_iff in Hx as (q & <- & Hi). specialize (Hm q Hi). lra.
    - unfold qbounds. cbn [List.length]. rewrite app_length, map_length. cbn. lia.
    - intros v Hv. rewrite Hlast. cbn [qbounds nth]. specialize (Hlo v Hv). specialize (Hhi v Hv). lra.
    - intros v Hv Hb. unfold qbounds in Hb. destruct Hb as [Hb|Hb]; [specialize (Hlo v Hv); lra|].
      apply in_app_iff in Hb as [Hb|[Hb|[]]]; [|specialize (Hhi v Hv); lra].
      apply in_map_iff in Hb as (q & Eq & Hi). apply In_nth with (d := 0) in Hv as (j & Hj & <-).
      destruct (midq_order u j q Hu (Hq q Hi) Hj) as [K1 K2]. destruct (Nat.le_gt_cases j q) as [L|L]; [specialize (K1 L)|specialize (K2 L)]; lra.
  Qed.
End Bounds.

(** ** Filling *)
Definition find_z (v : R) (bs : list R) : Z :=
  match @node_find RNum v (@empty_bins RNum bs) with Some i => Z.of_nat i | None => (-1)%Z end.

Lemma scan_range v bins : forall i0 i, @node_scan RNum v bins i0 = Some i ->
  (i0 <= i < i0 + List.length bins)%nat.
Proof.
  induction bins as [|b r IH]; intros i0 i E; cbn in E; [easy|]. destruct (_ && _).
  - injection E as <-. cbn. lia.
  - apply IH in E. cbn. lia.
Qed.
Lemma node_find_range v bins i : @node_find RNum v bins = Some i -> (i < List.length bins)%nat.
Proof.
  unfold node_find. destruct (node_scan v bins 0) as [j|] eqn:E.
  - intros K. injection K as <-. apply scan_range in E. lia.
  - destruct bins as [|b r]; [easy|]. destruct (neqb _ _); [|easy]. intros K. injection K as <-. cbn. lia.
Qed.
Lemma node_add_R (g h : R) b : @node_add RNum g h b = @add_to_bin RNum g h b.
Proof.
  unfold node_add, add_to_bin, kahan. destruct b as [lo hi c bg bh]. cbn [b_lo b_hi b_cnt b_g b_h fst nadd nsub n0 RNum]. cbn [num RNum].
  f_equal; lra.
Qed.
Lemma upd_ext {A} (f g : A -> A) : (forall a, f a = g a) -> forall i l, upd i f l = upd i g l.
Proof. intros E. induction i as [|i IH]; intros [|x l]; cbn; try reflexivity; [now rewrite E|now rewrite IH]. Qed.
Lemma node_put_R (bs : list R) bins s : (List.length bins = List.length bs - 1)%nat ->
  @node_put RNum (@empty_bins RNum bs) bins s = @put RNum find_z bs bins s.
Proof.
  intros Hb. unfold node_put, put, find_z. destruct (@node_find RNum (fst s) (@empty_bins RNum bs)) as [i|] eqn:E; [|reflexivity].
  apply node_find_range in E. rewrite (@empty_bins_length RNum) in E. change (num RNum) with R in *.
  destruct (Z.leb_spec 0 (Z.of_nat i)); [|lia]. destruct (Z.ltb_spec (Z.of_nat i) (Z.of_nat (List.length bins))); [|lia].
  cbn [andb]. rewrite Nat2Z.id. apply upd_ext. intros b. apply node_add_R.
Qed.
Lemma node_fill (bs : list R) ss : fold_left (@node_put RNum (@empty_bins RNum bs)) ss (@empty_bins RNum bs) = @fill RNum find_z bs ss.
Proof.
  unfold fill. assert (K : forall bins, (List.length bins = List.length bs - 1)%nat ->
    fold_left (@node_put RNum (@empty_bins RNum bs)) ss bins = fold_left (@put RNum find_z bs) ss bins).
  { induction ss as [|s ss IH]; intros bins Hb; cbn [fold_left]; [reflexivity|]. rewrite node_put_R by exact Hb. apply IH.
    rewrite put_length. exact Hb. }
  apply K. exact (@empty_bins_length RNum bs).
Qed.

(** Between the ends, the linear search finds the same bin as the binary search. *)
Lemma scan_at (bs : list R) v i : (S i < List.length bs)%nat -> sasc bs -> nth i bs 0 <= v < nth (S i) bs 0 ->
  forall i0, @node_scan RNum v (@empty_bins RNum bs) i0 = Some (i0 + i)%nat.
Proof.
  revert i. induction bs as [|a [|b bs] IH]; intros i Hi Hs Hv i0; [cbn in Hi; lia|cbn in Hi; lia|].
  change (@empty_bins RNum (a :: b :: bs)) with (@mkbin RNum a b 0 0 0 :: @empty_bins RNum (b :: bs)).
  cbn [node_scan b_lo b_hi]. cbn [nle nlt RNum]. cbn [num RNum].
  destruct i as [|i].
  - cbn [nth] in Hv. rewrite (proj2 (Rleb_true a v)), (proj2 (Rltb_true v b)) by lra. cbn [andb]. f_equal; lia.
  - assert (Hb : b <= v).
    { pose proof (sasc_asc _ Hs) as Ha. inversion Hs as [|? ? Hs' Hf]; subst.
      change (nth (S i) (a :: b :: bs) 0) with (nth i (b :: bs) 0) in Hv. cbn [List.length] in Hi.
      destruct i as [|i]; [cbn in Hv; lra|]. pose proof (sasc_nth (b :: bs) Hs' 0 (S i) ltac:(cbn; lia)) as K. change (nth 0 (b :: bs) 0) with b in K. lra. }
    rewrite (proj2 (Rltb_false v b)) by exact Hb. rewrite andb_false_r.
    inversion Hs as [|? ? Hs' _]; subst. rewrite (IH i); [f_equal; lia|cbn in *; lia|exact Hs'|exact Hv].
Qed.
Lemma find_z_find_bin (bs : list R) v : sasc bs -> (2 <= List.length bs)%nat -> nth 0 bs 0 < v < last bs 0 ->
  find_z v bs = @find_bin RNum v bs.
Proof.
  intros Hs H2 Hv. destruct (@find_bin_in RNum lt_laws_R cmp_laws_R bs v (sasc_increasing _ Hs) H2 eq_refl) as [F0 F1].
  set (i := @find_bin RNum v bs) in *. unfold in_bin, in_binb in F1. apply andb_prop in F1 as [F1 F3]. apply andb_prop in F1 as [F1 F2].
  apply Nat.ltb_lt in F1. change (num RNum) with R in *. cbn [nle nlt n0 RNum] in *. cbn [num RNum] in *.
  unfold find_z, node_find. rewrite (scan_at bs v (Z.to_nat i)); [cbn [Nat.add]; lia|exact F1|exact Hs|]. split.
  - apply orb_prop in F2 as [F2|F2]; [|now apply Rleb_true]. apply Nat.eqb_eq in F2. rewrite F2. lra.
  - apply orb_prop in F3 as [F3|F3]; [|now apply Rltb_true]. apply Nat.eqb_eq in F3.
    replace (S (Z.to_nat i)) with (List.length bs - 1)%nat by lia. rewrite <- last_nth. lra.
Qed.
Lemma fill_ext f1 f2 (bs : list R) ss : (forall s, In s ss -> f1 (fst s) bs = f2 (fst s) bs) ->
  @fill RNum f1 bs ss = @fill RNum f2 bs ss.
Proof.
  intros E. unfold fill. generalize (@empty_bins RNum bs). induction ss as [|s ss IH]; intros bins; cbn [fold_left]; [reflexivity|].
  unfold put at 2 4. rewrite (E s) by now left. apply IH. intros; apply E. now right.
Qed.
Lemma total_R (l : list R) : @total RNum l = Rsum l.
Proof.
  unfold total. assert (K : forall s : R, fold_left (fun s x => fst (@kahan RNum s x (@n0 RNum))) l s = s + Rsum l).
  { induction l as [|x l IH]; intros s; cbn [fold_left]; [unfold Rsum; cbn; lra|]. rewrite IH.
    unfold kahan, Rsum. cbn [fst nadd nsub n0 RNum fold_right]. cbn [num RNum]. lra. }
  rewrite K. cbn. lra.
Qed.

(** ** The bins of all features *)
Lemma mapM_all {A B} (g : A -> res B) (P : A -> B -> Prop) l : (forall x, In x l -> exists y, g x = Ok y /\ P x y) ->
  exists ys, mapM g l = Ok ys /\ Forall2 P l ys.
Proof.
  induction l as [|x l IH]; intros K; [exists []; split; [reflexivity|constructor]|].
  destruct (K x (or_introl eq_refl)) as (y & Ey & Hy). destruct IH as (ys & E & F); [intros; apply K; now right|].
  exists (y :: ys). cbn [mapM]. rewrite Ey. cbn [bind]. rewrite E. split; [reflexivity|now constructor].
Qed.
Lemma Forall2_seq {B} (P : nat -> B -> Prop) (ys : list B) n : forall s, Forall2 P (seq s n) ys ->
  List.length ys = n /\ forall i, (i < n)%nat -> exists y, nth_error ys i = Some y /\ P (s + i)%nat y.
Proof.
  revert ys. induction n as [|n IH]; intros ys s K; cbn [seq] in K; inversion K as [|? y ? ys' Hy Hr]; subst; [split; [reflexivity|intros i Hi; lia]|].
  destruct (IH _ _ Hr) as [L1 L2]. split; [cbn; lia|]. intros [|i] Hi.
  - exists y. rewrite Nat.add_0_r. now split.
  - destruct (L2 i ltac:(lia)) as (z & E & Hz). exists z. split; [exact E|]. now replace (s + S i)%nat with (S s + i)%nat by lia.
Qed.
Lemma nth_combine_seq {B} (l : list B) : forall s i, nth_error (combine (seq s (List.length l)) l) i = option_map (fun x => ((s + i)%nat, x)) (nth_error l i).
Proof.
  induction l as [|x l IH]; intros s [|i]; cbn; try reflexivity; [now rewrite Nat.add_0_r|]. rewrite IH. now replace (s + S i)%nat with (S s + i)%nat by lia.
Qed.
Lemma in_combine_seq {B} (l : list B) f b : In (f, b) (combine (seq 0 (List.length l)) l) -> nth_error l f = Some b.
Proof.
  intros K. apply In_nth_error in K as [i E]. rewrite nth_combine_seq in E. destruct (nth_error l i) eqn:F; [|easy]. cbn in E. injection E as <- <-. exact F.
Qed.

Section All.
  Variable sortf : list R -> list R.
  Hypothesis Hsort : go_sort (@fless RNum) sortf.
  Variables (X : nat -> nat -> R) (G H : nat -> R).

  Definition column (rows f : nat) : list R := map (fun i => X i f) (seq 0 rows).
  Definition good (maxbin : Z) (rows f : nat) (tmpl : list (bin RNum)) : Prop :=
    exists u qs, tmpl = @empty_bins RNum (qbounds u qs)
      /\ sasc u /\ (forall v, In v u <-> In v (column rows f)) /\ u <> []
      /\ StronglySorted lt qs /\ (forall q, In q qs -> (S q < List.length u)%nat)
      /\ (S (List.length qs) <= Z.to_nat maxbin)%nat
      /\ (@few_values RNum (column rows f) (Z.to_nat maxbin) -> qs = seq 0 (List.length u - 1)).
  Lemma build_R (maxbin : Z) (rows cols : nat) : (1 <= maxbin)%Z -> (0 < rows)%nat ->
    exists tmpls, @build_hists RNum sortf X maxbin rows cols = Ok tmpls /\ List.length tmpls = cols
      /\ forall f, (f < cols)%nat -> exists tmpl, nth_error tmpls f = Some tmpl /\ good maxbin rows f tmpl.
  Proof.
    intros Hm Hr. unfold build_hists.
    destruct (mapM_all (fun f => @node_bins RNum sortf maxbin (map (fun i => X i f) (seq 0 rows))) (good maxbin rows) (seq 0 cols)) as (ys & E & F).
    { intros f _. destruct (node_bounds_R sortf Hsort maxbin (column rows f) Hm) as (u & qs & Eb & Hu & Huv & Hne & Hqs & Hq & Hlen & Hfew).
      { unfold column. destruct rows; [lia|discriminate]. }
      exists (@empty_bins RNum (qbounds u qs)). split.
      - unfold node_bins. change (map (fun i => X i f) (seq 0 rows)) with (column rows f). change (num RNum) with R. rewrite Eb. cbn [bind]. f_equal. apply firstn_all2.
        rewrite (@empty_bins_length RNum). destruct (qbounds_facts u qs Hu Hne Hqs Hq) as (_ & L & _). change (num RNum) with R. rewrite L. lia.
      - exists u, qs. repeat (split; [first [reflexivity|assumption]|]). exact Hfew. }
    destruct (Forall2_seq _ _ _ _ F) as [L1 L2]. exists ys. split; [exact E|]. split; [exact L1|]. intros f Hf. exact (L2 f Hf).
  Qed.
  Lemma node_hist_nth tmpls idxs f tmpl : nth_error tmpls f = Some tmpl ->
    nth_error (nh_bins (@node_hist RNum X G H tmpls idxs)) f = Some (@node_feature RNum X G H tmpl f idxs).
  Proof. intros E. cbn [nh_bins node_hist]. rewrite nth_error_map, nth_combine_seq, E. reflexivity. Qed.
  Lemma node_feature_fill (bs : list R) f idxs : @node_feature RNum X G H (@empty_bins RNum bs) f idxs = @fill RNum find_z bs (@samples RNum X G H f idxs).
  Proof. unfold node_feature. apply node_fill. Qed.

  Lemma in_column rows f i : (i < rows)%nat -> In (X i f) (column rows f).
  Proof. intros Hi. unfold column. apply in_map_iff. exists i. split; [reflexivity|]. apply in_seq. lia. Qed.
  Lemma node_feature_R u qs rows f idxs : sasc u -> (forall v, In v u <-> In v (column rows f)) -> u <> [] -> StronglySorted lt qs ->
    (forall q, In q qs -> (S q < List.length u)%nat) -> (forall i, In i idxs -> (i < rows)%nat) ->
    @node_feature RNum X G H (@empty_bins RNum (qbounds u qs)) f idxs = @fill RNum (@find_bin RNum) (qbounds u qs) (@samples RNum X G H f idxs).
  Proof.
    intros Hu Huv Hne Hqs Hq Hi. rewrite node_feature_fill. apply fill_ext. intros s Hs. unfold samples in Hs. apply in_map_iff in Hs as (i & <- & Hin). cbn [fst].
    destruct (qbounds_facts u qs Hu Hne Hqs Hq) as (S1 & L & B & _). apply find_z_find_bin; [exact S1|rewrite L; lia|].
    apply B, Huv, in_column, Hi, Hin.
  Qed.

  Lemma sub_all_map {A} (p s r : A -> list (bin RNum)) l : (forall a, In a l -> @sub_bins RNum (p a) (s a) = Ok (r a)) ->
    @sub_all RNum (map p l) (map s l) = Ok (map r l).
  Proof.
    induction l as [|a l IH]; intros K; cbn; [reflexivity|]. rewrite (K a) by now left. cbn. rewrite IH by (intros; apply K; now right). reflexivity.
  Qed.
  Lemma node_sub_R tmpls par l r : (forall tmpl, In tmpl tmpls -> exists bs : list R, tmpl = @empty_bins RNum bs) -> Permutation par (l ++ r) ->
    @node_sub RNum (@node_hist RNum X G H tmpls par) (@node_hist RNum X G H tmpls l) = Ok (@node_hist RNum X G H tmpls r).
  Proof.
    intros Ht Hp. unfold node_sub, node_hist at 1 2 3 4 5 6 7 8. cbn [nh_bins nh_g nh_h nh_cnt].
    rewrite (sub_all_map _ _ (fun fb => @node_feature RNum X G H (snd fb) (fst fb) r)).
    - cbn [bind]. unfold node_hist. f_equal. rewrite !total_R. f_equal.
      + cbn [nsub RNum]. change (num RNum) with R in *. rewrite (Rsum_perm _ _ (Permutation_map G Hp)), map_app, Rsum_app. lra.
      + cbn [nsub RNum]. change (num RNum) with R in *. rewrite (Rsum_perm _ _ (Permutation_map H Hp)), map_app, Rsum_app. lra.
      + rewrite (Permutation_length Hp), app_length. lia.
    - intros [f b] Hin. cbn [fst snd]. apply in_combine_r in Hin. destruct (Ht b Hin) as [bs ->]. rewrite !node_feature_fill. apply fill_sub.
      unfold samples. rewrite <- map_app. now apply Permutation_map.
  Qed.
End All.

(** ** The search *)
Section Search.
  Variables (l1 l2 : R) (mono : list Z) (mindata : Z) (nh : nodehist RNum) (f : nat).
  Notation gsum all k := (@left_g RNum all k) (only parsing).
  Notation hsum all k := (@left_h RNum all k) (only parsing).
  Definition cnt_l (all : list (bin RNum)) k : Z := count_all (firstn k all).
  Definition ok (all : list (bin RNum)) (k : nat) : Prop :=
    (mindata <= cnt_l all k)%Z /\ (mindata <= nh_cnt nh - cnt_l all k)%Z
    /\ @satisfies_monotone RNum mono f (gsum all k) (hsum all k) (nh_g nh - gsum all k) (nh_h nh - hsum all k) = true.
  Definition gn (all : list (bin RNum)) (k : nat) : R :=
    @split_gain RNum l1 l2 (gsum all k) (hsum all k) (nh_g nh - gsum all k) (nh_h nh - hsum all k) (nh_g nh) (nh_h nh).
  Definition rec (ft : Z) (all : list (bin RNum)) (k : nat) : split RNum :=
    @mksplit RNum ft (b_hi (nth (k - 1) all (@mkbin RNum 0 0 0 0 0))) (gn all k) (cnt_l all k) (nh_cnt nh - cnt_l all k)
      (gsum all k) (nh_g nh - gsum all k) (hsum all k) (nh_h nh - hsum all k) [].

  Lemma loop_spec rest : forall left best,
    let all := left ++ rest in
    let s := @node_loop RNum l1 l2 mono mindata nh f (gsum all (List.length left)) (hsum all (List.length left)) (count_all left) rest best in
    let later k := (List.length left < k < List.length all)%nat /\ ok all k in
    (s = best /\ forall k, later k -> gn all k <= s_gain best)
    \/ exists k, later k /\ s = rec (s_feat best) all k /\ s_gain best < gn all k /\ forall j, later j -> gn all j <= gn all k.
  Proof.
    induction rest as [|b rest IH]; intros left best; cbn zeta.
    { left. split; [reflexivity|]. intros k [K _]. rewrite app_nil_r in K. lia. }
    destruct rest as [|b2 rest].
    { left. split; [reflexivity|]. intros k [K _]. rewrite app_length in K. cbn in K. lia. }
    set (all := left ++ b :: b2 :: rest). set (m := List.length left).
    assert (EA : all = (left ++ [b]) ++ b2 :: rest) by (unfold all; now rewrite <- app_assoc).
    assert (EL : List.length (left ++ [b]) = S m) by (rewrite app_length; cbn; lia).
    assert (Fm : firstn m all = left) by (unfold all, m; rewrite firstn_app, firstn_all, Nat.sub_diag; cbn; apply app_nil_r).
    assert (Fs : firstn (S m) all = left ++ [b]) by (rewrite EA, <- EL, firstn_app, firstn_all, Nat.sub_diag; cbn; apply app_nil_r).
    assert (Hlen : (S m < List.length all)%nat) by (unfold all; rewrite app_length; cbn; unfold m; lia).
    assert (Eg : @nadd RNum (gsum all m) (b_g b) = gsum all (S m)).
    { unfold left_g. rewrite Fs, Fm, map_app. cbn [map]. now rewrite nsum_snoc. }
    assert (Eh : @nadd RNum (hsum all m) (b_h b) = hsum all (S m)).
    { unfold left_h. rewrite Fs, Fm, map_app. cbn [map]. now rewrite nsum_snoc. }
    assert (Ec : (count_all left + b_cnt b)%Z = cnt_l all (S m)).
    { unfold cnt_l. rewrite Fs, count_all_app. cbn. lia. }
    assert (Eb : nth (S m - 1) all (@mkbin RNum 0 0 0 0 0) = b).
    { replace (S m - 1)%nat with m by lia. unfold all, m. rewrite app_nth2, Nat.sub_diag by lia. reflexivity. }
    set (best' := if (cnt_l all (S m) <? mindata)%Z || (nh_cnt nh - cnt_l all (S m) <? mindata)%Z then best
       else if negb (@satisfies_monotone RNum mono f (gsum all (S m)) (hsum all (S m)) (nh_g nh - gsum all (S m)) (nh_h nh - hsum all (S m))) then best
       else if Rltb (s_gain best) (gn all (S m)) then rec (s_feat best) all (S m) else best).
    assert (ES : @node_loop RNum l1 l2 mono mindata nh f (gsum all m) (hsum all m) (count_all left) (b :: b2 :: rest) best
      = @node_loop RNum l1 l2 mono mindata nh f (gsum all (S m)) (hsum all (S m)) (count_all (left ++ [b])) (b2 :: rest) best').
    { cbn [node_loop]. rewrite Eg, Eh, Ec.
      assert (Ec' : count_all (left ++ [b]) = cnt_l all (S m)) by (unfold cnt_l; now rewrite Fs). rewrite Ec'.
      unfold best', rec, gn. rewrite Eb. reflexivity. }
    rewrite ES. clear ES. specialize (IH (left ++ [b]) best'). cbn zeta in IH. rewrite <- EA, EL in IH.
    set (s := @node_loop RNum l1 l2 mono mindata nh f (gsum all (S m)) (hsum all (S m)) (count_all (left ++ [b])) (b2 :: rest) best') in *. clearbody s.
    assert (HB : (best' = rec (s_feat best) all (S m) /\ ok all (S m) /\ s_gain best < gn all (S m))
                 \/ (best' = best /\ (ok all (S m) -> gn all (S m) <= s_gain best))).
    { unfold best', ok. destruct (Z.ltb_spec (cnt_l all (S m)) mindata); cbn [orb]; [right; split; [reflexivity|lia]|].
      destruct (Z.ltb_spec (nh_cnt nh - cnt_l all (S m)) mindata); [right; split; [reflexivity|lia]|].
      destruct (satisfies_monotone _ _ _ _ _ _) eqn:Em; cbn [negb]; [|right; split; [reflexivity|intros (_ & _ & C); congruence]].
      destruct (Rltb (s_gain best) (gn all (S m))) eqn:E; [apply Rltb_true in E; left; repeat split; assumption|].
      apply Rltb_false in E. right. split; [reflexivity|now intros _]. }
    clearbody best'. destruct HB as [(-> & Hok & Hlt)|(-> & Hno)].
    - right. destruct IH as [[-> F]|(k & [K1 K2] & Ek & Hk & F)].
      + exists (S m). split; [split; [lia|exact Hok]|]. split; [reflexivity|]. split; [exact Hlt|].
        intros j [J1 J2]. destruct (Nat.eq_dec j (S m)) as [->|]; [lra|]. apply F. split; [lia|exact J2].
      + exists k. split; [split; [lia|exact K2]|]. split; [exact Ek|]. cbn [rec s_gain] in Hk. split; [lra|].
        intros j [J1 J2]. destruct (Nat.eq_dec j (S m)) as [->|]; [lra|]. apply F. split; [lia|exact J2].
    - destruct IH as [[-> F]|(k & [K1 K2] & Ek & Hk & F)].
      + left. split; [reflexivity|]. intros j [J1 J2]. destruct (Nat.eq_dec j (S m)) as [->|]; [now apply Hno|]. apply F. split; [lia|exact J2].
      + right. exists k. split; [split; [lia|exact K2]|]. split; [exact Ek|]. split; [exact Hk|].
        intros j [J1 J2]. destruct (Nat.eq_dec j (S m)) as [->|]; [specialize (Hno J2); lra|]. apply F. split; [lia|exact J2].
  Qed.
End Search.

(** ** In terms of rows *)
Lemma score_lowest (l1 l2 g h : R) : 0 <= l1 -> 0 <= l2 -> 0 <= h -> @node_score RNum l1 l2 g h = - lowest l1 l2 g h.
Proof.
  intros H1 H2 Hh. pose proof e10_pos as He. unfold node_score, lowest. rewrite (eps10_R : @eps10 RNum = e10).
  cbn [nisnan nisinf RNum orb nadd nsub nmul ndiv nneg nlit nlt nabs n0]. cbn [num RNum]. change (1 / 10000000000) with e10. change (IZR 1 / IZR 2) with (1 / 2).
  rewrite (proj2 (Rltb_false (Rabs (h + l2 + e10)) e10)) by (rewrite Rabs_right by lra; lra).
  set (d := h + l2 + e10). assert (Hd : 0 < d) by (unfold d; lra).
  assert (K : forall z y : R, z * z = y * y -> 1 / 2 * y * y / d = - (- (z * z) / (2 * d))) by (intros z y E; rewrite E; field; lra).
  destruct (Rltb_spec 0 l1) as [Hp|Hp].
  - destruct (Rltb_spec l1 g) as [Hg|Hg].
    + apply K. rewrite Rabs_right, Rmax_left by (try rewrite Rabs_right; lra). reflexivity.
    + destruct (Rltb_spec g (- l1)) as [Hn|Hn].
      * apply K. rewrite Rabs_left, Rmax_left by (try rewrite Rabs_left; lra). ring.
      * rewrite Rmax_right by (apply Rle_trans with (l1 - l1); [apply Rplus_le_compat_r, Rabs_le; lra|lra]). field. lra.
  - assert (l1 = 0) by lra. subst l1. apply K. rewrite Rminus_0_r. rewrite Rmax_left by apply Rabs_pos.
    unfold Rabs. destruct (Rcase_abs g); ring.
Qed.
Lemma gain_rows (l1 l2 gl hl gr hr tg th : R) : 0 <= l1 -> 0 <= l2 -> 0 <= hl -> 0 <= hr -> tg = gl + gr -> th = hl + hr ->
  @split_gain RNum l1 l2 gl hl gr hr tg th = node_gain l1 l2 gl hl gr hr.
Proof.
  intros H1 H2 H3 H4 -> ->. unfold split_gain, node_gain. rewrite !score_lowest by lra. cbn [nadd nsub RNum]. cbn [num RNum]. lra.
Qed.
Lemma mono_rows mono f (gl hl gr hr : R) :
  @satisfies_monotone RNum mono f gl hl gr hr = true <-> leaves_ordered (nth f mono 0%Z) gl hl gr hr.
Proof.
  unfold satisfies_monotone, leaves_ordered. cbn [nneg ndiv nadd nlit nle RNum]. cbn [num RNum]. change (IZR 1 / IZR 1000000000000000) with (1 / 1000000000000000).
  destruct (nth_error mono f) as [c|] eqn:E.
  - rewrite (nth_error_nth _ _ _ E). destruct (Z.eqb_spec c 1) as [->|N1].
    + rewrite Rleb_true. split; [intros K; split; [intros _; exact K|easy]|intros [K _]; now apply K].
    + destruct (Z.eqb_spec c (-1)) as [->|N2]; [|split; [intros _; split; intros; lia|reflexivity]].
      rewrite Rleb_true. split; [intros K; split; [easy|intros _; exact K]|intros [_ K]; now apply K].
  - apply nth_error_None in E. rewrite nth_overflow by exact E. split; [intros _; split; intros; lia|reflexivity].
Qed.
Lemma sum_nonneg (v : nat -> R) l : (forall i, In i l -> 0 <= v i) -> 0 <= sum_of v l.
Proof.
  unfold sum_of, Rsum. induction l as [|i l IH]; intros K; cbn; [lra|]. pose proof (K i (or_introl eq_refl)). specialize (IH (fun j Hj => K j (or_intror Hj))). lra.
Qed.

Section Rows.
  Variables (X : nat -> nat -> R) (G H : nat -> R) (f : nat) (l1 l2 : R) (mono : list Z) (mindata : Z).
  Hypotheses (Hl1 : 0 <= l1) (Hl2 : 0 <= l2).
  Variables (u : list R) (qs : list nat) (rows : nat) (idxs : list nat).
  Hypotheses (Hu : sasc u) (Huv : forall v, In v u <-> In v (column X rows f)) (Hne : u <> []) (Hqs : StronglySorted lt qs)
    (Hq : forall q, In q qs -> (S q < List.length u)%nat) (Hidx : forall i, In i idxs -> (i < rows)%nat) (HH : forall i, In i idxs -> 0 <= H i).
  Let bs := qbounds u qs.
  Let bins := @fill RNum (@find_bin RNum) bs (@samples RNum X G H f idxs).

  Lemma below_lower t : In t bs -> below X f t idxs = lower X f t idxs /\ upward X f t idxs = upper X f t idxs.
  Proof.
    intros Ht. destruct (qbounds_facts u qs Hu Hne Hqs Hq) as (_ & _ & _ & Nb).
    assert (K : forall i, In i idxs -> Rltb (X i f) t = Rleb (X i f) t).
    { intros i Hi. assert (Hx : X i f <> t) by (intros E; apply (Nb t); [rewrite <- E; apply Huv, in_column, Hidx, Hi|exact Ht]).
      destruct (Rltb_spec (X i f) t), (Rleb_spec (X i f) t); try reflexivity; exfalso; lra. }
    unfold below, lower, upward, upper. split; apply filter_ext_in; intros i Hi; now rewrite K.
  Qed.
  Lemma cut_facts (nh : nodehist RNum) k : (0 < k)%nat -> (S k < List.length bs)%nat ->
    nh_g nh = sum_of G idxs -> nh_h nh = sum_of H idxs -> nh_cnt nh = Z.of_nat (List.length idxs) ->
    let t := nth k bs 0 in
    (ok mono mindata nh f bins k <-> admissible X G H f mono mindata idxs t)
    /\ gn l1 l2 nh bins k = threshold_gain X G H f l1 l2 idxs t
    /\ records X G H f l1 l2 idxs t (rec l1 l2 nh (Z.of_nat f) bins k).
  Proof.
    intros Hk Hl Eg Eh Ec t. destruct (qbounds_facts u qs Hu Hne Hqs Hq) as (Sb & _). fold bs in Sb.
    destruct (cut_rows X G H f bs idxs k Sb Hk Hl) as (C1 & C2 & C3 & C4 & C5 & C6). fold bins t in C1, C2, C3, C4, C5, C6.
    destruct (below_lower t) as [B1 B2]; [apply nth_In; lia|]. rewrite B1 in C1, C3, C4. rewrite B2 in C2, C5, C6.
    assert (Er : (nh_cnt nh - cnt_l bins k)%Z = Z.of_nat (List.length (upper X f t idxs))).
    { unfold cnt_l. rewrite C1, Ec. pose proof (split_sum (fun i => Rleb (X i f) t) G idxs) as [_ P].
      fold (lower X f t idxs) in P. fold (upper X f t idxs) in P. lia. }
    assert (EG : (nh_g nh - @left_g RNum bins k : R) = sum_of G (upper X f t idxs)) by (rewrite Eg; exact C5).
    assert (EH : (nh_h nh - @left_h RNum bins k : R) = sum_of H (upper X f t idxs)) by (rewrite Eh; exact C6).
    assert (Hn : forall (p : nat -> bool), 0 <= sum_of H (filter p idxs)) by (intros p; apply sum_nonneg; intros i Hi; apply filter_In in Hi as [Hi _]; auto).
    assert (EN : gn l1 l2 nh bins k = threshold_gain X G H f l1 l2 idxs t).
    { unfold gn, threshold_gain. rewrite EG, EH, C3, C4. apply gain_rows; [exact Hl1|exact Hl2|apply Hn|apply Hn| |].
      - rewrite Eg. pose proof C5. rewrite C3 in C5. lra.
      - rewrite Eh. rewrite C4 in C6. lra. }
    split; [|split; [exact EN|]].
    - unfold ok, admissible. rewrite Er, EG, EH, C3, C4. unfold cnt_l. rewrite C1, mono_rows. reflexivity.
    - unfold records, rec. rewrite EN, Er, EG, EH, C3, C4. unfold cnt_l. rewrite C1. f_equal.
      assert (Hf := @fill_nth RNum (@find_bin RNum) bs (@samples RNum X G H f idxs) (k - 1)). fold bins in Hf.
      rewrite (nth_error_nth _ _ _ (Hf ltac:(change (num RNum) with R; lia))). cbn [b_hi]. replace (S (k - 1)) with k by lia. reflexivity.
  Qed.
  (** With one value per bin every division of the rows by a threshold is one at a boundary. *)
  Lemma any_threshold t : qs = seq 0 (List.length u - 1) -> lower X f t idxs <> [] -> upper X f t idxs <> [] ->
    exists k, (0 < k)%nat /\ (S k < List.length bs)%nat /\ lower X f t idxs = lower X f (nth k bs 0) idxs /\ upper X f t idxs = upper X f (nth k bs 0) idxs.
  Proof.
    intros Eqs Hlo Hup. set (k := List.length (filter (fun x => Rleb x t) u)).
    assert (Hin : forall i, In i idxs -> In (X i f) u) by (intros i Hi; apply Huv, in_column, Hidx, Hi).
    assert (Hk0 : (0 < k)%nat).
    { destruct (lower X f t idxs) as [|i r] eqn:El; [easy|].
      assert (Hi : In i (lower X f t idxs)) by (rewrite El; now left). apply filter_In in Hi as [Hi Ht].
      assert (Hf' : In (X i f) (filter (fun x => Rleb x t) u)) by (apply filter_In; split; [now apply Hin|exact Ht]).
      unfold k. destruct (filter _ u); [easy|cbn; lia]. }
    assert (Hk1 : (k < List.length u)%nat).
    { destruct (upper X f t idxs) as [|i r] eqn:El; [easy|].
      assert (Hi : In i (upper X f t idxs)) by (rewrite El; now left). apply filter_In in Hi as [Hi Ht].
      apply Hin, In_nth with (d := 0%R) in Hi as (j & Hj & Ej). apply negb_true_iff, Rleb_false in Ht.
      pose proof (filter_count u t Hu j Hj) as Fc. fold k in Fc.
      destruct (Nat.lt_ge_cases j k) as [Hjk|Hjk]; [apply Fc in Hjk; lra|lia]. }
    assert (Hlb : List.length bs = S (List.length u)).
    { destruct (qbounds_facts u qs Hu Hne Hqs Hq) as (_ & L & _). unfold bs. rewrite L, Eqs, seq_length. lia. }
    assert (En : nth k bs 0 = midq u (k - 1)).
    { unfold bs, qbounds. rewrite Eqs. destruct k as [|k']; [lia|]. cbn [nth]. rewrite app_nth1 by (rewrite map_length, seq_length; lia).
      rewrite (nth_indep _ 0 (midq u 0)) by (rewrite map_length, seq_length; lia). rewrite map_nth, seq_nth by lia. f_equal. lia. }
    exists k. split; [exact Hk0|]. split; [lia|]. rewrite En.
    assert (K : forall i, In i idxs -> Rleb (X i f) t = Rleb (X i f) (midq u (k - 1))).
    { intros i Hi. apply Hin in Hi. apply In_nth with (d := 0) in Hi as (j & Hj & <-).
      pose proof (filter_count u t Hu j Hj) as F. fold k in F. destruct (midq_order u j (k - 1) Hu ltac:(lia) Hj) as [M1 M2].
      destruct (Rleb_spec (nth j u 0) t) as [L|L]; symmetry.
      - apply F in L. apply Rleb_true. specialize (M1 ltac:(lia)). lra.
      - apply Rleb_false. apply M2. assert (Hn : ~ (j < k)%nat) by (intros C; apply F in C; lra). lia. }
    unfold lower, upper. split; apply filter_ext_in; intros i Hi; now rewrite K.
  Qed.
End Rows.
