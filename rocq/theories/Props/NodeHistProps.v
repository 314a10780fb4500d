(** C148: the trainer's own histograms. *)
From Coq Require Import List Arith ZArith Bool Lia Sorted Permutation Reals Lra.
From Flocq Require Import Core.Core IEEE754.BinarySingleNaN.
From Verif Require Import Base.Num Base.GoRes Base.ListX Base.RTac Base.GoSort Base.FTac Spec.Order Model.LgbTree Model.LgbHist Model.LgbTrain Model.LgbTrainer
  Model.NodeHist Spec.LgbHist Spec.LgbSplit Spec.NodeHist Proofs.OrderP Proofs.LgbHistP Proofs.LgbHistRP Proofs.LgbSplitP Proofs.NodeHistP Proofs.NodeHistFP.
Import ListNotations.
Local Open Scope list_scope.

(** Over the real numbers, for every sort: from at least one row and max_bin at least 1, Fit
    gives every feature at most max_bin bins; every training value lies strictly inside a
    bin; and with at most max_bin different values no two of them share one. *)
Theorem C148_bins : forall (sortf : list R -> list R) (X : nat -> nat -> R) (maxbin : Z) (rows cols : nat),
  go_sort (@fless RNum) sortf -> (1 <= maxbin)%Z -> 0 < rows ->
  exists tmpls, @build_hists RNum sortf X maxbin rows cols = Ok tmpls /\ List.length tmpls = cols
  /\ forall f, f < cols ->
     let values := map (fun i => X i f) (seq 0 rows) in
     exists bs, nth_error tmpls f = Some (@empty_bins RNum bs) /\ separates (Z.to_nat maxbin) values bs
       /\ (@few_values RNum values (Z.to_nat maxbin) -> forall i v w, In v values -> In w values ->
             @in_bin RNum bs i v -> @in_bin RNum bs i w -> v = w).
Proof.
  intros sortf X maxbin rows cols Hs Hm Hr. destruct (build_R sortf Hs X maxbin rows cols Hm Hr) as (tmpls & E & L & K).
  exists tmpls. split; [exact E|]. split; [exact L|]. intros f Hf values.
  destruct (K f Hf) as (tmpl & Et & u & qs & -> & Hu & Huv & Hne & Hqs & Hq & Hlen & Hfew).
  destruct (qbounds_facts u qs Hu Hne Hqs Hq) as (S1 & L1 & B1 & N1). exists (qbounds u qs). split; [exact Et|].
  assert (Hsep : forall v, In v values -> exists i, S i < List.length (qbounds u qs) /\ (nth i (qbounds u qs) 0 < v < nth (S i) (qbounds u qs) 0)%R).
  { intros v Hv. assert (Hvu : In v u) by (apply Huv; exact Hv). specialize (B1 v Hvu). specialize (N1 v Hvu).
    destruct (@find_bin_in RNum lt_laws_R cmp_laws_R (qbounds u qs) v (sasc_increasing _ S1) ltac:(change (num RNum) with R; lia) eq_refl) as [F0 F1].
    set (i := Z.to_nat (@find_bin RNum v (qbounds u qs))) in *. unfold in_bin, in_binb in F1. apply andb_prop in F1 as [F1 F3]. apply andb_prop in F1 as [F1 F2].
    apply Nat.ltb_lt in F1. change (num RNum) with R in *. cbn [nle nlt n0 RNum] in *. cbn [num RNum] in *. exists i. split; [exact F1|]. split.
    - apply orb_prop in F2 as [F2|F2]; [apply Nat.eqb_eq in F2; rewrite F2; lra|]. apply Rleb_true in F2.
      destruct F2 as [F2|F2]; [exact F2|]. exfalso. apply N1. rewrite <- F2. apply nth_In. lia.
    - apply orb_prop in F3 as [F3|F3]; [|now apply Rltb_true]. apply Nat.eqb_eq in F3. replace (S i) with (List.length (qbounds u qs) - 1) by lia.
      rewrite <- last_nth. lra. }
  split; [split; [now apply sasc_increasing|]; split; [rewrite L1; lia|exact Hsep]|].
  intros Hfv i v w Hv Hw Iv Iw. specialize (Hfew Hfv).
  apply Huv in Hv. apply Huv in Hw. pose proof (B1 v Hv) as Bv. pose proof (B1 w Hw) as Bw.
  apply In_nth with (d := 0%R) in Hv as (a & Ha & <-). apply In_nth with (d := 0%R) in Hw as (b & Hb & <-).
  assert (Hi : forall j, j < List.length u -> @in_bin RNum (qbounds u qs) i (nth j u 0%R) -> j = i).
  { intros j Hj Ij. apply (@in_bin_unique RNum lt_laws_R cmp_laws_R (qbounds u qs) (nth j u 0%R)); [now apply sasc_increasing|reflexivity| |exact Ij].
    unfold in_bin, in_binb. change (num RNum) with R. rewrite L1, Hfew, seq_length. cbn [nle nlt n0 RNum]. cbn [num RNum].
    apply andb_true_intro. split; [apply andb_true_intro; split; [apply Nat.ltb_lt; lia|]|].
    - destruct j as [|j]; [reflexivity|]. unfold qbounds; cbn [Nat.eqb orb nth]. apply Rleb_true.
      rewrite app_nth1 by (rewrite map_length, seq_length; lia). rewrite (nth_indep (map _ _) 0%R (midq u 0)) by (rewrite map_length, seq_length; lia).
      rewrite map_nth, seq_nth by lia. cbn [Nat.add]. apply Rlt_le, midq_between; [exact Hu|lia].
    - destruct (Nat.eqb_spec (S (S j)) (S (S (List.length u - 1)))) as [|Hn]; [reflexivity|]. unfold qbounds; cbn [orb nth]. apply Rltb_true.
      rewrite app_nth1 by (rewrite map_length, seq_length; lia). rewrite (nth_indep (map _ _) 0%R (midq u 0)) by (rewrite map_length, seq_length; lia).
      rewrite map_nth, seq_nth by lia. cbn [Nat.add]. apply midq_between; [exact Hu|lia]. }
  now rewrite (Hi a Ha Iv), (Hi b Hb Iw).
Qed.

(** The histogram of a node: for any rows of the training data, repeated or not, each
    feature's bins hold the numbers of rows and the gradient and hessian sums of the rows
    with values in the bin; together they account for every row; the totals are those of the
    node. *)
Theorem C148_node : forall (sortf : list R -> list R) (X : nat -> nat -> R) (G H : nat -> R) (maxbin : Z) (rows cols : nat),
  go_sort (@fless RNum) sortf -> (1 <= maxbin)%Z -> 0 < rows ->
  exists tmpls, @build_hists RNum sortf X maxbin rows cols = Ok tmpls
  /\ forall idxs, (forall i, In i idxs -> i < rows) ->
     let nh := @node_hist RNum X G H tmpls idxs in
     nh_g nh = sum_of G idxs /\ nh_h nh = sum_of H idxs /\ nh_cnt nh = Z.of_nat (List.length idxs) /\ List.length (nh_bins nh) = cols
     /\ forall f, f < cols -> exists bs bins, nth_error tmpls f = Some (@empty_bins RNum bs) /\ nth_error (nh_bins nh) f = Some bins
          /\ bins = @histogram RNum bs (map (fun i => (X i f, (G i, H i))) idxs)
          /\ count_all bins = nh_cnt nh /\ @grad_all RNum bins = nh_g nh /\ @hess_all RNum bins = nh_h nh.
Proof.
  intros sortf X G H maxbin rows cols Hs Hm Hr. destruct (build_R sortf Hs X maxbin rows cols Hm Hr) as (tmpls & E & L & K).
  exists tmpls. split; [exact E|]. intros idxs Hi nh.
  assert (EG : nh_g nh = sum_of G idxs) by apply total_R. assert (EH : nh_h nh = sum_of H idxs) by apply total_R.
  split; [exact EG|]. split; [exact EH|]. split; [reflexivity|].
  split; [unfold nh, node_hist; cbn [nh_bins]; rewrite map_length, combine_length, seq_length; lia|].
  intros f Hf. destruct (K f Hf) as (tmpl & Et & u & qs & -> & Hu & Huv & Hne & Hqs & Hq & Hlen & Hfew).
  destruct (qbounds_facts u qs Hu Hne Hqs Hq) as (S1 & L1 & _ & _). set (bs := qbounds u qs) in *.
  assert (H2 : 2 <= List.length bs) by lia.
  exists bs, (@fill RNum (@find_bin RNum) bs (@samples RNum X G H f idxs)). split; [exact Et|].
  split; [unfold nh; rewrite (node_hist_nth X G H tmpls idxs f _ Et); f_equal; now apply (node_feature_R X G H u qs rows)|].
  split.
  - rewrite (@fill_histogram RNum lt_laws_R cmp_laws_R); [reflexivity|now apply sasc_increasing|exact H2|reflexivity|].
    intros v _. destruct (@find_bin_in RNum lt_laws_R cmp_laws_R bs v (sasc_increasing _ S1) H2 eq_refl) as [A B]. split; [apply A|exact B].
  - assert (Hg : forall s : R * (R * R), In s (@samples RNum X G H f idxs) -> (0 <= @find_bin RNum (fst s) bs < Z.of_nat (List.length bs - 1))%Z).
    { intros s _. apply (@find_bin_range RNum). exact H2. }
    destruct (fill_mass (@find_bin RNum) bs (@samples RNum X G H f idxs) Hg) as [M1 M2]. destruct (samples_sums X G H f idxs) as [T1 T2].
    change (num RNum) with R in *. rewrite (@fill_count RNum) by exact Hg. rewrite M1, M2, T1, T2, EG, EH.
    unfold samples. rewrite map_length. repeat split; reflexivity.
Qed.

(** Subtracting the histogram of one child from its parent's gives the other child's, for
    every division of the rows. *)
Theorem C148_subtraction : forall (sortf : list R -> list R) (X : nat -> nat -> R) (G H : nat -> R) (maxbin : Z) (rows cols : nat),
  go_sort (@fless RNum) sortf -> (1 <= maxbin)%Z -> 0 < rows ->
  exists tmpls, @build_hists RNum sortf X maxbin rows cols = Ok tmpls
  /\ forall parent left right, Permutation parent (left ++ right) ->
     @node_sub RNum (@node_hist RNum X G H tmpls parent) (@node_hist RNum X G H tmpls left) = Ok (@node_hist RNum X G H tmpls right).
Proof.
  intros sortf X G H maxbin rows cols Hs Hm Hr. destruct (build_R sortf Hs X maxbin rows cols Hm Hr) as (tmpls & E & L & K).
  exists tmpls. split; [exact E|]. intros parent left right Hp. apply node_sub_R; [|exact Hp].
  intros tmpl Hin. apply In_nth_error in Hin as [f Ef]. assert (Hf : f < cols) by (rewrite <- L; apply nth_error_Some; congruence).
  destruct (K f Hf) as (tmpl' & Et & u & qs & Eq & _). rewrite Ef in Et. injection Et as <-. exists (qbounds u qs). exact Eq.
Qed.

(** The split search: whatever is found is an admissible threshold, and counts, sums and
    gain recorded are those of the two groups of rows the threshold makes; with at most
    max_bin different values no admissible threshold is better. *)
Theorem C148_split : forall (sortf : list R -> list R) (X : nat -> nat -> R) (G H : nat -> R) (maxbin : Z) (rows cols f : nat) (idxs : list nat)
    (l1 l2 : R) (mono : list Z) (mindata : Z),
  go_sort (@fless RNum) sortf -> (1 <= maxbin)%Z -> 0 < rows -> f < cols -> (forall i, In i idxs -> i < rows) ->
  (0 <= l1)%R -> (0 <= l2)%R -> (forall i, In i idxs -> (0 <= H i)%R) ->
  exists tmpls, @build_hists RNum sortf X maxbin rows cols = Ok tmpls /\
  let s := @node_split RNum l1 l2 mono mindata (@node_hist RNum X G H tmpls idxs) f in
  (s = @mksplit RNum (Z.of_nat f) 0%R (-10000000000)%R 0 0 0%R 0%R 0%R 0%R []
   \/ exists t, admissible X G H f mono mindata idxs t /\ records X G H f l1 l2 idxs t s /\ (-10000000000 < s_gain s)%R)
  /\ ((1 <= mindata)%Z -> @few_values RNum (map (fun i => X i f) (seq 0 rows)) (Z.to_nat maxbin) ->
      forall t, admissible X G H f mono mindata idxs t -> (threshold_gain X G H f l1 l2 idxs t <= s_gain s)%R).
Proof.
  intros sortf X G H maxbin rows cols f idxs l1 l2 mono mindata Hs Hm Hr Hf Hi Hl1 Hl2 HH.
  destruct (build_R sortf Hs X maxbin rows cols Hm Hr) as (tmpls & E & L & K). exists tmpls. split; [exact E|].
  destruct (K f Hf) as (tmpl & Et & u & qs & -> & Hu & Huv & Hne & Hqs & Hq & Hlen & Hfew).
  set (nh := @node_hist RNum X G H tmpls idxs). set (bins := @fill RNum (@find_bin RNum) (qbounds u qs) (@samples RNum X G H f idxs)).
  assert (ESp : @node_split RNum l1 l2 mono mindata nh f = @node_loop RNum l1 l2 mono mindata nh f (@n0 RNum) (@n0 RNum) 0 bins (@none_found RNum f)).
  { unfold node_split. unfold nh at 1. rewrite (node_hist_nth X G H tmpls idxs f _ Et).
    now rewrite (node_feature_R X G H u qs rows f idxs Hu Huv Hne Hqs Hq Hi). }
  rewrite ESp. clear ESp.
  assert (EG : nh_g nh = sum_of G idxs) by apply total_R. assert (EH : nh_h nh = sum_of H idxs) by apply total_R.
  assert (EC : nh_cnt nh = Z.of_nat (List.length idxs)) by reflexivity. clearbody nh.
  assert (Hlb : S (List.length bins) = List.length (qbounds u qs)).
  { unfold bins. rewrite (@fill_length RNum). change (num RNum) with R. destruct (qbounds_facts u qs Hu Hne Hqs Hq) as (_ & Lq & _). lia. }
  assert (CF : forall k, 0 < k -> k < List.length bins -> let t := nth k (qbounds u qs) 0%R in
    (ok mono mindata nh f bins k <-> admissible X G H f mono mindata idxs t)
    /\ gn l1 l2 nh bins k = threshold_gain X G H f l1 l2 idxs t
    /\ records X G H f l1 l2 idxs t (rec l1 l2 nh (Z.of_nat f) bins k)).
  { intros k Hk0 Hk1. apply (cut_facts X G H f l1 l2 mono mindata Hl1 Hl2 u qs rows idxs Hu Huv Hne Hqs Hq Hi HH nh k Hk0 ltac:(lia) EG EH EC). }
  pose proof (loop_spec l1 l2 mono mindata nh f bins [] (@none_found RNum f)) as LS. cbn zeta in LS. cbn [app List.length] in LS.
  change (@left_g RNum bins 0) with (@n0 RNum) in LS. change (@left_h RNum bins 0) with (@n0 RNum) in LS. change (@count_all RNum []) with 0%Z in LS.
  set (s := @node_loop RNum l1 l2 mono mindata nh f (@n0 RNum) (@n0 RNum) 0 bins (@none_found RNum f)) in *. cbn zeta.
  assert (EN : (s_gain (@none_found RNum f) : R) = (-10000000000)%R) by (cbn; lra).
  assert (EM : @none_found RNum f = @mksplit RNum (Z.of_nat f) 0%R (-10000000000)%R 0 0 0%R 0%R 0%R 0%R []).
  { unfold none_found. f_equal. exact EN. }
  clearbody s. rewrite EN in LS.
  assert (Any : (1 <= mindata)%Z -> @few_values RNum (map (fun i => X i f) (seq 0 rows)) (Z.to_nat maxbin) ->
      forall t, admissible X G H f mono mindata idxs t -> exists k, (0 < k < List.length bins) /\ ok mono mindata nh f bins k
        /\ gn l1 l2 nh bins k = threshold_gain X G H f l1 l2 idxs t).
  { intros Hmd Hfv t Ha. destruct (any_threshold X f u qs rows idxs Hu Huv Hne Hqs Hq Hi t (Hfew Hfv)) as (k & Hk0 & Hk1 & Elo & Eup).
    - destruct Ha as (A & _). intros C. rewrite C in A. cbn in A. lia.
    - destruct Ha as (_ & A & _). intros C. rewrite C in A. cbn in A. lia.
    - exists k. destruct (CF k Hk0 ltac:(lia)) as (C1 & C2 & _). split; [lia|]. split.
      + apply C1. unfold admissible in *. rewrite <- Elo, <- Eup. exact Ha.
      + rewrite C2. unfold threshold_gain. now rewrite <- Elo, <- Eup. }
  destruct LS as [[-> F]|(k & [Kr Kok] & -> & Hgt & F)].
  - split; [left; exact EM|]. intros Hmd Hfv t Ha. destruct (Any Hmd Hfv t Ha) as (k & Kr & Kok & <-). exact (Rle_trans _ _ _ (F k (conj Kr Kok)) (Req_le _ _ (eq_sym EN))).
  - destruct (CF k ltac:(lia) ltac:(lia)) as (C1 & C2 & C3). split.
    + right. exists (nth k (qbounds u qs) 0%R). split; [now apply C1|]. split; [exact C3|]. exact Hgt.
    + intros Hmd Hfv t Ha. destruct (Any Hmd Hfv t Ha) as (j & Jr & Jok & <-). apply F. now split.
Qed.

(** A feature number beyond the data finds nothing and is reported back unchanged. *)
Theorem C148_unknown_feature : forall (N : Num) (sortf : list N -> list N) (X : nat -> nat -> N) (G H : nat -> N) (maxbin : Z) (rows cols f : nat)
    (idxs : list nat) (l1 l2 : N) (mono : list Z) (mindata : Z) tmpls,
  build_hists sortf X maxbin rows cols = Ok tmpls -> cols <= f ->
  let s := node_split l1 l2 mono mindata (node_hist X G H tmpls idxs) f in
  s_feat s = Z.of_nat f /\ s_gain s = nlit (-10000000000) 1 /\ s_lc s = 0%Z /\ s_rc s = 0%Z.
Proof.
  intros N sortf X G H maxbin rows cols f idxs l1 l2 mono mindata tmpls E Hf s.
  assert (L : forall {A B} (g : A -> res B) l ys, mapM g l = Ok ys -> List.length ys = List.length l).
  { intros A B g. induction l as [|x l IH]; cbn [mapM]; intros ys K; [now injection K as <-|]. destruct (g x); cbn [bind] in K; try discriminate.
    destruct (mapM g l); cbn [bind] in K; try discriminate. injection K as <-. cbn. now rewrite (IH _ eq_refl). }
  apply L in E. rewrite seq_length in E.
  unfold s, node_split. replace (nth_error (nh_bins (node_hist X G H tmpls idxs)) f) with (@None (list (bin N))); [repeat split|].
  symmetry. apply nth_error_None. cbn [nh_bins node_hist]. rewrite map_length, combine_length, seq_length. lia.
Qed.

(** A negative max_bin is not rejected: building the bins panics, on all data. *)
Theorem C148_negative : forall (N : Num) (sortf : list N -> list N) (X : nat -> nat -> N) (maxbin : Z) (rows cols : nat),
  (maxbin < 0)%Z -> 0 < cols -> @build_hists N sortf X maxbin rows cols = Panic.
Proof.
  intros N sortf X maxbin rows cols Hm Hc. destruct cols as [|cols]; [lia|]. unfold build_hists. cbn [seq mapM].
  assert (K : @node_bounds N sortf maxbin (map (fun i => X i 0) (seq 0 rows)) = Panic).
  { unfold node_bounds. destruct (sortf _) as [|s0 r]; [reflexivity|].
    destruct (Z.leb_spec (Z.of_nat (List.length (uniq (s0 :: r)))) maxbin); [lia|]. destruct (Z.ltb_spec maxbin 0); [reflexivity|lia]. }
  unfold node_bins. rewrite K. reflexivity.
Qed.

(** *** Binary64 *)
Definition fsort64 (l : list F0) : list F0 := isort fless l.
Definition col64 (vs : list F0) (i _ : nat) : F0 := nth i vs (f 0 1).
(** Row counts of the bins of one feature with the given values, and the node's count *)
Definition counts64 (maxbin : Z) (vs : list F0) (idxs : list nat) : res (list Z * Z) :=
  let one := fun _ : nat => f 1 1 in
  let* tmpls := build_hists fsort64 (col64 vs) maxbin (List.length vs) 1 in
  let nh := node_hist (col64 vs) one one tmpls idxs in
  Ok (map (@b_cnt F0) (nth 0 (nh_bins nh) []), nh_cnt nh).
Definition split64 (maxbin mindata : Z) (mono : list Z) (vs gs : list F0) : res (split F0) :=
  let G := fun i => nth i gs (f 0 1) in
  let* tmpls := build_hists fsort64 (col64 vs) maxbin (List.length vs) 1 in
  Ok (node_split (f 0 1) (f 0 1) mono mindata (node_hist (col64 vs) G (fun _ => f 1 1) tmpls (seq 0 (List.length vs))) 0).

(** Five rows with four values: one bin per value with max_bin 255, two bins with max_bin 2,
    where the node of rows 0, 2 and 4 has two rows in the upper one.  The split puts the rows
    with gradient 1 left; the constraint "increasing" allows it, "decreasing" does not. *)
Example C148_example :
  counts64 255 [f 3 1; f 1 1; f 2 1; f 1 1; f 5 2] [0; 1; 2; 3; 4] = Ok ([2; 1; 1; 1], 5)%Z
  /\ counts64 2 [f 3 1; f 1 1; f 2 1; f 1 1; f 5 2] [0; 2; 4] = Ok ([1; 2], 3)%Z
  /\ (let vs := [f 1 1; f 1 1; f 2 1; f 3 1; f 3 1] in let gs := [f 1 1; f 1 1; f (-1) 1; f (-1) 1; f (-1) 1] in
      (let* s := split64 255 2 [] vs gs in Ok (neqb (s_thr s) (f 3 2), s_lc s, s_rc s)) = Ok (true, 2, 3)%Z
      /\ (let* s := split64 255 2 [1%Z] vs gs in Ok (s_lc s, s_rc s)) = Ok (2, 3)%Z
      /\ (let* s := split64 255 2 [(-1)%Z] vs gs in Ok (s_lc s, s_rc s)) = Ok (0, 0)%Z).
Proof. vm_compute. repeat split; reflexivity. Qed.

(** A case of the hypotheses of C148_split: a sort, two rows with different values, and an
    admissible threshold between them. *)
Example C148_example_rows : go_sort (@fless RNum) (isort (@fless RNum)) /\ @few_values RNum [0; 1]%R 255
  /\ admissible (fun i _ => INR i) (fun i => 1 - 2 * INR i)%R (fun _ => 1%R) 0 [1%Z] 1 [0; 1] (1 / 2)%R.
Proof.
  split; [apply isort_go_sort|split].
  - intros a b K. rewrite fless_R in *. apply Rltb_true in K. apply Rltb_false. lra.
  - intros a b c K1 K2. rewrite fless_R in *. apply Rltb_false in K1, K2. apply Rltb_false. lra.
  - exists [0; 1]%R. split; [cbn; lia|apply incl_refl].
  - unfold admissible, lower, upper. cbn [filter INR].
    rewrite (proj2 (Rleb_true 0 (1 / 2))), (proj2 (Rleb_false 1 (1 / 2))) by lra. cbn [negb List.length].
    split; [lia|]. split; [lia|]. unfold leaves_ordered, sum_of, Rsum. cbn. split; [intros _; lra|easy].
Qed.

(** A missing value makes rows vanish from the bins: its own row and the rows with the
    smallest value.  The node's count still includes them. *)
Theorem C148_missing_refuted :
  counts64 255 [@nnan F0; f 1 1; f 2 1; f 3 1] [0; 1; 2; 3] = Ok ([0; 0; 1; 1], 4)%Z
  /\ counts64 255 [f 1 1; f 2 1; f 3 1] [0; 1; 2] = Ok ([1; 1; 1], 3)%Z.
Proof. vm_compute. split; reflexivity. Qed.

(** In binary64, with whatever exp and log, for every sort: finite data of any size lose no
    row.  In every node and for every feature the counts of the bins add up to the number of
    rows of the node, although the boundaries are rounded. *)
Theorem C148_no_row_lost : forall (fe fl : F64 -> F64) (sortf : list F64 -> list F64) (X : nat -> nat -> F64) (G H : nat -> F64)
  (maxbin : Z) (rows cols : nat),
  go_sort (@fless (FNum fe fl)) sortf -> (1 <= maxbin)%Z -> 0 < rows -> (forall i f, i < rows -> f < cols -> is_finite (X i f) = true) ->
  exists tmpls, @build_hists (FNum fe fl) sortf X maxbin rows cols = Ok tmpls /\ List.length tmpls = cols
  /\ forall idxs f, (forall i, In i idxs -> i < rows) -> f < cols ->
     exists bins, nth_error (nh_bins (@node_hist (FNum fe fl) X G H tmpls idxs)) f = Some bins
       /\ @count_all (FNum fe fl) bins = Z.of_nat (List.length idxs).
Proof.
  intros fe fl sortf X G H maxbin rows cols Hs Hm Hr Hfin.
  set (P := fun f tmpl => @count_all (FNum fe fl) tmpl = 0%Z /\ forall i, i < rows ->
              exists k, @node_find (FNum fe fl) (X i f) tmpl = Some k /\ k < List.length tmpl).
  destruct (mapM_all (fun f => @node_bins (FNum fe fl) sortf maxbin (map (fun i => X i f) (seq 0 rows))) P (seq 0 cols)) as (ys & E & F).
  { intros f Hf. apply in_seq in Hf.
    destruct (@bounds_cover (FNum fe fl) (lt_laws_F fe fl) (cmp_laws_F fe fl) (fun x : F64 => is_finite x = true) finite_not_nan f_mid f_up f_down sortf Hs
                maxbin (map (fun i => X i f) (seq 0 rows)) Hm) as (tmpl & E & E0 & K).
    - destruct rows; [lia|discriminate].
    - intros v Hv. apply in_map_iff in Hv as (i & <- & Hi). apply in_seq in Hi. apply Hfin; lia.
    - exists tmpl. split; [exact E|]. split; [exact E0|]. intros i Hi. apply K. apply in_map_iff. exists i. split; [reflexivity|]. apply in_seq. lia. }
  destruct (Forall2_seq _ _ _ _ F) as [L1 L2]. exists ys. split; [exact E|]. split; [exact L1|]. intros idxs f Hi Hf.
  destruct (L2 f Hf) as (tmpl & Et & E0 & K). exists (@node_feature (FNum fe fl) X G H tmpl f idxs). split.
  - cbn [nh_bins node_hist]. rewrite nth_error_map, nth_combine_seq, Et. reflexivity.
  - unfold node_feature. rewrite node_counts; [|intros s Hin|reflexivity].
    + rewrite E0. unfold samples. now rewrite map_length.
    + unfold samples in Hin. apply in_map_iff in Hin as (i & <- & Hin). exact (K i (Hi i Hin)).
Qed.

(** With an infinite value a row can be lost: half the sum of the two infinities is not a
    number, so the lower bin contains nothing. *)
Theorem C148_infinite_refuted :
  counts64 255 [@nneg F0 (@ninf F0); @ninf F0] [0; 1] = Ok ([0; 1], 2)%Z
  /\ counts64 255 [f (-2) 1; f 3 1] [0; 1] = Ok ([1; 1], 2)%Z.
Proof. vm_compute. split; reflexivity. Qed.

(** Neighbouring binary64 values: the boundary between them is the larger one.  The search
    records one row on each side, the threshold sends both rows left. *)
Theorem C148_neighbours_refuted : exists (v w : F0) (s : split F0),
  nlt v w = true /\ split64 255 1 [] [v; w] [f 1 1; f (-1) 1] = Ok s
  /\ s_lc s = 1%Z /\ s_rc s = 1%Z /\ nle v (s_thr s) = true /\ nle w (s_thr s) = true.
Proof.
  set (v := f 4503599627370497 4503599627370496). set (w := f 4503599627370498 4503599627370496).
  assert (K : match split64 255 1 [] [v; w] [f 1 1; f (-1) 1] with
              | Ok s => (s_lc s =? 1)%Z && (s_rc s =? 1)%Z && nle v (s_thr s) && nle w (s_thr s) | _ => false end = true) by (vm_compute; reflexivity).
  destruct (split64 255 1 [] [v; w] [f 1 1; f (-1) 1]) as [s| |] eqn:E; [|easy|easy].
  apply andb_prop in K as [K K4]. apply andb_prop in K as [K K3]. apply andb_prop in K as [K1 K2]. apply Z.eqb_eq in K1, K2.
  exists v, w, s. repeat split; assumption.
Qed.

(** The sums are called Kahan sums, but the compensation is dropped after every addition:
    1 + 2^-53 + 2^-53 is 1; carrying the compensation gives 1 + 2^-52. *)
Definition compensated (l : list F0) : F0 := fst (fold_left (fun sc x => kahan (fst sc) x (snd sc)) l (f 0 1, f 0 1)).
Theorem C148_compensation_refuted : exists l : list F0,
  neqb (total l) (f 1 1) = true /\ neqb (compensated l) (f 4503599627370497 4503599627370496) = true
  /\ neqb (total l) (compensated l) = false.
Proof. exists [f 1 1; f 1 9007199254740992; f 1 9007199254740992]. vm_compute. repeat split; reflexivity. Qed.

Print Assumptions C148_bins.
Print Assumptions C148_node.
Print Assumptions C148_subtraction.
Print Assumptions C148_split.
Print Assumptions C148_unknown_feature.
Print Assumptions C148_negative.
Print Assumptions C148_missing_refuted.
Print Assumptions C148_no_row_lost.
Print Assumptions C148_infinite_refuted.
Print Assumptions C148_neighbours_refuted.
Print Assumptions C148_compensation_refuted.
