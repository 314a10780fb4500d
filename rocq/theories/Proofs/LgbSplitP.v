(** The split search over bins. *)
From Coq Require Import List Arith ZArith Bool Lia Reals Lra.
From Verif Require Import Base.Num Base.GoRes Base.ListX Base.RTac Base.GoSort Spec.Order Model.LgbTree Model.LgbHist
  Spec.LgbHist Spec.LgbSplit Proofs.OrderP Proofs.LgbTreeP Proofs.LgbHistP Proofs.LgbHistRP.
Import ListNotations.
Local Open Scope list_scope.

Section Scan.
  Context {N : Num}.
  Hypothesis L : lt_laws N.
  Local Open Scope num_scope.
  Variables (lambda alpha tg th : N) (mindata : Z) (mark : list (bin N) -> bin N -> N * list Z).

  Lemma count_fold (bs : list (bin N)) : forall c, fold_left (fun c b => (c + b_cnt b)%Z) bs c = (c + count_all bs)%Z.
  Proof.
    induction bs as [|b bs IH]; intros c; cbn [fold_left]; [unfold count_all; cbn; lia|]. rewrite IH. unfold count_all; cbn. lia.
  Qed.
  Lemma count_all_app (l r : list (bin N)) : count_all (l ++ r) = (count_all l + count_all r)%Z.
  Proof. induction l as [|b l IH]; [reflexivity|]. unfold count_all in *. cbn. rewrite IH. lia. Qed.
  Lemma nsum_snoc (l : list N) a : nsum (l ++ [a]) = nsum l + a.
  Proof. unfold nsum. now rewrite fold_left_app. Qed.

  Notation gain := (cut_gain lambda alpha tg th).
  Notation ok := (cut_ok mindata).
  Lemma not_above (a b c : N) : (a <? b) = true -> (a <? c) = false -> nisnan c = false -> c <? b = true.
  Proof.
    intros H1 H2 H3. destruct (lt_not_nan N L _ _ H1) as [Ha Hb]. destruct (c <? b) eqn:E; [reflexivity|].
    now rewrite (lt_negtrans N L a c b Ha H3 Hb H2 E) in H1.
  Qed.
  Lemma not_above_trans (a b c : N) : (a <? b) = true -> (a <? c) = false -> (b <? c) = false.
  Proof. intros H1 H2. destruct (b <? c) eqn:E; [|reflexivity]. now rewrite (lt_trans N L _ _ _ H1 E) in H2. Qed.

  Lemma scan_step left lg lh lc b b2 rest best :
    scan lambda alpha tg th mindata mark left lg lh lc (b :: b2 :: rest) best =
    scan lambda alpha tg th mindata mark (left ++ [b]) (lg + b_g b) (lh + b_h b) (lc + b_cnt b)%Z (b2 :: rest)
      (if (lc + b_cnt b <? mindata)%Z || (fold_left (fun c b => (c + b_cnt b)%Z) (b2 :: rest) 0 <? mindata)%Z then best
       else let gain := calc_gain lambda alpha (lg + b_g b) (lh + b_h b) (tg - (lg + b_g b)) (th - (lh + b_h b)) tg th in
            if gain >? s_gain best
            then mksplit (s_feat best) (fst (mark (left ++ [b]) b)) gain (lc + b_cnt b)%Z (fold_left (fun c b => (c + b_cnt b)%Z) (b2 :: rest) 0%Z)
                   (lg + b_g b) (tg - (lg + b_g b)) (lh + b_h b) (th - (lh + b_h b)) (snd (mark (left ++ [b]) b))
            else best).
  Proof. reflexivity. Qed.
  Lemma scan_spec rest : forall left best,
    let all := left ++ rest in
    let s := scan lambda alpha tg th mindata mark left (left_g all (List.length left)) (left_h all (List.length left)) (count_all left) rest best in
    let later k := (List.length left < k)%nat /\ ok all k in
    (s = best /\ forall k, later k -> s_gain best <? gain all k = false)
    \/ (exists k, later k /\ is_cut lambda alpha tg th all k s /\ s_feat s = s_feat best
          /\ (s_thr s, s_cats s) = mark (firstn k all) (nth (k - 1) all (mkbin n0 n0 0 n0 n0))
          /\ s_gain best <? gain all k = true
          /\ (forall j, later j -> gain all k <? gain all j = false)
          /\ (forall j, later j -> (j < k)%nat -> nisnan (gain all j) = true \/ gain all j <? gain all k = true)).
  Proof.
    induction rest as [|b rest IH]; intros left best; cbn zeta.
    { left. split; [reflexivity|]. intros k [H1 [[H2 H3] _]]. rewrite app_nil_r in H3. lia. }
    destruct rest as [|b2 rest].
    { left. split; [reflexivity|]. intros k [H1 [[H2 H3] _]]. rewrite app_length in H3. cbn in H3. lia. }
    set (all := left ++ b :: b2 :: rest). set (m := List.length left).
    assert (EA : all = (left ++ [b]) ++ b2 :: rest) by (unfold all; now rewrite <- app_assoc).
    assert (EL : List.length (left ++ [b]) = S m) by (rewrite app_length; cbn; lia).
    assert (Fm : firstn m all = left) by (unfold all, m; rewrite firstn_app, firstn_all, Nat.sub_diag; cbn; apply app_nil_r).
    assert (Fs : firstn (S m) all = left ++ [b]) by (rewrite EA, <- EL, firstn_app, firstn_all, Nat.sub_diag; cbn; apply app_nil_r).
    assert (Ss : skipn (S m) all = b2 :: rest) by (rewrite EA, <- EL, skipn_app, skipn_all, Nat.sub_diag; reflexivity).
    assert (EG : left_g all m + b_g b = left_g all (S m)) by (unfold left_g; rewrite Fm, Fs, map_app; symmetry; apply nsum_snoc).
    assert (EH : left_h all m + b_h b = left_h all (S m)) by (unfold left_h; rewrite Fm, Fs, map_app; symmetry; apply nsum_snoc).
    assert (EC : (count_all left + b_cnt b)%Z = count_all (left ++ [b])) by (rewrite count_all_app; unfold count_all; cbn; lia).
    rewrite scan_step, EG, EH, EC, count_fold, Z.add_0_l. cbn zeta.
    set (cand := mksplit (s_feat best) (fst (mark (left ++ [b]) b)) (calc_gain lambda alpha (left_g all (S m)) (left_h all (S m))
                   (tg - left_g all (S m)) (th - left_h all (S m)) tg th) (count_all (left ++ [b])) (count_all (b2 :: rest))
                   (left_g all (S m)) (tg - left_g all (S m)) (left_h all (S m)) (th - left_h all (S m)) (snd (mark (left ++ [b]) b))).
    assert (Hlen : (S m < List.length all)%nat) by (unfold all, m; rewrite app_length; cbn; lia).
    assert (Eq : forall (c : bool) (x y : split N), (if c then x else y) = y \/ (c = true /\ (if c then x else y) = x)) by (intros [] x y; auto).
    pose proof (IH (left ++ [b])) as IH'. cbn zeta in IH'. rewrite <- EA, EL in IH'.
    destruct ((count_all (left ++ [b]) <? mindata)%Z || (count_all (b2 :: rest) <? mindata)%Z) eqn:Emin.
    - (* not admissible *)
      assert (Hno : ~ ok all (S m)).
      { intros [_ [H1 H2]]. rewrite Fs in H1. rewrite Ss in H2. apply orb_true_iff in Emin as [E|E]; apply Z.ltb_lt in E; lia. }
      assert (Hl : forall k, (m < k)%nat /\ ok all k -> (S m < k)%nat /\ ok all k).
      { intros k [H1 H2]. split; [|exact H2]. destruct (Nat.eq_dec k (S m)) as [->|]; [contradiction|lia]. }
      destruct (IH' best) as [[E F]|(k & K1 & K2 & K3 & K4 & K5 & K6 & K7)].
      + left. split; [exact E|]. intros k Hk. apply F, Hl, Hk.
      + right. exists k. split; [split; [lia|tauto]|]. split; [exact K2|]. split; [exact K3|]. split; [exact K4|]. split; [exact K5|].
        split; [intros j Hj; apply K6, Hl, Hj|intros j Hj; apply K7, Hl, Hj].
    - assert (Hok : ok all (S m)).
      { apply orb_false_iff in Emin as [E1 E2]. apply Z.ltb_ge in E1, E2. repeat split; [lia|exact Hlen|now rewrite Fs|now rewrite Ss]. }
      assert (Hcut : is_cut lambda alpha tg th all (S m) cand).
      { unfold is_cut, cut_gain. cbn [cand s_gain s_lc s_rc s_lg s_lh s_rg s_rh]. rewrite Fs, Ss. repeat split. }
      assert (Hg : s_gain cand = gain all (S m)) by reflexivity.
      assert (Hmark : (s_thr cand, s_cats cand) = mark (firstn (S m) all) (nth (S m - 1) all (mkbin n0 n0 0 n0 n0))).
      { rewrite Fs. cbn [cand s_thr s_cats]. replace (S m - 1)%nat with m by lia. unfold all, m.
        rewrite app_nth2, Nat.sub_diag by lia. cbn [nth]. now destruct (mark (left ++ [b]) b). }
      fold (gain all (S m)). fold cand.
      assert (Hl : forall k, (m < k)%nat /\ ok all k -> k = S m \/ ((S m < k)%nat /\ ok all k)).
      { intros k [H1 H2]. destruct (Nat.eq_dec k (S m)); [now left|right; split; [lia|exact H2]]. }
      destruct (gain all (S m) >? s_gain best) eqn:Eg.
      + destruct (IH' cand) as [[E F]|(k & K1 & K2 & K3 & K4 & K5 & K6 & K7)].
        * right. exists (S m). rewrite E. split; [split; [lia|exact Hok]|]. split; [exact Hcut|]. split; [reflexivity|]. split; [exact Hmark|].
          split; [exact Eg|]. split; [|intros j [Hj _]; lia].
          intros j Hj. destruct (Hl j Hj) as [->|Hj']; [apply (lt_irrefl N L)|]. rewrite <- Hg. now apply F.
        * right. exists k. split; [split; [lia|tauto]|]. split; [exact K2|]. split; [exact K3|]. split; [exact K4|].
          rewrite Hg in K5. split; [exact (lt_trans N L _ _ _ Eg K5)|]. split.
          -- intros j Hj. destruct (Hl j Hj) as [->|Hj']; [|now apply K6].
             destruct (gain all k <? gain all (S m)) eqn:E; [|reflexivity].
             pose proof (lt_trans N L _ _ _ K5 E) as F. now rewrite (lt_irrefl N L) in F.
          -- intros j Hj Hlt. destruct (Hl j Hj) as [->|Hj']; [now right|now apply K7].
      + destruct (IH' best) as [[E F]|(k & K1 & K2 & K3 & K4 & K5 & K6 & K7)].
        * left. split; [exact E|]. intros k Hk. destruct (Hl k Hk) as [->|Hk']; [exact Eg|now apply F].
        * right. exists k. split; [split; [lia|tauto]|]. split; [exact K2|]. split; [exact K3|]. split; [exact K4|]. split; [exact K5|]. split.
          -- intros j Hj. destruct (Hl j Hj) as [->|Hj']; [|now apply K6]. now apply (not_above_trans (s_gain best)).
          -- intros j Hj Hlt. destruct (Hl j Hj) as [->|Hj']; [|now apply K7].
             destruct (nisnan (gain all (S m))) eqn:En; [now left|]. right. now apply (not_above (s_gain best)).
  Qed.

  (** The best of several splits *)
  Lemma fold_better (ss : list (split N)) : forall best,
    let r := fold_left better ss best in
    (r = best /\ forall s, In s ss -> s_gain best <? s_gain s = false)
    \/ (exists i, nth_error ss i = Some r /\ s_gain best <? s_gain r = true
          /\ (forall s, In s ss -> s_gain r <? s_gain s = false)
          /\ (forall j s, nth_error ss j = Some s -> (j < i)%nat -> nisnan (s_gain s) = true \/ s_gain s <? s_gain r = true)).
  Proof.
    induction ss as [|a ss IH]; intros best; cbn zeta; [left; split; [reflexivity|easy]|]. cbn [fold_left].
    destruct (s_gain a >? s_gain best) eqn:Eg.
    - assert (EB : better best a = a) by (unfold better; now rewrite Eg). rewrite EB. destruct (IH a) as [[E F]|(i & I1 & I2 & I3 & I4)].
      + right. exists 0%nat. rewrite E. split; [reflexivity|]. split; [exact Eg|]. split; [|intros; lia].
        intros s [<-|Hs]; [apply (lt_irrefl N L)|now apply F].
      + right. exists (S i). split; [exact I1|]. split; [exact (lt_trans N L _ _ _ Eg I2)|]. split.
        * intros s [<-|Hs]; [|now apply I3]. destruct (s_gain (fold_left better ss a) <? s_gain a) eqn:E; [|reflexivity].
          pose proof (lt_trans N L _ _ _ I2 E) as F. now rewrite (lt_irrefl N L) in F.
        * intros [|j] s Hj Hlt; cbn in Hj; [injection Hj as <-; now right|]. apply (I4 j s Hj). lia.
    - assert (EB : better best a = best) by (unfold better; now rewrite Eg). rewrite EB. destruct (IH best) as [[E F]|(i & I1 & I2 & I3 & I4)].
      + left. split; [exact E|]. intros s [<-|Hs]; [exact Eg|now apply F].
      + right. exists (S i). split; [exact I1|]. split; [exact I2|]. split.
        * intros s [<-|Hs]; [|now apply I3]. now apply (not_above_trans (s_gain best)).
        * intros [|j] s Hj Hlt; cbn in Hj; [injection Hj as <-|apply (I4 j s Hj); lia].
          destruct (nisnan (s_gain a)) eqn:En; [now left|]. right. now apply (not_above (s_gain best)).
  Qed.
End Scan.

(** ** Rows and bins over the real numbers *)
Local Open Scope R_scope.

Lemma firstn_S_nth {A} (l : list A) k x : nth_error l k = Some x -> firstn (S k) l = firstn k l ++ [x].
Proof.
  revert k. induction l as [|a l IH]; intros [|k] H; cbn in H; try discriminate; [now injection H as ->|].
  cbn [firstn app]. f_equal. apply IH, H.
Qed.
Lemma filter_map_comm {A B} (g : A -> B) (p : B -> bool) l : filter p (map g l) = map g (filter (fun a => p (g a)) l).
Proof. induction l as [|a l IH]; cbn; [reflexivity|]. destruct (p (g a)); cbn; now rewrite IH. Qed.

Section Rows.
  Notation sample := (R * (R * R))%type.
  Definition early (find : R -> list R -> Z) (bs : list R) (k : nat) (ss : list sample) : list sample :=
    filter (fun s => (find (fst s) bs <? Z.of_nat k)%Z) ss.
  Lemma early_S find bs k (ss : list sample) (g : sample -> R) :
    List.length (early find bs (S k) ss) = (List.length (early find bs k ss) + List.length (@own RNum find bs k ss))%nat
    /\ Rsum (map g (early find bs (S k) ss)) = Rsum (map g (early find bs k ss)) + Rsum (map g (@own RNum find bs k ss)).
  Proof.
    unfold early, own. change (num RNum) with R. induction ss as [|s ss IH]; [cbn; split; [reflexivity|lra]|]. destruct IH as [I1 I2].
    cbn [filter]. destruct (Z.ltb_spec (find (fst s) bs) (Z.of_nat (S k))), (Z.ltb_spec (find (fst s) bs) (Z.of_nat k)),
      (Z.eqb_spec (find (fst s) bs) (Z.of_nat k)); try lia; cbn [List.length map Rsum]; rewrite I1, I2; split; try lia; lra.
  Qed.
  Lemma early_0 find bs (ss : list sample) : (forall s, In s ss -> 0 <= find (fst s) bs)%Z -> early find bs 0 ss = [].
  Proof.
    intros H. unfold early. induction ss as [|s ss IH]; [reflexivity|]. cbn [filter].
    destruct (Z.ltb_spec (find (fst s) bs) (Z.of_nat 0)) as [Hs|Hs]; [specialize (H s (or_introl eq_refl)); lia|].
    apply IH. intros; apply H; now right.
  Qed.
  Lemma first_bins find (bs : list R) (ss : list sample) k : (k < List.length bs)%nat ->
    (forall s, In s ss -> 0 <= find (fst s) bs)%Z ->
    count_all (firstn k (@fill RNum find bs ss)) = Z.of_nat (List.length (early find bs k ss))
    /\ Rsum (map (@b_g RNum) (firstn k (@fill RNum find bs ss))) = Rsum (map (fun s => fst (snd s)) (early find bs k ss))
    /\ Rsum (map (@b_h RNum) (firstn k (@fill RNum find bs ss))) = Rsum (map (fun s => snd (snd s)) (early find bs k ss)).
  Proof.
    intros Hk Hf. induction k as [|k IH]; [rewrite early_0 by exact Hf; cbn; repeat split; reflexivity|].
    destruct IH as (I1 & I2 & I3); [lia|].
    assert (Hn := @fill_nth RNum find bs ss k Hk). rewrite (firstn_S_nth _ _ _ Hn).
    destruct (early_S find bs k ss (fun s => fst (snd s))) as [E1 E2]. destruct (early_S find bs k ss (fun s => snd (snd s))) as [_ E3].
    rewrite E1, E2, E3. rewrite count_all_app, !map_app. rewrite !Rsum_app, I1, I2, I3.
    unfold count_all. cbn [fold_right map b_cnt b_g b_h Rsum]. rewrite !nsum_R. split; [lia|]. change (num RNum) with R. split; ring.
  Qed.

  Variables (X : nat -> nat -> R) (G H : nat -> R) (f : nat).
  Lemma early_rows find bs k idxs :
    early find bs k (@samples RNum X G H f idxs) = @samples RNum X G H f (filter (fun i => (find (X i f) bs <? Z.of_nat k)%Z) idxs).
  Proof. unfold early, samples. now rewrite filter_map_comm. Qed.
  Lemma samples_sums idxs : Rsum (map (fun s : sample => fst (snd s)) (@samples RNum X G H f idxs)) = sum_of G idxs
    /\ Rsum (map (fun s : sample => snd (snd s)) (@samples RNum X G H f idxs)) = sum_of H idxs.
  Proof. unfold samples, sum_of. rewrite !map_map. cbn. split; reflexivity. Qed.

  Lemma find_bin_below (bs : list R) k (v : R) : sasc bs -> (0 < k)%nat -> (S k < List.length bs)%nat ->
    ((@find_bin RNum v bs <? Z.of_nat k)%Z = Rltb v (nth k bs 0)).
  Proof.
    intros Hs Hk Hl. pose proof (@find_bin_in RNum lt_laws_R cmp_laws_R bs v (sasc_increasing bs Hs) ltac:(change (num RNum) with R; lia) eq_refl) as [F1 F2].
    remember (@find_bin RNum v bs) as z eqn:Ez. clear Ez.
    apply in_bin_iff in F2 as (A1 & A2 & A3). change (num RNum) with R in *. change (@nle RNum) with Rleb in A2. change (@nlt RNum) with Rltb in A3.
    change (@n0 RNum) with 0 in *. rewrite Rleb_true in A2. rewrite Rltb_true in A3.
    destruct (Z.ltb_spec z (Z.of_nat k)) as [Hz|Hz]; symmetry.
    - apply Rltb_true. destruct A3 as [A3|A3]; [lia|].
      destruct (Nat.eq_dec (S (Z.to_nat z)) k) as [E|E]; [now rewrite <- E|].
      pose proof (sasc_nth bs Hs (S (Z.to_nat z)) k ltac:(lia)). lra.
    - apply Rltb_false. destruct A2 as [A2|A2]; [lia|].
      destruct (Nat.eq_dec (Z.to_nat z) k) as [E|E]; [now rewrite <- E|].
      pose proof (sasc_nth bs Hs k (Z.to_nat z) ltac:(lia)). lra.
  Qed.

  Lemma split_sum (p : nat -> bool) (v : nat -> R) idxs :
    sum_of v idxs = sum_of v (filter p idxs) + sum_of v (filter (fun i => negb (p i)) idxs)
    /\ List.length idxs = (List.length (filter p idxs) + List.length (filter (fun i => negb (p i)) idxs))%nat.
  Proof.
    unfold sum_of. induction idxs as [|i idxs IH]; [cbn; split; [lra|reflexivity]|]. destruct IH as [I1 I2].
    cbn [filter map Rsum List.length]. rewrite I1, I2. destruct (p i); cbn [map Rsum List.length negb]; split; try lia; lra.
  Qed.

  (** The sums of the first bins are the sums of the rows below the boundary. *)
  Lemma cut_rows (bs : list R) idxs k : sasc bs -> (0 < k)%nat -> (S k < List.length bs)%nat ->
    let bins := @fill RNum (@find_bin RNum) bs (@samples RNum X G H f idxs) in
    let t := nth k bs 0 in
    count_all (firstn k bins) = Z.of_nat (List.length (below X f t idxs))
    /\ count_all (skipn k bins) = Z.of_nat (List.length (upward X f t idxs))
    /\ @left_g RNum bins k = sum_of G (below X f t idxs) /\ @left_h RNum bins k = sum_of H (below X f t idxs)
    /\ sum_of G idxs - @left_g RNum bins k = sum_of G (upward X f t idxs)
    /\ sum_of H idxs - @left_h RNum bins k = sum_of H (upward X f t idxs).
  Proof.
    intros Hs Hk Hl bins t.
    assert (H2 : (2 <= List.length bs)%nat) by lia.
    assert (Hr : forall s : sample, In s (@samples RNum X G H f idxs) -> (0 <= @find_bin RNum (fst s) bs < Z.of_nat (List.length bs - 1))%Z).
    { intros s _. apply (@find_bin_range RNum). exact H2. }
    destruct (first_bins (@find_bin RNum) bs (@samples RNum X G H f idxs) k ltac:(lia) (fun s Hs => proj1 (Hr s Hs))) as (F1 & F2 & F3).
    rewrite early_rows in F1, F2, F3.
    assert (Eb : filter (fun i => (@find_bin RNum (X i f) bs <? Z.of_nat k)%Z) idxs = below X f t idxs).
    { unfold below. apply filter_ext. intros i. now apply find_bin_below. }
    rewrite Eb in F1, F2, F3. destruct (samples_sums (below X f t idxs)) as [S1 S2]. rewrite S1 in F2. rewrite S2 in F3.
    assert (EG : @left_g RNum bins k = sum_of G (below X f t idxs)) by (unfold left_g; rewrite nsum_R; exact F2).
    assert (EH : @left_h RNum bins k = sum_of H (below X f t idxs)) by (unfold left_h; rewrite nsum_R; exact F3).
    assert (EC : count_all (firstn k bins) = Z.of_nat (List.length (below X f t idxs))).
    { unfold bins. rewrite F1. unfold samples. now rewrite map_length. }
    pose proof (split_sum (fun i => Rltb (X i f) t) G idxs) as [P1 P2]. pose proof (split_sum (fun i => Rltb (X i f) t) H idxs) as [P3 _].
    fold (below X f t idxs) in P1, P2, P3. fold (upward X f t idxs) in P1, P2, P3.
    split; [exact EC|]. split.
    - pose proof (count_all_app (firstn k bins) (skipn k bins)) as Ec. rewrite firstn_skipn, EC in Ec.
      assert (Et : count_all bins = Z.of_nat (List.length idxs)).
      { unfold bins. rewrite (@fill_count RNum) by exact Hr. unfold samples. now rewrite map_length. }
      change (num RNum) with R in *. lia.
    - split; [exact EG|]. split; [exact EH|]. rewrite EG, EH. lra.
  Qed.

  Lemma calc_gain_R (lambda alpha gl hl gr hr : R) :
    @calc_gain RNum lambda alpha gl hl gr hr (gl + gr) (hl + hr) = gain_of lambda alpha gl hl gr hr.
  Proof.
    unfold calc_gain, gain_of. cbn [nadd nsub nmul ndiv nlit nlt nabs nisinf nisnan n0 RNum]. cbn [num RNum orb].
    change (IZR 1 / IZR 10000000000000000) with (1 / 10000000000000000). change (IZR 1 / IZR 2) with (1 / 2).
    destruct (_ || _); [reflexivity|]. destruct (Rltb 0 alpha); unfold Rdiv; ring.
  Qed.
End Rows.

(** ** Splits in terms of rows *)
  Lemma filter_count (u : list R) t : sasc u -> forall j, (j < List.length u)%nat ->
    (nth j u 0 <= t <-> (j < List.length (filter (fun x => Rleb x t) u))%nat).
  Proof.
    induction 1 as [|a u Hu IH Hf]; intros j Hj; [cbn in Hj; lia|]. cbn [filter].
    destruct (Rleb_spec a t) as [Ha|Ha].
    - destruct j as [|j]; cbn [nth List.length]; [split; [lia|tauto]|]. rewrite IH by (cbn in Hj; lia). lia.
    - assert (E : filter (fun x => Rleb x t) u = []).
      { clear - Hf Ha. induction u as [|b u IH]; [reflexivity|]. inversion Hf; subst. cbn [filter]. destruct (Rleb_spec b t); [lra|auto]. }
      rewrite E. cbn [List.length]. split; [|lia]. destruct j as [|j]; cbn [nth]; [lra|].
      rewrite Forall_forall in Hf. assert (a < nth j u 0) by (apply Hf, nth_In; cbn in Hj; lia). lra.
  Qed.

Section Best.
  Variables (X : nat -> nat -> R) (G H : nat -> R) (f : nat).
  Variables (lambda alpha : R) (mindata : Z).

  Lemma num_split_rows (bs : list R) idxs : sasc bs -> (2 <= List.length bs)%nat ->
    let h := @mkhist RNum f (@fill RNum (@find_bin RNum) bs (@samples RNum X G H f idxs)) bs in
    let s := @num_split RNum lambda alpha (sum_of G idxs) (sum_of H idxs) mindata h in
    let enough t := (mindata <= Z.of_nat (List.length (below X f t idxs)))%Z /\ (mindata <= Z.of_nat (List.length (upward X f t idxs)))%Z in
    (forall k, (0 < k)%nat -> (S k < List.length bs)%nat -> enough (nth k bs 0) ->
       rows_gain G H lambda alpha (below X f (nth k bs 0) idxs) (upward X f (nth k bs 0) idxs) <= s_gain s)
    /\ ((s = @no_split RNum f)
        \/ exists k, (0 < k)%nat /\ (S k < List.length bs)%nat /\ (s_thr s : R) = nth k bs 0 /\ s_feat s = Z.of_nat f /\ 0 < s_gain s
             /\ enough (nth k bs 0) /\ divides G H lambda alpha s (below X f (nth k bs 0) idxs) (upward X f (nth k bs 0) idxs)).
  Proof.
    intros Hs H2 h s enough.
    set (bins := @fill RNum (@find_bin RNum) bs (@samples RNum X G H f idxs)).
    assert (Hlb : List.length bins = (List.length bs - 1)%nat) by apply (@fill_length RNum).
    assert (HG : forall k, (0 < k)%nat -> (S k < List.length bs)%nat ->
      @cut_gain RNum lambda alpha (sum_of G idxs) (sum_of H idxs) bins k
      = rows_gain G H lambda alpha (below X f (nth k bs 0) idxs) (upward X f (nth k bs 0) idxs)).
    { intros k Hk Hl. destruct (cut_rows X G H f bs idxs k Hs Hk Hl) as (C1 & C2 & C3 & C4 & C5 & C6).
      unfold cut_gain, rows_gain. fold bins in C3, C4, C5, C6. change (@nsub RNum) with Rminus.
      rewrite <- calc_gain_R. rewrite C5, C6, C3, C4.
      f_equal; [rewrite <- C5, C3|rewrite <- C6, C4]; ring. }
    assert (Hok : forall k, (0 < k)%nat -> (S k < List.length bs)%nat -> (cut_ok mindata bins k <-> enough (nth k bs 0))).
    { intros k Hk Hl. destruct (cut_rows X G H f bs idxs k Hs Hk Hl) as (C1 & C2 & _). fold bins in C1, C2.
      unfold cut_ok, enough. rewrite C1, C2, Hlb. split; [tauto|]. intros [A B]. repeat split; try assumption; lia. }
    pose proof (scan_spec lt_laws_R lambda alpha (sum_of G idxs) (sum_of H idxs) mindata (fun _ b => (b_hi b, [])) bins [] (@no_split RNum f)) as K.
    cbn zeta in K. cbn [app List.length] in K.
    change (@scan RNum lambda alpha (sum_of G idxs) (sum_of H idxs) mindata (fun _ b => (b_hi b, [])) [] (@left_g RNum bins 0) (@left_h RNum bins 0)
              (@count_all RNum []) bins (@no_split RNum f)) with s in K.
    clearbody s. destruct K as [[E F]|(k & [K1 K1'] & K2 & K3 & K4 & K5 & K6 & K7)].
    - split.
      + intros k Hk Hl He. rewrite <- HG by assumption. rewrite E. apply Rltb_false. apply F. split; [exact Hk|]. now apply Hok.
      + left. exact E.
    - destruct K1' as ([_ Kl] & Kc). assert (Hl : (S k < List.length bs)%nat) by (change (num RNum) with R in *; lia). clear Kl.
      destruct K2 as (D1 & D2 & D3 & D4 & D5 & D6 & D7).
      split.
      + intros j Hj Hlj He. rewrite <- HG by assumption. change (num RNum) with R in *. rewrite D1. apply Rltb_false. apply K6. split; [exact Hj|]. now apply Hok.
      + right. exists k. split; [exact K1|]. split; [exact Hl|].
        assert (Ht : (s_thr s : R) = nth k bs 0).
        { assert (Et : s_thr s = b_hi (nth (k - 1) bins (@mkbin RNum 0 0 0 0 0))) by (cbn in K4; congruence).
          rewrite Et. assert (Hn := @fill_nth RNum (@find_bin RNum) bs (@samples RNum X G H f idxs) (k - 1)).
          rewrite (nth_error_nth _ _ _ (Hn ltac:(change (num RNum) with R; lia))). cbn [b_hi]. now replace (S (k - 1)) with k by lia. }
        split; [exact Ht|]. split; [rewrite K3; reflexivity|].
        assert (Hgp : 0 < (s_gain s : R)) by (rewrite D1; apply Rltb_true; exact K5). split; [exact Hgp|].
        assert (He : enough (nth k bs 0)). { apply Hok; [exact K1|exact Hl|]. split; [|exact Kc]. change (num RNum) with R in *. lia. }
        split; [exact He|]. destruct (cut_rows X G H f bs idxs k Hs K1 Hl) as (C1 & C2 & C3 & C4 & C5 & C6). fold bins in C1, C2, C3, C4, C5, C6.
        unfold divides. change (@nsub RNum) with Rminus in *. change (num RNum) with R in *.
        rewrite D1, D2, D3, D4, D5, D6, D7. rewrite HG by assumption. repeat split; assumption.
  Qed.

  (** ** One value per bin *)
  Definition fbounds (u : list R) : list R := (nth 0 u 0 - e10) :: map (fun v => v + e10) u.
  Lemma fbounds_nth u k : (k < List.length u)%nat -> nth (S k) (fbounds u) 0 = nth k u 0 + e10.
  Proof. intros Hk. cbn [fbounds nth]. rewrite (nth_indep _ 0 (0 + e10)) by (rewrite map_length; lia). apply (map_nth (fun v => v + e10)). Qed.
  Lemma fbounds_sasc u : sasc u -> sasc (fbounds u).
  Proof.
    intros Hu. pose proof e10_pos. unfold fbounds. constructor; [now apply sasc_map_plus|]. rewrite Forall_forall. intros b Hb.
    apply in_map_iff in Hb as (c & <- & Hc). destruct u as [|a u]; [easy|]. pose proof (asc_head a u c (sasc_asc _ Hu) Hc). cbn [nth]. lra.
  Qed.
  (** With separated values, a boundary is never a value, and cutting after [S k] bins is
      cutting after the value number [k]. *)
  Lemma few_cut (u : list R) idxs k : sasc u -> apart u -> (forall i, In i idxs -> In (X i f) u) -> (k < List.length u)%nat ->
    below X f (nth k u 0 + e10) idxs = lower X f (nth k u 0) idxs
    /\ upward X f (nth k u 0 + e10) idxs = upper X f (nth k u 0) idxs
    /\ lower X f (nth k u 0 + e10) idxs = lower X f (nth k u 0) idxs
    /\ upper X f (nth k u 0 + e10) idxs = upper X f (nth k u 0) idxs.
  Proof.
    intros Hu Ha Hin Hk. pose proof e10_pos as He.
    assert (K : forall i, In i idxs -> Rltb (X i f) (nth k u 0 + e10) = Rleb (X i f) (nth k u 0)
       /\ Rleb (X i f) (nth k u 0 + e10) = Rleb (X i f) (nth k u 0)).
    { intros i Hi. destruct (Rleb_spec (X i f) (nth k u 0)) as [Hle|Hgt].
      - split; [apply Rltb_true|apply Rleb_true]; lra.
      - assert (Hd : e10 < X i f - nth k u 0) by (unfold e10; apply Ha; [now apply nth_In|now apply Hin|lra]).
        split; [apply Rltb_false|apply Rleb_false]; lra. }
    unfold below, upward, lower, upper. repeat split; apply filter_ext_in; intros i Hi; destruct (K i Hi) as [K1 K2]; congruence.
  Qed.
  Lemma few_lower (u : list R) idxs t : sasc u -> (forall i, In i idxs -> In (X i f) u) ->
    let k := List.length (filter (fun x => Rleb x t) u) in (0 < k)%nat ->
    lower X f t idxs = lower X f (nth (k - 1) u 0) idxs /\ upper X f t idxs = upper X f (nth (k - 1) u 0) idxs.
  Proof.
    intros Hu Hin k Hk.
    assert (Hlen : (k <= List.length u)%nat) by apply filter_length_le.
    assert (K : forall i, In i idxs -> Rleb (X i f) t = Rleb (X i f) (nth (k - 1) u 0)).
    { intros i Hi. apply Hin in Hi. apply In_nth with (d := 0) in Hi as (j & Hj & <-).
      pose proof (filter_count u t Hu j Hj) as F. fold k in F.
      destruct (Rleb_spec (nth j u 0) t) as [H1|H1]; symmetry.
      - apply F in H1. apply Rleb_true. destruct (Nat.eq_dec j (k - 1)) as [->|]; [lra|].
        pose proof (sasc_nth u Hu j (k - 1) ltac:(lia)). lra.
      - apply Rleb_false. assert (Hn : ~ (j < k)%nat) by (intros C; apply F in C; lra).
        apply sasc_nth; [exact Hu|lia]. }
    unfold lower, upper. split; apply filter_ext_in; intros i Hi; now rewrite K by assumption.
  Qed.
End Best.
