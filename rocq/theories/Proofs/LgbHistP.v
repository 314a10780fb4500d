(** Bin search, histograms, boundaries and quicksort. *)
From Coq Require Import List Arith ZArith Bool Lia Sorted Permutation.
From Verif Require Import Base.Num Base.GoRes Base.ListX Base.GoSort Spec.Order Model.LgbTree Model.LgbHist Spec.LgbHist Proofs.LgbTreeP.
Import ListNotations.
Local Open Scope list_scope.
Local Open Scope num_scope.

Section Search.
  Context {N : Num}.
  Implicit Types (v : N) (bs : list N).

  (** ** Fuel and range, for any arithmetic *)
  Lemma half_range (l r : Z) : (l <= r)%Z -> (l <= (l + r) / 2 <= r)%Z.
  Proof. intros H. split; [apply Z.div_le_lower_bound|apply Z.div_le_upper_bound]; lia. Qed.
  Lemma bsearch_fuel f1 : forall f2 v bs l r,
    (Z.to_nat (r - l + 1) < f1)%nat \/ f1 = Z.to_nat (r - l + 1) ->
    (Z.to_nat (r - l + 1) < f2)%nat \/ f2 = Z.to_nat (r - l + 1) ->
    bsearch f1 v bs l r = bsearch f2 v bs l r.
  Proof.
    induction f1 as [|f1 IH]; intros f2 v bs l r H1 H2.
    - destruct f2 as [|f2]; [reflexivity|]. cbn [bsearch].
      destruct (Z.leb_spec l r); [lia|reflexivity].
    - destruct f2 as [|f2].
      + cbn [bsearch]. destruct (Z.leb_spec l r); [lia|reflexivity].
      + cbn [bsearch]. destruct (Z.leb_spec l r) as [Hlr|]; [|reflexivity]. pose proof (half_range l r Hlr).
        destruct (_ && _); [reflexivity|]. destruct (_ <? _); apply IH; lia.
  Qed.
  Lemma bsearch_opt_fuel f1 : forall f2 v bs l r,
    (Z.to_nat (r - l + 1) < f1)%nat \/ f1 = Z.to_nat (r - l + 1) ->
    (Z.to_nat (r - l + 1) < f2)%nat \/ f2 = Z.to_nat (r - l + 1) ->
    bsearch_opt f1 v bs l r = bsearch_opt f2 v bs l r.
  Proof.
    induction f1 as [|f1 IH]; intros f2 v bs l r H1 H2.
    - destruct f2 as [|f2]; [reflexivity|]. cbn [bsearch_opt].
      destruct (Z.leb_spec l r); [lia|reflexivity].
    - destruct f2 as [|f2].
      + cbn [bsearch_opt]. destruct (Z.leb_spec l r); [lia|reflexivity].
      + cbn [bsearch_opt]. destruct (Z.leb_spec l r) as [Hlr|]; [|reflexivity]. pose proof (half_range l r Hlr).
        destruct (_ <? _); [apply IH; lia|]. destruct (_ <=? _); [apply IH; lia|reflexivity].
  Qed.
  Lemma bsearch_range f : forall v bs l r i, bsearch f v bs l r = Some i -> (l <= i <= r)%Z.
  Proof.
    induction f as [|f IH]; intros v bs l r i H; [discriminate|]. cbn [bsearch] in H.
    destruct (Z.leb_spec l r) as [Hlr|]; [|discriminate]. pose proof (half_range l r Hlr).
    destruct (_ && _); [injection H as <-; lia|]. destruct (_ <? _); apply IH in H; lia.
  Qed.
  Lemma bsearch_opt_range f : forall v bs l r i, bsearch_opt f v bs l r = Some i -> (l <= i <= r)%Z.
  Proof.
    induction f as [|f IH]; intros v bs l r i H; [discriminate|]. cbn [bsearch_opt] in H.
    destruct (Z.leb_spec l r) as [Hlr|]; [|discriminate]. pose proof (half_range l r Hlr).
    destruct (_ <? _); [apply IH in H; lia|]. destruct (_ <=? _); [apply IH in H; lia|injection H as <-; lia].
  Qed.
  Lemma find_bin_range v bs : (2 <= List.length bs)%nat ->
    (0 <= find_bin v bs < Z.of_nat (List.length bs - 1))%Z.
  Proof.
    intros H. unfold find_bin, find_bin_fuel. destruct bsearch as [i|] eqn:E.
    - apply bsearch_range in E. lia.
    - destruct (_ <? _); lia.
  Qed.
  Lemma empty_bins_length bs : List.length (empty_bins bs) = (List.length bs - 1)%nat.
  Proof.
    induction bs as [|a bs IH]; [reflexivity|]. destruct bs as [|b bs]; [reflexivity|].
    cbn [empty_bins List.length] in *. lia.
  Qed.
  Lemma empty_bins_nth bs : forall i, (S i < List.length bs)%nat ->
    nth_error (empty_bins bs) i = Some (mkbin (nth i bs n0) (nth (S i) bs n0) 0 n0 n0).
  Proof.
    induction bs as [|a bs IH]; intros i H; [cbn in H; lia|]. destruct bs as [|b bs]; [cbn in H; lia|].
    destruct i as [|i]; [reflexivity|]. cbn [empty_bins nth_error]. rewrite IH; [reflexivity|cbn in *; lia].
  Qed.

  (** ** Filling *)
  Lemma put_length find bs bins s : List.length (put find bs bins s) = List.length bins.
  Proof. unfold put. destruct (_ && _); [apply upd_length|reflexivity]. Qed.
  Lemma fold_put_length find bs ss : forall bins, List.length (fold_left (put find bs) ss bins) = List.length bins.
  Proof. induction ss as [|s ss IH]; intros bins; cbn [fold_left]; [reflexivity|]. now rewrite IH, put_length. Qed.
  Definition own (find : N -> list N -> Z) (bs : list N) (i : nat) (ss : list (N * (N * N))) :=
    filter (fun s => (find (fst s) bs =? Z.of_nat i)%Z) ss.
  Lemma fold_put_nth find bs ss : forall bins i b, nth_error bins i = Some b ->
    nth_error (fold_left (put find bs) ss bins) i
    = Some (mkbin (b_lo b) (b_hi b) (b_cnt b + Z.of_nat (List.length (own find bs i ss)))%Z
             (fold_left nadd (map (fun s => fst (snd s)) (own find bs i ss)) (b_g b))
             (fold_left nadd (map (fun s => snd (snd s)) (own find bs i ss)) (b_h b))).
  Proof.
    induction ss as [|s ss IH]; intros bins i b Hb; cbn [fold_left].
    - cbn. rewrite Z.add_0_r. destruct b; exact Hb.
    - assert (Hi : (i < List.length bins)%nat) by (apply nth_error_Some; congruence).
      unfold own; cbn [filter]. fold (own find bs i ss).
      destruct (Z.eqb_spec (find (fst s) bs) (Z.of_nat i)) as [E|E].
      + assert (Hp : nth_error (put find bs bins s) i = Some (add_to_bin (fst (snd s)) (snd (snd s)) b)).
        { unfold put. rewrite E. destruct (Z.leb_spec 0 (Z.of_nat i)); [|lia].
          destruct (Z.ltb_spec (Z.of_nat i) (Z.of_nat (List.length bins))); [|lia]. cbn [andb].
          rewrite Nat2Z.id, nth_error_upd_same, Hb. reflexivity. }
        rewrite (IH _ _ _ Hp). cbn [add_to_bin b_lo b_hi b_cnt b_g b_h map fold_left List.length].
        do 2 f_equal. lia.
      + assert (Hp : nth_error (put find bs bins s) i = Some b).
        { unfold put. destruct (Z.leb_spec 0 (find (fst s) bs)); [|exact Hb].
          destruct (Z.ltb_spec (find (fst s) bs) (Z.of_nat (List.length bins))); [|exact Hb]. cbn [andb].
          rewrite nth_error_upd_other; [exact Hb|lia]. }
        now rewrite (IH _ _ _ Hp).
  Qed.
  Lemma fill_nth find bs ss i : (S i < List.length bs)%nat ->
    nth_error (fill find bs ss) i
    = Some (mkbin (nth i bs n0) (nth (S i) bs n0) (Z.of_nat (List.length (own find bs i ss)))
             (nsum (map (fun s => fst (snd s)) (own find bs i ss)))
             (nsum (map (fun s => snd (snd s)) (own find bs i ss)))).
  Proof.
    intros H. unfold fill. rewrite (fold_put_nth find bs ss _ i _ (empty_bins_nth bs i H)). reflexivity.
  Qed.
  Lemma fill_length find bs ss : List.length (fill find bs ss) = (List.length bs - 1)%nat.
  Proof. unfold fill. now rewrite fold_put_length, empty_bins_length. Qed.

  Lemma count_all_upd (bins : list (bin N)) g h : forall i, (i < List.length bins)%nat ->
    count_all (upd i (add_to_bin g h) bins) = (count_all bins + 1)%Z.
  Proof.
    induction bins as [|b bins IH]; intros [|i] H; cbn in *; try lia.
    unfold count_all in IH. rewrite IH by lia. lia.
  Qed.
  Lemma count_all_empty bs : count_all (empty_bins bs) = 0%Z.
  Proof.
    induction bs as [|a bs IH]; [reflexivity|]. destruct bs as [|b bs]; [reflexivity|].
    change (empty_bins (a :: b :: bs)) with (mkbin a b 0 n0 n0 :: empty_bins (b :: bs)).
    unfold count_all in *. cbn [fold_right b_cnt]. now rewrite IH.
  Qed.
  Lemma fill_count find bs ss :
    (forall s, In s ss -> 0 <= find (fst s) bs < Z.of_nat (List.length bs - 1))%Z ->
    count_all (fill find bs ss) = Z.of_nat (List.length ss).
  Proof.
    intros H. unfold fill.
    enough (E : forall bins, List.length bins = (List.length bs - 1)%nat ->
              count_all (fold_left (put find bs) ss bins) = (count_all bins + Z.of_nat (List.length ss))%Z).
    { rewrite E by apply empty_bins_length. now rewrite count_all_empty. }
    induction ss as [|s ss IH]; intros bins Hb; cbn [fold_left List.length]; [lia|].
    rewrite IH; [|intros s' Hs'; apply H; now right|now rewrite put_length].
    unfold put. specialize (H s (or_introl eq_refl)). rewrite Hb.
    destruct (Z.leb_spec 0 (find (fst s) bs)); [|lia].
    destruct (Z.ltb_spec (find (fst s) bs) (Z.of_nat (List.length bs - 1))); [|lia]. cbn [andb].
    rewrite count_all_upd; lia.
  Qed.

  (** ** Correctness of the searches *)
  Hypothesis (L : lt_laws N) (C : cmp_laws N).
  Lemma increasing_nth bs : increasing bs -> forall i j, (i < j < List.length bs)%nat -> nth i bs n0 <? nth j bs n0 = true.
  Proof.
    induction 1 as [|a bs Hs IH Hf]; intros i j Hij; [cbn in Hij; lia|].
    destruct j as [|j]; [lia|]. destruct i as [|i]; cbn [nth List.length] in *.
    - rewrite Forall_forall in Hf. apply Hf. apply nth_In. lia.
    - apply IH. lia.
  Qed.
  Lemma increasing_not_nan bs : increasing bs -> (2 <= List.length bs)%nat -> forall i, (i < List.length bs)%nat -> nisnan (nth i bs n0) = false.
  Proof.
    intros H H2 i Hi. destruct i as [|i].
    - apply (lt_not_nan N L (nth 0 bs n0) (nth 1 bs n0)). apply increasing_nth; [exact H|lia].
    - apply (lt_not_nan N L (nth 0 bs n0) (nth (S i) bs n0)). apply increasing_nth; [exact H|lia].
  Qed.
  Lemma lt_asym (a b : N) : a <? b = true -> b <? a = false.
  Proof.
    intros H. destruct (b <? a) eqn:E; [|reflexivity].
    pose proof (lt_trans N L _ _ _ H E) as F. now rewrite (lt_irrefl N L) in F.
  Qed.
  Lemma le_iff (a b : N) : nisnan a = false -> nisnan b = false -> (a <=? b = true <-> b <? a = false).
  Proof. intros Ha Hb. rewrite (cmp_le N C a b Ha Hb). destruct (b <? a); cbn; split; congruence. Qed.

  Lemma in_bin_iff bs i v : in_bin bs i v <->
    (S i < List.length bs)%nat /\ (i = 0%nat \/ nth i bs n0 <=? v = true)
    /\ (S (S i) = List.length bs \/ v <? nth (S i) bs n0 = true).
  Proof.
    unfold in_bin, in_binb. rewrite !andb_true_iff, !orb_true_iff, Nat.ltb_lt, !Nat.eqb_eq. tauto.
  Qed.
  Lemma in_bin_unique bs v i j : increasing bs -> nisnan v = false -> in_bin bs i v -> in_bin bs j v -> i = j.
  Proof.
    intros Hs Hv. 
    assert (K : forall i j, in_bin bs i v -> in_bin bs j v -> (i < j)%nat -> False).
    { clear i j. intros i j Hi Hj Hij. apply in_bin_iff in Hi as (Hi1 & _ & Hi3), Hj as (Hj1 & Hj2 & _).
      destruct Hi3 as [Hi3|Hi3]; [lia|]. destruct Hj2 as [Hj2|Hj2]; [lia|].
      assert (Hn := increasing_not_nan bs Hs ltac:(lia)).
      apply (le_iff _ _ (Hn j ltac:(lia)) Hv) in Hj2.
      destruct (Nat.eq_dec (S i) j) as [<-|Hne]; [congruence|].
      pose proof (increasing_nth bs Hs (S i) j ltac:(lia)) as Hlt.
      pose proof (lt_trans N L _ _ _ Hi3 Hlt). congruence. }
    intros Hi Hj. destruct (Nat.lt_trichotomy i j) as [Hij|[E|Hij]]; [|exact E|]; exfalso; eauto.
  Qed.

  (** The invariant of both searches *)
  Definition around bs (v : N) (l r : Z) : Prop :=
    (0 <= l <= r + 1)%Z /\ (r <= Z.of_nat (List.length bs) - 2)%Z
    /\ (l = 0%Z \/ v <? nth (Z.to_nat l) bs n0 = false)
    /\ (r = (Z.of_nat (List.length bs) - 2)%Z \/ v <? nth (S (Z.to_nat r)) bs n0 = true /\ (0 <= r)%Z
        \/ r = (-1)%Z /\ v <? nth 0 bs n0 = true).

  Lemma bsearch_good bs v f : forall l r, increasing bs -> (2 <= List.length bs)%nat -> nisnan v = false ->
    around bs v l r -> (Z.to_nat (r - l + 1) <= f)%nat ->
    match bsearch f v bs l r with
    | Some i => (0 <= i)%Z /\ in_bin bs (Z.to_nat i) v
    | None => exists l', around bs v l' (l' - 1)
    end.
  Proof.
    induction f as [|f IH]; intros l r Hs H2 Hv Ha Hf.
    - cbn [bsearch]. exists l. destruct Ha as (A1 & A2 & A3 & A4). replace (l - 1)%Z with r by lia. repeat split; auto; lia.
    - cbn [bsearch]. destruct (Z.leb_spec l r) as [Hlr|Hlr].
      2:{ exists l. destruct Ha as (A1 & A2 & A3 & A4). replace (l - 1)%Z with r by lia. repeat split; auto; lia. }
      destruct Ha as (A1 & A2 & A3 & A4). pose proof (half_range l r Hlr) as Hm. set (m := ((l + r) / 2)%Z) in *.
      pose proof (increasing_not_nan bs Hs H2) as Hn.
      assert (Hm1 : (S (Z.to_nat m) < List.length bs)%nat) by lia.
      pose proof (cmp_le N C _ _ (Hn (Z.to_nat m) ltac:(lia)) Hv) as Hle.
      rewrite Hle. destruct (v <? nth (Z.to_nat m) bs n0) eqn:E1; cbn [negb andb].
      + apply IH; try assumption; [|lia]. repeat split; try lia; [exact A3|].
        destruct (Z.eq_dec m 0) as [->|Hm0]; [right; right; split; [lia|exact E1]|].
        right; left. split; [|lia]. replace (S (Z.to_nat (m - 1))) with (Z.to_nat m) by lia. exact E1.
      + destruct (v <? nth (S (Z.to_nat m)) bs n0) eqn:E2.
        * split; [lia|]. apply in_bin_iff. repeat split; [exact Hm1| |].
          -- right. rewrite Hle. reflexivity.
          -- right. exact E2.
        * apply IH; try assumption; [|lia]. repeat split; try lia.
          -- right. replace (Z.to_nat (m + 1)) with (S (Z.to_nat m)) by lia. exact E2.
          -- destruct A4 as [A4|[A4|[A4 _]]]; [now left|right; now left|lia].
  Qed.
  Lemma bsearch_opt_good bs v f : forall l r, increasing bs -> (2 <= List.length bs)%nat -> nisnan v = false ->
    around bs v l r -> (Z.to_nat (r - l + 1) <= f)%nat ->
    match bsearch_opt f v bs l r with
    | Some i => (0 <= i)%Z /\ in_bin bs (Z.to_nat i) v
    | None => exists l', around bs v l' (l' - 1)
    end.
  Proof.
    induction f as [|f IH]; intros l r Hs H2 Hv Ha Hf.
    - cbn [bsearch_opt]. exists l. destruct Ha as (A1 & A2 & A3 & A4). replace (l - 1)%Z with r by lia. repeat split; auto; lia.
    - cbn [bsearch_opt]. destruct (Z.leb_spec l r) as [Hlr|Hlr].
      2:{ exists l. destruct Ha as (A1 & A2 & A3 & A4). replace (l - 1)%Z with r by lia. repeat split; auto; lia. }
      destruct Ha as (A1 & A2 & A3 & A4). pose proof (half_range l r Hlr) as Hm. set (m := ((l + r) / 2)%Z) in *.
      pose proof (increasing_not_nan bs Hs H2) as Hn.
      assert (Hm1 : (S (Z.to_nat m) < List.length bs)%nat) by lia.
      destruct (v <? nth (Z.to_nat m) bs n0) eqn:E1.
      + apply IH; try assumption; [|lia]. repeat split; try lia; [exact A3|].
        destruct (Z.eq_dec m 0) as [->|Hm0]; [right; right; split; [lia|exact E1]|].
        right; left. split; [|lia]. replace (S (Z.to_nat (m - 1))) with (Z.to_nat m) by lia. exact E1.
      + rewrite (cmp_le N C _ _ (Hn (S (Z.to_nat m)) Hm1) Hv).
        destruct (v <? nth (S (Z.to_nat m)) bs n0) eqn:E2; cbn [negb].
        * split; [lia|]. apply in_bin_iff. repeat split; [exact Hm1| |].
          -- right. rewrite (cmp_le N C _ _ (Hn (Z.to_nat m) ltac:(lia)) Hv), E1. reflexivity.
          -- right. exact E2.
        * apply IH; try assumption; [|lia]. repeat split; try lia.
          -- right. replace (Z.to_nat (m + 1)) with (S (Z.to_nat m)) by lia. exact E2.
          -- destruct A4 as [A4|[A4|[A4 _]]]; [now left|right; now left|lia].
  Qed.
  (** When the search ends without a bin the value is outside the boundaries. *)
  Lemma around_outside bs v l : increasing bs -> (2 <= List.length bs)%nat -> nisnan v = false -> around bs v l (l - 1) ->
    v <? nth 0 bs n0 = true \/ v <? nth 0 bs n0 = false /\ v <? nth (List.length bs - 1) bs n0 = false.
  Proof.
    intros Hs H2 Hv (A1 & A2 & A3 & A4). destruct (v <? nth 0 bs n0) eqn:E0; [now left|]. right. split; [reflexivity|].
    destruct A4 as [A4|[[A4 A5]|[_ A4]]]; [| |congruence].
    - destruct A3 as [A3|A3]; [lia|]. replace (List.length bs - 1)%nat with (Z.to_nat l) by lia. exact A3.
    - replace (S (Z.to_nat (l - 1))) with (Z.to_nat l) in A4 by lia. destruct A3 as [A3|A3]; [lia|congruence].
  Qed.
  Lemma around_start bs v : (2 <= List.length bs)%nat -> around bs v 0 (Z.of_nat (List.length bs) - 2).
  Proof. intros H. repeat split; try lia; now left. Qed.
  Lemma last_nth {A} (l : list A) d : last l d = nth (List.length l - 1) l d.
  Proof.
    induction l as [|a l IH]; [reflexivity|]. destruct l as [|b l]; [reflexivity|].
    change (last (a :: b :: l) d) with (last (b :: l) d). rewrite IH. cbn [List.length].
    replace (S (S (List.length l)) - 1)%nat with (S (List.length l)) by lia.
    replace (S (List.length l) - 1)%nat with (List.length l) by lia. reflexivity.
  Qed.
  Lemma outside_bins bs v : increasing bs -> (2 <= List.length bs)%nat -> nisnan v = false ->
    (v <? nth 0 bs n0 = true -> in_bin bs 0 v) /\
    (v <? nth (List.length bs - 1) bs n0 = false -> in_bin bs (List.length bs - 2) v).
  Proof.
    intros Hs H2 Hv. split; intros H; apply in_bin_iff.
    - repeat split; [lia|now left|]. destruct (Nat.eq_dec 2 (List.length bs)); [now left|]. right.
      eapply (lt_trans N L); [exact H|]. apply increasing_nth; [exact Hs|lia].
    - repeat split; [lia| |left; lia]. destruct (Nat.eq_dec (List.length bs - 2) 0) as [->|Hne]; [now left|]. right.
      pose proof (increasing_not_nan bs Hs H2) as Hn.
      apply le_iff; [apply Hn; lia|exact Hv|].
      destruct (v <? nth (List.length bs - 2) bs n0) eqn:E; [|reflexivity].
      pose proof (increasing_nth bs Hs (List.length bs - 2) (List.length bs - 1) ltac:(lia)) as Hlt.
      now rewrite (lt_trans N L _ _ _ E Hlt) in H.
  Qed.
  Lemma find_bin_in bs v : increasing bs -> (2 <= List.length bs)%nat -> nisnan v = false ->
    (0 <= find_bin v bs)%Z /\ in_bin bs (Z.to_nat (find_bin v bs)) v.
  Proof.
    intros Hs H2 Hv. unfold find_bin, find_bin_fuel.
    pose proof (bsearch_good bs v (List.length bs) 0 (Z.of_nat (List.length bs) - 2) Hs H2 Hv (around_start bs v H2) ltac:(lia)) as B.
    destruct bsearch as [i|]; [exact B|]. destruct B as [l B].
    destruct (outside_bins bs v Hs H2 Hv) as [O1 O2].
    destruct (around_outside bs v l Hs H2 Hv B) as [E|[E1 E2]].
    - rewrite E. split; [lia|]. now apply O1.
    - rewrite E1. split; [lia|]. replace (Z.to_nat (Z.of_nat (List.length bs) - 2)) with (List.length bs - 2)%nat by lia. now apply O2.
  Qed.
  Lemma find_bin_opt_in bs v : increasing bs -> (2 <= List.length bs)%nat -> nisnan v = false ->
    (0 <= find_bin_opt v bs)%Z /\ in_bin bs (Z.to_nat (find_bin_opt v bs)) v.
  Proof.
    intros Hs H2 Hv. unfold find_bin_opt, find_bin_opt_fuel.
    pose proof (bsearch_opt_good bs v (List.length bs) 0 (Z.of_nat (List.length bs) - 2) Hs H2 Hv (around_start bs v H2) ltac:(lia)) as B.
    destruct bsearch_opt as [i|]; [exact B|]. destruct B as [l B].
    destruct (outside_bins bs v Hs H2 Hv) as [O1 O2].
    destruct (around_outside bs v l Hs H2 Hv B) as [E|[E1 E2]].
    - rewrite E. split; [lia|]. now apply O1.
    - rewrite E1, last_nth, (cmp_le N C _ _ (increasing_not_nan bs Hs H2 (List.length bs - 1)%nat ltac:(lia)) Hv), E2. cbn [negb].
      split; [lia|]. replace (Z.to_nat (Z.of_nat (List.length bs) - 2)) with (List.length bs - 2)%nat by lia. now apply O2.
  Qed.
  Lemma own_in find bs i ss : increasing bs ->
    (forall s, In s ss -> nisnan (fst s) = false) ->
    (forall s, In s ss -> (0 <= find (fst s) bs)%Z /\ in_bin bs (Z.to_nat (find (fst s) bs)) (fst s)) ->
    own find bs i ss = filter (fun s => in_binb bs i (fst s)) ss.
  Proof.
    intros Hs Hv Hf. unfold own. apply filter_ext_in. intros s Hin. destruct (Hf s Hin) as [H0 H1].
    destruct (in_binb bs i (fst s)) eqn:E.
    - apply Z.eqb_eq. rewrite (in_bin_unique bs (fst s) i _ Hs (Hv s Hin) E H1). lia.
    - apply Z.eqb_neq. intros E'. rewrite E', Nat2Z.id in H1. unfold in_bin in H1. congruence.
  Qed.
  Lemma fill_histogram find bs ss : increasing bs -> (2 <= List.length bs)%nat ->
    (forall s, In s ss -> nisnan (fst s) = false) ->
    (forall v, nisnan v = false -> (0 <= find v bs)%Z /\ in_bin bs (Z.to_nat (find v bs)) v) ->
    fill find bs ss = histogram bs ss.
  Proof.
    intros Hs H2 Hv Hf. apply nth_error_ext. intros i. unfold histogram.
    destruct (Nat.lt_ge_cases (S i) (List.length bs)) as [Hi|Hi].
    - rewrite fill_nth by exact Hi. rewrite nth_error_map.
      rewrite (nth_error_nth' _ 0%nat) by (rewrite seq_length; lia). rewrite seq_nth by lia. cbn [option_map plus].
      rewrite (own_in find bs i ss Hs Hv) by (intros s Hin; apply Hf, Hv, Hin). reflexivity.
    - transitivity (@None (bin N)); [|symmetry]; apply nth_error_None.
      + rewrite fill_length; lia.
      + rewrite map_length, seq_length; lia.
  Qed.
End Search.

(** ** Exchanging elements *)
Section Exch.
  Context {A : Type}.
  Lemma nth_error_mid (l1 : list A) x l2 : nth_error (l1 ++ x :: l2) (List.length l1) = Some x.
  Proof. rewrite nth_error_app2 by lia. now rewrite Nat.sub_diag. Qed.
  Lemma upd_at (l1 : list A) x l2 g : upd (List.length l1) g (l1 ++ x :: l2) = l1 ++ g x :: l2.
  Proof. rewrite <- (Nat.add_0_r (List.length l1)), upd_app_r. reflexivity. Qed.
  Lemma exch_split (l1 l2 l3 : list A) a b :
    exch (List.length l1) (List.length l1 + S (List.length l2)) (l1 ++ a :: l2 ++ b :: l3) = l1 ++ b :: l2 ++ a :: l3.
  Proof.
    assert (E : (List.length l1 + S (List.length l2))%nat = List.length (l1 ++ a :: l2)) by (rewrite app_length; cbn; lia).
    unfold exch. rewrite nth_error_mid.
    replace (l1 ++ a :: l2 ++ b :: l3) with ((l1 ++ a :: l2) ++ b :: l3) by (rewrite <- app_assoc; reflexivity).
    rewrite E, nth_error_mid, upd_at. rewrite <- app_assoc. cbn [app]. now rewrite upd_at.
  Qed.
  Lemma exch_same i (l : list A) : exch i i l = l.
  Proof.
    unfold exch. destruct (nth_error l i) as [a|] eqn:E; [|reflexivity].
    apply nth_error_split in E as (l1 & l2 & -> & <-). now rewrite !upd_at.
  Qed.
  Lemma exch_sym i j (l : list A) : exch i j l = exch j i l.
  Proof.
    destruct (Nat.eq_dec i j) as [->|Hne]; [reflexivity|]. unfold exch.
    destruct (nth_error l i), (nth_error l j); try reflexivity. now apply upd_comm.
  Qed.
  Lemma exch_length i j (l : list A) : List.length (exch i j l) = List.length l.
  Proof. unfold exch. destruct (nth_error l i), (nth_error l j); try reflexivity. now rewrite !upd_length. Qed.
  Lemma exch_perm i j (l : list A) : Permutation l (exch i j l).
  Proof.
    assert (K : forall i j, (i < j)%nat -> Permutation l (exch i j l)).
    { clear i j. intros i j Hij. destruct (Nat.lt_ge_cases j (List.length l)) as [Hj|Hj].
      - destruct (nth_error l i) as [a|] eqn:Ea; [|apply nth_error_None in Ea; lia].
        apply nth_error_split in Ea as (l1 & r & -> & <-). rewrite app_length in Hj. cbn in Hj.
        destruct (nth_error r (j - S (List.length l1))) as [b|] eqn:Eb; [|apply nth_error_None in Eb; lia].
        apply nth_error_split in Eb as (l2 & l3 & -> & E2).
        replace j with (List.length l1 + S (List.length l2))%nat by lia. rewrite exch_split.
        apply Permutation_app_head. transitivity (b :: a :: l2 ++ l3).
        + transitivity (a :: b :: l2 ++ l3); [|apply perm_swap]. apply perm_skip. symmetry; apply Permutation_middle.
        + apply perm_skip. apply Permutation_middle.
      - unfold exch. replace (nth_error l j) with (@None A) by (symmetry; now apply nth_error_None).
        destruct (nth_error l i); reflexivity. }
    destruct (Nat.lt_trichotomy i j) as [H|[->|H]]; [now apply K|now rewrite exch_same|].
    rewrite exch_sym. now apply K.
  Qed.
End Exch.

(** ** Quicksort *)
Section Quick.
  Context {N : Num} (L : lt_laws N).
  Implicit Types (A B l pre body post : list N).

  Lemma part_loop p pre tail rest : forall A B,
    Forall (fun x => x <? p = true) A -> Forall (fun x => x <? p = false) B ->
    exists A' B', fold_left (part_step p) (seq (List.length pre + List.length A + List.length B) (List.length rest))
                    (pre ++ A ++ B ++ rest ++ tail, (List.length pre + List.length A)%nat)
                  = (pre ++ A' ++ B' ++ tail, (List.length pre + List.length A')%nat)
      /\ Permutation (A ++ B ++ rest) (A' ++ B')
      /\ Forall (fun x => x <? p = true) A' /\ Forall (fun x => x <? p = false) B'.
  Proof.
    induction rest as [|x rest IH]; intros A B HA HB.
    - exists A, B. cbn [List.length seq fold_left app]. rewrite app_nil_r. auto.
    - cbn [List.length seq fold_left]. set (j := (List.length pre + List.length A + List.length B)%nat).
      assert (Hx : nth j (pre ++ A ++ B ++ (x :: rest) ++ tail) n0 = x).
      { replace (pre ++ A ++ B ++ (x :: rest) ++ tail) with ((pre ++ A ++ B) ++ x :: rest ++ tail)
          by (rewrite <- !app_assoc; reflexivity).
        replace j with (List.length (pre ++ A ++ B)) by (subst j; rewrite !app_length; lia).
        rewrite app_nth2 by lia. now rewrite Nat.sub_diag. }
      unfold part_step at 2. cbn [fst snd]. rewrite Hx. destruct (x <? p) eqn:Exp.
      + destruct B as [|b B].
        * subst j. cbn [List.length] in *. rewrite Nat.add_0_r, exch_same.
          destruct (IH (A ++ [x]) [] ) as (A' & B' & E & P & FA & FB);
            [apply Forall_app; split; [exact HA|now constructor]|constructor|].
          exists A', B'. rewrite app_length in E. cbn [List.length] in E. split; [|split; [|split; assumption]].
          -- rewrite <- E. f_equal; [f_equal; lia|]. f_equal; [|lia]. cbn [app]. rewrite <- !app_assoc. reflexivity.
          -- rewrite <- P. cbn [app]. rewrite <- !app_assoc. reflexivity.
        * assert (Eex : exch (List.length pre + List.length A) j (pre ++ A ++ (b :: B) ++ (x :: rest) ++ tail)
                    = pre ++ (A ++ [x]) ++ (B ++ [b]) ++ rest ++ tail).
          { replace (pre ++ A ++ (b :: B) ++ (x :: rest) ++ tail) with ((pre ++ A) ++ b :: B ++ x :: rest ++ tail)
              by (rewrite <- !app_assoc; reflexivity).
            replace (List.length pre + List.length A)%nat with (List.length (pre ++ A)) by (rewrite app_length; lia).
            replace j with (List.length (pre ++ A) + S (List.length B))%nat by (subst j; rewrite app_length; cbn; lia).
            rewrite exch_split. rewrite <- !app_assoc. reflexivity. }
          rewrite Eex. inversion HB as [|? ? Hb HB']; subst.
          destruct (IH (A ++ [x]) (B ++ [b])) as (A' & B' & E & P & FA & FB);
            [apply Forall_app; split; [exact HA|now constructor]|apply Forall_app; split; [exact HB'|now constructor]|].
          exists A', B'. rewrite !app_length in E. cbn [List.length] in E. split; [|split; [|split; assumption]].
          -- rewrite <- E. f_equal; [f_equal; subst j; cbn [List.length]; lia|f_equal; lia].
          -- rewrite <- P. rewrite <- !app_assoc. cbn [app]. apply Permutation_app_head.
             transitivity (x :: (b :: B) ++ rest); [symmetry; apply (Permutation_middle (b :: B))|].
             apply perm_skip. cbn [app]. apply Permutation_middle.
      + destruct (IH A (B ++ [x])) as (A' & B' & E & P & FA & FB);
          [exact HA|apply Forall_app; split; [exact HB|now constructor]|].
        exists A', B'. rewrite app_length in E. cbn [List.length] in E. split; [|split; [|split; assumption]].
        * rewrite <- E. f_equal; [f_equal; subst j; lia|]. rewrite <- !app_assoc. reflexivity.
        * rewrite <- P. rewrite <- !app_assoc. reflexivity.
  Qed.
  Lemma partition_spec pre body p post :
    exists A B, partition (pre ++ body ++ p :: post) (List.length pre) (List.length pre + List.length body)
      = (pre ++ A ++ p :: B ++ post, (List.length pre + List.length A)%nat)
      /\ Permutation body (A ++ B)
      /\ Forall (fun x => x <? p = true) A /\ Forall (fun x => x <? p = false) B.
  Proof.
    unfold partition.
    assert (Hp : nth (List.length pre + List.length body) (pre ++ body ++ p :: post) n0 = p).
    { rewrite app_assoc, <- app_length, app_nth2 by lia. now rewrite Nat.sub_diag. }
    rewrite Hp. replace (List.length pre + List.length body - List.length pre)%nat with (List.length body) by lia.
    destruct (part_loop p pre (p :: post) body [] []) as (A & B & E & P & FA & FB); [constructor|constructor|].
    cbn [List.length app] in E, P. rewrite !Nat.add_0_r in E. rewrite E.
    destruct B as [|b B].
    - exists A, []. rewrite app_nil_r in P. pose proof (Permutation_length P) as HL.
      rewrite HL, exch_same. cbn [app]. rewrite app_nil_r. auto.
    - exists A, (B ++ [b]).
      assert (HL : List.length body = (List.length A + S (List.length B))%nat).
      { rewrite (Permutation_length P), app_length. reflexivity. }
      split; [|split; [|split; [exact FA|]]].
      + f_equal. replace (pre ++ A ++ (b :: B) ++ p :: post) with ((pre ++ A) ++ b :: B ++ p :: post) by (rewrite <- !app_assoc; reflexivity).
        replace (List.length pre + List.length A)%nat with (List.length (pre ++ A)) by (rewrite app_length; lia).
        replace (List.length pre + List.length body)%nat with (List.length (pre ++ A) + S (List.length B))%nat by (rewrite app_length; lia).
        rewrite exch_split. rewrite <- !app_assoc. reflexivity.
      + rewrite P. apply Permutation_app_head. rewrite <- Permutation_cons_append. reflexivity.
      + inversion FB; subst. apply Forall_app. split; [assumption|now constructor].
  Qed.
  Lemma quick_sort_spec fuel : forall pre mid post : list N, (List.length mid < fuel)%nat ->
    exists mid', quick_sort fuel (pre ++ mid ++ post) (List.length pre) (List.length mid) = Some (pre ++ mid' ++ post)
      /\ Permutation mid mid' /\ ordered nlt mid'.
  Proof.
    induction fuel as [|fuel IH]; intros pre mid post Hf; [lia|]. cbn [quick_sort].
    destruct (Nat.leb_spec (List.length mid) 1) as [H1|H1].
    - exists mid. split; [reflexivity|]. split; [reflexivity|].
      destruct mid as [|x [|y mid]]; [constructor|repeat constructor|cbn in H1; lia].
    - destruct (exists_last (l := mid)) as (body & p & ->); [intros ->; cbn in H1; lia|].
      rewrite app_length in *. cbn [List.length] in *.
      replace (List.length pre + (List.length body + 1) - 1)%nat with (List.length pre + List.length body)%nat by lia.
      rewrite <- app_assoc. cbn [app].
      destruct (partition_spec pre body p post) as (A & B & E & P & FA & FB). rewrite E.
      pose proof (Permutation_length P) as HL. rewrite app_length in HL.
      replace (List.length pre + List.length A - List.length pre)%nat with (List.length A) by lia.
      destruct (IH pre A (p :: B ++ post)) as (A' & EA & PA & OA); [lia|]. rewrite EA.
      assert (HA' : List.length A' = List.length A) by (symmetry; now apply Permutation_length).
      replace (pre ++ A' ++ p :: B ++ post) with ((pre ++ A' ++ [p]) ++ B ++ post) by (rewrite <- !app_assoc; reflexivity).
      replace (S (List.length pre + List.length A)) with (List.length (pre ++ A' ++ [p])) by (rewrite !app_length; cbn; lia).
      replace (List.length pre + List.length body - (List.length pre + List.length A))%nat with (List.length B) by lia.
      destruct (IH (pre ++ A' ++ [p]) B post) as (B' & EB & PB & OB); [lia|]. rewrite EB.
      exists (A' ++ p :: B'). split; [rewrite <- !app_assoc; reflexivity|]. split.
      + rewrite P, PA, PB. rewrite <- app_assoc. apply Permutation_app_head. symmetry. apply Permutation_cons_append.
      + assert (FA' : Forall (fun x => x <? p = true) A') by (apply (Permutation_Forall PA); exact FA).
        assert (FB' : Forall (fun x => x <? p = false) B') by (apply (Permutation_Forall PB); exact FB).
        clear - OA OB FA' FB' L. unfold ordered in *. induction OA as [|a A' _ IHA HA]; cbn [app].
        * constructor; [exact OB|exact FB'].
        * inversion FA' as [|? ? Hap FA2]; subst. constructor; [now apply IHA|].
          apply Forall_app. split; [exact HA|]. constructor; [now apply (lt_asym L)|].
          rewrite Forall_forall in *. intros b Hb. destruct (b <? a) eqn:E; [|reflexivity].
          pose proof (lt_trans N L _ _ _ E Hap). specialize (FB' b Hb). congruence.
  Qed.
  Lemma sort_opt_go_sort : go_sort nlt (@sort_opt N).
  Proof.
    intros l. unfold sort_opt. destruct (quick_sort_spec (S (List.length l)) [] l []) as (m & E & P & O); [lia|].
    cbn [app List.length] in E. rewrite !app_nil_r in E. rewrite E. auto.
  Qed.
End Quick.
