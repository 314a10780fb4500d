From Coq Require Import List Arith ZArith Bool Reals Lra Lia Permutation Sorted.
From Verif Require Import Base.Num Base.GoRes Base.RTac Base.GoSort Model.Metrics Spec.Ranking Proofs.AucP Proofs.RegrP.
Import ListNotations.
Local Open Scope R_scope.

(** ** Rearrangement *)
Fixpoint fsum (w : nat -> R) (i : nat) (l : list R) : R :=
  match l with [] => 0 | x :: r => x * w i + fsum w (S i) r end.

Lemma fsum_front w : (forall i, w (S i) <= w i) -> forall l1 x l2 i,
  (forall y, In y l1 -> y <= x) -> fsum w i (l1 ++ x :: l2) <= fsum w i (x :: l1 ++ l2).
Proof.
  intros Hw l1. induction l1 as [|y l1 IH]; intros x l2 i Hx; cbn; [lra|].
  specialize (IH x l2 (S i) (fun z Hz => Hx z (or_intror Hz))). cbn in IH.
  assert (y <= x) by (apply Hx; now left). specialize (Hw i). nra.
Qed.

Definition desc (l : list R) : Prop := StronglySorted (fun a b => b <= a) l.

Lemma fsum_rearrange w : (forall i, w (S i) <= w i) -> forall s l i,
  Permutation l s -> desc s -> fsum w i l <= fsum w i s.
Proof.
  intros Hw s. induction s as [|x s IH]; intros l i Hp Hs.
  - apply Permutation_sym, Permutation_nil in Hp. subst. lra.
  - apply StronglySorted_inv in Hs as [Hs Hx]. rewrite Forall_forall in Hx.
    assert (Hin : In x l) by (apply Permutation_in with (l := x :: s); [now symmetry|now left]).
    apply in_split in Hin as (l1 & l2 & ->).
    assert (Hp' : Permutation (l1 ++ l2) s).
    { apply Permutation_cons_inv with x. rewrite <- Hp. apply Permutation_middle. }
    apply Rle_trans with (fsum w i (x :: l1 ++ l2)).
    + apply fsum_front; [exact Hw|]. intros y Hy. apply Hx.
      apply Permutation_in with (l := l1 ++ l2); [exact Hp'|]. apply in_or_app. now left.
    + cbn. specialize (IH (l1 ++ l2) (S i) Hp' Hs). lra.
Qed.

(** ** DCG *)
Lemma ln2_pos : 0 < ln 2.
Proof. rewrite <- ln_1. apply ln_increasing; lra. Qed.
Lemma discount_pos i : 0 < discount i.
Proof.
  unfold discount. apply Rdiv_lt_0_compat; [|exact ln2_pos].
  rewrite <- ln_1. apply ln_increasing; [lra|]. rewrite plus_INR. cbn [INR]. pose proof (pos_INR i). lra.
Qed.
Lemma discount_incr i : discount i <= discount (S i).
Proof.
  unfold discount. apply Rmult_le_compat_r; [left; apply Rinv_0_lt_compat, ln2_pos|].
  left. apply ln_increasing; rewrite !plus_INR, ?S_INR; cbn [INR]; pose proof (pos_INR i); lra.
Qed.
Lemma gain_pos r : 0 < r -> 0 < gain r.
Proof.
  intros H. unfold gain. assert (E : Rpower 2 0 < Rpower 2 r) by (apply Rpower_lt; lra).
  rewrite Rpower_O in E by lra. lra.
Qed.
Lemma gain_0 : gain 0 = 0.
Proof. unfold gain. rewrite Rpower_O; lra. Qed.
Lemma gain_nonneg r : 0 <= r -> 0 <= gain r.
Proof. intros [H|<-]; [left; now apply gain_pos|rewrite gain_0; lra]. Qed.
Lemma gain_mono a b : a <= b -> gain a <= gain b.
Proof.
  intros [H|<-]; [|lra]. unfold gain.
  assert (Rpower 2 a < Rpower 2 b) by (apply Rpower_lt; lra). lra.
Qed.

Lemma dcg_from_R i pairs k acc :
  @dcg_from RNum i pairs k acc = acc + dcg_spec i k (map snd pairs).
Proof.
  revert i pairs acc. induction k as [|k IH]; intros i pairs acc; [destruct pairs; cbn; lra|].
  destruct pairs as [|[s r] pairs]; [cbn; lra|].
  cbn [dcg_from map snd dcg_spec]. rewrite IH.
  unfold pow2, log2. rewrite nofnat_R, !nlit_R. cbn.
  replace (2 / 1) with 2 by lra. unfold gain, Rpower, discount.
  replace (r * ln 2) with (r * ln 2) by ring. lra.
Qed.
Lemma dcg_R pairs k : @dcg RNum pairs k = dcg_spec 0 k (map snd pairs).
Proof. unfold dcg. rewrite dcg_from_R. cbn. lra. Qed.

Definition trunc_w (n : nat) (i : nat) : R := if (i <? n)%nat then / discount i else 0.
Lemma trunc_w_incr n i : trunc_w n (S i) <= trunc_w n i.
Proof.
  unfold trunc_w. destruct (Nat.ltb_spec (S i) n), (Nat.ltb_spec i n); try lia; try lra.
  - apply Rinv_le_contravar; [apply discount_pos|apply discount_incr].
  - left. apply Rinv_0_lt_compat, discount_pos.
Qed.
Lemma dcg_spec_fsum k i rels :
  dcg_spec i k rels = fsum (trunc_w (i + k)) i (map gain rels).
Proof.
  revert k i. induction rels as [|r rels IH]; intros k i; [now destruct k|].
  destruct k as [|k].
  - cbn [dcg_spec map fsum]. rewrite <- (IH 0%nat (S i)) at 1 || idtac.
    assert (H : forall l j, (i <= j)%nat -> fsum (trunc_w (i + 0)) j l = 0).
    { induction l as [|x l IHl]; intros j Hj; cbn; [reflexivity|].
      rewrite IHl by lia. unfold trunc_w. destruct (Nat.ltb_spec j (i + 0)); [lia|lra]. }
    unfold trunc_w at 1. destruct (Nat.ltb_spec i (i + 0)); [lia|]. rewrite (H _ (S i)) by lia. lra.
  - cbn [dcg_spec map fsum]. rewrite IH. replace (S i + k)%nat with (i + S k)%nat by lia.
    unfold trunc_w at 2. destruct (Nat.ltb_spec i (i + S k)); [|lia]. unfold Rdiv. lra.
Qed.

Lemma dcg_spec_nonneg k i rels : (forall r, In r rels -> 0 <= r) -> 0 <= dcg_spec i k rels.
Proof.
  revert i rels. induction k as [|k IH]; intros i rels H; [cbn; lra|].
  destruct rels as [|r rels]; [cbn; lra|]. cbn.
  assert (0 <= gain r / discount i).
  { apply div_nonneg; [apply discount_pos|apply gain_nonneg, H; now left]. }
  assert (0 <= dcg_spec (S i) k rels) by (apply IH; intros; apply H; now right). lra.
Qed.

Lemma dcg_spec_ideal k i rels ideal : Permutation rels ideal -> desc ideal ->
  dcg_spec i k rels <= dcg_spec i k ideal.
Proof.
  intros Hp Hd. rewrite !dcg_spec_fsum. apply fsum_rearrange.
  - intros j. apply trunc_w_incr.
  - now apply Permutation_map.
  - clear Hp. unfold desc in *. induction Hd as [|x l Hd IH Hf]; cbn; constructor; [exact IH|].
    rewrite Forall_forall in *. intros y Hy. apply in_map_iff in Hy as (z & <- & Hz).
    apply gain_mono. auto.
Qed.

(** ** NDCG *)
Definition k_of (n : nat) (k : Z) : nat :=
  if (Z.eqb k (-1) || Z.ltb (Z.of_nat n) k)%bool then n else Z.to_nat k.

Lemma ndcg_ok (s1 s2 : list (R * R) -> list (R * R)) (t p : list R) (k : Z) :
  length t = length p -> t <> [] -> (forall r, In r t -> 0 <= r) -> (k = -1 \/ 0 < k)%Z ->
  @ndcg RNum s1 s2 (Some t) (Some p) k =
  Ok (let d := dcg_spec 0 (k_of (length t) k) (map snd (s1 (combine p t))) in
      let i := dcg_spec 0 (k_of (length t) k) (map snd (s2 (combine t t))) in
      if Reqb i 0 then 0 else d / i).
Proof.
  intros Hl Hne Hr Hk. unfold ndcg. rewrite (@checked_ok RNum) by assumption. cbn [bind].
  assert (E : ((k <=? 0)%Z && negb (k =? -1)%Z)%bool = false).
  { destruct Hk as [->|Hk]; [reflexivity|]. destruct (Z.leb_spec k 0); [lia|reflexivity]. }
  rewrite E.
  assert (E2 : existsb (fun r : RNum => nlt r n0) t = false).
  { apply not_true_is_false. intros H. apply existsb_exists in H as (r & Hin & H).
    specialize (Hr r Hin). cbn in H. rb. lra. }
  rewrite E2. rewrite !dcg_R. unR. fold (k_of (length t) k). cbn [neqb RNum n0 ndiv].
  cbv zeta. destruct (Reqb _ 0); reflexivity.
Qed.

Lemma k_of_pos n k : (0 < n)%nat -> (k = -1 \/ 0 < k)%Z -> (0 < k_of n k)%nat.
Proof.
  intros Hn Hk. unfold k_of. destruct (Z.eqb_spec k (-1)), (Z.ltb_spec (Z.of_nat n) k); cbn; lia.
Qed.

Lemma snd_combine {A B} (a : list A) (b : list B) : length a = length b -> map snd (combine a b) = b.
Proof.
  revert b; induction a as [|x a IH]; intros [|y b] H; try discriminate; [reflexivity|].
  cbn. now rewrite IH by (now injection H).
Qed.

Lemma rel_sorted_desc (s2 : list (R * R) -> list (R * R)) l :
  go_sort (@rel_desc RNum) s2 -> desc (map snd (s2 l)).
Proof.
  intros Hs. destruct (Hs l) as [_ Ho]. unfold ordered in Ho. unfold desc.
  induction Ho as [|x r Ho IH Hf]; cbn; constructor; [exact IH|].
  rewrite Forall_forall in *. intros y Hy. apply in_map_iff in Hy as (z & <- & Hz).
  specialize (Hf z Hz). unfold rel_desc in Hf. cbn in Hf. rb. exact Hf.
Qed.

Lemma ideal_pos k t ideal : (0 < k)%nat -> Permutation t ideal -> desc ideal ->
  (forall r, In r t -> 0 <= r) -> (exists r, In r t /\ 0 < r) -> 0 < dcg_spec 0 k ideal.
Proof.
  intros Hk Hp Hd Hnn (r & Hr & Hpos). destruct k as [|k]; [lia|].
  destruct ideal as [|x ideal].
  - apply Permutation_sym, Permutation_nil in Hp. subst. easy.
  - apply StronglySorted_inv in Hd as [_ Hf]. rewrite Forall_forall in Hf.
    assert (Hx : 0 < x).
    { apply Permutation_in with (l' := x :: ideal) in Hr; [|exact Hp].
      destruct Hr as [->|Hr]; [exact Hpos|]. specialize (Hf r Hr). lra. }
    cbn [dcg_spec].
    assert (0 < gain x / discount 0) by (apply Rdiv_lt_0_compat; [now apply gain_pos|apply discount_pos]).
    assert (0 <= dcg_spec 1 k ideal).
    { apply dcg_spec_nonneg. intros y Hy. apply Hnn. apply Permutation_in with (l := x :: ideal);
        [now symmetry|now right]. }
    lra.
Qed.

Lemma ndcg_range (s1 s2 : list (R * R) -> list (R * R)) (t p : list R) (k : Z) :
  go_sort (@score_desc RNum) s1 -> go_sort (@rel_desc RNum) s2 ->
  length t = length p -> t <> [] -> (forall r, In r t -> 0 <= r) -> (k = -1 \/ 0 < k)%Z ->
  exists v, @ndcg RNum s1 s2 (Some t) (Some p) k = Ok v /\ 0 <= v <= 1.
Proof.
  intros Hs1 Hs2 Hl Hne Hr Hk. rewrite ndcg_ok by assumption. cbv zeta.
  eexists; split; [reflexivity|].
  set (kk := k_of (length t) k).
  destruct (Hs1 (combine p t)) as [Hp1 _]. destruct (Hs2 (combine t t)) as [Hp2 _]. unR.
  apply (Permutation_map snd) in Hp1, Hp2.
  rewrite snd_combine in Hp1, Hp2 by easy.
  pose proof (rel_sorted_desc s2 (combine t t) Hs2) as Hd.
  set (d := dcg_spec 0 kk (map snd (s1 (combine p t)))).
  set (i := dcg_spec 0 kk (map snd (s2 (combine t t)))).
  assert (Hdi : d <= i).
  { apply dcg_spec_ideal; [|exact Hd]. transitivity t; [now symmetry|exact Hp2]. }
  assert (Hd0 : 0 <= d).
  { apply dcg_spec_nonneg. intros r Hin. apply Hr. apply Permutation_in with (1 := Permutation_sym Hp1). exact Hin. }
  destruct (Reqb_spec i 0) as [E|E]; [lra|].
  assert (0 < i) by lra. split; [now apply div_nonneg|].
  apply Rmult_le_reg_r with i; [assumption|]. unfold Rdiv. rewrite Rmult_assoc, Rinv_l by lra. lra.
Qed.

Lemma desc_perm_eq a b : Permutation a b -> desc a -> desc b -> a = b.
Proof.
  revert b. induction a as [|x a IH]; intros b Hp Ha Hb.
  - apply Permutation_nil in Hp. now subst.
  - destruct b as [|y b]; [symmetry in Hp; now apply Permutation_nil in Hp|].
    apply StronglySorted_inv in Ha as [Ha Hfa]. apply StronglySorted_inv in Hb as [Hb Hfb].
    rewrite Forall_forall in Hfa, Hfb.
    assert (E : x = y).
    { assert (H1 : In x (y :: b)) by (apply Permutation_in with (1 := Hp); now left).
      assert (H2 : In y (x :: a)) by (apply Permutation_in with (1 := Permutation_sym Hp); now left).
      destruct H1 as [->|H1]; [reflexivity|]. destruct H2 as [->|H2]; [reflexivity|].
      specialize (Hfa y H2). specialize (Hfb x H1). lra. }
    subst y. f_equal. apply IH; try assumption. now apply Permutation_cons_inv in Hp.
Qed.

Lemma ndcg_ideal (s1 s2 : list (R * R) -> list (R * R)) (t p : list R) (k : Z) :
  go_sort (@score_desc RNum) s1 -> go_sort (@rel_desc RNum) s2 ->
  length t = length p -> t <> [] -> (forall r, In r t -> 0 <= r) -> (k = -1 \/ 0 < k)%Z ->
  (exists r, In r t /\ 0 < r) ->
  (forall a b, In a (combine p t) -> In b (combine p t) -> snd b < snd a -> fst b < fst a) ->
  @ndcg RNum s1 s2 (Some t) (Some p) k = Ok 1.
Proof.
  intros Hs1 Hs2 Hl Hne Hr Hk Hex Hcons. rewrite ndcg_ok by assumption. cbv zeta.
  set (kk := k_of (length t) k).
  destruct (Hs1 (combine p t)) as [Hp1 Ho1]. destruct (Hs2 (combine t t)) as [Hp2 _]. unR.
  assert (Hd1 : desc (map snd (s1 (combine p t)))).
  { assert (Hin : forall a, In a (s1 (combine p t)) -> In a (combine p t))
      by (intros a Ha; apply Permutation_in with (1 := Permutation_sym Hp1); exact Ha).
    revert Ho1 Hin. generalize (s1 (combine p t)) as l. unfold ordered, desc. intros l Ho.
    induction Ho as [|x r Ho IH Hf]; intros Hin; cbn; constructor.
    - apply IH. intros a Ha. apply Hin. now right.
    - rewrite Forall_forall in *. intros y Hy. apply in_map_iff in Hy as (z & <- & Hz).
      specialize (Hf z Hz). unfold score_desc in Hf. cbn in Hf. rb.
      destruct (Rle_lt_dec (snd z) (snd x)) as [H|H]; [exact H|].
      specialize (Hcons z x (Hin z (or_intror Hz)) (Hin x (or_introl eq_refl)) H). cbn in *. lra. }
  apply (Permutation_map snd) in Hp1, Hp2.
  rewrite snd_combine in Hp1, Hp2 by easy.
  pose proof (rel_sorted_desc s2 (combine t t) Hs2) as Hd.
  rewrite (desc_perm_eq (map snd (s1 (combine p t))) (map snd (s2 (combine t t)))); try assumption.
  2:{ transitivity t; [now symmetry|exact Hp2]. }
  assert (0 < dcg_spec 0 kk (map snd (s2 (combine t t)))).
  { apply ideal_pos with (t := t); try assumption. apply k_of_pos; [|exact Hk].
    destruct t; [easy|cbn; lia]. }
  destruct (Reqb_spec (dcg_spec 0 kk (map snd (s2 (combine t t)))) 0) as [E|E]; [lra|].
  f_equal. field. exact E.
Qed.

Lemma ndcg_zero (s1 s2 : list (R * R) -> list (R * R)) (t p : list R) (k : Z) :
  go_sort (@rel_desc RNum) s2 ->
  length t = length p -> t <> [] -> (forall r, In r t -> r = 0) -> (k = -1 \/ 0 < k)%Z ->
  @ndcg RNum s1 s2 (Some t) (Some p) k = Ok 0.
Proof.
  intros Hs2 Hl Hne Hr Hk. rewrite ndcg_ok; try assumption.
  2:{ intros r Hin. rewrite (Hr r Hin). lra. }
  cbv zeta. destruct (Hs2 (combine t t)) as [Hp2 _]. unR.
  apply (Permutation_map snd) in Hp2. rewrite snd_combine in Hp2 by easy.
  assert (E : forall l i k, (forall r, In r l -> r = 0) -> dcg_spec i k l = 0).
  { clear. induction l as [|x l IH]; intros i [|k] H; cbn; try reflexivity.
    rewrite IH by (intros; apply H; now right). rewrite (H x) by now left. rewrite gain_0. unfold Rdiv; lra. }
  rewrite (E (map snd (s2 (combine t t)))).
  - destruct (Reqb_spec 0 0); [reflexivity|easy].
  - intros r Hin. apply Hr. apply Permutation_in with (1 := Permutation_sym Hp2). exact Hin.
Qed.

(** ** Average precision *)
Fixpoint ap_sum (i h : nat) (rels : list R) : R :=
  match rels with
  | [] => 0
  | r :: rest =>
      if Reqb r 1 then INR (S h) / INR (i + 1) + ap_sum (S i) (S h) rest
      else ap_sum (S i) h rest
  end.
Lemma ap_loop_R i h pairs acc : @ap_loop RNum i h pairs acc = acc + ap_sum i h (map snd pairs).
Proof.
  revert i h acc. induction pairs as [|[s r] pairs IH]; intros i h acc; [cbn; lra|].
  cbn [ap_loop map snd ap_sum neqb n1 RNum]. rewrite !nofnat_R.
  destruct (Reqb r 1); rewrite IH; [cbn [nadd ndiv RNum]; lra|reflexivity].
Qed.

Notation cnt l := (length (filter is_rel l)).

(** Agreement with the position-wise specification. *)
Lemma ap_sum_spec pre rels :
  ap_sum (length pre) (cnt pre) rels =
  Rsum (map (precision_at (pre ++ rels))
    (filter (fun i => is_rel (nth i (pre ++ rels) 0)) (seq (length pre) (length rels)))).
Proof.
  revert pre. induction rels as [|r rels IH]; intros pre; [reflexivity|].
  cbn [ap_sum length seq filter]. rewrite app_nth2, Nat.sub_diag by lia. cbn [nth].
  specialize (IH (pre ++ [r])). rewrite app_length, filter_app, app_length in IH.
  cbn [length filter] in IH. rewrite <- app_assoc in IH. cbn [app] in IH.
  replace (length pre + 1)%nat with (S (length pre)) in IH by lia.
  change (Reqb r 1) with (is_rel r).
  destruct (is_rel r) eqn:E.
  - cbn [map Rsum length] in *. rewrite !Nat.add_1_r in *. rewrite IH. f_equal.
    unfold precision_at. f_equal. f_equal.
    rewrite firstn_app. rewrite firstn_all2 by lia.
    replace (S (length pre) - length pre)%nat with 1%nat by lia. cbn [firstn].
    rewrite filter_app, app_length. cbn [filter]. rewrite E. cbn. lia.
  - cbn [length] in IH. rewrite Nat.add_0_r in IH. exact IH.
Qed.

Lemma INR_div_le1 a b : (a <= b)%nat -> (0 < b)%nat -> INR a / INR b <= 1.
Proof.
  intros H Hb. assert (0 < INR b) by now apply lt_0_INR. apply le_INR in H.
  apply Rmult_le_reg_r with (INR b); [assumption|]. unfold Rdiv. rewrite Rmult_assoc, Rinv_l by lra. lra.
Qed.
Lemma INR_div_lt1 a b : (a < b)%nat -> INR a / INR b < 1.
Proof.
  intros H. assert (0 < INR b) by (apply lt_0_INR; lia). apply lt_INR in H.
  apply Rmult_lt_reg_r with (INR b); [assumption|]. unfold Rdiv. rewrite Rmult_assoc, Rinv_l by lra. lra.
Qed.

Lemma ap_sum_le rels : forall i h, (h <= i)%nat -> 0 <= ap_sum i h rels <= INR (cnt rels).
Proof.
  induction rels as [|r rels IH]; intros i h Hh; [cbn; lra|].
  cbn [ap_sum filter]. change (Reqb r 1) with (is_rel r). destruct (is_rel r).
  - cbn [length]. rewrite (S_INR (cnt rels)).
    assert (INR (S h) / INR (i + 1) <= 1) by (apply INR_div_le1; lia).
    assert (0 <= INR (S h) / INR (i + 1)) by (apply div_nonneg; [apply lt_0_INR; lia|apply pos_INR]).
    assert (0 <= ap_sum (S i) (S h) rels <= INR (cnt rels)) by (apply IH; lia). lra.
  - apply IH. lia.
Qed.
Lemma ap_sum_lt rels : forall i h, (h < i)%nat -> (0 < cnt rels)%nat -> ap_sum i h rels < INR (cnt rels).
Proof.
  induction rels as [|r rels IH]; intros i h Hh Hc; [cbn in Hc; lia|].
  cbn [ap_sum filter] in *. change (Reqb r 1) with (is_rel r). destruct (is_rel r).
  - cbn [length]. rewrite (S_INR (cnt rels)).
    assert (INR (S h) / INR (i + 1) < 1) by (apply INR_div_lt1; lia).
    assert (0 <= ap_sum (S i) (S h) rels <= INR (cnt rels)) by (apply ap_sum_le; lia). lra.
  - apply IH; [lia|exact Hc].
Qed.

(** Relevant items first. *)
Definition ones_first (rels : list R) : Prop :=
  forall a b, (exists l1 l2 l3, rels = l1 ++ a :: l2 ++ b :: l3) -> is_rel b = true -> is_rel a = true.

Lemma ones_first_tail r rels : ones_first (r :: rels) -> ones_first rels.
Proof.
  intros H a b (l1 & l2 & l3 & ->) Hb. apply (H a b); [|exact Hb].
  exists (r :: l1), l2, l3. reflexivity.
Qed.
Lemma cnt_pos_in rels : (0 < cnt rels)%nat -> exists l2 b l3, rels = l2 ++ b :: l3 /\ is_rel b = true.
Proof.
  intros H. destruct (filter is_rel rels) as [|b r] eqn:E; [cbn in H; lia|].
  assert (Hin : In b (filter is_rel rels)) by (rewrite E; now left).
  apply filter_In in Hin as [Hin Hb]. apply in_split in Hin as (l2 & l3 & ->). eauto.
Qed.

Lemma ap_sum_eq rels : forall i, ap_sum i i rels = INR (cnt rels) <-> ones_first rels.
Proof.
  induction rels as [|r rels IH]; intros i.
  - cbn. split; [|reflexivity]. intros _ a b (l1 & l2 & l3 & E) _. destruct l1; discriminate.
  - cbn [ap_sum filter]. change (Reqb r 1) with (is_rel r). destruct (is_rel r) eqn:E.
    + cbn [length]. rewrite (S_INR (cnt rels)). replace (i + 1)%nat with (S i) by lia.
      assert (E1 : INR (S i) / INR (S i) = 1) by (field; apply not_0_INR; lia). rewrite E1.
      specialize (IH (S i)). split.
      * intros H. assert (H' : ap_sum (S i) (S i) rels = INR (cnt rels)) by lra.
        apply IH in H'. intros a b (l1 & l2 & l3 & Eq) Hb. destruct l1 as [|x l1].
        -- injection Eq as <- _. exact E.
        -- injection Eq as <- Eq. apply (H' a b); [|exact Hb]. now exists l1, l2, l3.
      * intros H. apply ones_first_tail in H. apply IH in H. lra.
    + destruct (Nat.eq_dec (cnt rels) 0) as [Hz|Hz].
      * rewrite Hz. split.
        -- intros _ a b (l1 & l2 & l3 & Eq) Hb. exfalso.
           assert (Hin : In b (filter is_rel (r :: rels))).
           { apply filter_In. split; [|exact Hb]. rewrite Eq. apply in_or_app. right. right.
             apply in_or_app. right. now left. }
           cbn [filter] in Hin. rewrite E in Hin.
           apply length_zero_iff_nil in Hz. rewrite Hz in Hin. easy.
        -- intros _. pose proof (ap_sum_le rels (S i) i). rewrite Hz in H. cbn in H.
           cbn. assert (0 <= ap_sum (S i) i rels <= 0) by (apply H; lia). lra.
      * split; intros H.
        -- assert (ap_sum (S i) i rels < INR (cnt rels)) by (apply ap_sum_lt; lia). lra.
        -- exfalso. destruct (cnt_pos_in rels) as (l2 & b & l3 & -> & Hb); [lia|].
           assert (Hr : is_rel r = true) by (apply (H r b); [now exists [], l2, l3|exact Hb]).
           congruence.
Qed.

Lemma ap_ok (s : list (R * R) -> list (R * R)) (t p : list R) :
  length t = length p -> t <> [] -> (forall y, In y t -> y = 0 \/ y = 1) ->
  @average_precision RNum s (Some t) (Some p) =
  Ok (if (cnt t =? 0)%nat then 0 else ap_sum 0 0 (map snd (s (combine p t))) / INR (cnt t)).
Proof.
  intros Hl Hne Hb. unfold average_precision. rewrite (@checked_ok RNum) by assumption. cbn [bind].
  apply all_binary_R in Hb. rewrite Hb. cbn [negb].
  rewrite ap_loop_R, nofnat_R. unR.
  change (fun v : R => @neqb RNum v (@n1 RNum)) with is_rel.
  destruct (cnt t =? 0)%nat; [reflexivity|]. cbn. f_equal. f_equal. lra.
Qed.

Lemma ap_value (s : list (R * R) -> list (R * R)) (t p : list R) :
  go_sort (@score_desc RNum) s ->
  length t = length p -> t <> [] -> (forall y, In y t -> y = 0 \/ y = 1) -> In 1 t ->
  @average_precision RNum s (Some t) (Some p) = Ok (ap_spec (map snd (s (combine p t)))).
Proof.
  intros Hs Hl Hne Hb H1. rewrite ap_ok by assumption.
  destruct (Nat.eqb_spec (cnt t) 0) as [E|E].
  { exfalso. apply length_zero_iff_nil in E.
    assert (Hin : In 1 (filter is_rel t)) by (apply filter_In; split; [exact H1|now apply Reqb_true]).
    rewrite E in Hin. easy. }
  destruct (Hs (combine p t)) as [Hp _]. unR. apply (Permutation_map snd) in Hp.
  rewrite snd_combine in Hp by easy. unfold ap_spec.
  rewrite <- (Permutation_length (filter_perm is_rel _ _ Hp)).
  pose proof (ap_sum_spec [] (map snd (s (combine p t)))) as H. cbn [length filter app] in H.
  now rewrite H.
Qed.

Lemma ap_range (s : list (R * R) -> list (R * R)) (t p : list R) :
  go_sort (@score_desc RNum) s ->
  length t = length p -> t <> [] -> (forall y, In y t -> y = 0 \/ y = 1) ->
  exists v, @average_precision RNum s (Some t) (Some p) = Ok v /\ 0 <= v <= 1.
Proof.
  intros Hs Hl Hne Hb. rewrite ap_ok by assumption. eexists; split; [reflexivity|].
  destruct (Nat.eqb_spec (cnt t) 0) as [E|E]; [lra|].
  destruct (Hs (combine p t)) as [Hp _]. unR. apply (Permutation_map snd) in Hp.
  rewrite snd_combine in Hp by easy.
  rewrite (Permutation_length (filter_perm is_rel _ _ Hp)) in *.
  set (l := map snd (s (combine p t))) in *.
  pose proof (ap_sum_le l 0 0 (le_n 0)) as [H1 H2].
  assert (0 < INR (cnt l)) by (apply lt_0_INR; lia). split; [now apply div_nonneg|].
  apply Rmult_le_reg_r with (INR (cnt l)); [assumption|].
  unfold Rdiv. rewrite Rmult_assoc, Rinv_l by lra. lra.
Qed.

Lemma ap_one_iff (s : list (R * R) -> list (R * R)) (t p : list R) :
  go_sort (@score_desc RNum) s ->
  length t = length p -> t <> [] -> (forall y, In y t -> y = 0 \/ y = 1) -> In 1 t ->
  (@average_precision RNum s (Some t) (Some p) = Ok 1 <-> ones_first (map snd (s (combine p t)))).
Proof.
  intros Hs Hl Hne Hb H1. rewrite ap_ok by assumption.
  destruct (Nat.eqb_spec (cnt t) 0) as [E|E].
  { exfalso. apply length_zero_iff_nil in E.
    assert (Hin : In 1 (filter is_rel t)) by (apply filter_In; split; [exact H1|now apply Reqb_true]).
    rewrite E in Hin. easy. }
  destruct (Hs (combine p t)) as [Hp _]. unR. apply (Permutation_map snd) in Hp.
  rewrite snd_combine in Hp by easy.
  rewrite (Permutation_length (filter_perm is_rel _ _ Hp)) in *.
  set (l := map snd (s (combine p t))) in *.
  assert (0 < INR (cnt l)) by (apply lt_0_INR; lia).
  rewrite <- (ap_sum_eq l 0). split.
  - intros H'. injection H' as H'. apply Rmult_eq_reg_r with (/ INR (cnt l)); [|apply Rinv_neq_0_compat; lra].
    rewrite Rinv_r by lra. exact H'.
  - intros ->. f_equal. field. lra.
Qed.

(** A sort that breaks ties in favour of smaller labels. *)
Definition less2 (a b : R * R) : bool :=
  Rltb (fst b) (fst a) || (Reqb (fst a) (fst b) && Rltb (snd a) (snd b)).
Lemma less2_true a b : less2 a b = true <-> fst b < fst a \/ (fst a = fst b /\ snd a < snd b).
Proof. unfold less2. rewrite orb_true_iff, andb_true_iff, !Rltb_true, Reqb_true. tauto. Qed.
Lemma less2_false a b : less2 a b = false <-> fst a <= fst b /\ (fst a = fst b -> snd b <= snd a).
Proof.
  rewrite <- not_true_iff_false, less2_true. split.
  - intros H. split; [destruct (Rle_lt_dec (fst a) (fst b)); tauto|].
    intros E. destruct (Rle_lt_dec (snd b) (snd a)); tauto.
  - intros [H1 H2] [H|[E H]]; [lra|]. specialize (H2 E). lra.
Qed.
Lemma less2_asym : asym less2.
Proof. intros a b H. apply less2_true in H. apply less2_false. destruct H as [H|[E H]]; split; intros; lra. Qed.
Lemma less2_negtrans : negtrans less2.
Proof.
  intros a b c H1 H2. apply less2_false in H1 as [H1 H1']. apply less2_false in H2 as [H2 H2'].
  apply less2_false. split; [lra|]. intros E. assert (fst a = fst b) by lra. assert (fst b = fst c) by lra.
  specialize (H1' H). specialize (H2' H0). lra.
Qed.

Lemma ordered_weaken {A} (l1 l2 : A -> A -> bool) l :
  (forall a b, l1 a b = false -> l2 a b = false) -> ordered l1 l -> ordered l2 l.
Proof.
  intros H Ho. unfold ordered in *. induction Ho as [|x r Ho IH Hf]; constructor; [exact IH|].
  rewrite Forall_forall in *. auto.
Qed.

Lemma tie_sort_ok : go_sort (@score_desc RNum) (isort less2).
Proof.
  intros l. split; [apply isort_perm|]. apply (ordered_weaken less2).
  - intros a b H. apply less2_false in H as [H _]. unfold score_desc. cbn. now apply Rltb_false.
  - apply isort_ordered; [exact less2_asym|exact less2_negtrans].
Qed.

Lemma ordered_before {A} (less : A -> A -> bool) l a b l1 l2 l3 :
  ordered less l -> l = l1 ++ a :: l2 ++ b :: l3 -> less b a = false.
Proof.
  intros Ho ->. unfold ordered in Ho. induction l1 as [|x l1 IH]; cbn in Ho.
  - apply StronglySorted_inv in Ho as [_ Hf]. rewrite Forall_forall in Hf. apply Hf.
    apply in_or_app. right. now left.
  - apply StronglySorted_inv in Ho as [Ho _]. auto.
Qed.

Lemma map_split {A B} (g : A -> B) l k1 y k2 : map g l = k1 ++ y :: k2 ->
  exists l1 x l2, l = l1 ++ x :: l2 /\ map g l1 = k1 /\ g x = y /\ map g l2 = k2.
Proof.
  revert l. induction k1 as [|z k1 IH]; intros [|x l] E; try discriminate; cbn in E.
  - injection E as E1 E2. exists [], x, l. auto.
  - injection E as E1 E2. destruct (IH l E2) as (l1 & w & l2 & -> & <- & <- & <-).
    exists (x :: l1), w, l2. cbn. now rewrite E1.
Qed.

Lemma two_orders {A} (l : list A) a b : In a l -> In b l -> a <> b ->
  (exists l1 l2 l3, l = l1 ++ a :: l2 ++ b :: l3) \/ (exists l1 l2 l3, l = l1 ++ b :: l2 ++ a :: l3).
Proof.
  intros Ha Hb Hn. apply in_split in Ha as (l1 & l2 & ->).
  apply in_app_iff in Hb as [Hb|[Hb|Hb]]; [|congruence|].
  - apply in_split in Hb as (m1 & m2 & ->). right. exists m1, m2, l2. now rewrite <- app_assoc.
  - apply in_split in Hb as (m1 & m2 & ->). left. eauto.
Qed.

Lemma ap_separated (t p : list R) :
  length t = length p -> t <> [] -> (forall y, In y t -> y = 0 \/ y = 1) -> In 1 t ->
  ((forall s, go_sort (@score_desc RNum) s -> @average_precision RNum s (Some t) (Some p) = Ok 1)
   <-> separated (combine p t)).
Proof.
  intros Hl Hne Hb H1. split.
  - intros H. specialize (H _ tie_sort_ok).
    apply (ap_one_iff _ t p tie_sort_ok Hl Hne Hb H1) in H.
    intros a b Ha Hb' La Lb. destruct (Rlt_le_dec (fst b) (fst a)) as [Hlt|Hle]; [exact Hlt|exfalso].
    assert (Ho : ordered less2 (isort less2 (combine p t)))
      by (apply isort_ordered; [exact less2_asym|exact less2_negtrans]).
    assert (Ha' : In a (isort less2 (combine p t))) by (apply Permutation_in with (1 := isort_perm less2 _); exact Ha).
    assert (Hb'' : In b (isort less2 (combine p t))) by (apply Permutation_in with (1 := isort_perm less2 _); exact Hb').
    assert (Hn : a <> b) by (intros ->; lra).
    destruct (two_orders _ a b Ha' Hb'' Hn) as [(l1 & l2 & l3 & E)|(l1 & l2 & l3 & E)].
    + pose proof (ordered_before _ _ _ _ _ _ _ Ho E) as Hf. apply less2_false in Hf as [Hf1 Hf2].
      assert (fst b = fst a) by lra. specialize (Hf2 H0). lra.
    + unR. rewrite E in H.
      assert (Hr : is_rel (snd b) = true).
      { apply (H (snd b) (snd a)).
        - exists (map snd l1), (map snd l2), (map snd l3). rewrite map_app. cbn. now rewrite map_app.
        - rewrite La. now apply Reqb_true. }
      unfold is_rel in Hr. rb. lra.
  - intros Hsep s Hs. apply ap_one_iff; try assumption.
    intros ra rb0 (l1 & l2 & l3 & E) Hrb.
    destruct (Hs (combine p t)) as [Hp Ho]. unR.
    apply map_split in E as (m1 & a & m23 & E & <- & <- & E').
    apply map_split in E' as (m2 & b & m3 & -> & <- & <- & <-).
    pose proof (ordered_before _ _ _ _ _ _ _ Ho E) as Hlt. unfold score_desc in Hlt. cbn in Hlt. rb.
    assert (Ha : In a (combine p t)).
    { apply Permutation_in with (1 := Permutation_sym Hp). rewrite E. apply in_or_app. right. now left. }
    assert (Hb2 : In b (combine p t)).
    { apply Permutation_in with (1 := Permutation_sym Hp). rewrite E. apply in_or_app. right. right.
      apply in_or_app. right. now left. }
    unfold is_rel in *. rb. apply Reqb_true.
    assert (Hla : snd a = 0 \/ snd a = 1).
    { apply Hb. apply (in_combine_r p t (fst a)). now destruct a. }
    destruct Hla as [Hla|Hla]; [|exact Hla].
    specialize (Hsep b a Hb2 Ha Hrb Hla). lra.
Qed.

(** ** MAP *)
Lemma map_loop_ok (s : list (R * R) -> list (R * R)) qs vs acc :
  Forall2 (fun q v => @average_precision RNum s (fst q) (snd q) = Ok v) qs vs ->
  @map_loop RNum s qs acc = Ok (acc + Rsum vs).
Proof.
  intros H. revert acc. induction H as [|[t p] v qs vs Hq _ IH]; intros acc; cbn.
  - f_equal. lra.
  - cbn in Hq. rewrite Hq. rewrite IH. f_equal. cbn. lra.
Qed.
