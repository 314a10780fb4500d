(** C45, C48, C50, C81-C85 - sampling, leaf outputs, tree growth and the boosting loop of
    sklearn/lightgbm. *)
From Coq Require Import String List Arith ZArith Bool Lia Permutation Reals Lra Sorted.
From Verif Require Import Base.Num Base.GoRes Base.ListX Base.RTac Base.FTac Base.GoSort Spec.Order
  Model.LgbTransform Model.LgbTree Model.LgbHist Model.LgbTrain Model.LgbObjective
  Spec.LgbTransform Spec.LgbTree Spec.LgbHist Spec.LgbSplit Spec.LgbTrain
  Proofs.OrderP Proofs.LgbTransformP Proofs.LgbTreeP Proofs.LgbArrayP Proofs.LgbHistP Proofs.LgbSplitP Proofs.LgbTrainP Proofs.LgbBoostP Props.LgbHistProps.
Import ListNotations.
Local Open Scope string_scope.
Local Open Scope list_scope.

(** ** C45.  Leaf outputs *)

(** The output is the only minimiser of the penalised second-order objective. *)
Theorem C45_optimal : forall l1 l2 sg sh w : R, (0 <= l1)%R -> (0 < sh + l2 + 1 / 10000000000)%R ->
  w <> @leaf_reg RNum l1 l2 sg sh ->
  (leaf_objective l1 l2 sg sh (@leaf_reg RNum l1 l2 sg sh) < leaf_objective l1 l2 sg sh w)%R.
Proof. exact leaf_reg_optimal. Qed.
(** The gain of the regulariser is the decrease of the minimal objective. *)
Theorem C45_gain : forall l1 l2 lg lh rg rh : R, (0 <= l1)%R -> (0 <= l2)%R -> (0 <= lh)%R -> (0 <= rh)%R ->
  let best sg sh := leaf_objective l1 l2 sg sh (@leaf_reg RNum l1 l2 sg sh) in
  @split_gain RNum l1 l2 lg lh rg rh (lg + rg)%R (lh + rh)%R
  = (best (lg + rg) (lh + rh) - (best lg lh + best rg rh))%R.
Proof.
  intros l1 l2 lg lh rg rh H1 H2 H3 H4 best. unfold split_gain. rewrite !node_score_R by lra. unfold best.
  match goal with |- @eq _ ?a ?b => change (@eq R a b) end. cbn [RNum nadd nsub]. lra.
Qed.
Example C45_example : @leaf_reg RNum 1%R 1%R 3%R 1%R = (- 2 / (1 + 1 + 1 / 10000000000))%R.
Proof.
  rewrite leaf_reg_R. cbn zeta. replace (Rltb 0 1) with true by (symmetry; apply Rltb_true; lra).
  replace (Rltb 1 3) with true by (symmetry; apply Rltb_true; lra). replace (3 - 1)%R with 2%R by lra. reflexivity.
Qed.

(** ** C50.  Sampling without replacement *)

(** The number of rows or features taken: the integer part of the fraction, at least 1 and
    at most all. *)
Lemma sample_count_R (toint : R -> Z) n fraction : truncates toint -> (0 <= fraction)%R -> 0 < n ->
  let k := @sample_count RNum toint n fraction in
  1 <= k <= n /\ (k < n -> 1 < k -> (INR k <= INR n * fraction < INR k + 1)%R)
  /\ ((INR n * fraction < 1)%R -> k = 1) /\ ((INR n <= INR n * fraction)%R -> k = n).
Proof.
  intros Ht Hf Hn k. unfold k, sample_count. rewrite nofnat_R. cbn [RNum nmul]. clear k.
  assert (Hx : (0 <= INR n * fraction)%R) by (apply Rmult_le_pos; [apply pos_INR|exact Hf]).
  destruct (Ht _ Hx) as [T1 T2]. set (z := toint (INR n * fraction)%R) in *. clearbody z. rewrite !(INR_IZR_INZ n) in *.
  assert (Hz : (0 <= z)%Z).
  { apply Z.lt_succ_r. apply lt_IZR. rewrite succ_IZR. lra. }
  destruct (Z.ltb_spec z 1) as [L|L].
  - destruct (Z.ltb_spec (Z.of_nat n) 1); [lia|]. cbn [Z.to_nat Pos.to_nat Pos.iter_op]. split; [lia|]. split; [lia|]. split; [reflexivity|].
    intros Hc. assert (z = 0)%Z by lia. subst z. assert (1 <= IZR (Z.of_nat n))%R by (apply IZR_le; lia). lra.
  - destruct (Z.ltb_spec (Z.of_nat n) z) as [L2|L2].
    + split; [lia|]. split; [lia|]. split; [|reflexivity]. intros Hc. assert (1 <= IZR z)%R by (apply IZR_le; lia). lra.
    + split; [lia|]. rewrite (INR_IZR_INZ (Z.to_nat z)), Z2Nat.id by lia. split; [intros _ _; lra|]. split.
      * intros Hc. assert (1 <= IZR z)%R by (apply IZR_le; lia). lra.
      * intros Hc. assert (IZR (Z.of_nat n) < IZR (z + 1))%R by (rewrite plus_IZR; lra). apply lt_IZR in H. lia.
Qed.
Lemma draw_selection {St} (toint : R -> Z) (intn : nat -> St -> nat * St) n fraction g : truncates toint -> (0 <= fraction)%R -> 0 < n ->
  selection (seq 0 n) (@sample_count RNum toint n fraction) (fst (@draw RNum toint St intn n fraction g)).
Proof.
  intros Ht Hf Hn. unfold draw.
  destruct (fisher intn n 0 (@sample_count RNum toint n fraction) (seq 0 n) g) as [l g'] eqn:E. cbn [fst].
  replace l with (fst (fisher intn n 0 (@sample_count RNum toint n fraction) (seq 0 n) g)) by now rewrite E.
  apply fisher_selection; [apply seq_NoDup|]. rewrite seq_length. apply sample_count_R; assumption.
Qed.
Theorem C50_features : forall (St : Type) (toint : R -> Z) (intn : nat -> St -> nat * St) (fraction : R) n (g : St),
  truncates toint -> 0 < n ->
  let l := fst (@sample_features RNum toint St intn fraction n g) in
  (l = seq 0 n /\ (fraction <= 0 \/ 1 <= fraction)%R)
  \/ (0 < fraction < 1)%R /\ exists k, selection (seq 0 n) k l /\ requested n fraction k.
Proof.
  intros St toint intn fraction n g Ht Hn l. unfold l, sample_features, whole. cbn [RNum nle n1 n0].
  destruct (Rleb_spec 1 fraction); [left; split; [reflexivity|now right]|].
  destruct (Rleb_spec fraction 0); [left; split; [reflexivity|now left]|]. cbn [orb]. right. split; [lra|].
  exists (@sample_count RNum toint n fraction). split; [apply draw_selection; auto; lra|apply sample_count_R; auto; lra].
Qed.
Theorem C50_rows : forall (St : Type) (toint : R -> Z) (intn : nat -> St -> nat * St) (fraction : R) (freq iter : Z) n (g : St),
  truncates toint -> 0 < n ->
  let l := fst (@sample_instances RNum toint St intn fraction freq n iter g) in
  (l = seq 0 n /\ ((freq <= 0)%Z \/ Z.rem iter freq <> 0%Z \/ (fraction <= 0 \/ 1 <= fraction)%R))
  \/ (0 < freq)%Z /\ Z.rem iter freq = 0%Z /\ (0 < fraction < 1)%R /\ exists k, selection (seq 0 n) k l /\ requested n fraction k.
Proof.
  intros St toint intn fraction freq iter n g Ht Hn l. unfold l, sample_instances, whole. cbn [RNum nle n1 n0].
  destruct (Z.leb_spec freq 0); [left; split; [reflexivity|now left]|]. cbn [orb].
  destruct (Z.eqb_spec (Z.rem iter freq) 0); cbn [negb]; [|left; split; [reflexivity|right; now left]].
  destruct (Rleb_spec 1 fraction); [left; split; [reflexivity|right; right; now right]|].
  destruct (Rleb_spec fraction 0); [left; split; [reflexivity|right; right; now left]|]. cbn [orb]. right. split; [lia|]. split; [assumption|]. split; [lra|].
  exists (@sample_count RNum toint n fraction). split; [apply draw_selection; auto; lra|apply sample_count_R; auto; lra].
Qed.
(** No selection is excluded: each is the result for some random stream. *)
Theorem C50_every_selection : forall (toint : R -> Z) (fraction : R) n T, truncates toint -> (0 < fraction < 1)%R -> 0 < n ->
  selection (seq 0 n) (@sample_count RNum toint n fraction) T ->
  exists g, fst (@sample_features RNum toint (list nat) replay fraction n g) = T.
Proof.
  intros toint fraction n T Ht Hf Hn [HN [HL HI]]. unfold sample_features, whole. cbn [RNum nle n1 n0].
  destruct (Rleb_spec 1 fraction); [lra|]. destruct (Rleb_spec fraction 0); [lra|]. cbn [orb].
  destruct (fisher_reach n (@sample_count RNum toint n fraction) [] (seq 0 n) T) as [g E]; cbn [app]; auto;
    [apply seq_length|apply seq_NoDup|]. exists g. unfold draw.
  destruct (fisher replay n 0 (@sample_count RNum toint n fraction) (seq 0 n) g) as [l g'] eqn:El. cbn [List.length app Nat.add] in E.
  unR. rewrite El in E. exact E.
Qed.
(** The dropped trees of DART are different trees; asking for more trees than there are
    (a drop rate above 1) panics. *)
Theorem C50_dart : forall (St : Type) (intn : nat -> St -> nat * St) n k (g : St),
  (k <= n -> exists l, dart_drop intn n k g = Ok l /\ selection (seq 0 n) k l)
  /\ (n < k -> dart_drop intn n k g = Panic).
Proof.
  intros St intn n k g. unfold dart_drop. destruct (Nat.ltb_spec n k); (split; [|]); try lia; try reflexivity.
  intros _. eexists. split; [reflexivity|]. apply fisher_selection; [apply seq_NoDup|]. now rewrite seq_length.
Qed.
(** A stream of 4s and 7s on five features, three of them taken *)
Example C50_example : firstn 3 (fst (fisher replay 5 0 3 (seq 0 5) [4; 7; 0])) = [4; 0; 2]
  /\ dart_drop replay 3 2 [5; 6] = Ok [2; 1] /\ dart_drop replay 3 4 [5; 6] = Panic.
Proof. repeat split; vm_compute; reflexivity. Qed.

(** ** C85.  Gradient-based sampling *)
Definition by_gradient {N : Num} (a b : nat * N) : bool := nlt (snd b) (snd a).

Lemma fold_upd_nth {A} (g : A -> A) : forall (chosen : list nat) (l : list A) i, NoDup chosen ->
  nth_error (fold_left (fun l j => upd j g l) chosen l) i
  = if existsb (Nat.eqb i) chosen then option_map g (nth_error l i) else nth_error l i.
Proof.
  induction chosen as [|c chosen IH]; intros l i Hn; [reflexivity|]. inversion Hn as [|? ? Hc Hn']; subst. cbn [fold_left existsb].
  rewrite IH by assumption. destruct (Nat.eqb_spec i c) as [->|Hne]; cbn [orb].
  - replace (existsb (Nat.eqb c) chosen) with false; [now rewrite nth_error_upd_same|]. symmetry. apply not_true_is_false. intros E.
    apply existsb_exists in E as [d [Hd Ed]]. apply Nat.eqb_eq in Ed. now subst.
  - now rewrite nth_error_upd_other by congruence.
Qed.
Lemma ordered_app_in {A} (less : A -> A -> bool) l1 l2 a b : ordered less (l1 ++ l2) -> In a l1 -> In b l2 -> less b a = false.
Proof.
  intros HO Ha Hb. induction l1 as [|c l1 IH]; [destruct Ha|]. cbn [app] in HO. inversion HO as [|? ? Hs Hf]; subst. destruct Ha as [->|Ha].
  - rewrite Forall_forall in Hf. apply Hf. apply in_or_app. now right.
  - now apply IH.
Qed.
Lemma NoDup_app_remove_l' {A} (l1 l2 : list A) : NoDup (l1 ++ l2) -> NoDup l2.
Proof. induction l1 as [|a l1 IH]; [auto|]. cbn. intros H. inversion H; auto. Qed.

(** [kept] rows are those of largest |gradient|, [chosen] a selection of the others; only the
    gradients and hessians of chosen rows change, by the same factor. *)
Theorem C85_rows : forall (N : Num) (St : Type) (toint : N -> Z) (intn : nat -> St -> nat * St) sorta (top other : N) (grads hess : list N) (g : St),
  go_sort by_gradient sorta -> nlt n0 other = true ->
  let n := List.length grads in
  let '(rows, grads', hess') := goss toint intn sorta top other grads hess g in
  let t := Nat.max 1 (Z.to_nat (toint (nofnat n * top)%num)) in
  let o := Z.to_nat (toint (nofnat (n - t) * other)%num) in
  let amp := ((n1 - top) / other)%num in
  exists kept chosen, rows = kept ++ chosen
    /\ selection (seq 0 n) (Nat.min t n + Nat.min o (n - t)) rows
    /\ List.length kept = Nat.min t n /\ List.length chosen = Nat.min o (n - t)
    /\ (forall i j, In i kept -> j < n -> ~ In j kept -> nlt (nabs (nth i grads n0)) (nabs (nth j grads n0)) = false)
    /\ forall i, (In i chosen -> nth_error grads' i = option_map (fun v => (v * amp)%num) (nth_error grads i)
                              /\ nth_error hess' i = option_map (fun v => (v * amp)%num) (nth_error hess i))
              /\ (~ In i chosen -> nth_error grads' i = nth_error grads i /\ nth_error hess' i = nth_error hess i).
Proof.
  intros N St toint intn sorta top other grads hess g Hs Ho n. unfold goss. fold n.
  set (pairs := combine (seq 0 n) (map nabs grads)).
  assert (Hpl : map fst pairs = seq 0 n).
  { unfold pairs. assert (K : forall (a : list nat) (b : list N), List.length a = List.length b -> map fst (combine a b) = a).
    { induction a as [|x a IH]; intros [|y b] E; cbn in *; try lia; [reflexivity|]. f_equal. apply IH. lia. }
    apply K. now rewrite seq_length, map_length. }
  assert (Hpv : forall iv, In iv pairs -> fst iv < n /\ snd iv = nabs (nth (fst iv) grads n0)).
  { unfold pairs. intros [i v] Hin. apply In_nth_error in Hin as [k Hk]. cbn [fst snd].
    assert (K : forall (a : list nat) (b : list N) k i v, nth_error (combine a b) k = Some (i, v) -> nth_error a k = Some i /\ nth_error b k = Some v).
    { induction a as [|x a IH]; intros [|y b] [|q] i' v' E; cbn in *; try discriminate; [injection E as <- <-; auto|now apply IH]. }
    apply K in Hk as [K1 K2]. assert (k < n) by (assert (Hk : nth_error (seq 0 n) k <> None) by congruence; apply nth_error_Some in Hk; now rewrite seq_length in Hk).
    apply nth_error_nth with (d := 0) in K1. rewrite seq_nth in K1 by assumption. cbn in K1. subst i. split; [assumption|].
    rewrite nth_error_map in K2. unfold n in *. rewrite (nth_error_nth' grads n0) in K2 by assumption. cbn in K2. congruence. }
  destruct (Hs pairs) as [Hp Hord]. set (sp := sorta pairs) in *. set (sorted := map fst sp).
  assert (Hperm : Permutation (seq 0 n) sorted) by (unfold sorted; rewrite <- Hpl; now apply Permutation_map).
  assert (Hnd : NoDup sorted) by (eapply Permutation_NoDup; [exact Hperm|apply seq_NoDup]).
  assert (Hlen : List.length sorted = n) by (rewrite <- (Permutation_length Hperm); apply seq_length).
  unfold goss_counts.
  set (t := if (toint (nofnat n * top)%num <? 1)%Z then 1 else Z.to_nat (toint (nofnat n * top)%num)).
  assert (Et : Nat.max 1 (Z.to_nat (toint (nofnat n * top)%num)) = t) by (unfold t; destruct (Z.ltb_spec (toint (nofnat n * top)%num) 1); lia).
  clearbody t. set (o := Z.to_nat (toint (nofnat (n - t) * other)%num)).
  assert (Hkept : forall i j, In i (firstn t sorted) -> j < n -> ~ In j (firstn t sorted) -> nlt (nabs (nth i grads n0)) (nabs (nth j grads n0)) = false).
  { intros i j Hi Hj Hnj. assert (Hj2 : In j (skipn t sorted)).
    { assert (Hin : In j sorted) by (apply (Permutation_in _ Hperm), in_seq; lia). rewrite <- (firstn_skipn t sorted) in Hin.
      apply in_app_or in Hin as [Hin|Hin]; [contradiction|exact Hin]. }
    unfold sorted in Hi, Hj2. rewrite firstn_map in Hi. rewrite skipn_map in Hj2.
    apply in_map_iff in Hi as [a [<- Ha]]. apply in_map_iff in Hj2 as [b [<- Hb]].
    assert (Hlt : by_gradient b a = false).
    { apply (ordered_app_in by_gradient (firstn t sp) (skipn t sp)); auto. now rewrite firstn_skipn. }
    unfold by_gradient in Hlt.
    assert (Ia : In a pairs) by (apply (Permutation_in _ (Permutation_sym Hp)); rewrite <- (firstn_skipn t sp); apply in_or_app; now left).
    assert (Ib : In b pairs) by (apply (Permutation_in _ (Permutation_sym Hp)); rewrite <- (firstn_skipn t sp); apply in_or_app; now right).
    destruct (Hpv a Ia) as [_ <-]. destruct (Hpv b Ib) as [_ <-]. exact Hlt. }
  assert (Hkl : List.length (firstn t sorted) = Nat.min t n) by (rewrite firstn_length; lia).
  cbn zeta. destruct (Nat.ltb 0 o && Nat.ltb t n) eqn:Ec.
  - apply andb_true_iff in Ec as [Eo Etn]. apply Nat.ltb_lt in Eo, Etn. rewrite Et. fold o. rewrite Ho.
    set (rest := skipn t sorted). assert (Hrl : List.length rest = n - t) by (unfold rest; rewrite skipn_length; lia).
    assert (Hrn : NoDup rest) by (unfold rest; rewrite <- (firstn_skipn t sorted) in Hnd; now apply NoDup_app_remove_l' in Hnd).
    set (sh := fst (fisher intn (List.length rest) 0 (Nat.min o (List.length rest)) rest g)).
    assert (Hsel : selection rest (Nat.min o (n - t)) (firstn o sh)).
    { replace (firstn o sh) with (firstn (Nat.min o (List.length rest)) sh).
      - rewrite <- Hrl. apply fisher_selection; [exact Hrn|lia].
      - assert (Hsl : List.length sh = List.length rest) by apply fisher_length. destruct (Nat.le_ge_cases o (List.length rest)).
        + now rewrite Nat.min_l.
        + rewrite Nat.min_r by assumption. rewrite !firstn_all2 by lia. reflexivity. }
    destruct Hsel as [S1 [S2 S3]]. exists (firstn t sorted), (firstn o sh). split; [reflexivity|]. split; [|split; [exact Hkl|split; [exact S2|split; [exact Hkept|]]]].
    + split; [|split].
      * apply NoDup_app_intro; [rewrite <- (firstn_skipn t sorted) in Hnd; now apply NoDup_app_remove_r in Hnd|exact S1|].
        intros a Ha Hb. apply S3 in Hb. rewrite <- (firstn_skipn t sorted) in Hnd. revert Hnd Ha Hb. unfold rest. clear.
        generalize (firstn t sorted) (skipn t sorted). intros l1 l2 H1 H2 H3. induction l1 as [|c l1 IH]; [destruct H2|]. cbn in H1. inversion H1; subst.
        destruct H2 as [->|H2]; [apply H4; apply in_or_app; now right|now apply IH].
      * rewrite app_length, S2, Hkl. reflexivity.
      * intros a Ha. apply (Permutation_in _ (Permutation_sym Hperm)). rewrite <- (firstn_skipn t sorted).
        apply in_app_or in Ha as [Ha|Ha]; apply in_or_app; [now left|right; now apply S3].
    + intros i. rewrite !fold_upd_nth by exact S1. split; intros Hi.
      * replace (existsb (Nat.eqb i) (firstn o sh)) with true; [auto|]. symmetry. apply existsb_exists. exists i. split; [exact Hi|apply Nat.eqb_refl].
      * replace (existsb (Nat.eqb i) (firstn o sh)) with false; [auto|]. symmetry. apply not_true_is_false. intros E.
        apply existsb_exists in E as [d [Hd Ed]]. apply Nat.eqb_eq in Ed. now subst.
  - rewrite Et. fold o. assert (Hz : Nat.min o (n - t) = 0).
    { apply andb_false_iff in Ec as [Ec|Ec]; apply Nat.ltb_ge in Ec; lia. }
    rewrite Hz. exists (firstn t sorted), []. rewrite app_nil_r, Nat.add_0_r. split; [reflexivity|]. split; [|split; [exact Hkl|split; [reflexivity|split; [exact Hkept|]]]].
    + split; [rewrite <- (firstn_skipn t sorted) in Hnd; now apply NoDup_app_remove_r in Hnd|]. split; [exact Hkl|].
      intros a Ha. apply (Permutation_in _ (Permutation_sym Hperm)). rewrite <- (firstn_skipn t sorted). apply in_or_app. now left.
    + intros i. split; [intros []|]. auto.
Qed.
(** The chosen rows should stand for all rows not kept: their number times the factor should
    be the number of rows not kept.  It is at most 1 - top_rate of it. *)
Theorem C85_underweighted : forall (toint : R -> Z) (top other : R) n t, truncates toint -> (0 <= top <= 1)%R -> (0 < other)%R ->
  let o := Z.to_nat (toint (INR (n - t) * other)%R) in
  (INR (Nat.min o (n - t)) * ((1 - top) / other) <= (1 - top) * INR (n - t))%R.
Proof.
  intros toint top other n t Ht H1 H2 o. assert (Hx : (0 <= INR (n - t) * other)%R) by (apply Rmult_le_pos; [apply pos_INR|lra]).
  destruct (Ht _ Hx) as [T1 _].
  assert (Ho : (INR o <= INR (n - t) * other)%R).
  { unfold o. rewrite INR_IZR_INZ. set (z := toint (INR (n - t) * other)%R) in *. destruct (Z.le_gt_cases 0 z); [rewrite Z2Nat.id by lia; exact T1|].
    replace (Z.to_nat z) with 0%nat by lia. cbn. exact Hx. }
  assert (Hm : (INR (Nat.min o (n - t)) <= INR (n - t) * other)%R) by (eapply Rle_trans; [apply le_INR, Nat.le_min_l|exact Ho]).
  unfold Rdiv. replace ((1 - top) * INR (n - t))%R with (INR (n - t) * other * ((1 - top) * / other))%R by (field; lra).
  apply Rmult_le_compat_r; [|exact Hm]. apply Rmult_le_pos; [lra|]. left. now apply Rinv_0_lt_compat.
Qed.
(** Ten rows, top_rate 0.5 and other_rate 0.5: of the 5 rows not kept 2 are chosen, each
    counted once, so that 5 rows are represented by weight 2. *)
Theorem C85_underweighted_refuted : exists (grads : list F0),
  let '(rows, grads', _) := goss (fun x => if nlt x (f 3 1) then 2%Z else 5%Z) replay (isort by_gradient) (f 1 2) (f 1 2) grads (repeat (f 1 1) 10) [0; 0] in
  rows = [9; 8; 7; 6; 5; 4; 3] /\ map fs grads' = map fs grads.
Proof.
  exists (map (fun k => f (Z.of_nat k) 1) (seq 1 10)). vm_compute. split; reflexivity.
Qed.
(** With top_rate 0.25 and other_rate 0.5 the factor is 1.5. *)
Example C85_example :
  let '(rows, grads', hess') := goss (fun x => if nlt x (f 3 1) then 1%Z else 2%Z) replay (isort by_gradient) (f 1 4) (f 1 2)
      [f (-3) 1; f 1 1; f 2 1; f 5 1] [f 1 1; f 1 1; f 1 1; f 1 1] [7] in
  rows = [3; 2] /\ map fs grads' = map fs [f (-3) 1; f 1 1; f 3 1; f 5 1] /\ map fs hess' = map fs [f 1 1; f 1 1; f 3 2; f 1 1].
Proof. vm_compute. repeat split; reflexivity. Qed.

(** ** C48.  Growth limits *)

Theorem C48_depth : forall (N : Num) (toint : N -> Z) X G H sortf sortr fuel (p : tparams N) cols idxs t,
  build_tree toint X G H sortf sortr fuel p cols idxs = Some (Ok t) ->
  (0 < tp_maxdepth p)%Z -> height_at_most (gt_nodes t) (Z.to_nat (tp_maxdepth p)).
Proof.
  intros N toint X G H sortf sortr fuel p cols idxs t E Hm j b Hp.
  destruct (build_built _ _ _ _ _ _ _ _ _ _ _ E) as (_ & T & L1 & _ & _ & _ & _ & _ & D1 & _).
  specialize (D1 Hm ltac:(lia)). change 0%Z with (Z.of_nat 0) in Hp. pose proof (path_height _ _ _ _ _ _ _ _ L1 Hp). lia.
Qed.
(** The limit on the number of leaves is only checked against the leaves already finished, so
    up to [height] more can be made. *)
Theorem C48_leaves : forall (N : Num) (toint : N -> Z) X G H sortf sortr fuel (p : tparams N) cols idxs t,
  build_tree toint X G H sortf sortr fuel p cols idxs = Some (Ok t) ->
  gt_nleaves t = Z.of_nat (List.length (leaves_of (gt_nodes t)))
  /\ forall h, height_at_most (gt_nodes t) h -> (0 < tp_leaves p)%Z ->
     (Z.of_nat (List.length (leaves_of (gt_nodes t))) <= Z.max 1 (tp_leaves p - 1 + Z.of_nat h))%Z.
Proof.
  intros N toint X G H sortf sortr fuel p cols idxs t E.
  destruct (build_built _ _ _ _ _ _ _ _ _ _ _ E) as (_ & T & L1 & _ & _ & C1 & C2 & _ & _ & Q1).
  split; [rewrite C1, C2; reflexivity|]. intros h Hh Hl. specialize (Q1 Hl). rewrite C2.
  assert (Hhh : height T <= h).
  { clear -L1 Hh.
    assert (K : forall T id, laid G H p (gt_nodes t) id T -> exists b, path (gt_nodes t) (Z.of_nat id) (height T) b).
    { clear. induction T as [rs|s l IHl r IHr]; intros id HL; cbn [laid height] in *; [eexists; constructor|].
      destruct HL as (a & b & E & Ha & Hb & Ll & Lr). destruct (IHl _ Ll) as [x Hx], (IHr _ Lr) as [y Hy].
      destruct (Nat.max_dec (height l) (height r)) as [Em|Em]; rewrite Em.
      - exists x. eapply path_left; [rewrite getZ_nat; exact E| |exact Hx]. unfold g_isleaf, set_children. cbn [g_left]. destruct (Z.eqb_spec (Z.of_nat a) (-1)); [lia|reflexivity].
      - exists y. eapply path_right; [rewrite getZ_nat; exact E| |exact Hy]. unfold g_isleaf, set_children. cbn [g_left]. destruct (Z.eqb_spec (Z.of_nat a) (-1)); [lia|reflexivity]. }
    destruct (K T 0 L1) as [b Hb]. exact (Hh _ _ Hb). }
  lia.
Qed.
(** One numeric feature, unit hessians *)
Definition one_column (fuel : nat) (p : tparams F0) (vs gs : list F0) : option (res (gtree F0)) :=
  build_tree (fun _ => 0%Z) (fun i _ => nth i vs (f 0 1)) (fun i => nth i gs (f 0 1)) (fun _ => f 1 1) fsort (fun l => l) fuel p 1 (seq 0 (List.length vs)).
Definition params (maxdepth leaves mindata maxbin : Z) (mingain : F0) : tparams F0 :=
  mktp maxdepth leaves mindata mindata mingain (f 0 1) (f 0 1) maxbin [] (f 1 10) (f 1 1) [].
(** A limit of two leaves, three rows: the tree has three. *)
Theorem C48_leaves_refuted : exists vs gs : list F0,
  match one_column 9 (params (-1) 2 1 255 (f 1 1024)) vs gs with
  | Some (Ok t) => gt_nleaves t = 3%Z
  | _ => False
  end.
Proof. exists [f 1 1; f 2 1; f 3 1], [f 4 1; f 1 1; f (-5) 1]. vm_compute. reflexivity. Qed.
Example C48_example : match one_column 9 (params 1 31 1 255 (f 1 1024)) [f 1 1; f 2 1; f 3 1] [f 4 1; f 1 1; f (-5) 1] with
  | Some (Ok t) => gt_nleaves t = 2%Z
  | _ => False
  end.
Proof. vm_compute. reflexivity. Qed.

(** ** C81.  A tree returns each training row's leaf value *)

(** The rows are divided among the leaves, and prediction on a training row gives the output
    computed from the rows of its leaf.  NaN in a numeric feature goes right in training and
    in prediction; categorical features must not be NaN. *)
Theorem C81_prediction : forall (N : Num), cmp_laws N -> forall (toint : N -> Z) X G H sortf sortr fuel (p : tparams N) cols idxs t,
  build_tree toint X G H sortf sortr fuel p cols idxs = Some (Ok t) ->
  (forall i j, In i idxs -> j < cols -> In (Z.of_nat j) (tp_cats p) -> nisnan (X i j) = false) ->
  exists parts, Permutation (concat parts) idxs /\ gt_nleaves t = Z.of_nat (List.length parts)
    /\ forall part i, In part parts -> In i part ->
       tree_predict toint fuel t (row X cols i)
       = Some (Ok (leaf_reg (tp_l1 p) (tp_l2 p) (nsum (map G part)) (nsum (map H part)))).
Proof.
  intros N C toint X G H sortf sortr fuel p cols idxs t E Hn.
  destruct (build_built _ _ _ _ _ _ _ _ _ _ _ E) as (_ & T & L1 & F1 & _ & C1 & _ & D1 & _).
  exists (parts T). split; [exact (parts_perm _ _ _ _ _ _ D1)|]. split; [exact C1|]. intros part i Hp Hi.
  apply (laid_walk toint X G H (finder toint X G H sortf sortr p cols) p cols) with (T := T) (id := 0) (rows := idxs); auto.
  - intros rows s Es. exact (finder_feat _ _ _ _ _ _ _ _ _ _ Es).
  - intros a b Ha. apply (cmp_nan N C). now left.
  - intros j Hc Hj. apply Hn; [exact (parts_in _ _ _ _ _ _ _ _ D1 Hp Hi)|exact Hj|].
    unfold is_cat in Hc. apply existsb_exists in Hc as [z [Hz Ez]]. apply Z.eqb_eq in Ez. now subst.
Qed.
(** With a NaN in a categorical feature: two rows, two leaves, but the tree sends both rows
    to the same leaf.  [int(NaN)] is a category like any other in training, and prediction
    sends NaN right. *)
Definition nan_column (i j : nat) : F0 := nth i [nnan; f 1 1] (f 0 1).
Definition int_of (x : F0) : Z := if nisnan x then (-9)%Z else if neqb x (f 1 1) then 1%Z else (-9)%Z.
Definition nan_params : tparams F0 := mktp (-1) 31 1 1 (f 1 1024) (f 0 1) (f 0 1) 255 [0%Z] (f 1 10) (f 1 1) [].
Definition nan_tree : option (res (gtree F0)) :=
  build_tree int_of nan_column (fun i => nth i [f (-1) 1; f 1 1] (f 0 1)) (fun _ => f 1 1) fsort (isort (fun a b => nlt (fst a) (fst b))) 9 nan_params 1 [0; 1].
Definition shown (o : option (res F0)) := match o with Some (Ok v) => Some (fs v) | _ => None end.
Theorem C81_categorical_nan_refuted : exists t, nan_tree = Some (Ok t) /\ gt_nleaves t = 2%Z
  /\ shown (tree_predict int_of 9 t (row nan_column 1 0)) <> None
  /\ shown (tree_predict int_of 9 t (row nan_column 1 0)) = shown (tree_predict int_of 9 t (row nan_column 1 1)).
Proof.
  assert (K : match nan_tree with
      | Some (Ok t) => gt_nleaves t = 2%Z /\ shown (tree_predict int_of 9 t (row nan_column 1 0)) <> None
          /\ shown (tree_predict int_of 9 t (row nan_column 1 0)) = shown (tree_predict int_of 9 t (row nan_column 1 1))
      | _ => False end) by (vm_compute; split; [reflexivity|split; [discriminate|reflexivity]]).
  destruct nan_tree as [[t| |]|]; try contradiction. exists t. split; [reflexivity|exact K].
Qed.
(** Three rows in two leaves: rows 0 and 1 share one. *)
Example C81_example : match one_column 9 (params 1 31 1 255 (f 1 1024)) [f 1 1; f 2 1; f 3 1] [f 4 1; f 4 1; f (-5) 1] with
  | Some (Ok t) => let out i := shown (tree_predict (fun _ => 0%Z) 9 t [nth i [f 1 1; f 2 1; f 3 1] (f 0 1)]) in
      out 0 = out 1 /\ out 1 = Some (fs (leaf_reg (f 0 1) (f 0 1) (f 8 1) (f 2 1))) /\ out 2 = Some (fs (leaf_reg (f 0 1) (f 0 1) (f (-5) 1) (f 1 1)))
  | _ => False
  end.
Proof. vm_compute. repeat split; reflexivity. Qed.

(** ** C82.  Does tree growth end? *)

(** With a positive maximum depth it does. *)
Theorem C82_depth_limit : forall (N : Num) (toint : N -> Z) X G H sortf sortr fuel (p : tparams N) cols idxs,
  (0 < tp_maxdepth p)%Z -> Z.to_nat (tp_maxdepth p) < fuel ->
  build_tree toint X G H sortf sortr fuel p cols idxs <> None.
Proof.
  intros N toint X G H sortf sortr fuel p cols idxs Hm Hf E. unfold build_tree, build_tree_with in E.
  pose proof (grow_depth toint X G H (finder toint X G H sortf sortr p cols) p fuel [] idxs 0 Hm ltac:(lia) ltac:(lia)) as K.
  destruct (build_node toint X G H fuel (finder toint X G H sortf sortr p cols) p [] idxs 0) as [[[ns id]| |]|]; try discriminate. now apply K.
Qed.
(** Without a depth limit, over the real numbers: it ends when every feature is numeric with
    at most MaxBin different values (more than 1e-10 apart) and the minimum gain is
    positive. *)
Theorem C82_few_values : forall (toint : R -> Z) (X : nat -> nat -> R) (G H : nat -> R) sortf sortr fuel (p : tparams RNum) cols idxs,
  go_sort (@fless RNum) sortf -> tp_cats p = [] -> (1 <= tp_mindata p)%Z -> (1 <= tp_findmin p)%Z -> (0 < tp_mingain p)%R ->
  (forall j, j < cols -> @few_values RNum (map (fun i => X i j) idxs) (Z.to_nat (tp_maxbin p)) /\ apart (map (fun i => X i j) idxs)) ->
  List.length idxs < fuel ->
  @build_tree RNum toint X G H sortf sortr fuel p cols idxs <> None.
Proof.
  intros toint X G H sortf sortr fuel p cols idxs Hs Hc Hmd Hfm Hg Hv Hf E. unfold build_tree, build_tree_with in E.
  set (P := fun rows : list nat => incl rows idxs).
  assert (K : @build_node RNum toint X G H fuel (@finder RNum toint X G H sortf sortr p cols) p [] idxs 0 <> None).
  { apply (@grow_progress RNum toint X G H (@finder RNum toint X G H sortf sortr p cols) p P).
    - intros g rows Hr i Hi. apply filter_In in Hi as [Hi _]. now apply Hr.
    - intros rows s Hr Hmin Ef Hfeat Hgain. unfold finder in Ef.
      assert (Hcols : 0 < cols).
      { destruct cols; [|lia]. unfold find_best_split in Ef. cbn [seq mapM bind fold_left] in Ef. injection Ef as <-. exfalso. apply Hfeat.
        match goal with |- context [if ?b then _ else _] => destruct b end; reflexivity. }
      destruct (C80_best_feature RNum lt_laws_R ltac:(apply Rltb_true; cbn; lra) sortf toint X G H sortr (tp_maxbin p) (tp_cats p) (tp_l2 p) (tp_l1 p) (tp_mingain p)
                  (tp_findmin p) cols rows s Hcols Ef) as (k & b & Hk & Eb & _ & _ & Fe & Th & _ & _ & _ & _ & _ & _ & _ & Ga).
      assert (Hrne : rows <> []) by (intros ->; cbn in Hmin; lia).
      assert (Hsub : incl (map (fun i => X i k) rows) (map (fun i => X i k) idxs)).
      { intros v Hx. apply in_map_iff in Hx as [i [<- Hi]]. apply in_map_iff. exists i. split; [reflexivity|now apply Hr]. }
      destruct (Hv k Hk) as [[us [U1 U2]] Ha].
      destruct (C80_best_threshold sortf X G H (tp_maxbin p) (tp_findmin p) k rows (tp_l2 p) (tp_l1 p) Hs Hrne Hfm) as (h & Eh & _ & D).
      + exists us. split; [exact U1|]. intros v Hx. apply U2. now apply Hsub.
      + intros v w Hx Hy. apply Ha; now apply Hsub.
      + unfold feature_split in Eb. rewrite Hc in Eb. cbn [is_cat existsb] in Eb. destruct (@totals RNum G H rows) as [tg th] eqn:Et.
        unR. rewrite Eh in Eb. cbn [bind] in Eb. injection Eb as <-. unfold totals in Et. injection Et as <- <-. rewrite !nsum_R in *.
        cbn zeta in D. unfold sum_of in D. unR.
        set (b := @num_split RNum (tp_l2 p) (tp_l1 p) (Rsum (map G rows)) (Rsum (map H rows)) (tp_findmin p) h) in *.
        assert (Hpos : (tp_mingain p <= s_gain s)%R).
        { cbn [RNum nlt] in Hgain. apply Rltb_false in Hgain. exact Hgain. }
        destruct D as [D|(_ & [E1 E2] & Fb & _)].
        * exfalso. rewrite Ga, D in Hpos. cbn [no_split s_gain RNum nlt n0] in Hpos. destruct (Rltb 0 (tp_mingain p)); lra.
        * assert (Hl : forall i, @goes_left RNum toint X p s i = Rleb (X i k) (s_thr b)).
          { intros i. unfold goes_left. rewrite Fe, Fb, Nat2Z.id, Hc, Th. reflexivity. }
          unfold lower, upper in E1, E2. rewrite (filter_ext _ _ Hl).
          rewrite (filter_ext (fun i => negb (@goes_left RNum toint X p s i)) (fun i => negb (Rleb (X i k) (s_thr b)))) by (intros i; now rewrite Hl).
          split; intros E0; [rewrite E0 in E1; cbn in E1|rewrite E0 in E2; cbn in E2]; lia.
    - intros i Hi. exact Hi.
    - exact Hf. }
  destruct (@build_node RNum toint X G H fuel (@finder RNum toint X G H sortf sortr p cols) p [] idxs 0) as [[[ns id]| |]|]; try discriminate. now apply K.
Qed.
(** In general it does not: whenever the split found at the root of a node sends all its
    rows left, the recursion repeats itself without end. *)
Theorem C82_all_left : forall (N : Num) (toint : N -> Z) X G H sortf sortr (p : tparams N) cols idxs s,
  tp_cats p = [] -> (tp_maxdepth p <= 0)%Z -> (tp_mindata p <= Z.of_nat (List.length idxs))%Z -> (tp_leaves p <= 0 \/ 2 <= tp_leaves p)%Z ->
  finder toint X G H sortf sortr p cols idxs = Ok s -> s_feat s <> (-1)%Z -> nlt (s_gain s) (tp_mingain p) = false ->
  (forall i, In i idxs -> nle (X i (Z.to_nat (s_feat s))) (s_thr s) = true) ->
  forall fuel, build_tree toint X G H sortf sortr fuel p cols idxs = None.
Proof.
  intros N toint X G H sortf sortr p cols idxs s Hc Hm Hd Hl Ef Hs Hg Ha fuel. unfold build_tree, build_tree_with.
  rewrite (grow_forever toint X G H (finder toint X G H sortf sortr p cols) p idxs s Hm Hd Ef Hs Hg); [reflexivity| |].
  - intros i Hi. unfold goes_left. rewrite Hc. cbn [is_cat existsb]. now apply Ha.
  - cbn. lia.
Qed.
(** Too few rows for a split: with the trainer's default minimum gain 0 "no split" (gain 0,
    threshold 0, feature 0) is accepted; if no value of the first feature is positive, the
    recursion never ends. *)
Theorem C82_few_rows : forall (N : Num), lt_laws N -> nlt (nlit (-1) 1) (@n0 N) = true ->
  forall (toint : N -> Z) X G H sortf sortr (p : tparams N) cols idxs,
  tp_cats p = [] -> 0 < cols -> (0 <= tp_maxbin p)%Z -> nlt n0 (tp_mingain p) = false ->
  (tp_maxdepth p <= 0)%Z -> (tp_leaves p <= 0 \/ 2 <= tp_leaves p)%Z ->
  (tp_mindata p <= Z.of_nat (List.length idxs) < 2 * tp_findmin p)%Z ->
  (forall i, In i idxs -> nle (X i 0) n0 = true) ->
  forall fuel, build_tree toint X G H sortf sortr fuel p cols idxs = None.
Proof.
  intros N L Hneg toint X G H sortf sortr p cols idxs Hc Hcols Hb Hg Hm Hl Hn Ha.
  assert (Ef : exists s, finder toint X G H sortf sortr p cols idxs = Ok s).
  { unfold finder, find_best_split. rewrite Hc.
    assert (K : forall l, exists ss, mapM (feature_split sortf toint X G H sortr (tp_maxbin p) [] (tp_l2 p) (tp_l1 p) (tp_findmin p) idxs) l = Ok ss).
    { induction l as [|j l [ss IH]]; cbn [mapM]; [eexists; reflexivity|]. unfold feature_split at 1. destruct (totals G H idxs) as [tg th]. cbn [is_cat existsb].
      unfold cont_hist, boundaries. destruct (sortf _) as [|s0 sl]; cbn [bind]; [rewrite IH; cbn [bind]; eexists; reflexivity|].
      destruct (_ <=? _)%Z; cbn [bind]; [rewrite IH; cbn [bind]; eexists; reflexivity|].
      destruct (Z.ltb_spec (tp_maxbin p) 0); [lia|]. destruct (_ =? _)%Z; cbn [bind]; rewrite IH; cbn [bind]; eexists; reflexivity. }
    destruct (K (seq 0 cols)) as [ss Es]. rewrite Es. cbn [bind]. eexists. reflexivity. }
  destruct Ef as [s Ef]. pose proof (few_rows_finder L toint X G H sortf sortr p cols idxs s Hc Hcols Hneg (proj2 Hn) Hg Ef) as ->.
  apply (C82_all_left N toint X G H sortf sortr p cols idxs (no_split 0)); auto; [apply Hn|discriminate].
Qed.
(** The default parameters of the trainer and 20 rows with a constant feature 0 *)
Theorem C82_default_refuted : forall fuel,
  one_column fuel (params (-1) 31 20 255 (f 0 1)) (repeat (f 0 1) 20) (repeat (f 1 1) 20) = None.
Proof.
  intros fuel. unfold one_column.
  assert (K : forallb (fun i => nle (nth i (repeat (f 0 1) 20) (f 0 1)) (@n0 F0)) (seq 0 20) = true) by (vm_compute; reflexivity).
  assert (Hneg : nlt (nlit (-1) 1) (@n0 F0) = true) by (vm_compute; reflexivity).
  assert (Hg : nlt (@n0 F0) (f 0 1) = false) by (vm_compute; reflexivity).
  assert (Hl : List.length (seq 0 20) = 20) by apply seq_length.
  rewrite forallb_forall in K. rewrite repeat_length.
  apply (C82_few_rows F0 (lt_laws_F _ _) Hneg).
  - reflexivity.
  - auto.
  - cbn [params tp_maxbin]. lia.
  - cbn [params tp_mingain]. exact Hg.
  - cbn [params tp_maxdepth]. lia.
  - cbn [params tp_leaves]. lia.
  - cbn [params tp_mindata tp_findmin]. rewrite Hl. lia.
  - exact K.
Qed.
(** Also with a positive minimum gain and a feature capped at its largest value: the
    threshold found is that value, and all rows are at most it. *)
Definition capped : list F0 := [f 1 1; f 2 1; f 3 1; f 3 1; f 3 1; f 3 1].
Definition capped_grads : list F0 := [f 1 1; f 1 1; f (-1) 1; f (-1) 1; f (-1) 1; f (-1) 1].
Definition capped_params : tparams F0 := params (-1) 31 1 2 (f 1 1024).
Definition capped_split : res (split F0) :=
  finder (fun _ => 0%Z) (fun i _ => nth i capped (f 0 1)) (fun i => nth i capped_grads (f 0 1)) (fun _ => f 1 1) fsort (fun l => l) capped_params 1 (seq 0 6).
Theorem C82_capped_refuted : forall fuel, one_column fuel capped_params capped capped_grads = None.
Proof.
  intros fuel.
  assert (K : match capped_split with
      | Ok s => (negb (s_feat s =? -1)%Z && negb (nlt (s_gain s) (tp_mingain capped_params))
                 && forallb (fun i => nle (nth i capped (f 0 1)) (s_thr s)) (seq 0 6))%bool
      | _ => false end = true) by (vm_compute; reflexivity).
  assert (Ef : exists s, capped_split = Ok s /\ (negb (s_feat s =? -1)%Z && negb (nlt (s_gain s) (tp_mingain capped_params))
                 && forallb (fun i => nle (nth i capped (f 0 1)) (s_thr s)) (seq 0 6))%bool = true).
  { revert K. generalize capped_split. intros [s| |] K; try discriminate. exists s. split; [reflexivity|exact K]. }
  clear K. destruct Ef as (s & Ef & K).
  apply andb_true_iff in K as [K K3]. apply andb_true_iff in K as [K1 K2]. apply negb_true_iff in K1, K2. apply Z.eqb_neq in K1. rewrite forallb_forall in K3.
  unfold one_column. change (List.length capped) with 6.
  apply (C82_all_left F0 (fun _ => 0%Z) (fun i _ => nth i capped (f 0 1)) (fun i => nth i capped_grads (f 0 1)) (fun _ => f 1 1) fsort (fun l => l) capped_params 1 (seq 0 6) s).
  - reflexivity.
  - cbn [capped_params params tp_maxdepth]. lia.
  - rewrite seq_length. cbn [capped_params params tp_mindata]. lia.
  - cbn [capped_params params tp_leaves]. lia.
  - exact Ef.
  - exact K1.
  - exact K2.
  - exact K3.
Qed.

(** ** C83.  What the trainer computes and what the model predicts *)

Lemma fold_ensure_map {N : Num} (lr : N) : forall outs a,
  fold_left (fun a b => ensure (a + b)%num) (map (fun o => (ensure o * lr)%num) outs) a
  = fold_left (fun a o => ensure (a + ensure o * lr)%num) outs a.
Proof. induction outs as [|o outs IH]; intros a; [reflexivity|]. cbn [map fold_left]. apply IH. Qed.
(** During training, the score of a row is the initial score plus the tree outputs times the
    learning rate; Model.PredictSingle adds the outputs without the learning rate. *)
Theorem C83_scores : forall (N : Num) (toint roundint : N -> Z) X cols sortf sortr ograd ohess y w fuel (p : tparams N) init bags obj ncl ts preds i,
  tp_cats p = [] -> fit toint X cols sortf sortr ograd ohess y w fuel p init bags = Some (Ok (ts, preds)) -> i < List.length y -> (ncl <= 2)%Z ->
  (forall j, j < cols -> nisnan (X i j) = false) ->
  (forall t n j, In t ts -> In n (gt_nodes t) -> g_type n = TNum -> g_feat n = Z.of_nat j -> j < cols ->
     le_precise (X i j) (g_thr n) = nle (X i j) (g_thr n)) ->
  List.length ts = List.length bags /\ List.length preds = List.length y /\
  exists outs, Forall2 (fun t o => tree_predict toint fuel t (row X cols i) = Some (Ok o)) ts outs
    /\ nth_error preds i = Some (fold_left (fun a o => (a + o * tp_lr p)%num) outs init)
    /\ model_raw toint fuel (get_model cols obj ncl p init ts) (row X cols i) = Some (Ok [fold_left (fun a o => (a + o)%num) outs init])
    /\ predictor_raw roundint fuel (get_model cols obj ncl p init ts) (row X cols i)
       = Some (Ok [fold_left (fun a o => ensure (a + ensure o * tp_lr p)%num) outs init]).
Proof.
  intros N toint roundint X cols sortf sortr ograd ohess y w fuel p init bags obj ncl ts preds i Hc E Hi Hk Hn Hs.
  assert (Hlen : List.length ts = List.length bags /\ List.length preds = List.length y).
  { unfold fit in E. destruct (run_spec _ _ _ _ _ _ _ _ _ _ _ _ _ _ E) as (new & N1 & N2 & _ & N4 & _). cbn [fst snd app] in *. subst new.
    rewrite repeat_length in N4. auto. }
  split; [apply Hlen|]. split; [apply Hlen|].
  destruct (fit_predictor toint roundint X cols sortf sortr ograd ohess y w fuel p init bags obj ncl ts preds i Hc E Hi Hn Hs) as (outs & H1 & H2 & H3 & H4).
  exists outs. split; [exact H1|]. split; [exact H2|].
  assert (Ho : outputs_count (get_model cols obj ncl p init ts) = 1).
  { unfold outputs_count, get_model. cbn [m_class]. destruct (Z.ltb_spec 0 ncl); destruct (Z.ltb_spec 2 ncl); try lia; reflexivity. }
  rewrite H3, H4, Ho, !accumulate_one. split; [reflexivity|]. do 3 f_equal.
  apply fold_ensure_map.
Qed.
(** Over the real numbers, the Predictor's score is the trainer's up to (1 + |rate|) 1e-15 per
    tree, for rows without a value in the interval of 1e-15 above a threshold. *)
Theorem C83_predictor : forall (toint roundint : R -> Z) X cols sortf sortr ograd ohess y w fuel (p : tparams RNum) (init : R) bags obj ncl ts (preds : list R) i,
  tp_cats p = [] -> @fit RNum toint X cols sortf sortr ograd ohess y w fuel p init bags = Some (Ok (ts, preds)) -> i < List.length y -> (ncl <= 2)%Z ->
  (forall t n j, In t ts -> In n (gt_nodes t) -> g_type n = TNum -> g_feat n = Z.of_nat j -> j < cols ->
     (X i j <= g_thr n \/ g_thr n + 1 / 1000000000000000 <= X i j)%R) ->
  exists s, @predictor_raw RNum roundint fuel (@get_model RNum cols obj ncl p init ts) (@row RNum X cols i) = Some (Ok [s])
    /\ (Rabs (s - nth i preds 0) <= INR (List.length bags) * (1 + Rabs (tp_lr p)) * (1 / 1000000000000000))%R.
Proof.
  intros toint roundint X cols sortf sortr ograd ohess y w fuel p init bags obj ncl ts preds i Hc E Hi Hk Hs.
  destruct (C83_scores RNum toint roundint X cols sortf sortr ograd ohess y w fuel p init bags obj ncl ts preds i Hc E Hi Hk) as (L1 & L2 & outs & H1 & H2 & _ & H4).
  - intros j _. reflexivity.
  - intros t n j Ht Hin Hty Hf Hj. apply le_precise_R. exact (Hs t n j Ht Hin Hty Hf Hj).
  - eexists. split; [exact H4|]. unR. rewrite (nth_error_nth _ _ 0%R H2). rewrite <- L1, (Forall2_len _ _ _ H1).
    pose proof (predictor_error (tp_lr p) outs init init 0) as K. rewrite Rminus_diag_eq in K by reflexivity. rewrite Rabs_R0 in K. specialize (K (Rle_refl 0)).
    rewrite Rplus_0_l in K. unfold peps_R in K. 
    exact (eq_ind _ (fun v : R => (Rabs (v - _) <= _)%R) K _ (@fold_ensure_map RNum (tp_lr p) outs init)).
Qed.

(** The learning rate is missing in Model.PredictSingle: two rows, one round, rate 1/2, no
    initial score.  The trainer and the Predictor give about -1/2 and 1/2, the Model about -1
    and 1. *)
Definition rate_half : tparams F0 := mktp (-1) 31 1 1 (f 1 1024) (f 0 1) (f 0 1) 255 [] (f 1 2) (f 1 1) [].
Definition two_rows (i j : nat) : F0 := nth i [f 1 1; f 2 1] (f 0 1).
Definition fitted : option (res (list (gtree F0) * list F0)) :=
  fit (fun _ => 0%Z) two_rows 1 fsort (fun l => l) l2_grad l2_hess [f (-1) 1; f 1 1] [f 1 1; f 1 1] 9 rate_half (f 0 1) [[0; 1]].
Definition close (a b : F0) : bool := nlt (nabs (nsub a b)) (f 1 1048576).
Theorem C83_model_refuted :
  match fitted with
  | Some (Ok (ts, preds)) =>
      let m := get_model 1 "regression" 0 rate_half (f 0 1) ts in
      match model_raw (fun _ => 0%Z) 9 m (row two_rows 1 1), predictor_raw (fun _ => 0%Z) 9 m (row two_rows 1 1) with
      | Some (Ok [a]), Some (Ok [b]) => close a (f 1 1) = true /\ close b (f 1 2) = true /\ close (nth 1 preds (f 0 1)) (f 1 2) = true
      | _, _ => False
      end
  | _ => False
  end.
Proof. vm_compute. repeat split; reflexivity. Qed.

(** With three or more classes the trainer still learns a single score per row, but the
    model reads its trees as belonging to the classes in turn.  With fewer rounds than
    classes, the scores of the last classes are the initial score for every sample. *)
Lemma accumulate_untouched {N : Num} (add : N -> N -> N) k init (outs : list N) c : List.length outs <= c -> c < k ->
  nth_error (accumulate add k init outs) c = Some init.
Proof.
  intros H1 H2. unfold accumulate.
  assert (K : forall l acc, (forall io, In io l -> Nat.modulo (fst io) k <> c) ->
    nth_error (fold_left (fun acc io => upd (Nat.modulo (fst io) k) (fun v => add v (snd io)) acc) l acc) c = nth_error acc c).
  { induction l as [|io l IH]; intros acc Hio; [reflexivity|]. cbn [fold_left]. rewrite IH by (intros; apply Hio; now right).
    apply nth_error_upd_other. apply Hio. now left. }
  rewrite K; [now apply nth_error_repeat|]. intros [i o] Hio. apply in_combine_l in Hio. apply in_seq in Hio. cbn [fst].
  rewrite Nat.mod_small by lia. lia.
Qed.
Theorem C83_multiclass_ignored : forall (N : Num) (toint roundint : N -> Z) X cols sortf sortr ograd ohess y w fuel (p : tparams N) init bags obj ncl ts preds x raw c,
  fit toint X cols sortf sortr ograd ohess y w fuel p init bags = Some (Ok (ts, preds)) -> (2 < ncl)%Z ->
  predictor_raw roundint fuel (get_model cols obj ncl p init ts) x = Some (Ok raw) ->
  List.length bags <= c < Z.to_nat ncl -> nth_error raw c = Some init.
Proof.
  intros N toint roundint X cols sortf sortr ograd ohess y w fuel p init bags obj ncl ts preds x raw c E Hk Hr Hc.
  unfold fit in E. destruct (run_spec _ _ _ _ _ _ _ _ _ _ _ _ _ _ E) as (new & N1 & N2 & _). cbn [fst snd app] in *. subst new.
  unfold predictor_raw in Hr. destruct (sequence _ _) as [[outs| |]|] eqn:Es; try discriminate. injection Hr as <-.
  apply sequence_inv in Es. apply Forall2_len in Es.
  assert (Ho : outputs_count (get_model cols obj ncl p init ts) = Z.to_nat ncl).
  { unfold outputs_count, get_model. cbn [m_class]. destruct (Z.ltb_spec 0 ncl); destruct (Z.ltb_spec 2 ncl); try lia; reflexivity. }
  rewrite Ho. cbn [get_model m_init]. apply accumulate_untouched; [|lia].
  rewrite <- Es. unfold used_trees, get_model. cbn [m_best m_niter m_trees Z.ltb Z.compare andb].
  destruct (_ =? 0)%Z; [lia|]. rewrite firstn_length. lia.
Qed.

Example C83_example : match fitted with
  | Some (Ok (ts, _)) =>
      match predictor_raw (fun _ => 0%Z) 9 (get_model 1 "multiclass" 3 rate_half (f 0 1) ts) (row two_rows 1 1) with
      | Some (Ok [a; b; c]) => close a (f 1 2) = true /\ fs b = fs (f 0 1) /\ fs c = fs (f 0 1)
      | _ => False
      end
  | _ => False
  end.
Proof. vm_compute. repeat split; reflexivity. Qed.

(** ** C84.  Squared error never increases *)

(** Each round on all rows leaves the weighted training loss the same or smaller: learning
    rate in [0, 2], non-negative penalties and weights; over the real numbers. *)
Theorem C84_round : forall (toint : R -> Z) (X : nat -> nat -> R) cols sortf sortr (y w : list R) fuel (p : tparams RNum) (st st' : list (gtree RNum) * list R),
  (forall v, In v w -> 0 <= v)%R -> (0 < Rsum w)%R -> (0 <= tp_l1 p)%R -> (0 <= tp_l2 p)%R -> (0 <= tp_lr p <= 2)%R ->
  List.length w = List.length y -> List.length (snd st) = List.length y ->
  @boost_round RNum toint X cols sortf sortr (@l2_grad RNum) (@l2_hess RNum) y w fuel p (seq 0 (List.length y)) st = Some (Ok st') ->
  (@train_loss RNum y w (@l2_loss RNum) (snd st') <= @train_loss RNum y w (@l2_loss RNum) (snd st))%R.
Proof.
  intros toint X cols sortf sortr y w fuel p st st' Hw Hs H1 H2 Hr Lw Lp E. unfold train_loss. cbn [RNum ndiv].
  apply Rmult_le_compat_r; [left; apply Rinv_0_lt_compat; rewrite nsum_R; exact Hs|].
  exact (l2_round toint X cols sortf sortr y w Hw p H1 H2 Hr Lw fuel st st' Lp E).
Qed.
Theorem C84_training : forall (toint : R -> Z) (X : nat -> nat -> R) cols sortf sortr (y w : list R) fuel (p : tparams RNum) (init : R) bags ts preds,
  (forall v, In v w -> 0 <= v)%R -> (0 < Rsum w)%R -> (0 <= tp_l1 p)%R -> (0 <= tp_l2 p)%R -> (0 <= tp_lr p <= 2)%R ->
  List.length w = List.length y -> (forall b, In b bags -> b = seq 0 (List.length y)) ->
  @fit RNum toint X cols sortf sortr (@l2_grad RNum) (@l2_hess RNum) y w fuel p init bags = Some (Ok (ts, preds)) ->
  (@train_loss RNum y w (@l2_loss RNum) preds <= @train_loss RNum y w (@l2_loss RNum) (repeat init (List.length y)))%R.
Proof.
  intros toint X cols sortf sortr y w fuel p init bags ts preds Hw Hs H1 H2 Hr Lw Hb E. unfold train_loss. cbn [RNum ndiv].
  apply Rmult_le_compat_r; [left; apply Rinv_0_lt_compat; rewrite nsum_R; exact Hs|].
  unfold fit in E. apply (l2_run toint X cols sortf sortr y w Hw p H1 H2 Hr Lw fuel bags ([], repeat init (List.length y)) (ts, preds)); auto.
  cbn [snd]. unR. apply repeat_length.
Qed.
(** The rate matters: with rate 4 the loss of the two rows above grows from 1/2 to about 9/2. *)
Definition rate_four : tparams F0 := mktp (-1) 31 1 1 (f 1 1024) (f 0 1) (f 0 1) 255 [] (f 4 1) (f 1 1) [].
Theorem C84_rate_refuted :
  match fit (fun _ => 0%Z) two_rows 1 fsort (fun l => l) l2_grad l2_hess [f (-1) 1; f 1 1] [f 1 1; f 1 1] 9 rate_four (f 0 1) [[0; 1]] with
  | Some (Ok (_, preds)) => nlt (train_loss [f (-1) 1; f 1 1] [f 1 1; f 1 1] l2_loss [f 0 1; f 0 1]) (train_loss [f (-1) 1; f 1 1] [f 1 1; f 1 1] l2_loss preds) = true
  | _ => False
  end.
Proof. vm_compute. reflexivity. Qed.
(** With a rate of 1/2 it falls from 1/2 to about 1/8. *)
Example C84_example : match fitted with
  | Some (Ok (_, preds)) => fs (train_loss [f (-1) 1; f 1 1] [f 1 1; f 1 1] l2_loss [f 0 1; f 0 1]) = fs (f 1 2)
      /\ close (train_loss [f (-1) 1; f 1 1] [f 1 1; f 1 1] l2_loss preds) (f 1 8) = true
  | _ => False
  end.
Proof. vm_compute. split; reflexivity. Qed.

Print Assumptions C45_optimal.
Print Assumptions C45_gain.
Print Assumptions C48_depth.
Print Assumptions C48_leaves.
Print Assumptions C48_leaves_refuted.
Print Assumptions C50_features.
Print Assumptions C50_rows.
Print Assumptions C50_every_selection.
Print Assumptions C50_dart.
Print Assumptions C81_prediction.
Print Assumptions C81_categorical_nan_refuted.
Print Assumptions C82_depth_limit.
Print Assumptions C82_few_values.
Print Assumptions C82_all_left.
Print Assumptions C82_few_rows.
Print Assumptions C82_default_refuted.
Print Assumptions C82_capped_refuted.
Print Assumptions C83_scores.
Print Assumptions C83_predictor.
Print Assumptions C83_model_refuted.
Print Assumptions C83_multiclass_ignored.
Print Assumptions C84_round.
Print Assumptions C84_training.
Print Assumptions C84_rate_refuted.
Print Assumptions C85_rows.
Print Assumptions C85_underweighted.
Print Assumptions C85_underweighted_refuted.
