(** C87 - categorical features: histograms and splits in terms of rows. *)
From Coq Require Import List Arith ZArith Bool Lia Permutation Sorted Reals Lra QArith.
From Flocq Require Import Core.Core IEEE754.BinarySingleNaN.
From Verif Require Import Base.Num Base.GoRes Base.ListX Base.RTac Base.FTac Base.GoSort Spec.Order Model.LgbTree Model.LgbHist
  Spec.LgbHist Spec.LgbSplit Proofs.OrderP Proofs.LgbHistP Proofs.LgbHistRP Proofs.LgbSplitP Proofs.LgbCatP Props.LgbHistProps.
Import ListNotations.
Local Open Scope nat_scope.
Local Open Scope list_scope.

(** ** The histogram: one bin per category occurring in the rows, in increasing order, with
    the number of its rows and the sums of their gradients and hessians in row order; every
    row is counted once. *)
Theorem C87_histogram : forall (N : Num) (toint : N -> Z) (X : nat -> nat -> N) (G H : nat -> N) (feat : nat) (idxs : list nat),
  let h := cat_hist toint X G H feat idxs in
  let rows c := filter (fun i => (toint (X i feat) =? c)%Z) idxs in
  h_feat h = feat
  /\ (exists cats, StronglySorted Z.lt cats
      /\ (forall c, In c cats <-> exists i, In i idxs /\ toint (X i feat) = c)
      /\ Forall2 (fun c b => b_lo b = nofZ c /\ b_cnt b = Z.of_nat (List.length (rows c))
                             /\ b_g b = nsum (map G (rows c)) /\ b_h b = nsum (map H (rows c))) cats (h_bins h))
  /\ count_all (h_bins h) = Z.of_nat (List.length idxs).
Proof.
  intros N toint X G H feat idxs h rows. split; [reflexivity|].
  set (cats := isort Z.ltb (nodup Z.eq_dec (map (fun i => toint (X i feat)) idxs))).
  assert (Hc : forall c, In c cats <-> exists i, In i idxs /\ toint (X i feat) = c).
  { intros c. unfold cats. rewrite cats_in, in_map_iff. split; intros (i & A & B); exists i; auto. }
  split.
  - exists cats. split; [apply zsorted_cats|]. split; [exact Hc|].
    change (h_bins h) with (map (cat_bin toint X G H feat idxs) cats). clearbody cats. clear.
    induction cats as [|c cats IH]; constructor; [|exact IH]. repeat split; reflexivity.
  - change (h_bins h) with (map (cat_bin toint X G H feat idxs) cats).
    pose proof (group_count (fun i => toint (X i feat)) idxs cats (fun _ => true)) as K.
    rewrite !filter_all in K by reflexivity. rewrite <- K.
    + clear. induction cats as [|c cats IH]; [reflexivity|]. cbn. unfold count_all in IH. now rewrite IH.
    + apply sorted_nodup, zsorted_cats.
    + intros i Hi. apply Hc. now exists i.
Qed.

Section Rows.
  Variables (toint : R -> Z) (sortr : list (R * bin RNum) -> list (R * bin RNum)).
  Variables (X : nat -> nat -> R) (G H : nat -> R) (feat : nat) (idxs : list nat).
  Definition has_cat (p : Z -> bool) (i : nat) : bool := p (toint (X i feat)).
  (** The rows whose category is chosen by [p], and the others *)
  Definition chosen (p : Z -> bool) : list nat := filter (has_cat p) idxs.
  Definition others (p : Z -> bool) : list nat := filter (fun i => negb (has_cat p i)) idxs.
  Definition cat_found (lambda alpha : R) (mindata : Z) : split RNum :=
    @cat_split RNum toint sortr lambda alpha (sum_of G idxs) (sum_of H idxs) mindata (@cat_hist RNum toint X G H feat idxs).
  Definition in_cats (l : list Z) (c : Z) : bool := existsb (Z.eqb c) l.
End Rows.

Lemma cat_cut : forall (toint : R -> Z) sortr (X : nat -> nat -> R) (G H : nat -> R) (feat : nat) (idxs : list nat) (lambda alpha : R) (mindata : Z),
  (forall z : Z, toint (IZR z) = z) -> go_sort (fun a b => @nlt RNum (fst a) (fst b)) sortr ->
  let s := cat_found toint sortr X G H feat idxs lambda alpha mindata in
  exists cats', NoDup cats' /\ (forall c, In c cats' <-> exists i, In i idxs /\ toint (X i feat) = c)
   /\ StronglySorted (fun x y => (gs toint X G feat idxs x / (hs toint X H feat idxs x + lambda) <= gs toint X G feat idxs y / (hs toint X H feat idxs y + lambda))%R) cats'
   /\ (let enough k := (mindata <= Z.of_nat (List.length (chosen toint X feat idxs (in_cats (firstn k cats')))))%Z
                  /\ (mindata <= Z.of_nat (List.length (others toint X feat idxs (in_cats (firstn k cats')))))%Z in
       let gain k := rows_gain G H lambda alpha (chosen toint X feat idxs (in_cats (firstn k cats'))) (others toint X feat idxs (in_cats (firstn k cats'))) in
       (forall k, 0 < k < List.length cats' -> enough k -> (gain k <= s_gain s)%R)
       /\ (s = @no_split RNum feat
           \/ exists k, 0 < k < List.length cats' /\ enough k /\ (0 < s_gain s)%R /\ s_feat s = Z.of_nat feat
               /\ s_cats s = firstn k cats'
               /\ divides G H lambda alpha s (chosen toint X feat idxs (in_cats (firstn k cats'))) (others toint X feat idxs (in_cats (firstn k cats'))))).
Proof.
  intros toint sortr X G H feat idxs lambda alpha mindata Hint Hsort s.
  destruct (sorted_cats toint sortr X G H feat idxs lambda Hint Hsort) as (cats' & D & Hc & Hl & Eb & So).
  exists cats'. split; [exact D|]. split; [exact Hc|]. split; [exact So|]. intros enough gain.
  set (h := @cat_hist RNum toint X G H feat idxs) in *.
  destruct (Nat.lt_ge_cases (List.length (h_bins h)) 2) as [H2|H2].
  - assert (E : s = @no_split RNum feat).
    { unfold s, cat_found. fold h. unfold cat_split. change feat with (h_feat h). destruct (h_bins h) as [|b1 [|b2 r]]; [reflexivity|reflexivity|cbn in H2; lia]. }
    split; [|now left]. intros k Hk. lia.
  - pose proof (C80_best_categories RNum lt_laws_R toint sortr lambda alpha (sum_of G idxs) (sum_of H idxs) mindata h H2) as K.
    cbn zeta in K. change (@cat_split RNum toint sortr lambda alpha (sum_of G idxs) (sum_of H idxs) mindata h) with s in K. clearbody s.
    match type of K with context [cut_ok _ ?b _] => assert (Eb' : b = map (@cat_bin RNum toint X G H feat idxs) cats') by exact Eb; rewrite Eb' in K end.
    clear Eb. set (bins := map (@cat_bin RNum toint X G H feat idxs) cats') in *.
    assert (Lb : List.length bins = List.length cats') by apply map_length.
    assert (Hok : forall k, 0 < k < List.length cats' -> (cut_ok mindata bins k <-> enough k)).
    { intros k Hk. destruct (cut_cats toint X G H feat idxs Hint cats' k D Hc) as (C1 & C2 & _).
      unfold cut_ok, enough. fold bins in C1, C2. rewrite C1, C2, Lb. unfold chosen, others, has_cat, in_cats. fold (among (firstn k cats')).
      unfold lrows, rrows. unfold among. split; [tauto|]. intros [A B]. repeat split; try assumption; lia. }
    assert (Hg : forall k, @cut_gain RNum lambda alpha (sum_of G idxs) (sum_of H idxs) bins k = gain k).
    { intros k. destruct (cut_cats toint X G H feat idxs Hint cats' k D Hc) as (_ & _ & C3 & C4 & C5 & C6). fold bins in C3, C4.
      unfold cut_gain, gain, rows_gain. change (@nsub RNum) with Rminus. rewrite <- calc_gain_R. rewrite C3, C4, C5, C6.
      unfold lrows, rrows, chosen, others, has_cat, in_cats, among. f_equal; ring. }
    destruct K as [[E F]|(k & K1 & K2 & K3 & K4 & K5 & K6)].
    + split; [|now left]. intros k Hk He. rewrite <- Hg, E. apply Rltb_false. apply F. now apply Hok.
    + assert (Hk : 0 < k < List.length cats') by (destruct K1 as [K1 _]; change (num RNum) with R in *; lia).
      destruct K2 as (D1 & D2 & D3 & D4 & D5 & D6 & D7). split.
      * intros j Hj He. rewrite <- Hg. change (num RNum) with R in *. rewrite D1. apply Rltb_false. apply K6. now apply Hok.
      * right. exists k. split; [exact Hk|]. split; [now apply Hok|]. split; [rewrite D1; apply Rltb_true; exact K5|].
        split; [exact K3|]. split.
        -- rewrite K4. unfold bins. rewrite firstn_map, map_map. transitivity (map (fun c => c) (firstn k cats')); [|apply map_id].
           apply map_ext. intros c. apply (cb_fields toint X G H feat idxs Hint c).
        -- destruct (cut_cats toint X G H feat idxs Hint cats' k D Hc) as (C1 & C2 & C3 & C4 & C5 & C6). fold bins in C1, C2, C3, C4.
           unfold divides. fold (gain k). rewrite <- Hg. split; [exact D1|]. split; [now rewrite D2, C1|]. split; [now rewrite D3, C2|].
           split; [now rewrite D4, C3|]. change (@nsub RNum) with Rminus in D6, D7. split; [|split; [now rewrite D5, C4|]].
           ++ transitivity (sum_of G idxs - @left_g RNum bins k)%R; [exact D6|]. rewrite C3, C5. unfold lrows, rrows, chosen, others, has_cat, in_cats, among. change (num RNum) with R. ring.
           ++ transitivity (sum_of H idxs - @left_h RNum bins k)%R; [exact D7|]. rewrite C4, C6. unfold lrows, rrows, chosen, others, has_cat, in_cats, among. change (num RNum) with R. ring.
Qed.

(** ** The split found describes exactly the division of the rows by its left categories. *)
Theorem C87_rows : forall (toint : R -> Z) sortr (X : nat -> nat -> R) (G H : nat -> R) (feat : nat) (idxs : list nat) (lambda alpha : R) (mindata : Z),
  (forall z : Z, toint (IZR z) = z) -> go_sort (fun a b => @nlt RNum (fst a) (fst b)) sortr ->
  let s := cat_found toint sortr X G H feat idxs lambda alpha mindata in
  let l := chosen toint X feat idxs (in_cats (s_cats s)) in
  let r := others toint X feat idxs (in_cats (s_cats s)) in
  s = @no_split RNum feat
  \/ (0 < s_gain s)%R /\ s_feat s = Z.of_nat feat /\ NoDup (s_cats s)
     /\ (mindata <= Z.of_nat (List.length l))%Z /\ (mindata <= Z.of_nat (List.length r))%Z /\ divides G H lambda alpha s l r.
Proof.
  intros toint sortr X G H feat idxs lambda alpha mindata Hint Hsort s l r.
  destruct (cat_cut toint sortr X G H feat idxs lambda alpha mindata Hint Hsort) as (cats' & D & _ & _ & _ & [K|(k & _ & Ke & Kp & Kf & Kc & Kd)]);
    [now left|]. right. change (cat_found toint sortr X G H feat idxs lambda alpha mindata) with s in Kp, Kf, Kc, Kd. split; [exact Kp|]. split; [exact Kf|]. unfold l, r. rewrite Kc. split.
  - rewrite <- (firstn_skipn k cats') in D. revert D. generalize (firstn k cats') (skipn k cats'). clear. intros a b. induction a as [|x a IH]; intros D; [constructor|].
    inversion D as [|? ? D1 D2]; subst. constructor; [|now apply IH]. intros Hin. apply D1, in_app_iff. now left.
  - destruct Ke as [Ke1 Ke2]. split; [exact Ke1|]. split; [exact Ke2|exact Kd].
Qed.

(** ** Without regularisation no subset of the categories whatever is better. *)
Local Open Scope R_scope.
Theorem C87_best_subset : forall (toint : R -> Z) sortr (X : nat -> nat -> R) (G H : nat -> R) (feat : nat) (idxs : list nat) (alpha : R) (mindata : Z),
  (forall z : Z, toint (IZR z) = z) -> go_sort (fun a b => @nlt RNum (fst a) (fst b)) sortr ->
  alpha <= 0 -> (mindata <= 1)%Z ->
  (forall i, In i idxs -> 1 / 10000000000000000 <= H i) ->
  let s := cat_found toint sortr X G H feat idxs 0 alpha mindata in
  forall p : Z -> bool, chosen toint X feat idxs p <> [] -> others toint X feat idxs p <> [] ->
  rows_gain G H 0 alpha (chosen toint X feat idxs p) (others toint X feat idxs p) <= s_gain s.
Proof.
  intros toint sortr X G H feat idxs alpha mindata Hint Hsort Ha Hm HH s p Hl Hr.
  destruct (cat_cut toint sortr X G H feat idxs 0 alpha mindata Hint Hsort) as (cats' & D & Hc & So & K & Ks). fold s in K, Ks.
  set (cat := fun i => toint (X i feat)).
  assert (Hs0 : 0 <= s_gain s).
  { destruct Ks as [E|(k & _ & _ & E & _)]; [rewrite E; cbn; lra|lra]. }
  assert (Hin : forall i, In i idxs -> In (cat i) cats') by (intros i Hi; apply Hc; now exists i).
  set (m := 1 / 10000000000000000). assert (Hm0 : 0 < m) by (unfold m; lra).
  (* hessian sums of non-empty sets of rows *)
  assert (Hsum : forall l, (forall i, In i l -> In i idxs) -> l <> [] -> m <= sum_of H l).
  { intros l Hsub Hne. destruct l as [|i l]; [easy|]. unfold sum_of. cbn. assert (m <= H i) by (apply HH, Hsub; now left).
    assert (0 <= Rsum (map H l)); [|lra]. apply Rsum_nonneg. intros x Hx. apply in_map_iff in Hx as (j & <- & Hj).
    assert (m <= H j) by (apply HH, Hsub; now right). lra. }
  assert (Hsub : forall q i, In i (filter q idxs) -> In i idxs) by (intros q i Hi; now apply filter_In in Hi).
  assert (Hhs : forall c, In c cats' -> 0 < hs toint X H feat idxs c).
  { intros c Hcin. apply Hc in Hcin as (i & Hi & Ei). assert (m <= sum_of H (rows_of cat c idxs)); [|unfold hs; unfold sum_of in *; fold cat; lra].
    apply Hsum; [intros j; apply Hsub|]. intros E. assert (Hi' : In i (rows_of cat c idxs)) by (apply filter_In; split; [exact Hi|]; apply Z.eqb_eq, Ei).
    rewrite E in Hi'. destruct Hi'. }
  (* gain in terms of scores *)
  assert (Hgain : forall l r : list nat, (forall i, In i l -> In i idxs) -> (forall i, In i r -> In i idxs) -> l <> [] -> r <> [] ->
            rows_gain G H 0 alpha l r = 1 / 2 * (score (sum_of G l) (sum_of H l) + score (sum_of G r) (sum_of H r) - score (sum_of G l + sum_of G r) (sum_of H l + sum_of H r))).
  { intros l r L1 L2 L3 L4. pose proof (Hsum l L1 L3) as A. pose proof (Hsum r L2 L4) as B. unfold rows_gain, gain_of. fold m.
    replace (Rltb (sum_of H l + 0) m) with false by (symmetry; apply Rltb_false; lra).
    replace (Rltb (sum_of H r + 0) m) with false by (symmetry; apply Rltb_false; lra).
    replace (Rltb (sum_of H l + sum_of H r + 0) m) with false by (symmetry; apply Rltb_false; lra).
    replace (Rltb 0 alpha) with false by (symmetry; apply Rltb_false; lra). cbn [orb]. unfold score. rewrite !Rplus_0_r. unfold Rdiv. ring. }
  set (gc := gs toint X G feat idxs) in *. set (hc := hs toint X H feat idxs) in *.
  assert (So' : StronglySorted (fun x y => gc x / hc x <= gc y / hc y) cats').
  { clear - So. induction So as [|x l So IH F]; constructor; [exact IH|]. rewrite Forall_forall in *. intros y Hy. specialize (F y Hy). now rewrite !Rplus_0_r in F. }
  assert (Eg : forall q, total gc (filter q cats') = sum_of G (filter (fun i => q (cat i)) idxs)) by (intros q; apply (group_sum cat G idxs cats' q D Hin)).
  assert (Eh : forall q, total hc (filter q cats') = sum_of H (filter (fun i => q (cat i)) idxs)) by (intros q; apply (group_sum cat H idxs cats' q D Hin)).
  pose proof (fisher gc hc cats' p Hhs So') as Fi. cbn zeta in Fi.
  rewrite (Eg p), (Eh p), (Eg (fun c => negb (p c))), (Eh (fun c => negb (p c))) in Fi.
  change (filter (fun i => p (cat i)) idxs) with (chosen toint X feat idxs p) in Fi.
  change (filter (fun i => negb (p (cat i))) idxs) with (others toint X feat idxs p) in Fi.
  assert (S1 : forall i, In i (chosen toint X feat idxs p) -> In i idxs) by (intros i; apply Hsub).
  assert (S2 : forall i, In i (others toint X feat idxs p) -> In i idxs) by (intros i; apply Hsub).
  pose proof (Hsum _ S1 Hl) as P1. pose proof (Hsum _ S2 Hr) as P2.
  rewrite (Hgain _ _ S1 S2 Hl Hr). destruct Fi as [Fi|(k & Hk & Fi)]; [lra|lra|lra|].
  destruct (among_cut cats' k D) as [A1 A2].
  rewrite <- A1 in Fi at 1 2. rewrite <- A2 in Fi at 1 2.
  rewrite (Eg (among (firstn k cats'))), (Eh (among (firstn k cats'))), (Eg (fun c => negb (among (firstn k cats') c))), (Eh (fun c => negb (among (firstn k cats') c))) in Fi.
  change (filter (fun i => among (firstn k cats') (cat i)) idxs) with (chosen toint X feat idxs (in_cats (firstn k cats'))) in Fi.
  change (filter (fun i => negb (among (firstn k cats') (cat i))) idxs) with (others toint X feat idxs (in_cats (firstn k cats'))) in Fi.
  set (l := chosen toint X feat idxs (in_cats (firstn k cats'))) in *. set (r := others toint X feat idxs (in_cats (firstn k cats'))) in *.
  assert (T1 : forall i, In i l -> In i idxs) by (intros i; apply Hsub). assert (T2 : forall i, In i r -> In i idxs) by (intros i; apply Hsub).
  assert (Nl : l <> []).
  { destruct cats' as [|c0 cats']; [cbn in Hk; lia|]. destruct k as [|k]; [lia|].
    destruct (proj1 (Hc c0) (or_introl eq_refl)) as (i & Hi & Ei). intros E. assert (Hi' : In i l).
    { unfold l. apply filter_In. split; [exact Hi|]. apply (among_in (firstn (S k) (c0 :: cats'))). cbn. left. symmetry. exact Ei. } rewrite E in Hi'. destruct Hi'. }
  assert (Nr : r <> []).
  { assert (Hne : skipn k cats' <> []) by (intros E; pose proof (skipn_length k cats') as Ek; rewrite E in Ek; cbn in Ek; lia).
    destruct (skipn k cats') as [|c0 rest] eqn:Esk; [easy|].
    assert (Hc0 : In c0 (filter (fun c => negb (among (firstn k cats') c)) cats')) by (rewrite A2; now left).
    apply filter_In in Hc0 as [Hc0 Hn0]. destruct (proj1 (Hc c0) Hc0) as (i & Hi & Ei). intros E. assert (Hi' : In i r).
    { unfold r. apply filter_In. split; [exact Hi|]. unfold has_cat. rewrite Ei. exact Hn0. } rewrite E in Hi'. destruct Hi'. }
  specialize (K k Hk). fold l r in K. rewrite (Hgain l r T1 T2 Nl Nr) in K.
  assert (Et : forall v, sum_of v l + sum_of v r = sum_of v (chosen toint X feat idxs p) + sum_of v (others toint X feat idxs p)).
  { intros v. transitivity (sum_of v idxs); [symmetry; apply (total_split (fun i => in_cats (firstn k cats') (cat i)) v idxs)|].
    apply (total_split (fun i => p (cat i)) v idxs). }
  rewrite (Et G), (Et H) in K.
  assert (Len : forall x : list nat, x <> [] -> (mindata <= Z.of_nat (List.length x))%Z) by (intros [|? ?] Hx; [easy|cbn [List.length]; lia]).
  specialize (K (conj (Len l Nl) (Len r Nr))). lra.
Qed.

(** ** Examples *)
Local Close Scope R_scope.
(** Functions as the hypotheses ask for exist. *)
Example C87_example_hypotheses :
  (forall z : Z, Int_part (IZR z) = z) /\ go_sort (fun a b : R * bin RNum => @nlt RNum (fst a) (fst b)) (isort (fun a b => @nlt RNum (fst a) (fst b))).
Proof.
  split.
  - intros z. pose proof (base_Int_part (IZR z)) as [A B]. apply eq_IZR. assert (L : (IZR z - 1 < IZR (Int_part (IZR z)) <= IZR z)%R) by lra.
    destruct L as [L1 L2]. rewrite <- minus_IZR in L1. apply lt_IZR in L1. apply le_IZR in L2. f_equal. lia.
  - apply isort_go_sort; unfold asym, negtrans; cbn [nlt RNum]; intros.
    + apply Rltb_true in H. apply Rltb_false. lra.
    + apply Rltb_false in H, H0. apply Rltb_false. lra.
Qed.
(** Truncation of the small binary64 integers of the examples *)
Definition small (v : F0) : Z := if nlt v (f 1 1) then 0%Z else if nlt v (f 2 1) then 1%Z else 2%Z.
Definition by_ratio : list (F0 * bin F0) -> list (F0 * bin F0) := isort (fun a b => nlt (fst a) (fst b)).
Definition cats_of : list F0 := [f 0 1; f 0 1; f 0 1; f 0 1; f 1 1; f 2 1].
Definition grads_of : list F0 := [f 1 1; f 1 1; f 1 1; f 1 1; f 2 1; f 12 1].
Definition grad_at (i : nat) : F0 := nth i grads_of (f 0 1).
Definition ex_found (lambda : F0) : split F0 :=
  cat_split small by_ratio lambda (f 0 1) (nsum (map grad_at (seq 0 6))) (f 6 1) 1
    (cat_hist small (fun i _ => nth i cats_of (f 0 1)) grad_at (fun _ => f 1 1) 0 (seq 0 6)).
(** The gain of sending the rows [l] left and [r] right *)
Definition ex_gain (lambda : F0) (l r : list nat) : F0 :=
  calc_gain lambda (f 0 1) (nsum (map grad_at l)) (nofnat (List.length l)) (nsum (map grad_at r)) (nofnat (List.length r))
    (nsum (map grad_at (l ++ r))) (nofnat (List.length (l ++ r))).
(** Without regularisation the categories 0 and 1 are separated from 2, rightly. *)
Example C87_example : s_cats (ex_found (f 0 1)) = [0; 1]%Z /\ s_lc (ex_found (f 0 1)) = 5%Z
  /\ nlt (ex_gain (f 0 1) [0; 1; 2; 3] [4; 5]) (s_gain (ex_found (f 0 1))) = true
  /\ nlt (ex_gain (f 0 1) [4] [0; 1; 2; 3; 5]) (s_gain (ex_found (f 0 1))) = true.
Proof. vm_compute. repeat split; reflexivity. Qed.
(** With lambda_l2 = 4 the order by gradient over regularised hessian misses the best subset:
    the search sends categories 1 and 0 left, but sending only category 0 left has more than five times
    the gain. *)
Theorem C87_regularised_refuted : exists lambda : F0,
  s_cats (ex_found lambda) = [1; 0]%Z
  /\ nlt (nmul (f 5 1) (s_gain (ex_found lambda))) (ex_gain lambda [0; 1; 2; 3] [4; 5]) = true
  /\ nlt (f 0 1) (s_gain (ex_found lambda)) = true.
Proof. exists (f 4 1). vm_compute. repeat split; reflexivity. Qed.

Print Assumptions C87_histogram.
Print Assumptions C87_rows.
Print Assumptions C87_best_subset.
Print Assumptions C87_regularised_refuted.
