(** The boosting loop. *)
From Coq Require Import List Arith ZArith Bool Lia Reals Lra Permutation.
From Verif Require Import Base.Num Base.GoRes Base.ListX Base.RTac Model.LgbTransform Model.LgbTree Model.LgbHist Model.LgbTrain Model.LgbObjective
  Spec.LgbTransform Spec.LgbTree Spec.LgbTrain Proofs.LgbTreeP Proofs.LgbArrayP Proofs.LgbTransformP Proofs.LgbTrainP.
Import ListNotations.
Local Open Scope list_scope.

Section Boost.
  Context {N : Num}.
  Variables (toint : N -> Z) (X : nat -> nat -> N) (cols : nat) (sortf : list N -> list N) (sortr : list (N * bin N) -> list (N * bin N)).
  Variables (ograd ohess : N -> N -> N) (y w : list N).
  Local Open Scope num_scope.
  Notation row := (row X cols).

  Lemma update_preds_spec fuel t : forall preds i preds', update_preds toint X cols fuel t i preds = Some (Ok preds') ->
    List.length preds' = List.length preds
    /\ forall k p, nth_error preds k = Some p ->
         exists o, tree_predict toint fuel t (row (i + k)) = Some (Ok o) /\ nth_error preds' k = Some (p + o * gt_shrink t).
  Proof.
    induction preds as [|p r IH]; intros i preds' E; cbn [update_preds] in E.
    - injection E as <-. split; [reflexivity|]. intros [|k] q Hq; discriminate.
    - destruct (tree_predict toint fuel t (row i)) as [[o| |]|] eqn:Eo; try discriminate.
      destruct (update_preds toint X cols fuel t (S i) r) as [[r'| |]|] eqn:Er; try discriminate. injection E as <-.
      destruct (IH _ _ Er) as [HL HK]. split; [cbn; now rewrite HL|]. intros [|k] q Hq.
      + injection Hq as <-. exists o. rewrite Nat.add_0_r. split; [exact Eo|reflexivity].
      + destruct (HK k q Hq) as [o' [H1 H2]]. exists o'. rewrite <- Nat.add_succ_comm. split; [exact H1|exact H2].
  Qed.

  (** A tree made by the growth procedure *)
  Definition built (fuel : nat) (p : tparams N) (t : gtree N) : Prop :=
    gt_shrink t = tp_lr p /\ exists G H T, laid G H p (gt_nodes t) 0 T /\ S (height T) <= fuel
      /\ S (height T) <= List.length (gt_nodes t)
      /\ exists rows, divided toint X (finder toint X G H sortf sortr p cols) p T rows.
  Lemma build_built G H fuel p idxs t : build_tree toint X G H sortf sortr fuel p cols idxs = Some (Ok t) ->
    gt_shrink t = tp_lr p /\ exists T, laid G H p (gt_nodes t) 0 T /\ S (height T) <= fuel
      /\ List.length (gt_nodes t) = size T
      /\ gt_nleaves t = Z.of_nat (List.length (parts T)) /\ List.length (leaves_of (gt_nodes t)) = List.length (parts T)
      /\ divided toint X (finder toint X G H sortf sortr p cols) p T idxs
      /\ depth_ok p 0 T /\ count_ok p 0 T.
  Proof.
    unfold build_tree, build_tree_with. intros E.
    destruct (build_node toint X G H fuel (finder toint X G H sortf sortr p cols) p [] idxs 0) as [[[ns id]| |]|] eqn:En; try discriminate.
    injection E as <-. cbn [gt_shrink gt_nodes gt_nleaves]. split; [reflexivity|].
    destruct (grow_laid _ _ _ _ _ _ _ _ _ _ _ _ En) as (Eid & ext & T & X1 & L1 & D1 & S1 & C1 & K1 & V1 & F1 & P1 & Q1).
    cbn [List.length app] in Eid, X1. subst id ns. exists T.
    do 3 (split; [assumption|]). split; [now rewrite K1|]. do 3 (split; [assumption|]). exact Q1.
  Qed.

  Notation round := (boost_round toint X cols sortf sortr ograd ohess y w).
  Notation run := (boost toint X cols sortf sortr ograd ohess y w).
  Lemma round_spec fuel p idxs st st' : round fuel p idxs st = Some (Ok st') ->
    exists t, fst st' = fst st ++ [t]
      /\ build_tree toint X (fun i => nth i (weighted y w ograd (snd st)) n0) (fun i => nth i (weighted y w ohess (snd st)) n0)
           sortf sortr fuel p cols idxs = Some (Ok t)
      /\ update_preds toint X cols fuel t 0 (snd st) = Some (Ok (snd st')).
  Proof.
    unfold boost_round. intros E.
    destruct (build_tree toint X _ _ sortf sortr fuel p cols idxs) as [[t| |]|]; try discriminate.
    destruct (update_preds toint X cols fuel t 0 (snd st)) as [[preds| |]|] eqn:Eu; try discriminate.
    injection E as <-. exists t. auto.
  Qed.
  Lemma round_built fuel p idxs st st' : round fuel p idxs st = Some (Ok st') ->
    exists t, fst st' = fst st ++ [t] /\ built fuel p t /\ update_preds toint X cols fuel t 0 (snd st) = Some (Ok (snd st')).
  Proof.
    intros E. destruct (round_spec _ _ _ _ _ E) as (t & E1 & E2 & E3). exists t. split; [exact E1|]. split; [|exact E3].
    destruct (build_built _ _ _ _ _ _ E2) as (Hs & T & L1 & F1 & S1 & _ & _ & D1 & _). split; [exact Hs|].
    eexists _, _, T. split; [exact L1|]. split; [exact F1|]. split; [rewrite S1; apply size_height|]. exists idxs. exact D1.
  Qed.
  Lemma run_spec fuel p : forall bags st st', run fuel p bags st = Some (Ok st') ->
    exists new, fst st' = fst st ++ new /\ List.length new = List.length bags /\ Forall (built fuel p) new
      /\ List.length (snd st') = List.length (snd st)
      /\ forall k p0, nth_error (snd st) k = Some p0 ->
           exists outs, Forall2 (fun t o => tree_predict toint fuel t (row k) = Some (Ok o)) new outs
             /\ nth_error (snd st') k = Some (fold_left (fun a o => a + o * tp_lr p) outs p0).
  Proof.
    induction bags as [|b bags IH]; intros st st' E; cbn [boost] in E.
    - injection E as <-. exists []. rewrite app_nil_r. split; [reflexivity|]. split; [reflexivity|]. split; [constructor|].
      split; [reflexivity|]. intros k p0 Hp. exists []. split; [constructor|exact Hp].
    - destruct (round fuel p b st) as [[st1| |]|] eqn:Er; try discriminate.
      destruct (round_built _ _ _ _ _ Er) as (t & E1 & E2 & E3).
      destruct (IH _ _ E) as (new & N1 & N2 & N3 & N4 & N5).
      destruct (update_preds_spec _ _ _ _ _ E3) as [U1 U2].
      exists (t :: new). split; [rewrite N1, E1, <- app_assoc; reflexivity|]. split; [cbn; now rewrite N2|].
      split; [constructor; assumption|]. split; [now rewrite N4, U1|]. intros k p0 Hp.
      destruct (U2 k p0 Hp) as [o [O1 O2]]. cbn [Nat.add] in O1. destruct (N5 k _ O2) as (outs & F1 & F2).
      exists (o :: outs). split; [constructor; assumption|]. cbn [fold_left]. destruct E2 as [Es _]. rewrite Es in F2. exact F2.
  Qed.
End Boost.

(** ** The other predictor on a grown tree *)
Section Pwalk.
  Context {N : Num}.
  Variables (toint roundint : N -> Z) (G H : nat -> N) (p : tparams N) (t : gtree N) (x : list N).
  Hypothesis numeric : tp_cats p = [].
  Hypothesis no_nans : forall v, In v x -> nisnan v = false.
  (** The tolerant comparison and the plain one agree on this sample. *)
  Hypothesis same : forall n v, In n (gt_nodes t) -> g_type n = TNum -> getZ x (g_feat n) = Some v ->
    le_precise v (g_thr n) = nle v (g_thr n).
  Lemma getZ_In {A} (l : list A) z v : getZ l z = Some v -> In v l.
  Proof. unfold getZ. destruct (z <? 0)%Z; [discriminate|]. apply nth_error_In. Qed.
  Lemma laid_pwalk T : forall id fuel guard v, laid G H p (gt_nodes t) id T -> S (height T) <= guard ->
    gwalk toint fuel t (Z.of_nat id) x = Some (Ok v) -> pwalk roundint fuel guard t (Z.of_nat id) x = Some (Ok (ensure v)).
  Proof.
    induction T as [rs|s l IHl r IHr]; intros id fuel guard v HL Hg; (destruct fuel as [|fuel]; [discriminate|]);
      cbn [gwalk pwalk laid height] in *; rewrite getZ_nat; (destruct guard as [|guard]; [lia|]).
    - rewrite HL, leaf_isleaf. intros E. injection E as <-. reflexivity.
    - destruct HL as (a & b & E & Ha & Hb & Ll & Lr). rewrite E.
      set (n := set_children (Z.of_nat a) (Z.of_nat b) (inner_node p s)) in *.
      assert (Hnl : g_isleaf n = false).
      { unfold n, g_isleaf, set_children. cbn [g_left]. destruct (Z.eqb_spec (Z.of_nat a) (-1)); [lia|reflexivity]. }
      rewrite Hnl. destruct (getZ x (g_feat n)) as [u|] eqn:Eu; [|discriminate].
      assert (Hty : g_type n = TNum) by (unfold n; cbn [set_children g_type inner_node]; now rewrite numeric).
      assert (Hfl : (Z.of_nat (List.length x) <=? g_feat n)%Z = false).
      { apply Z.leb_gt. unfold getZ in Eu. destruct (Z.ltb_spec (g_feat n) 0); [discriminate|].
        assert (nth_error x (Z.to_nat (g_feat n)) <> None) by congruence. apply nth_error_Some in H1. lia. }
      rewrite Hfl, (no_nans u (getZ_In _ _ _ Eu)), Hty, (same n u (nth_error_In _ _ E) Hty Eu).
      unfold follow, n. cbn [set_children g_left g_right]. destruct (nle u _);
        (match goal with |- _ -> (if (?z <? 0)%Z then _ else _) = _ => destruct (Z.ltb_spec z 0); [lia|] end).
      + apply IHl; [exact Ll|lia].
      + apply IHr; [exact Lr|lia].
  Qed.
End Pwalk.

(** ** Squared error *)
Local Open Scope R_scope.
Lemma leaf_step l1 l2 sg sh lr : 0 <= l1 -> 0 <= l2 -> 0 <= sh -> 0 <= lr <= 2 ->
  let a := @leaf_reg RNum l1 l2 sg sh * lr in a * sg + 1 / 2 * (a * a) * sh <= 0.
Proof.
  intros H1 H2 Hs Hr. cbn zeta. rewrite leaf_reg_R. cbn zeta. set (d := sh + l2 + 1 / 10000000000).
  assert (Hd : 0 < d) by (unfold d; lra). pose proof (Rinv_0_lt_compat d Hd) as Hi.
  assert (Hsd : sh * / d <= 1).
  { apply Rmult_le_reg_r with d; [exact Hd|]. rewrite Rmult_assoc, Rinv_l by lra. unfold d. lra. }
  assert (Hsd0 : 0 <= sh * / d) by nra.
  assert (K : forall g', 0 <= g' * (sg - g') -> - g' / d * lr * sg + 1 / 2 * (- g' / d * lr * (- g' / d * lr)) * sh <= 0).
  { intros g' Hg. replace (- g' / d * lr * sg + 1 / 2 * (- g' / d * lr * (- g' / d * lr)) * sh)
      with (lr * / d * (1 / 2 * lr * (g' * g') * (sh * / d) - g' * sg)) by (field; lra).
    assert (0 <= lr * / d) by nra.
    assert (g' * g' <= g' * sg) by nra. pose proof (sq_nonneg g').
    assert (1 / 2 * lr * (g' * g') * (sh * / d) <= g' * g').
    { assert (0 <= 1 / 2 * lr <= 1) by lra. assert (1 / 2 * lr * (sh * / d) <= 1) by nra.
      replace (1 / 2 * lr * (g' * g') * (sh * / d)) with (1 / 2 * lr * (sh * / d) * (g' * g')) by ring. nra. }
    nra. }
  destruct (Rltb_spec 0 l1) as [L1|L1]; [destruct (Rltb_spec l1 sg) as [L2|L2]; [|destruct (Rltb_spec sg (- l1)) as [L3|L3]]|].
  - apply K. nra.
  - apply K. nra.
  - lra.
  - apply K. lra.
Qed.

Section L2.
  Variables (y w : list R).
  Hypothesis Hw : forall v, In v w -> 0 <= v.
  Let d (preds : list R) i := nth i preds 0 - nth i y 0.
  Lemma weighted_nth (o : R -> R -> R) (preds : list R) i : (i < List.length preds)%nat -> (i < List.length y)%nat -> (i < List.length w)%nat ->
    nth i (@weighted RNum y w o preds) 0 = o (nth i preds 0) (nth i y 0) * nth i w 0.
  Proof.
    clear. intros H1 H2 H3. unfold weighted. change (num RNum) with R in *.
    revert i y w H1 H2 H3. induction preds as [|a preds IH]; intros [|i] [|b y] [|c w] H1 H2 H3; cbn in *; try lia; [reflexivity|].
    apply IH; lia.
  Qed.
  Lemma weighted_length (o : R -> R -> R) (preds : list R) n : List.length preds = n -> List.length y = n -> List.length w = n ->
    List.length (@weighted RNum y w o preds) = n.
  Proof. clear. intros H1 H2 H3. unfold weighted. change (num RNum) with R in *. rewrite map_length, !combine_length. lia. Qed.
  Lemma list_seq (l : list R) n : List.length l = n -> l = map (fun i => nth i l 0) (seq 0 n).
  Proof.
    clear. intros <-. apply nth_error_ext. intros i. rewrite nth_error_map. destruct (Nat.lt_ge_cases i (List.length l)) as [Hi|Hi].
    - rewrite (nth_error_nth' l 0 Hi). rewrite (nth_error_nth' (seq 0 (List.length l)) 0%nat) by (now rewrite seq_length).
      rewrite seq_nth by exact Hi. reflexivity.
    - replace (nth_error l i) with (@None R) by (symmetry; now apply nth_error_None).
      replace (nth_error (seq 0 (List.length l)) i) with (@None nat) by (symmetry; apply nth_error_None; now rewrite seq_length). reflexivity.
  Qed.
  Lemma Rsum_concat (g : nat -> R) (ps : list (list nat)) : Rsum (map g (concat ps)) = Rsum (map (fun q => Rsum (map g q)) ps).
  Proof. clear. induction ps as [|q ps IH]; [reflexivity|]. cbn [concat map Rsum]. now rewrite map_app, Rsum_app, IH. Qed.

  Lemma part_decrease l1 l2 lr (preds : list R) (q : list nat) : 0 <= l1 -> 0 <= l2 -> 0 <= lr <= 2 ->
    let g i := d preds i * nth i w 0 in
    let a := @leaf_reg RNum l1 l2 (Rsum (map g q)) (Rsum (map (fun i => 1 * nth i w 0) q)) * lr in
    Rsum (map (fun i => 1 / 2 * (d preds i + a) * (d preds i + a) * nth i w 0) q)
    <= Rsum (map (fun i => 1 / 2 * d preds i * d preds i * nth i w 0) q).
  Proof.
    intros H1 H2 Hr g a. set (sg := Rsum (map g q)) in *. set (sh := Rsum (map (fun i => 1 * nth i w 0) q)) in *.
    assert (Hs : 0 <= sh).
    { apply Rsum_nonneg. intros v Hv. apply in_map_iff in Hv as [i [<- _]]. rewrite Rmult_1_l.
      destruct (Nat.lt_ge_cases i (List.length w)); [apply Hw; now apply nth_In|rewrite nth_overflow by assumption; lra]. }
    pose proof (leaf_step l1 l2 sg sh lr H1 H2 Hs Hr) as K. cbn zeta in K. fold a in K.
    assert (E : Rsum (map (fun i => 1 / 2 * (d preds i + a) * (d preds i + a) * nth i w 0) q)
      = Rsum (map (fun i => 1 / 2 * d preds i * d preds i * nth i w 0) q) + (a * sg + 1 / 2 * (a * a) * sh)).
    { unfold sg, sh, g. rewrite <- !Rsum_map_scal, <- !Rsum_map_plus. apply Rsum_map_ext. intros i _. field. }
    rewrite E. lra.
  Qed.
End L2.

Section L2Boost.
  Variables (toint : R -> Z) (X : nat -> nat -> R) (cols : nat) (sortf : list R -> list R) (sortr : list (R * bin RNum) -> list (R * bin RNum)).
  Variables (y w : list R).
  Hypothesis Hw : forall v, In v w -> 0 <= v.
  Variable p : tparams RNum.
  Hypotheses (P1 : 0 <= tp_l1 p) (P2 : 0 <= tp_l2 p) (Plr : 0 <= tp_lr p <= 2).
  Notation n := (List.length y).
  Hypothesis Lw : List.length w = n.
  Notation loss := (@train_loss RNum y w (@l2_loss RNum)).

  Lemma loss_sum (preds : list R) : List.length preds = n ->
    @nsum RNum (@weighted RNum y w (@l2_loss RNum) preds)
    = Rsum (map (fun i => 1 / 2 * (nth i preds 0 - nth i y 0) * (nth i preds 0 - nth i y 0) * nth i w 0) (seq 0 n)).
  Proof.
    intros Lp. rewrite nsum_R. rewrite (list_seq (@weighted RNum y w (@l2_loss RNum) preds) n) by (apply weighted_length; auto).
    apply Rsum_map_ext. intros i Hi. apply in_seq in Hi. rewrite weighted_nth by lia.
    unfold l2_loss, half. change (@nlit RNum 1 2) with (IZR 1 / IZR 2). reflexivity.
  Qed.

  Lemma l2_round fuel (st st' : list (gtree RNum) * list R) : List.length (snd st) = n ->
    @boost_round RNum toint X cols sortf sortr (@l2_grad RNum) (@l2_hess RNum) y w fuel p (seq 0 n) st = Some (Ok st') ->
    @nsum RNum (@weighted RNum y w (@l2_loss RNum) (snd st')) <= @nsum RNum (@weighted RNum y w (@l2_loss RNum) (snd st)).
  Proof.
    intros Lp E. destruct (round_spec _ _ _ _ _ _ _ _ _ _ _ _ _ _ E) as (t & E1 & E2 & E3).
    destruct (build_built _ _ _ _ _ _ _ _ _ _ _ E2) as (Hs & T & L1 & F1 & _ & _ & _ & D1 & _).
    destruct (update_preds_spec _ _ _ _ _ _ _ _ E3) as [U1 U2].
    unR. rewrite !loss_sum by congruence.
    pose proof (parts_perm _ _ _ _ _ _ D1) as HP.
    assert (Hsum : forall g : nat -> R, Rsum (map g (seq 0 n)) = Rsum (map (fun q => Rsum (map g q)) (parts T))).
    { intros g. rewrite <- Rsum_concat. apply Rsum_perm. apply Permutation_map. now symmetry. }
    rewrite !Hsum. apply Rsum_le. intros q Hq.
    set (G := fun i => nth i (@weighted RNum y w (@l2_grad RNum) (snd st)) (@n0 RNum)) in *.
    set (H := fun i => nth i (@weighted RNum y w (@l2_hess RNum) (snd st)) (@n0 RNum)) in *.
    assert (Hin : forall i, In i q -> (i < n)%nat).
    { intros i Hi. pose proof (parts_in _ _ _ _ _ _ _ _ D1 Hq Hi) as Hr. apply in_seq in Hr. lia. }
    assert (HG : @nsum RNum (map G q) = Rsum (map (fun i => (nth i (snd st) 0 - nth i y 0) * nth i w 0) q)).
    { rewrite nsum_R. apply Rsum_map_ext. intros i Hi. specialize (Hin i Hi). unfold G. change (@n0 RNum) with 0.
      rewrite weighted_nth by (unR; lia). reflexivity. }
    assert (HH : @nsum RNum (map H q) = Rsum (map (fun i => 1 * nth i w 0) q)).
    { rewrite nsum_R. apply Rsum_map_ext. intros i Hi. specialize (Hin i Hi). unfold H. change (@n0 RNum) with 0.
      rewrite weighted_nth by (unR; lia). reflexivity. }
    assert (Hv : forall i, In i q -> nth i (snd st') 0 = nth i (snd st) 0 + @leaf_value RNum G H p q * tp_lr p).
    { intros i Hi. pose proof (Hin i Hi) as Hlt.
      destruct (U2 i (nth i (snd st) 0)) as (o & O1 & O2); [apply nth_error_nth'; unR; lia|].
      cbn [Nat.add] in O1. apply nth_error_nth with (d := 0) in O2. unR. rewrite O2.
      unfold tree_predict in O1.
      assert (O3 : @gwalk RNum toint fuel t 0 (@row RNum X cols i) = Some (Ok (@leaf_value RNum G H p q))).
      { apply (@laid_walk RNum toint X G H (@finder RNum toint X G H sortf sortr p cols) p cols) with (T := T) (id := 0%nat) (rows := seq 0 n); auto.
        - intros rows s Es. exact (finder_feat _ _ _ _ _ _ _ _ _ _ Es).
        - intros a b Hab. discriminate. }
      assert (o = @leaf_value RNum G H p q) as ->; [|rewrite Hs; reflexivity].
      congruence. }
    pose proof (part_decrease y w Hw (tp_l1 p) (tp_l2 p) (tp_lr p) (snd st) q P1 P2 Plr) as K. cbv beta zeta in K. unR.
    rewrite <- HG, <- HH in K. eapply Rle_trans; [|exact K]. apply Req_le. apply Rsum_map_ext. intros i Hi. rewrite (Hv i Hi).
    unfold leaf_value. change (num RNum) with R. ring.
  Qed.
End L2Boost.

Section L2Run.
  Variables (toint : R -> Z) (X : nat -> nat -> R) (cols : nat) (sortf : list R -> list R) (sortr : list (R * bin RNum) -> list (R * bin RNum)).
  Variables (y w : list R).
  Hypothesis Hw : forall v, In v w -> 0 <= v.
  Variable p : tparams RNum.
  Hypotheses (P1 : 0 <= tp_l1 p) (P2 : 0 <= tp_l2 p) (Plr : 0 <= tp_lr p <= 2).
  Hypothesis Lw : List.length w = List.length y.
  Lemma l2_run fuel : forall bags (st st' : list (gtree RNum) * list R), List.length (snd st) = List.length y ->
    (forall b, In b bags -> b = seq 0 (List.length y)) ->
    @boost RNum toint X cols sortf sortr (@l2_grad RNum) (@l2_hess RNum) y w fuel p bags st = Some (Ok st') ->
    @nsum RNum (@weighted RNum y w (@l2_loss RNum) (snd st')) <= @nsum RNum (@weighted RNum y w (@l2_loss RNum) (snd st)).
  Proof.
    induction bags as [|b bags IH]; intros st st' Lp Hb E; cbn [boost] in E; [injection E as <-; apply Rle_refl|].
    rewrite (Hb b) in E by now left.
    destruct (@boost_round RNum toint X cols sortf sortr (@l2_grad RNum) (@l2_hess RNum) y w fuel p (seq 0 (List.length y)) st) as [[st1| |]|] eqn:Er;
      try discriminate.
    destruct (round_spec _ _ _ _ _ _ _ _ _ _ _ _ _ _ Er) as (t & _ & _ & E3).
    destruct (update_preds_spec _ _ _ _ _ _ _ _ E3) as [U1 _].
    eapply Rle_trans; [apply (IH st1 st')|].
    - unR. congruence.
    - intros c Hc. apply Hb. now right.
    - exact E.
    - exact (l2_round toint X cols sortf sortr y w Hw p P1 P2 Plr Lw fuel st st1 Lp Er).
  Qed.
End L2Run.

Local Close Scope R_scope.
Section Predictor.
  Context {N : Num}.
  Variables (toint roundint : N -> Z) (X : nat -> nat -> N) (cols : nat) (sortf : list N -> list N) (sortr : list (N * bin N) -> list (N * bin N)).
  Variables (ograd ohess : N -> N -> N) (y w : list N).
  Local Open Scope num_scope.
  Lemma map_self {A} (g : A -> A) l : (forall a, In a l -> g a = a) -> map g l = l.
  Proof. induction l as [|a l IH]; intros Hg; [reflexivity|]. cbn. rewrite Hg by now left. f_equal. apply IH. intros; apply Hg; now right. Qed.
  Lemma fit_predictor fuel p init bags obj ncl ts preds i : tp_cats p = [] ->
    fit toint X cols sortf sortr ograd ohess y w fuel p init bags = Some (Ok (ts, preds)) -> i < List.length y ->
    (forall j, j < cols -> nisnan (X i j) = false) ->
    (forall t n j, In t ts -> In n (gt_nodes t) -> g_type n = TNum -> g_feat n = Z.of_nat j -> j < cols ->
       le_precise (X i j) (g_thr n) = nle (X i j) (g_thr n)) ->
    exists outs, Forall2 (fun t o => tree_predict toint fuel t (row X cols i) = Some (Ok o)) ts outs
      /\ nth_error preds i = Some (fold_left (fun a o => a + o * tp_lr p) outs init)
      /\ model_raw toint fuel (get_model cols obj ncl p init ts) (row X cols i)
         = Some (Ok (accumulate nadd (outputs_count (get_model cols obj ncl p init ts)) init outs))
      /\ predictor_raw roundint fuel (get_model cols obj ncl p init ts) (row X cols i)
         = Some (Ok (accumulate (fun a b => ensure (a + b)) (outputs_count (get_model cols obj ncl p init ts)) init
                       (map (fun o => ensure o * tp_lr p) outs))).
  Proof.
    intros Hc E Hi Hn Hs. unfold fit in E. destruct (run_spec _ _ _ _ _ _ _ _ _ _ _ _ _ _ E) as (new & N1 & N2 & N3 & N4 & N5).
    cbn [fst snd app] in *. subst new.
    destruct (N5 i init) as (outs & F1 & F2); [now apply nth_error_repeat|]. exists outs. split; [exact F1|]. split; [exact F2|]. split.
    { unfold model_raw. cbn [get_model m_trees m_init]. rewrite (sequence_ok _ _ _ F1). reflexivity. }
    unfold predictor_raw.
    assert (Ex : no_nan (row X cols i) = row X cols i).
    { apply map_self. intros v Hv. unfold row in Hv. apply in_map_iff in Hv as [j [<- Hj]]. apply in_seq in Hj. now rewrite Hn by lia. }
    rewrite Ex.
    assert (Eu : used_trees (get_model cols obj ncl p init ts) = ts).
    { unfold used_trees, get_model. cbn [m_best m_niter m_trees]. cbn [Z.ltb Z.compare andb].
      destruct (Z.of_nat (List.length ts) =? 0)%Z; [reflexivity|]. rewrite Nat2Z.id. apply firstn_all. }
    rewrite Eu, (sequence_ok _ ts (map (fun o => ensure o * tp_lr p) outs)); [reflexivity|].
    clear E N4 N5 N2 F2 Eu. revert Hs. induction F1 as [|t o ts outs H1 H2 IH]; intros Hs; [constructor|]. cbn [map]. inversion N3; subst. constructor.
    - destruct H3 as [Es (G & H & T & L1 & L2 & L3 & _)].
      unfold predict_tree. change 0%Z with (Z.of_nat 0).
      rewrite (laid_pwalk toint roundint G H p t (row X cols i) Hc) with (v := o) (T := T).
      + rewrite Es. cbn [get_model m_lr]. now destruct (tp_lr p =? n0).
      + intros v Hv. unfold row in Hv. apply in_map_iff in Hv as [j [<- Hj]]. apply in_seq in Hj. apply Hn; lia.
      + intros n v Hin Hty Hv. unfold getZ in Hv. destruct (Z.ltb_spec (g_feat n) 0); [discriminate|].
        unfold row in Hv. rewrite nth_error_map in Hv. destruct (nth_error (seq 0 cols) (Z.to_nat (g_feat n))) as [j|] eqn:Ej; [|discriminate].
        cbn in Hv. injection Hv as <-. assert (j < cols) by (apply nth_error_In, in_seq in Ej; lia).
        assert (Hj : j = Z.to_nat (g_feat n)).
        { assert (Z.to_nat (g_feat n) < List.length (seq 0 cols)) by (apply nth_error_Some; congruence). rewrite seq_length in *.
          apply nth_error_nth with (d := 0) in Ej. rewrite seq_nth in Ej by assumption. lia. }
        apply (Hs t n j); [now left|exact Hin|exact Hty|lia|assumption].
      + exact L1.
      + lia.
      + exact H1.
    - apply IH; [assumption|]. intros t' n j Ht. apply Hs. now right.
  Qed.
End Predictor.

Local Open Scope R_scope.
Lemma ensure_near (x : R) : Rabs (@ensure RNum x - x) <= peps_R.
Proof.
  rewrite ensure_R. pose proof peps_pos. destruct (Rltb_spec (Rabs x) peps_R).
  - rewrite Rabs_minus_sym, Rminus_0_r. lra.
  - rewrite Rminus_diag_eq by reflexivity. rewrite Rabs_R0. lra.
Qed.
Lemma predictor_error lr : forall (outs : list R) a b e, Rabs (a - b) <= e ->
  Rabs (fold_left (fun a b => @ensure RNum (a + b)) (map (fun o => @ensure RNum o * lr) outs) a
        - fold_left (fun a o => a + o * lr) outs b) <= e + INR (List.length outs) * (1 + Rabs lr) * peps_R.
Proof.
  induction outs as [|o outs IH]; intros a b e He; [cbn; lra|].
  cbn [map fold_left List.length]. rewrite S_INR.
  eapply Rle_trans; [apply (IH _ _ (e + (1 + Rabs lr) * peps_R))|right; ring].
  pose proof (ensure_near (a + @ensure RNum o * lr)) as K1. pose proof (ensure_near o) as K2. unR.
  assert (K3 : Rabs ((@ensure RNum o - o) * lr) <= peps_R * Rabs lr).
  { rewrite Rabs_mult. apply Rmult_le_compat_r; [apply Rabs_pos|exact K2]. }
  unR. set (e1 := @ensure RNum o) in *. unR. set (e2 := @ensure RNum (a + e1 * lr)) in *. unR.
  replace (e2 - (b + o * lr)) with ((e2 - (a + e1 * lr)) + ((a - b) + (e1 - o) * lr)) by ring.
  eapply Rle_trans; [apply Rabs_triang|]. eapply Rle_trans; [apply Rplus_le_compat_l, Rabs_triang|]. lra.
Qed.
Lemma le_precise_R (a b : R) : a <= b \/ b + peps_R <= a -> @le_precise RNum a b = Rleb a b.
Proof.
  intros Hab. unfold le_precise. change (@nlt RNum) with Rltb. change (@peps RNum) with peps_R. change (@nabs RNum) with Rabs. change (@n0 RNum) with 0.
  pose proof peps_pos. change (@nsub RNum a b) with (a - b). destruct Hab as [Hab|Hab].
  - replace (Rleb a b) with true by (symmetry; now apply Rleb_true). destruct (Rltb_spec (a - b) 0); [apply orb_true_r|].
    assert (a - b = 0) as -> by lra. rewrite Rabs_R0. replace (Rltb 0 peps_R) with true by (symmetry; now apply Rltb_true). reflexivity.
  - replace (Rleb a b) with false by (symmetry; apply Rleb_false; lra). rewrite Rabs_right by lra.
    replace (Rltb (a - b) peps_R) with false by (symmetry; apply Rltb_false; lra).
    replace (Rltb (a - b) 0) with false by (symmetry; apply Rltb_false; lra). reflexivity.
Qed.
