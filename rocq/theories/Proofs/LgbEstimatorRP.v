(** Proofs for C106 to C108: trained models, and scores over the real numbers. *)
From Coq Require Import String List Arith Bool ZArith Lia Reals Lra Permutation Sorting.
From Verif Require Import Base.Num Base.GoRes Base.Mat Base.ListX Base.RTac Spec.Order Spec.LgbTransform Spec.LgbEstimator.
From Verif Require Import Model.LgbTransform Model.LgbTree Model.LgbHist Model.LgbTrain Model.LgbObjective.
From Verif Require Import Model.NaiveBayes Model.ParamMap Model.Metrics Model.LgbEstimator.
From Verif Require Import Proofs.OrderP Proofs.NaiveBayesP Proofs.LgbArrayP Proofs.LgbTransformP Proofs.LgbTrainP Proofs.LgbBoostP Proofs.LgbEstimatorP.
Import ListNotations.
Local Open Scope list_scope.

Section G.
  Context {N : Num}.
  Local Open Scope num_scope.
  Variables toint roundint : N -> Z.
  Variable P : N -> Prop.
  Hypothesis P0 : P n0.
  Definition holds (n : gnode N) : Prop := P (g_leaf n).

  Lemma upd_children_holds l r : forall ns id, Forall holds ns -> Forall holds (upd id (set_children l r) ns).
  Proof.
    induction ns as [|n ns IH]; intros [|id] H; cbn; auto; inversion H; subst; constructor; auto.
  Qed.
  Lemma build_node_values X G H p find : (forall idxs, P (leaf_value G H p idxs)) ->
    forall fuel ns idxs depth ns' id, build_node toint X G H fuel find p ns idxs depth = Some (Ok (ns', id)) ->
      Forall holds ns -> Forall holds ns'.
  Proof.
    intros HP. induction fuel as [|fuel IH]; intros ns idxs depth ns' id; cbn [build_node]; [discriminate|].
    assert (Hleaf : Forall holds ns -> Forall holds (ns ++ [leaf_node (leaf_value G H p idxs)])).
    { intros Hn. apply Forall_app. split; [exact Hn|]. constructor; [apply HP|constructor]. }
    destruct (stop p ns depth idxs); [intros E; injection E as <- <-; exact Hleaf|].
    destruct (find idxs) as [s|e|]; try discriminate.
    destruct ((s_feat s =? -1)%Z || (s_gain s <? tp_mingain p)); [intros E; injection E as <- <-; exact Hleaf|].
    destruct (build_node _ _ _ _ _ _ _ _ _ _) as [[[ns1 l]|e|]|] eqn:E1; try discriminate.
    destruct (build_node toint X G H fuel find p ns1 _ _) as [[[ns2 r]|e|]|] eqn:E2; try discriminate.
    intros E Hn. injection E as <- <-. apply upd_children_holds. apply (IH _ _ _ _ _ E2). apply (IH _ _ _ _ _ E1).
    apply Forall_app. split; [exact Hn|]. constructor; [exact P0|constructor].
  Qed.
  Definition flat (t : gtree N) : Prop := Forall holds (gt_nodes t) /\ gt_leaves t = [].
  Lemma build_tree_values X G H sortf sortr fuel p cols idxs t : (forall idxs, P (leaf_value G H p idxs)) ->
    build_tree toint X G H sortf sortr fuel p cols idxs = Some (Ok t) -> flat t.
  Proof.
    intros HP. unfold build_tree, build_tree_with. destruct (build_node _ _ _ _ _ _ _ _ _ _) as [[[ns id]|e|]|] eqn:E; try discriminate.
    intros K. injection K as <-. split; [|reflexivity]. exact (build_node_values _ _ _ _ _ HP _ _ _ _ _ _ E (Forall_nil _)).
  Qed.
  Lemma getZ_In' {A} (l : list A) z v : getZ l z = Some v -> In v l.
  Proof. unfold getZ. destruct (z <? 0)%Z; [discriminate|]. apply nth_error_In. Qed.
  Lemma pwalk_values t x : flat t -> forall fuel guard id v, pwalk roundint fuel guard t id x = Some (Ok v) ->
    exists u, P u /\ v = ensure u.
  Proof.
    intros [H1 H2]. assert (Z0 : exists u, P u /\ n0 = ensure u) by (exists n0; split; [exact P0|symmetry; apply ensure_0]).
    induction fuel as [|fuel IH]; intros guard id v; cbn [pwalk]; [discriminate|].
    destruct (getZ (gt_nodes t) id) as [n|] eqn:E; [|intros K; injection K as <-; exact Z0].
    destruct guard as [|guard]; [intros K; injection K as <-; exact Z0|].
    pose proof (proj1 (Forall_forall _ _) H1 n (getZ_In' _ _ _ E)) as Hn.
    destruct (g_isleaf n); [intros K; injection K as <-; now exists (g_leaf n)|].
    destruct (Z.of_nat (List.length x) <=? g_feat n)%Z; [apply IH|].
    destruct (getZ x (g_feat n)) as [u|]; [|discriminate]. destruct (nisnan u); [apply IH|].
    assert (HF : forall nx, follow t nx (fun nx => pwalk roundint fuel guard t nx x) = Some (Ok v) -> exists u, P u /\ v = ensure u).
    { intros nx. unfold follow. destruct (nx <? 0)%Z; [|apply IH]. rewrite H2. intros K. injection K as <-.
      unfold getZ. destruct (- nx - 1 <? 0)%Z; [exact Z0|]. destruct (Z.to_nat _); exact Z0. }
    destruct (g_type n); try apply HF. intros K; injection K as <-; now exists (g_leaf n).
  Qed.

  Lemma boost_values X cols sortf sortr ograd ohess y w fuel p :
    (forall preds idxs, P (leaf_value (fun i => nth i (weighted y w ograd preds) n0) (fun i => nth i (weighted y w ohess preds) n0) p idxs)) ->
    forall bags st st', boost toint X cols sortf sortr ograd ohess y w fuel p bags st = Some (Ok st') ->
      Forall flat (fst st) -> Forall flat (fst st').
  Proof.
    intros HP. induction bags as [|b bags IH]; intros st st'; cbn [boost]; [intros K; injection K as <-; auto|].
    destruct (boost_round _ _ _ _ _ _ _ _ _ _ _ _ _) as [[st1|e|]|] eqn:E; try discriminate. intros K Hs. apply (IH _ _ K).
    destruct (round_spec _ _ _ _ _ _ _ _ _ _ _ _ _ _ E) as (t & E1 & E2 & _). rewrite E1. apply Forall_app. split; [exact Hs|].
    constructor; [|constructor]. exact (build_tree_values _ _ _ _ _ _ _ _ _ _ (HP (snd st)) E2).
  Qed.
End G.

Section T.
  Context {N : Num}.
  Local Open Scope num_scope.
  Variables toint roundint : N -> Z.
  Variable pow : N -> N -> N.
  Variables floori ceili : N -> Z.
  Variables (sortf : list N -> list N) (sortr : list (N * bin N) -> list (N * bin N)).
  Variable sampled : N -> N -> Z -> Z -> bool -> nat -> nat -> nat -> list nat.
  Variable fuel : nat.
  Notation train := (train toint pow floori ceili sortf sortr sampled fuel).
  Definition cells (X : matrix N) (r c : nat) : N := nth c (nth r (mrows X) []) n0.
  Definition weights_for (w : option (list N)) (X : matrix N) : list N := match w with Some w => w | None => repeat n1 (nrows X) end.
  Definition bags_for (s : settings N) (X : matrix N) : list (list nat) :=
    map (sampled (s_ffrac s) (s_bagfrac s) (s_bagfreq s) (s_seed s) (s_det s) (mcols X) (nrows X)) (seq 0 (Z.to_nat (s_iters s))).

  Lemma train_inv s init w X y m : train s init w X y = Some (Ok m) ->
    let s' := new_trainer s in
    exists o i ts preds, create pow floori ceili (s_obj s) (s_huber s) (s_fair s) (s_quantile s) (s_tweedie s) = Ok o
      /\ (match init with Some i => Ok i | None => o_init o y end) = Ok i
      /\ fit toint (cells X) (mcols X) sortf sortr (o_grad o) (o_hess o) y (weights_for w X) fuel (growth s') i (bags_for s' X) = Some (Ok (ts, preds))
      /\ m = get_model (mcols X) (s_obj s) (s_class s) (growth s') i ts.
  Proof.
    unfold LgbEstimator.train. cbn zeta. change (s_obj (new_trainer s)) with (s_obj s). change (s_huber (new_trainer s)) with (s_huber s).
    change (s_fair (new_trainer s)) with (s_fair s). change (s_quantile (new_trainer s)) with (s_quantile s).
    change (s_tweedie (new_trainer s)) with (s_tweedie s).
    destruct (create _ _ _ _ _ _ _ _) as [o|e|] eqn:Eo; try discriminate.
    destruct (match init with Some i => Ok i | None => o_init o y end) as [i|e|] eqn:Ei; try discriminate.
    intros H. apply omap_ok in H. destruct H as ([ts preds] & H & ->). exists o, i, ts, preds. split; [reflexivity|]. split; [exact Ei|]. split; [exact H|reflexivity].
  Qed.
  Lemma create_binary hd fc qa tv : create pow floori ceili "binary" hd fc qa tv = Ok binary.
  Proof. reflexivity. Qed.
  Lemma create_multi hd fc qa tv : create pow floori ceili "multiclass" hd fc qa tv = Ok adapter.
  Proof. reflexivity. Qed.
  Lemma fit_count (X : nat -> nat -> N) cols ograd ohess y w p i bags ts preds :
    fit toint X cols sortf sortr ograd ohess y w fuel p i bags = Some (Ok (ts, preds)) -> List.length ts = List.length bags.
  Proof.
    unfold fit. intros E. destruct (run_spec _ _ _ _ _ _ _ _ _ _ _ _ _ _ E) as (new & N1 & N2 & _). cbn [fst app] in N1. now subst new.
  Qed.
  Lemma used_all cols obj ncl p (i : N) ts : used_trees (get_model cols obj ncl p i ts) = ts.
  Proof.
    unfold used_trees, get_model. cbn [m_best m_niter m_trees Z.ltb Z.compare andb]. destruct (Z.eqb_spec (Z.of_nat (List.length ts)) 0); [reflexivity|].
    rewrite Nat2Z.id. apply firstn_all.
  Qed.
  Lemma raw_inv (m : gmodel N) x raw : predictor_raw roundint fuel m x = Some (Ok raw) ->
    exists outs, raw = accumulate (fun a b => ensure (a + b)) (outputs_count m) (m_init m) outs
      /\ Forall2 (fun t o => exists v, predict_tree roundint fuel t (no_nan x) = Some (Ok v)
                       /\ o = v * (if gt_shrink t =? n0 then m_lr m else gt_shrink t)) (used_trees m) outs.
  Proof.
    unfold predictor_raw. destruct (sequence _ _) as [[outs|e|]|] eqn:E; try discriminate. intros K. injection K as <-. exists outs. split; [reflexivity|].
    apply sequence_inv in E. clear -E. induction E as [|t o ts os H1 H2 IH]; constructor; [|exact IH].
    destruct (predict_tree _ _ _ _) as [[v|e|]|]; try discriminate. injection H1 as <-. now exists v.
  Qed.
  Lemma upd_length {A} (g : A -> A) l : forall k, List.length (upd k g l) = List.length l.
  Proof. induction l as [|a l IH]; intros [|k]; cbn; auto. Qed.
  Lemma accumulate_length (add : N -> N -> N) k init outs : List.length (accumulate add k init outs) = k.
  Proof.
    unfold accumulate.
    assert (K : forall l acc, List.length (fold_left (fun acc io => upd (Nat.modulo (fst io) k) (fun v => add v (snd io)) acc) l acc) = List.length (A := N) acc).
    { induction l as [|a l IH]; intros acc; [reflexivity|]. cbn [fold_left]. rewrite IH. apply upd_length. }
    rewrite K. apply repeat_length.
  Qed.
  Lemma raw_length (m : gmodel N) x raw : predictor_raw roundint fuel m x = Some (Ok raw) -> List.length raw = outputs_count m.
  Proof. intros H. destruct (raw_inv _ _ _ H) as (outs & -> & _). apply accumulate_length. Qed.
End T.

(** ** Scores and labels over the real numbers *)

Local Open Scope R_scope.
Lemma sigmoid_half (x : R) : 1 / 2 <= @stable_sigmoid RNum x <-> 0 <= x.
Proof.
  unfold stable_sigmoid. rewrite sigmoid_with_R.
  assert (H0 : logistic 0 = 1 / 2) by (unfold logistic; rewrite Ropp_0, exp_0; lra).
  destruct (Rltb_spec 500 x); [lra|]. destruct (Rltb_spec x (-500)); [lra|]. rewrite ensure_R.
  pose proof peps_pos. assert (Hp : peps_R < 1 / 2) by (unfold peps_R; lra). pose proof (logistic_bounds x).
  rewrite Rabs_right by lra. split; intros Hx.
  - destruct (Rltb_spec (logistic x) peps_R); [lra|]. destruct (Rle_lt_dec 0 x) as [K|K]; [exact K|].
    pose proof (logistic_increasing x 0 K). lra.
  - assert (K : 1 / 2 <= logistic x).
    { destruct (Rle_lt_or_eq_dec 0 x Hx) as [K| <-]; [pose proof (logistic_increasing 0 x K); lra|lra]. }
    destruct (Rltb_spec (logistic x) peps_R); lra.
Qed.

Lemma label_two (a b : Z) (x : R) : @label_of RNum [a; b] [@ensure RNum (1 - @stable_sigmoid RNum x); @stable_sigmoid RNum x]
  = Ok (if Rle_dec 0 x then b else a).
Proof.
  unfold label_of. cbn [nth_error]. f_equal. rewrite nlit_R. unfold nle. cbn [RNum].
  destruct (Rle_dec 0 x) as [H|H].
  - apply (proj2 (sigmoid_half x)) in H. destruct (Rleb_spec (IZR 1 / IZR 2) (@stable_sigmoid RNum x)); [reflexivity|lra].
  - destruct (Rleb_spec (IZR 1 / IZR 2) (@stable_sigmoid RNum x)) as [K|K]; [|reflexivity]. exfalso. apply H. apply sigmoid_half. lra.
Qed.

Lemma nth_error_below {A} (l : list A) i v : nth_error l i = Some v -> (i < List.length l)%nat.
Proof. intros H. apply nth_error_Some. rewrite H. discriminate. Qed.
Lemma softmax_first (ks : list Z) (raw : list R) l : List.length raw = List.length ks -> (2 < List.length ks)%nat ->
  INR (List.length ks) <= 1000000000000000 -> @label_of RNum ks (@stable_softmax RNum raw) = Ok l ->
  exists j, first_largest raw j /\ nth_error ks j = Some l.
Proof.
  intros HL H2 HK H. assert (Hne : raw <> []) by (intros ->; cbn in HL; lia).
  rewrite (stable_softmax_R raw Hne) in H. set (M := @slice_max RNum raw) in *.
  set (e := fun v : R => @stable_exp RNum (v - M)) in *. set (S := Rsum (map e raw)) in *.
  destruct (slice_max_spec raw Hne) as [HM1 HM2]. fold M in HM1, HM2.
  pose proof (S_ge_1 raw Hne) as HS. change (1 <= S) in HS.
  assert (He : forall v, In v raw -> 0 <= e v <= 1).
  { intros v Hv. destruct (stable_exp_bounds (v - M) (e_le raw Hne v Hv)) as [[A B] _]. fold (e v) in A, B. split; [exact A|].
    eapply Rle_trans; [exact B|]. rewrite <- exp_0. destruct (HM1 v Hv) as [K|K]; [left; apply exp_increasing; lra|right; f_equal; lra]. }
  assert (HSK : S <= INR (List.length raw)).
  { unfold S. eapply Rle_trans; [apply (Rsum_le e (fun _ => 1)); intros v Hv; now apply He|]. rewrite Rsum_map_const. lra. }
  rewrite HL in HSK. pose proof peps_pos as Hpp.
  assert (HiS : peps_R <= / S).
  { apply Rle_trans with (/ 1000000000000000); [unfold peps_R; lra|]. apply Rinv_le_contravar; lra. }
  assert (EM : e M = 1) by (unfold e; replace (M - M) with 0 by ring; apply stable_exp_0).
  assert (HpM : @ensure RNum (e M / S) = / S).
  { rewrite EM, ensure_R. unfold Rdiv. rewrite Rmult_1_l. rewrite Rabs_right by lra. destruct (Rltb_spec (/ S) peps_R); [lra|reflexivity]. }
  assert (Hlt : forall v, In v raw -> v < M -> @ensure RNum (e v / S) < / S).
  { intros v Hv Hl. destruct (He v Hv) as [A _].
    assert (B : e v < 1).
    { destruct (stable_exp_bounds (v - M) (e_le raw Hne v Hv)) as [[_ B] _]. fold (e v) in B. eapply Rle_lt_trans; [exact B|].
      rewrite <- exp_0. apply exp_increasing. lra. }
    assert (0 < / S) by (apply Rinv_0_lt_compat; lra).
    assert (C : 0 <= e v / S) by (unfold Rdiv; nra).
    destruct (ensure_bounds _ C) as [[_ D] _]. unfold Rdiv in *. nra. }
  assert (NthP : forall i u, nth_error (map (fun v => @ensure RNum (e v / S)) raw) i = Some u ->
            exists v, nth_error raw i = Some v /\ u = @ensure RNum (e v / S)).
  { intros i u Hu. rewrite nth_error_map in Hu. destruct (nth_error raw i) as [v|]; [|discriminate]. injection Hu as <-. now exists v. }
  assert (LtL : lt_laws RNum) by exact lt_laws_R.
  destruct (@label_many RNum LtL ks _ l eq_refl ltac:(lia) H) as [(j & v & J1 & J2 & J3 & J4 & J5)|[_ K]].
  - exists j. split; [|exact J1]. destruct (NthP _ _ J2) as (r & Jr & ->).
    assert (Hj : (j < List.length raw)%nat) by exact (nth_error_below _ _ _ Jr).
    assert (Er : nth j raw 0 = r) by now apply nth_error_nth.
    assert (Inr_ : In r raw) by (eapply nth_error_In; exact Jr).
    assert (ErM : r = M).
    { destruct (HM1 r Inr_) as [C|C]; [|exact C]. exfalso. apply In_nth_error in HM2. destruct HM2 as [i Hi].
      assert (Hi' : (i < List.length ks)%nat) by (rewrite <- HL; exact (nth_error_below _ _ _ Hi)).
      assert (Hpi : nth_error (map (fun v => @ensure RNum (e v / S)) raw) i = Some (@ensure RNum (e M / S))) by exact (map_nth_error (fun v => @ensure RNum (e v / S)) _ _ Hi).
      specialize (J4 i _ Hpi Hi'). apply Rltb_false in J4. rewrite HpM in J4. pose proof (Hlt r Inr_ C). lra. }
    split; [exact Hj|]. split.
    + intros i Hi. rewrite Er, ErM. apply HM1. now apply nth_In.
    + intros i Hi. rewrite Er. assert (Hi2 : (i < List.length raw)%nat) by lia.
      assert (Ei : nth_error raw i = Some (nth i raw 0)) by now apply nth_error_nth'.
      destruct (HM1 (nth i raw 0) (nth_In _ _ Hi2)) as [C|C]; [lra|]. exfalso.
      assert (Hpi : nth_error (map (fun v => @ensure RNum (e v / S)) raw) i = Some (@ensure RNum (e M / S))) by (rewrite C in Ei; exact (map_nth_error (fun v => @ensure RNum (e v / S)) _ _ Ei)).
      assert (Hpos : @nlt RNum n0 (@ensure RNum (e M / S)) = true) by (rewrite HpM; apply Rltb_true; cbn; lra).
      specialize (J5 i _ Hpi Hi Hpos). apply Rltb_true in J5. rewrite ErM in J5. lra.
  - exfalso. apply In_nth_error in HM2. destruct HM2 as [i Hi].
    assert (Hi' : (i < List.length ks)%nat) by (rewrite <- HL; exact (nth_error_below _ _ _ Hi)).
    assert (Hpi : nth_error (map (fun v => @ensure RNum (e v / S)) raw) i = Some (@ensure RNum (e M / S))) by exact (map_nth_error (fun v => @ensure RNum (e v / S)) _ _ Hi).
    specialize (K i _ Hpi Hi'). apply Rltb_false in K. rewrite HpM in K. cbn in K. lra.
Qed.

(** ** Rows of the predictions *)

Section Rows.
  Context {N : Num}.
  Local Open Scope num_scope.
  Variable roundint : N -> Z.
  Variable fuel : nat.

  Lemma Forall2_impl_ {A B} (Q R : A -> B -> Prop) l m : (forall a b, Q a b -> R a b) -> Forall2 Q l m -> Forall2 R l m.
  Proof. induction 2; constructor; auto. Qed.
  Lemma Forall2_map_r {A B C} (R : A -> C -> Prop) (g : B -> C) l m : Forall2 (fun a b => R a (g b)) l m -> Forall2 R l (map g m).
  Proof. induction 1; cbn; constructor; auto. Qed.
  Lemma binary_rows (m : gmodel N) X P : m_obj m = "binary"%string -> outputs_count m = 1%nat -> proba_model roundint fuel m X = Some (Ok P) ->
    Forall2 (fun x r => exists s, predictor_raw roundint fuel m x = Some (Ok [s])
                 /\ r = [ensure (n1 - stable_sigmoid s); stable_sigmoid s]) (mrows X) (mrows P).
  Proof.
    intros Ho Hc H. unfold proba_model in H. apply omap_ok in H. destruct H as (P0 & H & ->).
    destruct (predict_model_rows _ _ _ _ _ H) as (_ & _ & _ & HR). unfold proba_matrix. rewrite Ho. cbn [is_binary String.eqb Ascii.eqb Bool.eqb orb mrows].
    apply Forall2_map_r. revert HR. apply Forall2_impl_. intros x r (raw & E & ->).
    pose proof (raw_length _ _ _ _ _ E) as HL. rewrite Hc in HL. destruct raw as [|s [|? ?]]; try discriminate HL. exists s. split; [exact E|].
    rewrite Ho. reflexivity.
  Qed.
  Lemma multi_rows (m : gmodel N) X P : m_obj m = "multiclass"%string -> proba_model roundint fuel m X = Some (Ok P) ->
    Forall2 (fun x r => exists raw, predictor_raw roundint fuel m x = Some (Ok raw) /\ r = stable_softmax raw) (mrows X) (mrows P).
  Proof.
    intros Ho H. unfold proba_model in H. apply omap_ok in H. destruct H as (P0 & H & ->).
    destruct (predict_model_rows _ _ _ _ _ H) as (_ & _ & _ & HR). unfold proba_matrix. rewrite Ho. cbn [is_binary String.eqb Ascii.eqb Bool.eqb orb].
    revert HR. apply Forall2_impl_. intros x r (raw & E & ->). exists raw. split; [exact E|]. rewrite Ho. reflexivity.
  Qed.
  (** Labels given to the rows *)
  Lemma labelled (c : clf N) (m : gmodel N) X Q : stored c m -> clf_predict roundint fuel c X = Some (Ok Q) ->
    mcols Q = 1%nat /\ exists P, proba_model roundint fuel m X = Some (Ok P)
      /\ Forall2 (fun r q => exists l, label_of (c_classes c) r = Ok l /\ q = [nofZ l]) (mrows P) (mrows Q).
  Proof.
    intros Hs H. destruct (predict_rows _ _ _ _ _ H) as (P & ls & H1 & H2 & ->). split; [reflexivity|]. exists P.
    destruct (proba_rows _ _ _ _ _ _ Hs H1) as [_ H3]. split; [exact H3|]. cbn [mrows]. apply Forall2_map_r.
    apply mapM_rows in H2. revert H2. apply Forall2_impl_. intros r l E. now exists l.
  Qed.
End Rows.

(** ** Labels on one side of the unit interval *)

Lemma leaf_reg_sign l1 l2 sg sh : 0 <= l1 -> 0 <= l2 -> 0 <= sh ->
  (sg <= 0 -> 0 <= @leaf_reg RNum l1 l2 sg sh) /\ (0 <= sg -> @leaf_reg RNum l1 l2 sg sh <= 0).
Proof.
  intros H1 H2 H3. rewrite leaf_reg_R. cbn zeta. set (d := sh + l2 + 1 / 10000000000).
  assert (Hd : 0 < / d) by (apply Rinv_0_lt_compat; unfold d; lra). unfold Rdiv.
  split; intros Hs; destruct (Rltb_spec 0 l1); try destruct (Rltb_spec l1 sg); try destruct (Rltb_spec sg (- l1)); try lra; nra.
Qed.
Lemma nsum_sign (l : list R) : ((forall x, In x l -> x <= 0) -> @nsum RNum l <= 0) /\ ((forall x, In x l -> 0 <= x) -> 0 <= @nsum RNum l).
Proof.
  rewrite nsum_R. split; [|apply Rsum_nonneg]. induction l as [|a l IH]; cbn; intros H; [lra|].
  assert (a <= 0) by (apply H; now left). assert (Rsum l <= 0) by (apply IH; intros; apply H; now right). lra.
Qed.
Lemma weighted_all (Q : R -> Prop) (o : R -> R -> R) (y w preds : list R) : Q 0 ->
  (forall p t v, In t y -> In v w -> Q (o p t * v)) -> forall i, Q (nth i (@weighted RNum y w o preds) 0).
Proof.
  intros H0 H i. destruct (nth_in_or_default i (@weighted RNum y w o preds) 0) as [K|K]; [|unR; rewrite K; exact H0].
  unfold weighted in K at 2. apply in_map_iff in K. destruct K as ([p [t v]] & E & Hin). cbn [fst snd] in E. unR. rewrite <- E.
  apply in_combine_r in Hin. apply H; [exact (in_combine_l _ _ _ _ Hin)|exact (in_combine_r _ _ _ _ Hin)].
Qed.
Lemma obj_sigmoid_bounds (p : R) : 0 < @sigmoid RNum p < 1.
Proof.
  unfold sigmoid. cbn [ndiv nadd nexp n1 nneg RNum]. set (e := exp _). assert (He : 0 < e) by apply exp_pos.
  split; [apply Rdiv_lt_0_compat; lra|]. apply Rmult_lt_reg_r with (1 + e); [lra|]. unfold Rdiv. rewrite Rmult_assoc, Rinv_l; lra.
Qed.
Lemma binary_hess_nonneg (p t : R) : 0 <= @binary_hess RNum p t.
Proof.
  unfold binary_hess, gomax. cbn [nisnan RNum orb]. change (@nlt RNum) with Rltb.
  assert (0 < @tiny RNum) by (unfold tiny; rewrite nlit_R; lra).
  match goal with |- context [Rltb ?a ?b] => destruct (Rltb_spec a b) end; unR; lra.
Qed.

Section OneSided.
  Variables toint roundint : R -> Z.
  Variable pow : R -> R -> R.
  Variables floori ceili : R -> Z.
  Variables (sortf : list R -> list R) (sortr : list (R * bin RNum) -> list (R * bin RNum)).
  Variable sampled : R -> R -> Z -> Z -> bool -> nat -> nat -> nat -> list nat.
  Variable fuel : nat.
  Notation train := (@train RNum toint pow floori ceili sortf sortr sampled fuel).

  (** What the trees of a model trained for "binary" return *)
  Lemma binary_outs (up : bool) (s : settings RNum) init w X y m x raw :
    train s init w X y = Some (Ok m) -> s_obj s = "binary"%string -> (s_class s <= 2)%Z ->
    0 <= s_l1 s -> 0 <= s_l2 s -> 0 <= s_lr s -> (forall v, In v (@weights_for RNum w X) -> 0 <= v) ->
    (forall t, In t y -> if up then 1 <= t else t <= 0) ->
    @predictor_raw RNum roundint fuel m x = Some (Ok raw) ->
    exists i outs, match init with Some i0 => i = i0 | None => @binary_init RNum y = Ok i end
      /\ raw = [fold_left (fun a b => @ensure RNum (a + b)) outs i]
      /\ (forall o, In o outs -> if up then 0 <= o else o <= 0).
  Proof.
    intros Ht Ho Hc H1 H2 Hr Hw Hy Hraw.
    destruct (train_inv _ _ _ _ _ _ _ _ _ _ _ _ _ _ Ht) as (o & i & ts & preds & E1 & E2 & E3 & ->). rewrite Ho in *.
    rewrite (create_binary (N := RNum)) in E1. injection E1 as <-.
    destruct (raw_inv _ _ _ _ _ Hraw) as (outs & -> & HF). rewrite used_all in HF.
    set (m := get_model _ _ _ _ _ _) in *.
    assert (Hoc : outputs_count m = 1%nat).
    { unfold outputs_count, m, get_model. cbn [m_class]. destruct (Z.ltb_spec 0 (s_class s)), (Z.ltb_spec 2 (s_class s)); try lia; reflexivity. }
    rewrite Hoc, accumulate_one. exists i, outs. split; [destruct init; [now injection E2|exact E2]|]. split; [reflexivity|].
    set (P := fun v : R => if up then 0 <= v else v <= 0).
    assert (P0 : P 0) by (unfold P; destruct up; lra).
    assert (Hflat : Forall (@flat RNum P) ts).
    { unfold fit in E3. apply (@boost_values RNum toint P P0) in E3; [exact E3| |constructor]. intros pr idxs. unfold leaf_value.
      destruct (leaf_reg_sign (s_l1 s) (s_l2 s) (@nsum RNum (map (fun i => nth i (@weighted RNum y (weights_for w X) (@binary_grad RNum) pr) 0) idxs))
                 (@nsum RNum (map (fun i => nth i (@weighted RNum y (weights_for w X) (@binary_hess RNum) pr) 0) idxs))) as [A B];
        [exact H1|exact H2| |].
      - apply nsum_sign. intros v Hv. apply in_map_iff in Hv. destruct Hv as (k & <- & _). apply weighted_all; [lra|].
        intros p t u _ Hu. apply Rmult_le_pos; [apply binary_hess_nonneg|now apply Hw].
      - assert (G : forall p t u, In t y -> In u (@weights_for RNum w X) -> if up then @binary_grad RNum p t * u <= 0 else 0 <= @binary_grad RNum p t * u).
        { intros p t u Ht' Hu. specialize (Hy t Ht'). specialize (Hw u Hu). unfold binary_grad. cbn [nsub RNum].
          pose proof (obj_sigmoid_bounds p). unR. destruct up; nra. }
        unfold P. destruct up; [apply A|apply B]; apply nsum_sign; intros v Hv; apply in_map_iff in Hv; destruct Hv as (k & <- & _).
        + apply (weighted_all (fun v => v <= 0)); [lra|exact G].
        + apply (weighted_all (fun v => 0 <= v)); [lra|exact G]. }
    assert (Hshr : Forall (fun t => gt_shrink t = tp_lr (growth (new_trainer s))) ts).
    { unfold fit in E3. destruct (run_spec _ _ _ _ _ _ _ _ _ _ _ _ _ _ E3) as (new & N1 & _ & N3 & _). cbn [fst app] in N1. subst new.
      eapply Forall_impl; [|exact N3]. intros t [K _]. exact K. }
    assert (Hlr : 0 <= tp_lr (growth (new_trainer s))).
    { change (0 <= @or_num RNum (@nlit RNum 1 10) (s_lr s)). unfold or_num. destruct (neqb _ _); [rewrite nlit_R; lra|exact Hr]. }
    assert (Hm : 0 <= m_lr m) by exact Hlr.
    intros b Hb. clear E3 Hraw. revert Hflat Hshr Hb. clearbody m. clear -HF P0 Hlr Hm.
    induction HF as [|t b' ts os (v & Hv & ->) HF IH]; intros Hf Hs Hb; [easy|]. inversion Hf as [|? ? F1 F2]; subst. inversion Hs as [|? ? S1 S2]; subst.
    destruct Hb as [<-|Hb]; [|now apply IH].
    destruct (@pwalk_values RNum roundint P P0 t _ F1 _ _ _ _ Hv) as (u & Pu & ->).
    assert (Pe : P (@ensure RNum u)).
    { rewrite ensure_R. destruct (Rltb (Rabs u) peps_R); [exact P0|exact Pu]. }
    assert (Hk : 0 <= (if @neqb RNum (gt_shrink t) 0 then m_lr m else gt_shrink t)) by (destruct (neqb _ _); [exact Hm|rewrite S1; exact Hlr]).
    assert (Hmul : forall a k : R, P a -> 0 <= k -> if up then 0 <= a * k else a * k <= 0) by (intros a k; unfold P; destruct up; nra).
    exact (Hmul _ _ Pe Hk).
  Qed.

  Lemma fold_up : forall outs a, 0 <= a -> (forall o, In o outs -> 0 <= o) -> 0 <= fold_left (fun a b => @ensure RNum (a + b)) outs a.
  Proof.
    induction outs as [|o outs IH]; intros a Ha Ho; [exact Ha|]. cbn [fold_left]. apply IH; [|intros; apply Ho; now right].
    assert (0 <= o) by (apply Ho; now left). apply ensure_bounds. lra.
  Qed.
  Lemma fold_down : forall outs a, a <= -1 -> (forall o, In o outs -> o <= 0) -> fold_left (fun a b => @ensure RNum (a + b)) outs a <= -1.
  Proof.
    induction outs as [|o outs IH]; intros a Ha Ho; [exact Ha|]. cbn [fold_left]. apply IH; [|intros; apply Ho; now right].
    assert (o <= 0) by (apply Ho; now left). rewrite ensure_R. rewrite Rabs_left by lra.
    destruct (Rltb_spec (- (a + o)) peps_R); [unfold peps_R in *; lra|lra].
  Qed.
  Lemma mean_bound (up : bool) (y : list R) : y <> [] -> (forall t, In t y -> if up then 1 <= t else t <= 0) ->
    if up then 1 <= @mean RNum y else @mean RNum y <= 0.
  Proof.
    intros Hy H. assert (Em : @mean RNum y = Rsum y / INR (List.length y)).
    { unfold mean. cbn [ndiv RNum]. f_equal; [apply nsum_R|f_equal; apply nofnat_R]. }
    rewrite Em. clear Em.
    assert (Hn : 0 < INR (List.length y)) by (apply lt_0_INR; destruct y; [easy|cbn; lia]).
    assert (Hi : 0 < / INR (List.length y)) by now apply Rinv_0_lt_compat. unfold Rdiv.
    destruct up.
    - assert (INR (List.length y) <= Rsum y).
      { replace (INR (List.length y)) with (Rsum (map (fun _ => 1) y)) by (rewrite Rsum_map_const; lra).
        replace (Rsum y) with (Rsum (map (fun t => t) y)) by now rewrite map_id. apply Rsum_le. exact H. }
      apply Rmult_le_reg_r with (INR (List.length y)); [lra|]. rewrite Rmult_assoc, Rinv_l by lra. lra.
    - pose proof (proj1 (nsum_sign y) H) as K. rewrite nsum_R in K. nra.
  Qed.
  Lemma binary_init_side (up : bool) (y : list R) i : y <> [] -> (forall t, In t y -> if up then 1 <= t else t <= 0) ->
    @binary_init RNum y = Ok i -> if up then 0 <= i else i <= -1.
  Proof.
    intros Hy H. pose proof (mean_bound up y Hy H) as Hm. unfold binary_init. destruct y as [|t0 y]; [easy|]. cbn zeta.
    set (mu := @mean RNum (t0 :: y)) in *. set (e := @nlit RNum 1 1000000000000000). intros E.
    assert (Ee : e = 1 / 1000000000000000) by reflexivity.
    assert (He : 0 < e <= 1 / 10) by (rewrite Ee; lra).
    set (q := @gomax RNum e (gomin (nsub n1 e) mu)) in *. assert (Eq : q = if up then 1 - e else e).
    { unfold q, gomax, gomin. cbn [nisnan RNum orb]. change (@nlt RNum) with Rltb. change (@nsub RNum n1 e) with (1 - e).
      destruct up.
      - destruct (Rltb_spec mu (1 - e)); [unR; lra|]. destruct (Rltb_spec e (1 - e)); [reflexivity|unR; lra].
      - destruct (Rltb_spec mu (1 - e)); [|unR; lra]. destruct (Rltb_spec e mu); [unR; lra|reflexivity]. }
    assert (Ei : ln (q / (1 - q)) = i) by (injection E as E'; exact E'). rewrite Eq in Ei. rewrite <- Ei. clear E Ei. destruct up.
    - replace (1 - (1 - e)) with e by (clear; clearbody e; unR; ring). rewrite <- ln_1. assert (K1 : 1 <= (1 - e) / e).
      { apply Rmult_le_reg_r with e; [lra|]. unfold Rdiv. rewrite Rmult_assoc, Rinv_l; lra. }
      destruct (Rle_lt_or_eq_dec 1 ((1 - e) / e) K1) as [K|K].
      + left. apply ln_increasing; lra.
      + right. exact (f_equal ln K).
    - rewrite <- (ln_exp (-1)). assert (K : e / (1 - e) <= exp (-1)).
      { assert (exp 1 <= 3) by apply exp_le_3. replace (exp (-1)) with (/ exp 1) by (rewrite <- exp_Ropp; reflexivity).
        pose proof (exp_pos 1). apply Rle_trans with (/ 3); [|apply Rinv_le_contravar; lra].
        apply Rmult_le_reg_r with (1 - e); [lra|]. unfold Rdiv. rewrite Rmult_assoc, Rinv_l by lra. lra. }
      destruct (Rle_lt_or_eq_dec _ _ K) as [K'|K'].
      + left. apply ln_increasing; [|exact K']. apply Rdiv_lt_0_compat; lra.
      + right. exact (f_equal ln K').
  Qed.
End OneSided.
