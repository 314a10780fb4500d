(** Lemmas about cross-validation of the lightgbm estimators. *)
From Coq Require Import String List Arith ZArith Bool Lia Reals Lra.
From Verif Require Import Base.Num Base.RTac Base.GoRes Base.Mat Base.ListX Model.ParamMap Model.LgbTree Model.LgbHist Model.LgbTrain Model.LgbObjective
  Model.CrossVal Model.LgbEstimator Model.LgbCv Spec.LgbCv Proofs.LgbArrayP Proofs.LgbTrainP Proofs.LgbBoostP Proofs.LgbEstimatorP Proofs.LgbEstimatorRP.
Import ListNotations.
Local Open Scope string_scope.
Local Open Scope list_scope.
Local Open Scope num_scope.

Section LgbCvP.
  Context {N : Num}.
  Variables (toint : N -> Z) (big : N) (fuel : nat).
  Lemma accumulate_one (init : N) outs : accumulate nadd 1 init outs = [fold_left nadd outs init].
  Proof.
    unfold accumulate. cbn [repeat].
    assert (G : forall outs (init : N) k, fold_left (fun (acc : list N) (io : nat * N) => upd (Nat.modulo (fst io) 1) (fun v => v + snd io) acc)
              (combine (seq k (List.length outs)) outs) [init] = [fold_left nadd outs init]); [|apply G].
    clear. induction outs as [|o outs IH]; intros init k; [reflexivity|].
    cbn [List.length seq combine fold_left fst snd]. rewrite Nat.mod_1_r. cbn [upd]. apply IH.
  Qed.
  Lemma predict_rows_of m X P : (m_class m <= 2)%Z -> is_binary (m_obj m) = false -> m_obj m <> "multiclass" ->
    model_predict toint big fuel m X = Some (Ok P) -> mcols P = 1%nat /\ Forall2 (fun x p => unscaled toint fuel m x p) (mrows X) (column 0 (mrows P)).
  Proof.
    intros Hc Hb Hm H. assert (K : outputs_count m = 1%nat) by (unfold outputs_count; destruct (Z.ltb_spec 2 (m_class m)); [lia|reflexivity]).
    unfold model_predict in H. destruct (negb _); [discriminate|]. destruct (newdense _ _); try discriminate.
    apply omap_ok in H. destruct H as (rs & H & ->). split; [exact K|]. cbn [mrows]. apply sequence_inv in H.
    clear -H K Hb Hm. induction H as [|x p xs ps H1 H2 IH]; cbn [column map]; constructor; [|exact IH].
    unfold predict_single in H1. apply omap_ok in H1. destruct H1 as (raw & H1 & ->). unfold model_transform. rewrite Hb.
    destruct (String.eqb_spec (m_obj m) "multiclass"); [contradiction|]. unfold model_raw in H1.
    destruct (sequence _ _) as [[outs|e|]|] eqn:E; try discriminate. injection H1 as <-. rewrite K, accumulate_one.
    exists outs. split; [exact (sequence_inv _ _ _ E)|reflexivity].
  Qed.
  Lemma correct_share (t p : list N) : (List.length (filter (fun ab : N * N => neqb (if nlt (nlit 1 2) (snd ab) then n1 else n0) (fst ab)) (combine t p)) <=
    List.length (filter (fun u : N => neqb n0 u || neqb n1 u) t))%nat.
  Proof.
    revert p. induction t as [|u t IH]; intros [|q p]; cbn [combine filter List.length fst snd]; try lia.
    specialize (IH p). destruct (nlt _ q); destruct (neqb n0 u), (neqb n1 u); cbn [orb List.length]; lia.
  Qed.
End LgbCvP.
Lemma create_plain pow floori ceili o (r : rgr RNum) :
  @create RNum pow floori ceili o 0%R 0%R 0%R 0%R = create pow floori ceili o (r_huber (plain r)) (r_fair (plain r)) (r_quantile (plain r)) (r_tweedie (plain r)).
Proof.
  unfold create, plain. cbn [r_huber r_fair r_quantile r_tweedie].
  assert (Z0 : @nlt RNum n0 0%R = false) by (apply Rltb_false; cbn [n0 RNum]; lra).
  assert (Z1 : @nlt RNum n0 n1 = true) by (apply Rltb_true; cbn [n0 n1 RNum]; lra).
  assert (Z2 : @nlt RNum n1 0%R = false) by (apply Rltb_false; cbn [n1 RNum]; lra).
  assert (Z3 : @nlt RNum n0 (nlit 1 2) = true) by (rewrite nlit_R; apply Rltb_true; cbn [n0 RNum]; lra).
  assert (Z4 : @nlt RNum (nlit 1 2) n1 = true) by (rewrite nlit_R; apply Rltb_true; cbn [n1 RNum]; lra).
  assert (Z5 : @nlt RNum n1 (nlit 3 2) = true) by (rewrite nlit_R; apply Rltb_true; cbn [n1 RNum]; lra).
  assert (Z6 : @nlt RNum (nlit 3 2) two = true) by (unfold two; rewrite !nlit_R; apply Rltb_true; lra).
  rewrite Z0, Z1, Z2, Z3, Z4, Z5, Z6. reflexivity.
Qed.
