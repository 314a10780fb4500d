(** The trees of the trainer, and their files. *)
From Coq Require Import String List Arith ZArith Bool Lia Ascii Reals Lra.
From Verif Require Import Base.Num Base.GoRes Base.ListX Base.RTac Model.LgbTransform Model.LgbTree Model.LgbHist Model.LgbTrain Model.LgbText Spec.LgbText
  Proofs.LgbTreeP Proofs.LgbArrayP Proofs.LgbTrainP Proofs.LgbTransformP Proofs.LgbTextStrP Proofs.LgbTextTreeP Proofs.LgbTextP Proofs.LgbTextModelP Proofs.LgbTextFileP.
Import ListNotations.
Local Open Scope list_scope.

Section Grown.
  Context {N : Num}.
  Variables (toint : N -> Z) (X : nat -> nat -> N) (cols : nat).
  Lemma preorder_length (T : dtree N) : forall k, List.length (preorder k T) = nodes_of T.
  Proof. induction T as [v|n l IHl r IHr]; intros k; cbn; [reflexivity|]. now rewrite app_length, IHl, IHr. Qed.
  Lemma upd_at {A} (g : A -> A) (l : list A) a r : upd (List.length l) g (l ++ a :: r) = l ++ g a :: r.
  Proof. induction l as [|b l IH]; cbn; [reflexivity|now rewrite IH]. Qed.
  Lemma count_leaf_app (a b : list (gnode N)) : count_leaf_nodes (a ++ b) = (count_leaf_nodes a + count_leaf_nodes b)%nat.
  Proof. unfold count_leaf_nodes. now rewrite filter_app, app_length. Qed.
  Lemma grow_preorder G H find p (feats : forall rows s, find rows = Ok s -> s_feat s = (-1)%Z \/ (0 <= s_feat s < Z.of_nat cols)%Z) :
    forall fuel ns idxs depth ns' id, build_node toint X G H fuel find p ns idxs depth = Some (Ok (ns', id)) ->
    id = List.length ns /\ exists T, ns' = ns ++ preorder (List.length ns) T /\ splits_below (Z.of_nat cols) T
      /\ count_leaf_nodes (preorder (List.length ns) T) = leaf_count T.
  Proof.
    induction fuel as [|fuel IH]; intros ns idxs depth ns' id E; [discriminate|]. cbn [build_node] in E.
    destruct (stop p ns depth idxs); [injection E as <- <-; split; [reflexivity|]; now exists (Leaf (leaf_value G H p idxs))|].
    destruct (find idxs) as [s| |] eqn:Ef; try discriminate.
    destruct ((s_feat s =? -1)%Z || nlt (s_gain s) (tp_mingain p)) eqn:Ea;
      [injection E as <- <-; split; [reflexivity|]; now exists (Leaf (leaf_value G H p idxs))|].
    destruct (build_node toint X G H fuel find p (ns ++ [inner_node p s]) _ _) as [[[ns1 l]| |]|] eqn:E1; try discriminate.
    destruct (build_node toint X G H fuel find p ns1 _ _) as [[[ns2 r]| |]|] eqn:E2; try discriminate.
    injection E as <- <-. split; [reflexivity|].
    destruct (IH _ _ _ _ _ E1) as (El & T1 & X1 & B1 & C1). destruct (IH _ _ _ _ _ E2) as (Er & T2 & X2 & B2 & C2).
    rewrite app_length in *. cbn [List.length] in *.
    assert (Hl1 : List.length ns1 = S (List.length ns) + nodes_of T1) by (rewrite X1, !app_length, preorder_length; cbn; lia).
    rewrite Hl1 in *. replace (List.length ns + 1) with (S (List.length ns)) in * by lia.
    exists (Split (inner_node p s) T1 T2). split; [|split].
    - rewrite X2, X1, <- !app_assoc. cbn [app]. rewrite upd_at. subst l r. reflexivity.
    - cbn [splits_below]. split; [|now split]. apply orb_false_iff in Ea as [Ea _]. apply Z.eqb_neq in Ea.
      destruct (feats _ _ Ef) as [?|?]; [congruence|]. exact H0.
    - cbn [preorder leaf_count]. change (?a :: ?b) with ([a] ++ b). rewrite !count_leaf_app, C1, C2.
      unfold count_leaf_nodes at 1. cbn [filter g_type]. pose proof (inner_type p s) as Ht. destruct (g_type (inner_node p s)); [now destruct Ht|reflexivity|reflexivity].
  Qed.
  Variables (sortf : list N -> list N) (sortr : list (N * bin N) -> list (N * bin N)) (ograd ohess : N -> N -> N) (y w : list N).
  Lemma build_grown G H fuel p idxs t : build_tree toint X G H sortf sortr fuel p cols idxs = Some (Ok t) -> grown (Z.of_nat cols) t.
  Proof.
    unfold build_tree, build_tree_with.
    destruct (build_node _ _ _ _ _ _ _ _ _ _) as [[[ns id]| |]|] eqn:E; try discriminate. intros K. injection K as <-.
    destruct (grow_preorder _ _ _ _ (finder_feat toint X G H sortf sortr p cols) _ _ _ _ _ _ E) as (_ & T & -> & HT & HC).
    split; [reflexivity|]. exists T. cbn [gt_nodes gt_nleaves]. split; [reflexivity|]. split; [exact HT|]. cbn [app List.length] in *. now rewrite HC.
  Qed.
  Lemma boost_grown fuel p bags : forall st st', boost toint X cols sortf sortr ograd ohess y w fuel p bags st = Some (Ok st') ->
    (forall t, In t (fst st) -> grown (Z.of_nat cols) t) -> forall t, In t (fst st') -> grown (Z.of_nat cols) t.
  Proof.
    induction bags as [|b bags IH]; intros st st' E Hs; [now injection E as <-|]. cbn [boost] in E.
    destruct (boost_round _ _ _ _ _ _ _ _ _ _ _ b st) as [[st1| |]|] eqn:E1; try discriminate. apply (IH st1 st' E). clear IH E.
    unfold boost_round in E1. destruct (build_tree _ _ _ _ _ _ _ _ _ _) as [[t| |]|] eqn:Et; try discriminate.
    destruct (update_preds _ _ _ _ _ _ _) as [[preds| |]|]; try discriminate. injection E1 as <-. cbn [fst].
    intros u Hu. apply in_app_iff in Hu as [Hu|[<-|[]]]; [now apply Hs|]. now apply build_grown in Et.
  Qed.
  Theorem fit_grown fuel p init bags ts preds : fit toint X cols sortf sortr ograd ohess y w fuel p init bags = Some (Ok (ts, preds)) ->
    forall t, In t ts -> grown (Z.of_nat cols) t.
  Proof. intros E. exact (boost_grown _ _ _ _ _ E (fun t (H : In t []) => match H with end)). Qed.
End Grown.

(** ** Loaded with LoadFromReader, the trees of a text file say nothing *)
Lemma gone_silent show_g parse_float (m : gmodel RNum) : fits m ->
  (forall t, In t (m_trees m) -> grown (m_nfeat m) t /\ exact_floats show_g parse_float t) ->
  forall t gt, In t (m_trees m) -> gone t gt -> silent (m_nfeat m) gt.
Proof.
  intros Hf Hg t gt Hin Hgone. exists (S (List.length (gt_nodes gt))). intros toint roundint fuel x Hx Hfuel. split.
  - exact (gone_walk show_g parse_float m Hf Hg t gt toint x Hin Hgone Hx fuel 0 ltac:(lia)).
  - exact (gone_pwalk show_g parse_float m Hf Hg t gt roundint x Hin Hgone Hx fuel _ 0 ltac:(lia)).
Qed.
