(** Feature importances. *)
From Coq Require Import String List Arith ZArith Bool Lia Reals Lra.
From Verif Require Import Base.Num Base.GoRes Base.ListX Base.RTac Model.LgbTree Model.LgbLeaf Spec.LgbText Spec.LgbLeaf Proofs.LgbTextTrainP Proofs.LgbLeafP.
Import ListNotations.
Local Open Scope string_scope.
Local Open Scope list_scope.

Section Importance.
  Context {N : Num}.
  Definition counted (kind : string) : bool := String.eqb kind "split" || String.eqb kind "gain".
  Definition worth (kind : string) (n : gnode N) : N := if String.eqb kind "split" then n1 else g_gain n.
  Definition in_range (k : nat) (n : gnode N) : bool := g_isleaf n || ((0 <=? g_feat n)%Z && (g_feat n <? Z.of_nat k)%Z).
  Definition on (f : nat) (n : gnode N) : bool := negb (g_isleaf n) && (g_feat n =? Z.of_nat f)%Z.
  Lemma nth_upd (g : N -> N) (l : list N) i j : i < List.length l -> nth j (upd i g l) n0 = if Nat.eqb j i then g (nth j l n0) else nth j l n0.
  Proof.
    revert i j. induction l as [|a l IH]; intros i j Hi; [cbn in Hi; lia|]. destruct i as [|i], j as [|j]; cbn; try reflexivity. apply IH. cbn in Hi. lia.
  Qed.
  Lemma node_step kind imp n : counted kind = true ->
    node_importance kind imp n = if in_range (List.length imp) n then
      Ok (if g_isleaf n then imp else upd (Z.to_nat (g_feat n)) (fun v => nadd v (worth kind n)) imp) else Panic.
  Proof.
    unfold counted, node_importance, in_range, worth. intros K. destruct (g_isleaf n); [reflexivity|]. cbn [orb].
    rewrite Z.ltb_antisym, (Z.ltb_antisym (Z.of_nat _)).
    destruct (kind =? "split"); [|cbn [orb] in K; rewrite K]; destruct (0 <=? g_feat n)%Z; destruct (Z.of_nat (List.length imp) <=? g_feat n)%Z; reflexivity.
  Qed.
  Lemma fold_importance kind ns : counted kind = true -> forall imp : list N,
    (forallb (in_range (List.length imp)) ns = false -> foldM (node_importance kind) imp ns = Panic)
    /\ (forallb (in_range (List.length imp)) ns = true -> exists imp', foldM (node_importance kind) imp ns = Ok imp' /\ List.length imp' = List.length imp
        /\ forall f, nth f imp' n0 = fold_left nadd (map (worth kind) (filter (on f) ns)) (nth f imp n0)).
  Proof.
    intros K. induction ns as [|n ns IH]; intros imp; cbn [forallb foldM].
    - split; [discriminate|]. intros _. exists imp. now repeat split.
    - rewrite (node_step kind imp n K). destruct (in_range (List.length imp) n) eqn:Er; cbn [andb bind]; [|split; [reflexivity|discriminate]].
      set (imp1 := if g_isleaf n then imp else _).
      assert (L : List.length imp1 = List.length imp) by (unfold imp1; destruct (g_isleaf n); [reflexivity|apply upd_length]).
      specialize (IH imp1). rewrite L in IH. split; [apply IH|]. intros H. destruct IH as [_ IH]. destruct (IH H) as (imp' & E & L' & V). exists imp'. split; [exact E|].
      split; [congruence|]. intros f. rewrite V. cbn [filter]. unfold on at 2, imp1. unfold in_range in Er. destruct (g_isleaf n); [reflexivity|]. cbn [negb andb orb] in *.
      apply andb_true_iff in Er as [E1 E2]. apply Z.leb_le in E1. apply Z.ltb_lt in E2. rewrite nth_upd by lia.
      destruct (Z.eqb_spec (g_feat n) (Z.of_nat f)) as [Ef|Ef].
      + destruct (Nat.eqb_spec f (Z.to_nat (g_feat n))); [|lia]. reflexivity.
      + destruct (Nat.eqb_spec f (Z.to_nat (g_feat n))); [lia|]. reflexivity.
  Qed.
  Lemma fold_nothing kind ns : counted kind = false -> forall imp : list N, foldM (node_importance kind) imp ns = Ok imp.
  Proof.
    unfold counted. intros K. apply orb_false_iff in K as [K1 K2]. induction ns as [|n ns IH]; intros imp; [reflexivity|]. cbn [foldM]. unfold node_importance at 1.
    rewrite K1, K2. destruct (g_isleaf n); cbn [bind]; apply IH.
  Qed.
  (** The sum of the worths of the splits on feature [f] *)
  Definition score (kind : string) (m : gmodel N) (f : nat) : N := nsum (map (worth kind) (splits_on (Z.of_nat f) m)).
  Lemma importance_ok kind (m : gmodel N) : counted kind = true -> (0 <= m_nfeat m)%Z -> (forall t n, In t (m_trees m) -> In n (gt_nodes t) -> g_isleaf n = false -> (0 <= g_feat n < m_nfeat m)%Z) ->
    let raw := map (score kind m) (seq 0 (Z.to_nat (m_nfeat m))) in
    importance kind m = Ok (if nlt n0 (nsum raw) then map (fun v => ndiv v (nsum raw)) raw else raw).
  Proof.
    intros K H0 HR raw. unfold importance. destruct (Z.ltb_spec (m_nfeat m) 0); [lia|].
    set (k := Z.to_nat (m_nfeat m)). set (ns := flat_map gt_nodes (m_trees m)).
    assert (Hr : forallb (in_range (List.length (repeat (n0 : N) k))) ns = true).
    { apply forallb_forall. intros n Hn. apply in_flat_map in Hn as (t & Ht & Hn). unfold in_range. rewrite repeat_length. destruct (g_isleaf n) eqn:El; [reflexivity|].
      specialize (HR t n Ht Hn El). unfold k. rewrite Z2Nat.id by lia. destruct HR. cbn [orb]. apply andb_true_iff. split; [now apply Z.leb_le|now apply Z.ltb_lt]. }
    destruct (fold_importance kind ns K (repeat n0 k)) as [_ F]. destruct (F Hr) as (imp' & E & L & V). rewrite E. cbn [bind].
    assert (Ei : imp' = raw).
    { rewrite repeat_length in L. apply nth_ext with (d := n0) (d' := n0); [unfold raw; now rewrite map_length, seq_length|]. intros f Hf. rewrite V.
      assert (Er : nth f raw n0 = score kind m f).
      { unfold raw. erewrite nth_indep with (d' := score kind m 0) by (rewrite map_length, seq_length; lia). rewrite map_nth, seq_nth by lia. reflexivity. }
      rewrite Er, nth_repeat. reflexivity. }
    now rewrite Ei.
  Qed.
  Lemma importance_panics kind (m : gmodel N) : counted kind = true -> (exists t n, In t (m_trees m) /\ In n (gt_nodes t) /\ g_isleaf n = false /\ ~ (0 <= g_feat n < m_nfeat m)%Z) ->
    importance kind m = Panic.
  Proof.
    intros K (t & n & Ht & Hn & El & HB). unfold importance. destruct (Z.ltb_spec (m_nfeat m) 0) as [|H0]; [reflexivity|].
    destruct (fold_importance kind (flat_map gt_nodes (m_trees m)) K (repeat n0 (Z.to_nat (m_nfeat m)))) as [F _]. rewrite F; [reflexivity|].
    apply not_true_is_false. intros C. rewrite forallb_forall in C. specialize (C n ltac:(apply in_flat_map; eauto)). unfold in_range in C.
    rewrite El, repeat_length, Z2Nat.id in C by lia. cbn [orb] in C. apply andb_true_iff in C as [C1 C2]. apply Z.leb_le in C1. apply Z.ltb_lt in C2. lia.
  Qed.
  Lemma importance_other kind (m : gmodel N) : counted kind = false -> (0 <= m_nfeat m)%Z ->
    importance kind m = Ok (let zeros := repeat (n0 : N) (Z.to_nat (m_nfeat m)) in if nlt n0 (nsum zeros) then map (fun v => ndiv v (nsum zeros)) zeros else zeros).
  Proof. intros K H0. unfold importance. destruct (Z.ltb_spec (m_nfeat m) 0); [lia|]. now rewrite fold_nothing by exact K. Qed.
  Lemma stored_range nf (t : gtree N) n : stored_tree nf t -> In n (gt_nodes t) -> g_isleaf n = false -> (0 <= g_feat n < nf)%Z.
  Proof.
    intros (T & -> & HB & _). generalize 0. induction T as [v|a l IHl r IHr]; intros k Hn El.
    - destruct Hn as [<-|[]]. discriminate El.
    - cbn [splits_below] in HB. destruct HB as (B0 & B1 & B2). cbn [preorder] in Hn. destruct Hn as [<-|Hn]; [exact B0|]. apply in_app_iff in Hn as [Hn|Hn]; eauto.
  Qed.
End Importance.
