(** Leaf numbers. *)
From Coq Require Import String List Arith ZArith Bool Lia.
From Verif Require Import Base.Num Base.GoRes Base.ListX Model.LgbTransform Model.LgbTree Model.LgbHist Model.LgbTrain Model.LgbLeaf Spec.LgbText Spec.LgbLeaf
  Proofs.LgbTreeP Proofs.LgbTrainP Proofs.LgbTextTrainP.
Import ListNotations.
Local Open Scope list_scope.

Section Walks.
  Context {N : Num}.
  Variables toint roundint : N -> Z.
  (** The node where the decisions [dec] lead, relative to the root, its number among the leaves, its value *)
  Fixpoint pos (dec : gnode N -> bool) (T : dtree N) : nat :=
    match T with Leaf _ => 0 | Split n l r => if dec n then S (pos dec l) else S (nodes_of l + pos dec r) end.
  Fixpoint reach (dec : gnode N -> bool) (T : dtree N) : nat :=
    match T with Leaf _ => 0 | Split n l r => if dec n then reach dec l else leaf_count l + reach dec r end.
  Fixpoint outcome (dec : gnode N -> bool) (T : dtree N) : N :=
    match T with Leaf v => v | Split n l r => if dec n then outcome dec l else outcome dec r end.
  Fixpoint depth (T : dtree N) : nat := match T with Leaf _ => 1 | Split _ l r => S (Nat.max (depth l) (depth r)) end.
  Lemma depth_nodes T : depth T <= nodes_of T.
  Proof. induction T; cbn; lia. Qed.
  Lemma pos_below dec T : pos dec T < nodes_of T.
  Proof. induction T as [v|n l IHl r IHr]; cbn; [lia|]. destruct (dec n); lia. Qed.
  Lemma reach_below dec T : reach dec T < leaf_count T.
  Proof. induction T as [v|n l IHl r IHr]; cbn; [lia|]. destruct (dec n); lia. Qed.
  Definition located (t : gtree N) (k : nat) (T : dtree N) : Prop :=
    exists pre post, gt_nodes t = pre ++ preorder k T ++ post /\ List.length pre = k.
  Definition inner (k : nat) (n : gnode N) (l : dtree N) : gnode N :=
    mkgn (Z.of_nat (S k)) (Z.of_nat (S k + nodes_of l)) (g_type n) (g_feat n) (g_thr n) (g_cats n) (g_defl n) (g_gain n) (g_leaf n) (g_ival n).
  Lemma located_leaf t k v : located t k (Leaf v) -> getZ (gt_nodes t) (Z.of_nat k) = Some (leaf_node v).
  Proof. intros (pre & post & E & <-). rewrite getZ_nat, E. rewrite nth_error_app2, Nat.sub_diag by lia. reflexivity. Qed.
  Lemma located_split t k n l r : located t k (Split n l r) -> getZ (gt_nodes t) (Z.of_nat k) = Some (inner k n l)
    /\ located t (S k) l /\ located t (S k + nodes_of l) r.
  Proof.
    intros (pre & post & E & Hk). cbn [preorder] in E. split; [|split].
    - rewrite getZ_nat, E. rewrite nth_error_app2 by lia. rewrite Hk, Nat.sub_diag. reflexivity.
    - exists (pre ++ [inner k n l]), (preorder (S k + nodes_of l) r ++ post). split; [|rewrite app_length; cbn; lia].
      rewrite E, <- !app_assoc. cbn [app]. now rewrite <- !app_assoc.
    - exists (pre ++ inner k n l :: preorder (S k) l), post. split; [|rewrite app_length; cbn [List.length]; rewrite preorder_length; lia].
      rewrite E, <- !app_assoc. cbn [app]. now rewrite <- !app_assoc.
  Qed.
  Lemma inner_isleaf k n l : g_isleaf (inner k n l) = false.
  Proof. unfold g_isleaf. cbn [g_left inner]. destruct (Z.eqb_spec (Z.of_nat (S k)) (-1)); [lia|reflexivity]. Qed.
  Lemma leaf_isleaf v : g_isleaf (leaf_node (N := N) v) = true.
  Proof. reflexivity. Qed.

  Variable x : list N.
  (** The directions taken by Tree.Predict and by the Predictor *)
  Definition feature (n : gnode N) : N := nth (Z.to_nat (g_feat n)) x n0.
  Definition model_left (n : gnode N) : bool :=
    let v := feature n in
    if nisnan v then g_defl n else match g_type n with TCat => existsb (Z.eqb (toint v)) (g_cats n) | _ => nle v (g_thr n) end.
  Definition precise_left (n : gnode N) : bool :=
    let v := feature n in
    if nisnan v then g_defl n else match g_type n with TCat => existsb (Z.eqb (roundint v)) (g_cats n) | _ => le_precise v (g_thr n) end.
  Lemma feature_at n : (0 <= g_feat n < Z.of_nat (List.length x))%Z -> getZ x (g_feat n) = Some (feature n).
  Proof.
    intros H. unfold getZ, feature. destruct (Z.ltb_spec (g_feat n) 0); [lia|]. apply nth_error_nth'. lia.
  Qed.
  Lemma leaf_walk_pos t T : forall k fuel, located t k T -> splits_below (Z.of_nat (List.length x)) T -> proper T -> depth T <= fuel ->
    leaf_walk toint fuel t (Z.of_nat k) x = Some (Ok (Z.of_nat (k + pos model_left T)))
    /\ gwalk toint fuel t (Z.of_nat k) x = Some (Ok (outcome model_left T)).
  Proof.
    induction T as [v|n l IHl r IHr]; intros k fuel HL HB HP Hf; (destruct fuel as [|fuel]; [cbn in Hf; lia|]); cbn [leaf_walk gwalk].
    - rewrite (located_leaf _ _ _ HL), leaf_isleaf. cbn [pos outcome leaf_node g_leaf]. now rewrite Nat.add_0_r.
    - destruct (located_split _ _ _ _ _ HL) as (E & L1 & L2). rewrite E, inner_isleaf. cbn [splits_below proper depth] in HB, HP, Hf.
      destruct HB as (B0 & B1 & B2). destruct HP as (P0 & P1 & P2). cbn [g_feat inner g_type g_thr g_cats]. rewrite (feature_at _ B0).
      specialize (IHl (S k) fuel L1 B1 P1 ltac:(lia)). specialize (IHr (S k + nodes_of l) fuel L2 B2 P2 ltac:(lia)).
      unfold g_default. cbn [g_left g_right g_defl inner pos outcome].
      replace (k + S (pos model_left l)) with (S k + pos model_left l) by lia.
      assert (EE : forall b : bool, b = model_left n ->
        leaf_walk toint fuel t (if b then Z.of_nat (S k) else Z.of_nat (S k + nodes_of l)) x
          = Some (Ok (Z.of_nat (k + (if model_left n then S (pos model_left l) else S (nodes_of l + pos model_left r)))))
        /\ gwalk toint fuel t (if b then Z.of_nat (S k) else Z.of_nat (S k + nodes_of l)) x = Some (Ok (if model_left n then outcome model_left l else outcome model_left r))).
      { intros b ->. destruct (model_left n).
        - replace (k + S (pos model_left l)) with (S k + pos model_left l) by lia. exact IHl.
        - replace (k + S (nodes_of l + pos model_left r)) with (S k + nodes_of l + pos model_left r) by lia. exact IHr. }
      unfold model_left in EE at 1. fold (feature n) in *. destruct (nisnan (feature n)); [now apply EE|].
      destruct (g_type n) eqn:Et; [now destruct P0|now apply EE|now apply EE].
  Qed.
  Lemma ensure_walk t T : forall k fuel guard, located t k T -> splits_below (Z.of_nat (List.length x)) T -> proper T -> depth T <= fuel -> depth T <= guard ->
    traverse roundint fuel t (Z.of_nat k) x = Some (Ok (Z.of_nat (k + pos precise_left T)))
    /\ pwalk roundint fuel guard t (Z.of_nat k) x = Some (Ok (ensure (outcome precise_left T))).
  Proof.
    induction T as [v|n l IHl r IHr]; intros k fuel guard HL HB HP Hf Hg; (destruct fuel as [|fuel]; [cbn in Hf; lia|]);
      (destruct guard as [|guard]; [cbn in Hg; lia|]); cbn [traverse pwalk].
    - rewrite (located_leaf _ _ _ HL), leaf_isleaf. cbn [pos outcome leaf_node g_leaf]. now rewrite Nat.add_0_r.
    - destruct (located_split _ _ _ _ _ HL) as (E & L1 & L2). rewrite E, inner_isleaf. cbn [splits_below proper depth] in HB, HP, Hf, Hg.
      destruct HB as (B0 & B1 & B2). destruct HP as (P0 & P1 & P2). cbn [g_feat inner g_type g_thr g_cats].
      destruct (Z.leb_spec (Z.of_nat (List.length x)) (g_feat n)); [lia|]. rewrite (feature_at _ B0).
      unfold g_default, follow. cbn [g_left g_right g_defl inner pos outcome].
      assert (EE : forall (b : bool) guard', b = precise_left n -> Nat.max (depth l) (depth r) <= guard' ->
        traverse roundint fuel t (if b then Z.of_nat (S k) else Z.of_nat (S k + nodes_of l)) x
          = Some (Ok (Z.of_nat (k + (if precise_left n then S (pos precise_left l) else S (nodes_of l + pos precise_left r)))))
        /\ pwalk roundint fuel guard' t (if b then Z.of_nat (S k) else Z.of_nat (S k + nodes_of l)) x
           = Some (Ok (ensure (if precise_left n then outcome precise_left l else outcome precise_left r)))).
      { intros b guard' -> Hg'. destruct (precise_left n).
        - replace (k + S (pos precise_left l)) with (S k + pos precise_left l) by lia. apply IHl; (assumption || lia).
        - replace (k + S (nodes_of l + pos precise_left r)) with (S k + nodes_of l + pos precise_left r) by lia. apply IHr; (assumption || lia). }
      assert (NN : forall b : bool, (if (if b then Z.of_nat (S k) else Z.of_nat (S k + nodes_of l)) <? 0 then true else false)%Z = false)
        by (intros []; [destruct (Z.ltb_spec (Z.of_nat (S k)) 0)|destruct (Z.ltb_spec (Z.of_nat (S k + nodes_of l)) 0)]; (lia || reflexivity)).
      assert (NN' : forall b : bool, ((if b then Z.of_nat (S k) else Z.of_nat (S k + nodes_of l)) <? 0)%Z = false)
        by (intros b; specialize (NN b); destruct (_ <? 0)%Z; congruence).
      rewrite !NN'. unfold precise_left in EE at 1. fold (feature n) in *. destruct (nisnan (feature n)); [apply EE; [reflexivity|lia]|].
      destruct (g_type n) eqn:Et; [now destruct P0|apply EE; [reflexivity|lia]|apply EE; [reflexivity|lia]].
  Qed.
End Walks.

Section Numbers.
  Context {N : Num}.
  Lemma leaf_map_numbers (t : gtree N) T : forall k fuel mp c, located t k T -> depth T <= fuel ->
    exists mp', leaf_map fuel t (Z.of_nat k) (mp, c) = Some (mp', c + leaf_count T)
      /\ (forall dec, mapped mp' (Z.of_nat (k + pos dec T)) = c + reach dec T)
      /\ forall id, (id < Z.of_nat k \/ Z.of_nat (k + nodes_of T) <= id)%Z -> mapped mp' id = mapped mp id.
  Proof.
    induction T as [v|n l IHl r IHr]; intros k fuel mp c HL Hf; (destruct fuel as [|fuel]; [cbn in Hf; lia|]); cbn [leaf_map].
    - rewrite (located_leaf _ _ _ HL), leaf_isleaf. cbn [fst snd leaf_count]. rewrite Nat.add_1_r. eexists. split; [reflexivity|]. cbn [mapped pos reach nodes_of]. split.
      + intros _. rewrite !Nat.add_0_r, Z.eqb_refl. reflexivity.
      + intros id Hid. destruct (Z.eqb_spec id (Z.of_nat k)); [lia|reflexivity].
    - destruct (located_split _ _ _ _ _ HL) as (E & L1 & L2). rewrite E, inner_isleaf. cbn [g_left g_right inner depth] in *.
      destruct (Z.ltb_spec (Z.of_nat (S k)) 0); [lia|]. destruct (Z.ltb_spec (Z.of_nat (S k + nodes_of l)) 0); [lia|].
      destruct (IHl (S k) fuel mp c L1 ltac:(lia)) as (m1 & -> & A1 & A2).
      destruct (IHr (S k + nodes_of l) fuel m1 (c + leaf_count l) L2 ltac:(lia)) as (m2 & -> & B1 & B2).
      exists m2. cbn [leaf_count pos reach nodes_of]. split; [now rewrite Nat.add_assoc|]. split.
      + intros dec. destruct (dec n).
        * replace (k + S (pos dec l)) with (S k + pos dec l) by lia. rewrite B2; [apply A1|]. left. pose proof (pos_below dec l). lia.
        * replace (k + S (nodes_of l + pos dec r)) with (S k + nodes_of l + pos dec r) by lia. rewrite B1. lia.
      + intros id Hid. rewrite B2 by lia. apply A2. lia.
  Qed.
  Lemma isleaf_filter_inner k n (l r : dtree N) : filter g_isleaf (preorder k (Split n l r)) = filter g_isleaf (preorder (S k) l) ++ filter g_isleaf (preorder (S k + nodes_of l) r).
  Proof. cbn [preorder filter]. fold (inner k n l). rewrite inner_isleaf. apply filter_app. Qed.
  Lemma leaves_length (T : dtree N) : forall k, List.length (filter g_isleaf (preorder k T)) = leaf_count T.
  Proof.
    induction T as [v|n l IHl r IHr]; intros k; [reflexivity|]. rewrite isleaf_filter_inner, app_length, IHl, IHr. reflexivity.
  Qed.
  Lemma leaves_before dec (T : dtree N) : forall k, List.length (filter g_isleaf (firstn (pos dec T) (preorder k T))) = reach dec T.
  Proof.
    induction T as [v|n l IHl r IHr]; intros k; [reflexivity|]. cbn [pos preorder reach]. destruct (dec n).
    - cbn [firstn filter]. fold (inner k n l). rewrite inner_isleaf, firstn_app, preorder_length.
      pose proof (pos_below dec l). replace (pos dec l - nodes_of l) with 0 by lia. cbn [firstn]. rewrite app_nil_r. apply IHl.
    - cbn [firstn filter]. fold (inner k n l). rewrite inner_isleaf.
      rewrite firstn_app, preorder_length. replace (nodes_of l + pos dec r - nodes_of l) with (pos dec r) by lia.
      rewrite firstn_all2 by (rewrite preorder_length; lia). rewrite filter_app, app_length, leaves_length. f_equal. apply IHr.
  Qed.
  Lemma leaf_at dec (T : dtree N) : forall k, nth_error (map g_leaf (filter g_isleaf (preorder k T))) (reach dec T) = Some (outcome dec T).
  Proof.
    induction T as [v|n l IHl r IHr]; intros k; [reflexivity|]. rewrite isleaf_filter_inner, map_app. cbn [reach outcome]. destruct (dec n).
    - rewrite nth_error_app1 by (rewrite map_length, leaves_length; apply reach_below). apply IHl.
    - rewrite nth_error_app2; rewrite map_length, leaves_length; [|lia]. replace (leaf_count l + reach dec r - leaf_count l) with (reach dec r) by lia. apply IHr.
  Qed.
  Lemma below_more (T : dtree N) a b : (a <= b)%Z -> splits_below a T -> splits_below b T.
  Proof. intros H. induction T as [v|n l IHl r IHr]; cbn; [auto|]. intros (A & B & C). repeat split; try lia; auto. Qed.

  (** *** One tree *)
  Lemma tree_leaf_value toint nf (t : gtree N) (T : dtree N) x : gt_nodes t = preorder 0 T -> splits_below nf T -> proper T -> (nf <= Z.of_nat (List.length x))%Z ->
    forall fuel, depth T <= fuel ->
    tree_leaf toint fuel t x = Some (Ok (reach (model_left toint x) T)) /\ nth_error (leaf_values t) (reach (model_left toint x) T) = Some (outcome (model_left toint x) T)
      /\ tree_predict toint fuel t x = Some (Ok (outcome (model_left toint x) T)).
  Proof.
    intros ET HB HP Hx fuel Hf. apply (below_more _ _ _ Hx) in HB.
    assert (HL : located t 0 T) by (exists [], []; rewrite app_nil_r; auto).
    destruct (leaf_walk_pos toint x t T 0 fuel HL HB HP Hf) as [W1 W2]. cbn [Z.of_nat Nat.add] in W1, W2.
    destruct (leaf_map_numbers t T 0 fuel [] 0 HL Hf) as (mp & M1 & M2 & _). cbn [Z.of_nat Nat.add] in M1, M2.
    split; [|split].
    - unfold tree_leaf. rewrite M1, W1. rewrite ET, preorder_length. pose proof (pos_below (model_left toint x) T).
      destruct (Z.leb_spec (Z.of_nat (nodes_of T)) (Z.of_nat (pos (model_left toint x) T))); [lia|]. now rewrite M2.
    - unfold leaf_values. rewrite ET. apply leaf_at.
    - exact W2.
  Qed.
  Lemma leaf_index_value roundint nf (t : gtree N) (T : dtree N) x : gt_nodes t = preorder 0 T -> splits_below nf T -> proper T -> (nf <= Z.of_nat (List.length x))%Z ->
    forall fuel, depth T <= fuel ->
    leaf_index roundint fuel t x = Some (Ok (reach (precise_left roundint x) T)) /\ nth_error (leaf_values t) (reach (precise_left roundint x) T) = Some (outcome (precise_left roundint x) T)
      /\ predict_tree roundint fuel t x = Some (Ok (ensure (outcome (precise_left roundint x) T))).
  Proof.
    intros ET HB HP Hx fuel Hf. apply (below_more _ _ _ Hx) in HB.
    assert (HL : located t 0 T) by (exists [], []; rewrite app_nil_r; auto).
    assert (Hg : depth T <= 2 * List.length (gt_nodes t)) by (rewrite ET, preorder_length; pose proof (depth_nodes T); lia).
    destruct (ensure_walk roundint x t T 0 fuel _ HL HB HP Hf Hg) as [W1 W2]. cbn [Z.of_nat Nat.add] in W1, W2.
    split; [|split].
    - unfold leaf_index. rewrite W1. rewrite ET, preorder_length. pose proof (pos_below (precise_left roundint x) T).
      destruct (Z.ltb_spec (Z.of_nat (nodes_of T)) (Z.of_nat (pos (precise_left roundint x) T))); [lia|]. rewrite Nat2Z.id. now rewrite leaves_before.
    - unfold leaf_values. rewrite ET. apply leaf_at.
    - exact W2.
  Qed.
  Lemma reach_agree toint roundint x (T : dtree N) : forall k,
    (forall n, In n (preorder k T) -> g_isleaf n = false -> model_left toint x n = precise_left roundint x n) ->
    reach (model_left toint x) T = reach (precise_left roundint x) T.
  Proof.
    induction T as [v|n l IHl r IHr]; intros k H; [reflexivity|]. cbn [reach].
    assert (E : model_left toint x n = precise_left roundint x n) by exact (H (inner k n l) (or_introl eq_refl) (inner_isleaf k n l)).
    rewrite E, (IHl (S k)), (IHr (S k + nodes_of l)); [reflexivity| |]; intros n' Hn; apply H; right; apply in_or_app; auto.
  Qed.
  Lemma sequence_forall {A B} (f : A -> option (res B)) l bs : Forall2 (fun a b => f a = Some (Ok b)) l bs -> sequence f l = Some (Ok bs).
  Proof. induction 1 as [|a b l bs E _ IH]; [reflexivity|]. cbn [sequence]. now rewrite E, IH. Qed.
  Fixpoint fuel_for (ts : list (gtree N)) : nat := match ts with [] => 0 | t :: r => List.length (gt_nodes t) + fuel_for r end.
  Lemma fuel_for_in ts t : In t ts -> List.length (gt_nodes t) <= fuel_for ts.
  Proof. induction ts as [|a ts IH]; intros []; cbn [fuel_for]; [subst; lia|]. specialize (IH H). lia. Qed.
  (** *** A model *)
  Definition meets (t : gtree N) (k : nat) (v : N) : Prop := nth_error (leaf_values t) k = Some v.
  Lemma model_leaves toint (m : gmodel N) x : (forall t, In t (m_trees m) -> stored_tree (m_nfeat m) t) -> (m_nfeat m <= Z.of_nat (List.length x))%Z ->
    forall fuel, fuel_for (m_trees m) <= fuel -> exists ks vs, tree_leaves toint fuel m x = Some (Ok ks)
      /\ Forall2 (fun t kv => meets t (fst kv) (snd kv)) (m_trees m) (combine ks vs) /\ List.length ks = List.length vs
      /\ model_raw toint fuel m x = Some (Ok (accumulate nadd (outputs_count m) (m_init m) vs)).
  Proof.
    intros HS Hx fuel Hf.
    assert (H : exists ks vs, List.length ks = List.length vs /\ Forall2 (fun t k => tree_leaf toint fuel t x = Some (Ok k)) (m_trees m) ks
      /\ Forall2 (fun t kv => meets t (fst kv) (snd kv)) (m_trees m) (combine ks vs) /\ Forall2 (fun t v => tree_predict toint fuel t x = Some (Ok v)) (m_trees m) vs).
    { assert (Hf' : forall t, In t (m_trees m) -> List.length (gt_nodes t) <= fuel) by (intros t Ht; pose proof (fuel_for_in _ _ Ht); lia). clear Hf.
      induction (m_trees m) as [|t ts IH]; [exists [], []; repeat split; constructor|].
      destruct IH as (ks & vs & L & F1 & F2 & F3); [intros; apply HS; now right|intros; apply Hf'; now right|].
      destruct (HS t (or_introl eq_refl)) as (T & ET & HB & HP).
      destruct (tree_leaf_value toint (m_nfeat m) t T x ET HB HP Hx fuel) as (A & B & C).
      { pose proof (Hf' t (or_introl eq_refl)) as Hl. rewrite ET, preorder_length in Hl. pose proof (depth_nodes T). lia. }
      eexists (_ :: ks), (_ :: vs). split; [cbn; f_equal; exact L|]. split; [constructor; [exact A|exact F1]|]. split; [cbn [combine]; constructor; [exact B|exact F2]|].
      constructor; [exact C|exact F3]. }
    destruct H as (ks & vs & L & F1 & F2 & F3). exists ks, vs. split; [now apply sequence_forall|]. split; [exact F2|]. split; [exact L|].
    unfold model_raw. now rewrite (sequence_forall _ _ _ F3).
  Qed.
End Numbers.

(** ** Trees of the trainer *)
Section Grown2.
  Context {N : Num}.
  Variables (toint : N -> Z) (X : nat -> nat -> N) (cols : nat).
  Lemma grow_stored G H find p (feats : forall rows s, find rows = Ok s -> s_feat s = (-1)%Z \/ (0 <= s_feat s < Z.of_nat cols)%Z) :
    forall fuel ns idxs depth ns' id, build_node toint X G H fuel find p ns idxs depth = Some (Ok (ns', id)) ->
    id = List.length ns /\ exists T, ns' = ns ++ preorder (List.length ns) T /\ splits_below (Z.of_nat cols) T /\ proper T.
  Proof.
    induction fuel as [|fuel IH]; intros ns idxs depth ns' id E; [discriminate|]. cbn [build_node] in E.
    destruct (stop p ns depth idxs); [injection E as <- <-; split; [reflexivity|]; now exists (Leaf (leaf_value G H p idxs))|].
    destruct (find idxs) as [s| |] eqn:Ef; try discriminate.
    destruct ((s_feat s =? -1)%Z || nlt (s_gain s) (tp_mingain p)) eqn:Ea;
      [injection E as <- <-; split; [reflexivity|]; now exists (Leaf (leaf_value G H p idxs))|].
    destruct (build_node toint X G H fuel find p (ns ++ [inner_node p s]) _ _) as [[[ns1 l]| |]|] eqn:E1; try discriminate.
    destruct (build_node toint X G H fuel find p ns1 _ _) as [[[ns2 r]| |]|] eqn:E2; try discriminate.
    injection E as <- <-. split; [reflexivity|].
    destruct (IH _ _ _ _ _ E1) as (El & T1 & X1 & B1 & C1). destruct (IH _ _ _ _ _ E2) as (Er & T2 & X2 & B2 & C2).
    rewrite app_length in *. cbn [List.length] in *.
    assert (Hl1 : List.length ns1 = S (List.length ns) + nodes_of T1) by (rewrite X1, !app_length, preorder_length; cbn; lia).
    rewrite Hl1 in *. replace (List.length ns + 1) with (S (List.length ns)) in * by lia.
    exists (Split (inner_node p s) T1 T2). split; [|split].
    - rewrite X2, X1, <- !app_assoc. cbn [app]. rewrite upd_at. subst l r. reflexivity.
    - cbn [splits_below]. split; [|now split]. apply orb_false_iff in Ea as [Ea _]. apply Z.eqb_neq in Ea.
      destruct (feats _ _ Ef) as [?|?]; [congruence|]. assumption.
    - cbn [proper]. split; [apply inner_type|now split].
  Qed.
  Variables (sortf : list N -> list N) (sortr : list (N * bin N) -> list (N * bin N)) (ograd ohess : N -> N -> N) (y w : list N).
  Lemma build_stored G H fuel p idxs t : build_tree toint X G H sortf sortr fuel p cols idxs = Some (Ok t) -> stored_tree (Z.of_nat cols) t.
  Proof.
    unfold build_tree, build_tree_with.
    destruct (build_node _ _ _ _ _ _ _ _ _ _) as [[[ns id]| |]|] eqn:E; try discriminate. intros K. injection K as <-.
    destruct (grow_stored _ _ _ _ (finder_feat toint X G H sortf sortr p cols) _ _ _ _ _ _ E) as (_ & T & -> & HT & HC).
    exists T. now split.
  Qed.
  Lemma boost_stored fuel p bags : forall st st', boost toint X cols sortf sortr ograd ohess y w fuel p bags st = Some (Ok st') ->
    (forall t, In t (fst st) -> stored_tree (Z.of_nat cols) t) -> forall t, In t (fst st') -> stored_tree (Z.of_nat cols) t.
  Proof.
    induction bags as [|b bags IH]; intros st st' E Hs; [now injection E as <-|]. cbn [boost] in E.
    destruct (boost_round _ _ _ _ _ _ _ _ _ _ _ b st) as [[st1| |]|] eqn:E1; try discriminate. apply (IH st1 st' E). clear IH E.
    unfold boost_round in E1. destruct (build_tree _ _ _ _ _ _ _ _ _ _) as [[t| |]|] eqn:Et; try discriminate.
    destruct (update_preds _ _ _ _ _ _ _) as [[preds| |]|]; try discriminate. injection E1 as <-. cbn [fst].
    intros u Hu. apply in_app_iff in Hu as [Hu|[<-|[]]]; [now apply Hs|]. now apply build_stored in Et.
  Qed.
  Theorem fit_stored fuel p init bags ts preds : fit toint X cols sortf sortr ograd ohess y w fuel p init bags = Some (Ok (ts, preds)) ->
    forall t, In t ts -> stored_tree (Z.of_nat cols) t.
  Proof. intros E. exact (boost_stored _ _ _ _ _ E (fun t (H : In t []) => match H with end)). Qed.
End Grown2.
