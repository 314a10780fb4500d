(** C115 and C116: leaf numbers and feature importances of a boosted model. *)
From Coq Require Import String List Arith ZArith QArith Bool Lia Reals Lra.
From Verif Require Import Base.Num Base.GoRes Base.ListX Base.RTac Model.LgbTransform Model.LgbTree Model.LgbTrain Model.LgbHist Model.LgbLeaf
  Spec.LgbText Spec.LgbLeaf Proofs.LgbTextTrainP Proofs.LgbLeafP Proofs.LgbImportanceP Props.LgbTrainProps.
Import ListNotations.
Local Open Scope nat_scope.
Local Open Scope string_scope.
Local Open Scope list_scope.

(** ** C115.  Leaf numbers *)
Section AnyNumber.
  Context {N : Num}.
  (** PredictLeaf gives the number, from left to right, of the leaf whose value Tree.Predict returns; also for
      rows with NaN. *)
  Theorem C115_leaf_of_prediction toint nf (t : gtree N) x : stored_tree nf t -> (nf <= Z.of_nat (List.length x))%Z ->
    forall fuel, List.length (gt_nodes t) <= fuel -> exists k v, tree_leaf toint fuel t x = Some (Ok k)
      /\ nth_error (leaf_values t) k = Some v /\ tree_predict toint fuel t x = Some (Ok v).
  Proof.
    intros (T & E & B & P) Hx fuel Hf. exists (reach (model_left toint x) T), (outcome (model_left toint x) T).
    apply (tree_leaf_value toint nf t T x E B P Hx). rewrite E, preorder_length in Hf. pose proof (depth_nodes T). lia.
  Qed.
  (** PredictLeafIndex gives the number of the leaf whose value, made finite, the Predictor adds. *)
  Theorem C115_index_of_prediction roundint nf (t : gtree N) x : stored_tree nf t -> (nf <= Z.of_nat (List.length x))%Z ->
    forall fuel, List.length (gt_nodes t) <= fuel -> exists k v, leaf_index roundint fuel t x = Some (Ok k)
      /\ nth_error (leaf_values t) k = Some v /\ predict_tree roundint fuel t x = Some (Ok (ensure v)).
  Proof.
    intros (T & E & B & P) Hx fuel Hf. exists (reach (precise_left roundint x) T), (outcome (precise_left roundint x) T).
    apply (leaf_index_value roundint nf t T x E B P Hx). rewrite E, preorder_length in Hf. pose proof (depth_nodes T). lia.
  Qed.
  (** The raw score of a row is the accumulation of the values of the leaves that PredictLeaf names, in the order
      of the trees; one number per tree. *)
  Theorem C115_score_of_leaves toint (m : gmodel N) x : (forall t, In t (m_trees m) -> stored_tree (m_nfeat m) t) ->
    (m_nfeat m <= Z.of_nat (List.length x))%Z -> forall fuel, fuel_for (m_trees m) <= fuel ->
    exists ks vs, tree_leaves toint fuel m x = Some (Ok ks) /\ List.length ks = List.length (m_trees m)
      /\ (forall i t k, nth_error (m_trees m) i = Some t -> nth_error ks i = Some k -> nth_error (leaf_values t) k = nth_error vs i /\ nth_error vs i <> None)
      /\ model_raw toint fuel m x = Some (Ok (accumulate nadd (outputs_count m) (m_init m) vs)).
  Proof.
    intros HS Hx fuel Hf. destruct (model_leaves toint m x HS Hx fuel Hf) as (ks & vs & E & F & L & R). exists ks, vs. split; [exact E|].
    assert (H : List.length ks = List.length (m_trees m) /\ forall i t k, nth_error (m_trees m) i = Some t -> nth_error ks i = Some k ->
        nth_error (leaf_values t) k = nth_error vs i /\ nth_error vs i <> None).
    { clear E R Hf HS. revert ks vs F L. induction (m_trees m) as [|t ts IH]; intros ks vs F L.
      - inversion F as [E0|]. destruct ks as [|k ks], vs as [|v vs]; try discriminate. split; [reflexivity|]. now intros [|i] t k.
      - destruct ks as [|k ks], vs as [|v vs]; try discriminate; [inversion F|]. cbn [combine] in F. inversion F as [|? ? ? ? M F']; subst.
        injection L as L. destruct (IH ks vs F' L) as [L' H]. split; [cbn; lia|]. intros [|i] t' k' Ht Hk; cbn in *.
        + injection Ht as <-. injection Hk as <-. split; [exact M|discriminate].
        + exact (H i t' k' Ht Hk). }
    destruct H as [H1 H2]. split; [exact H1|]. split; [exact H2|exact R].
  Qed.
  (** So two rows with the same leaf numbers have the same raw score. *)
  Theorem C115_same_leaves toint (m : gmodel N) x y : (forall t, In t (m_trees m) -> stored_tree (m_nfeat m) t) ->
    (m_nfeat m <= Z.of_nat (List.length x))%Z -> (m_nfeat m <= Z.of_nat (List.length y))%Z -> forall fuel, fuel_for (m_trees m) <= fuel ->
    tree_leaves toint fuel m x = tree_leaves toint fuel m y -> model_raw toint fuel m x = model_raw toint fuel m y.
  Proof.
    intros HS Hx Hy fuel Hf E. destruct (model_leaves toint m x HS Hx fuel Hf) as (ks & vs & E1 & F1 & L1 & R1).
    destruct (model_leaves toint m y HS Hy fuel Hf) as (ks' & vs' & E2 & F2 & L2 & R2). rewrite E1, E2 in E. injection E as <-. rewrite R1, R2. do 3 f_equal.
    clear R1 R2 E1 E2 HS Hf. revert ks vs vs' F1 F2 L1 L2. induction (m_trees m) as [|t ts IH]; intros ks vs vs' F1 F2 L1 L2;
      destruct ks as [|k ks], vs as [|v vs], vs' as [|v' vs']; try discriminate; try reflexivity; cbn [combine] in *; [inversion F1|].
    inversion F1 as [|? ? ? ? M1 F1']; subst. inversion F2 as [|? ? ? ? M2 F2']; subst. cbn [fst snd] in *. unfold meets in *.
    f_equal; [congruence|]. injection L1 as L1. injection L2 as L2. exact (IH ks vs vs' F1' F2' L1 L2).
  Qed.
  (** The two numbers agree if no value is close to a threshold and the categories are whole numbers; NaN is
      treated alike. *)
  Theorem C115_same_numbers toint roundint nf (t : gtree N) x : stored_tree nf t -> (nf <= Z.of_nat (List.length x))%Z ->
    (forall n v, In n (gt_nodes t) -> g_isleaf n = false -> nth_error x (Z.to_nat (g_feat n)) = Some v -> nisnan v = false ->
       match g_type n with TCat => toint v = roundint v | _ => le_precise v (g_thr n) = nle v (g_thr n) end) ->
    forall fuel, List.length (gt_nodes t) <= fuel -> leaf_index roundint fuel t x = tree_leaf toint fuel t x.
  Proof.
    intros HT Hx H fuel Hf. pose proof HT as (T & E & B & P).
    assert (Hd : depth T <= fuel) by (rewrite E, preorder_length in Hf; pose proof (depth_nodes T); lia).
    destruct (tree_leaf_value toint nf t T x E B P Hx fuel Hd) as [-> _]. destruct (leaf_index_value roundint nf t T x E B P Hx fuel Hd) as [-> _].
    do 2 f_equal. symmetry. apply (reach_agree toint roundint x T 0). intros n Hn El. rewrite <- E in Hn.
    pose proof (stored_range nf t n HT Hn El) as Hr. unfold model_left, precise_left.
    assert (Hv : nth_error x (Z.to_nat (g_feat n)) = Some (feature x n)) by (apply nth_error_nth'; lia).
    specialize (H n _ Hn El Hv). destruct (nisnan (feature x n)); [reflexivity|]. specialize (H eq_refl). destruct (g_type n); congruence.
  Qed.
  (** The trees of every trained model are stored trees. *)
  Theorem C115_trained toint (X : nat -> nat -> N) cols sortf sortr ograd ohess y w fuel p init bags ts preds obj ncl :
    fit toint X cols sortf sortr ograd ohess y w fuel p init bags = Some (Ok (ts, preds)) ->
    let m := get_model cols obj ncl p init ts in forall t, In t (m_trees m) -> stored_tree (m_nfeat m) t.
  Proof. intros E m t Ht. exact (fit_stored _ _ _ _ _ _ _ _ _ _ _ _ _ _ _ E t Ht). Qed.
End AnyNumber.

(** Over the reals: it is enough that every numerical value equals its threshold or is at least 1e-15 away. *)
Theorem C115_same_numbers_apart (toint roundint : RNum -> Z) nf (t : gtree RNum) (x : list RNum) : stored_tree nf t -> (nf <= Z.of_nat (List.length x))%Z ->
  (forall n (v : R), In n (gt_nodes t) -> g_isleaf n = false -> nth_error x (Z.to_nat (g_feat n)) = Some v ->
     match g_type n with TCat => toint v = roundint v | _ => v = g_thr n \/ (/ 10 ^ 15 <= Rabs (v - g_thr n))%R end) ->
  forall fuel, List.length (gt_nodes t) <= fuel -> leaf_index roundint fuel t x = tree_leaf toint fuel t x.
Proof.
  intros HT Hx H. apply (@C115_same_numbers RNum toint roundint nf t x HT Hx). intros n v Hn El Hv _. specialize (H n v Hn El Hv).
  assert (A : forall a b : R, (a = b \/ / 10 ^ 15 <= Rabs (a - b))%R -> @le_precise RNum a b = @nle RNum a b).
  { intros a b K. unfold le_precise, peps. rewrite nlit_R. cbn [nlt nle nsub nabs n0 RNum].
    assert (E15 : (IZR 1 / IZR 1000000000000000 = / 10 ^ 15)%R) by (cbn [pow]; lra). destruct K as [->|K].
    - replace (b - b)%R with 0%R by lra. rewrite Rabs_R0. destruct (Rltb_spec 0 (1 / 1000000000000000)); [|exfalso; lra].
      destruct (Rleb_spec b b); [reflexivity|exfalso; lra].
    - destruct (Rltb_spec (Rabs (a - b)) (1 / 1000000000000000)) as [C|_]; [exfalso; lra|].
      destruct (Rltb_spec (a - b) 0), (Rleb_spec a b); cbn [orb]; try reflexivity; exfalso; [lra|].
      assert (D : (a - b = 0)%R) by lra. rewrite D, Rabs_R0 in K. lra. }
  destruct (g_type n); [exact (A _ _ H)|exact (A _ _ H)|exact H].
Qed.

(** A tree with three leaves: x0 <= 1/2 goes to the leaf 10; otherwise category 2 of x1 goes to 20, the others to 30. *)
Definition numeric {N : Num} (feat : Z) (th : N) (dl : bool) (gain : N) : gnode N := mkgn 0 0 TNum feat th [] dl gain n0 n0.
Definition category {N : Num} (feat : Z) (cs : list Z) (gain : N) : gnode N := mkgn 0 0 TCat feat n0 cs false gain n0 n0.
Definition stored {N : Num} (T : dtree N) : gtree N := mkgt (preorder 0 T) [] n1 n0 (Z.of_nat (leaf_count T)).
Definition three (N : Num) : dtree N :=
  Split (numeric 0 (nlit 1 2) true (nlit 3 1)) (Leaf (nlit 10 1)) (Split (category 1 [2]%Z (nlit 1 1)) (Leaf (nlit 20 1)) (Leaf (nlit 30 1))).
Definition one_tree (N : Num) : gmodel N := mkgm "regression" 1 1 0 n1 [stored (three N)] 2 n0.
Lemma three_stored N : stored_tree 2 (stored (three N)).
Proof. exists (three N). repeat split; cbn; try lia; discriminate. Qed.
Definition floorQ (q : QNum) : Z := Qround.Qfloor q.
Definition nearQ (q : QNum) : Z := Qround.Qfloor (q + (1 # 2))%Q.
Example C115_example : tree_leaf floorQ 5 (stored (three QNum)) [(1 # 1)%Q : QNum; (2 # 1)%Q : QNum] = Some (Ok 1)
  /\ leaf_index nearQ 5 (stored (three QNum)) [(1 # 1)%Q : QNum; (2 # 1)%Q : QNum] = Some (Ok 1)
  /\ tree_leaves floorQ 5 (one_tree QNum) [(0 # 1)%Q : QNum; (2 # 1)%Q : QNum] = Some (Ok [0])
  /\ tree_leaves floorQ 5 (one_tree QNum) [(1 # 1)%Q : QNum; (7 # 1)%Q : QNum] = Some (Ok [2]).
Proof. repeat split. Qed.
Example C115_hypotheses : (forall t, In t (m_trees (one_tree QNum)) -> stored_tree (m_nfeat (one_tree QNum)) t) /\ fuel_for (m_trees (one_tree QNum)) <= 5.
Proof. split; [intros t [<-|[]]; apply three_stored|cbn; lia]. Qed.
Example C115_apart_example : let x := [(3%R : RNum); (7%R : RNum)] in forall n (v : R), In n (gt_nodes (stored (three RNum))) -> g_isleaf n = false ->
  nth_error x (Z.to_nat (g_feat n)) = Some v -> match g_type n with TCat => (fun _ => 7%Z) v = (fun _ => 7%Z) v | _ => v = g_thr n \/ (/ 10 ^ 15 <= Rabs (v - g_thr n))%R end.
Proof.
  cbn [stored gt_nodes three preorder numeric category g_type g_feat g_thr]. intros n v Hn El Hv. cbn in Hn.
  destruct Hn as [<-|[<-|[<-|[<-|[<-|[]]]]]]; try discriminate El; cbn [g_type g_feat g_thr] in *.
  - right. cbn in Hv. injection Hv as <-. change (/ 10 ^ 15 <= Rabs (3 - 1 / 2))%R. rewrite Rabs_right; [|lra]. assert (/ 10 ^ 15 <= 1)%R by (cbn [pow]; lra). lra.
  - reflexivity.
Qed.

(** A row with NaN: Predict of the Predictor reads the NaN as 0 and adds the leaf 10, PredictLeafIndex follows
    the default direction of the split and gives the leaf 30. *)
Definition nan_right : gtree F0 := stored (Split (numeric 0 (f 1 2) false (f 1 1)) (Leaf (f 10 1)) (Leaf (f 30 1))).
Theorem C115_nan_refuted : exists (m : gmodel F0) t x v, m_trees m = [t] /\ stored_tree (m_nfeat m) t /\ List.length x = 1
  /\ option_map (rmap (map fs)) (predictor_raw (fun _ => 0%Z) 3 m x) = Some (Ok [fs (f 10 1)])
  /\ leaf_indices (fun _ => 0%Z) 3 m x = Some (Ok [1]) /\ nth_error (leaf_values t) 1 = Some v /\ fs v = fs (f 30 1).
Proof.
  exists (mkgm "regression" 1 1 0 (f 1 1) [nan_right] 1 (f 0 1)), nan_right, [nnan], (f 30 1). split; [reflexivity|]. split.
  - exists (Split (numeric 0 (f 1 2) false (f 1 1)) (Leaf (f 10 1)) (Leaf (f 30 1))). split; [reflexivity|]. split; [split; [cbn; lia|split; exact I]|split; [discriminate|split; exact I]].
  - split; [reflexivity|]. split; [vm_compute; reflexivity|]. split; [vm_compute; reflexivity|]. split; reflexivity.
Qed.
(** A value 1e-16 above the threshold, and a category that is not a whole number: PredictLeaf and PredictLeafIndex
    give different leaves. *)
Theorem C115_close_refuted : exists (t : gtree QNum) x, stored_tree 2 t /\ List.length x = 2
  /\ tree_leaf floorQ 5 t x = Some (Ok 1) /\ leaf_index nearQ 5 t x = Some (Ok 0).
Proof.
  exists (stored (three QNum)), [((1 # 2) + (1 # 10000000000000000))%Q : QNum; (2 # 1)%Q : QNum]. split; [apply three_stored|]. repeat split.
Qed.
Theorem C115_category_refuted : exists (t : gtree QNum) x, stored_tree 2 t /\ List.length x = 2
  /\ tree_leaf floorQ 5 t x = Some (Ok 1) /\ leaf_index nearQ 5 t x = Some (Ok 2).
Proof. exists (stored (three QNum)), [(1 # 1)%Q : QNum; (27 # 10)%Q : QNum]. split; [apply three_stored|]. repeat split. Qed.
(** LeavesModel.PredictLeaf numbers only the leaves met on the way: two rows that end in different leaves, with
    different scores, get the same number. *)
Definition lnum (th : QNum) (l r : nat) (ll rl : bool) : lnode QNum := mkln th l r 0 false false ll rl false false false.
Definition four : ltree QNum :=
  mklt [lnum (0 # 1) 2 0 false false; lnum (2 # 1) 2 3 true true; lnum (- 2 # 1) 0 1 true true] [(1 # 1)%Q : QNum; (2 # 1)%Q : QNum; (3 # 1)%Q : QNum; (4 # 1)%Q : QNum] (1 # 1) (0 # 1).
Theorem C115_loaded_refuted : exists (t : ltree QNum) x y,
  leaves_tree_leaf floorQ 3 t x = Some (Ok 0) /\ leaves_tree_leaf floorQ 3 t y = Some (Ok 0)
  /\ lpredict floorQ (0 # 1)%Q 3 t x = Some (Ok ((1 # 1)%Q : QNum)) /\ lpredict floorQ (0 # 1)%Q 3 t y = Some (Ok ((3 # 1)%Q : QNum)).
Proof. exists four, [(- 3 # 1)%Q : QNum], [(1 # 1)%Q : QNum]. repeat split. Qed.

(** ** C116.  Feature importances *)

(** All splits of a model *)
Definition all_splits {N : Num} (m : gmodel N) : list (gnode N) := filter (fun n => negb (g_isleaf n)) (flat_map gt_nodes (m_trees m)).
Lemma sum_by_feature (w : gnode RNum -> R) k ns : (forall n, In n ns -> g_isleaf n = false -> (0 <= g_feat n < Z.of_nat k)%Z) ->
  Rsum (map (fun f => Rsum (map w (filter (fun n => negb (g_isleaf n) && (g_feat n =? Z.of_nat f)%Z) ns))) (seq 0 k)) = Rsum (map w (filter (fun n => negb (g_isleaf n)) ns)).
Proof.
  induction ns as [|n ns IH]; intros H.
  - cbn [filter map Rsum]. rewrite Rsum_map_const. lra.
  - cbn [filter]. assert (IH' := IH (fun n' Hn => H n' (or_intror Hn))). clear IH. destruct (g_isleaf n) eqn:El; cbn [negb andb]; [exact IH'|].
    specialize (H n (or_introl eq_refl) El). cbn [map Rsum]. rewrite <- IH'. clear IH'.
    set (g := fun f => Rsum (map w (filter (fun n => negb (g_isleaf n) && (g_feat n =? Z.of_nat f)%Z) ns))).
    transitivity (Rsum (map (fun f => (if (g_feat n =? Z.of_nat f)%Z then w n else 0) + g f)%R (seq 0 k))).
    + apply Rsum_map_ext. intros f _. destruct (g_feat n =? Z.of_nat f)%Z; cbn [map Rsum]; unfold g; lra.
    + rewrite Rsum_map_plus. f_equal. assert (Ef : g_feat n = Z.of_nat (Z.to_nat (g_feat n))) by lia. set (q := Z.to_nat (g_feat n)) in *.
      assert (G : forall a len, Rsum (map (fun f => if (g_feat n =? Z.of_nat f)%Z then w n else 0) (seq a len))%R = (if (Nat.leb a q && Nat.ltb q (a + len))%bool then w n else 0)%R).
      { intros a len. revert a. induction len as [|len IHl]; intros a; cbn [seq map Rsum].
        - destruct (Nat.leb_spec a q), (Nat.ltb_spec q (a + 0)); cbn [andb]; reflexivity || lia.
        - rewrite IHl. destruct (Z.eqb_spec (g_feat n) (Z.of_nat a)), (Nat.leb_spec (S a) q), (Nat.leb_spec a q), (Nat.ltb_spec q (S a + len)), (Nat.ltb_spec q (a + S len)); cbn [andb]; try lia; lra. }
      rewrite G. destruct (Nat.leb_spec 0 q), (Nat.ltb_spec q (0 + k)); cbn [andb]; try lia. reflexivity.
Qed.
Lemma importance_R kind (m : gmodel RNum) : counted kind = true -> (0 <= m_nfeat m)%Z -> (forall t, In t (m_trees m) -> stored_tree (m_nfeat m) t) ->
  let total := Rsum (map (worth (N := RNum) kind) (all_splits m)) in
  exists imp : list R, importance (N := RNum) kind m = Ok imp /\ List.length imp = Z.to_nat (m_nfeat m)
    /\ (forall f, f < Z.to_nat (m_nfeat m) -> nth f imp 0%R = let s := Rsum (map (worth (N := RNum) kind) (splits_on (Z.of_nat f) m)) in if Rlt_dec 0 total then (s / total)%R else s)
    /\ (0 < total -> Rsum imp = 1)%R.
Proof.
  intros K H0 HS total.
  assert (HR : forall t n, In t (m_trees m) -> In n (gt_nodes t) -> g_isleaf n = false -> (0 <= g_feat n < m_nfeat m)%Z) by (intros t n Ht; exact (stored_range _ t n (HS t Ht))).
  pose proof (importance_ok kind m K H0 HR) as E. cbn zeta in E. set (k := Z.to_nat (m_nfeat m)) in *.
  set (raw := map (score kind m) (seq 0 k)) in *.
  assert (Eraw : raw = map (fun f => Rsum (map (worth (N := RNum) kind) (splits_on (Z.of_nat f) m))) (seq 0 k)).
  { unfold raw. apply map_ext. intros f. unfold score. now rewrite nsum_R. }
  assert (Et : @nsum RNum raw = total).
  { rewrite nsum_R, Eraw. unfold total, all_splits, splits_on. apply sum_by_feature. intros n Hn El. apply in_flat_map in Hn as (t & Ht & Hn).
    specialize (HR t n Ht Hn El). unfold k. lia. }
  rewrite Et in E. cbn [nlt n0 ndiv RNum] in E.
  assert (Hnth : forall (g : R -> R) f, f < k -> nth f (map g raw) 0%R = g (Rsum (map (worth (N := RNum) kind) (splits_on (Z.of_nat f) m)))).
  { intros g f Hf. rewrite Eraw, map_map. erewrite nth_indep with (d' := g (Rsum (map (worth (N := RNum) kind) (splits_on (Z.of_nat 0) m)))) by (rewrite map_length, seq_length; exact Hf).
    rewrite (map_nth (fun f => g (Rsum (map (worth (N := RNum) kind) (splits_on (Z.of_nat f) m))))), seq_nth by exact Hf. reflexivity. }
  assert (Lr : List.length raw = k) by (unfold raw; now rewrite map_length, seq_length).
  destruct (Rltb_spec 0 total) as [C|C].
  - eexists. split; [exact E|]. split; [rewrite map_length; exact Lr|]. split.
    + intros f Hf. etransitivity; [exact (Hnth (fun v => v / total)%R f Hf)|]. cbn zeta. destruct (Rlt_dec 0 total); [reflexivity|lra].
    + intros _. rewrite nsum_R in Et. transitivity (Rsum (map (fun v => / total * v)%R raw)); [apply Rsum_map_ext; intros v _; unfold Rdiv; lra|].
      rewrite (Rsum_map_scal (/ total)%R (fun v => v)), map_id, Et. field. lra.
  - eexists. split; [exact E|]. split; [exact Lr|]. split; [|intros C'; lra].
    intros f Hf. rewrite <- (map_id raw). etransitivity; [exact (Hnth (fun v => v) f Hf)|]. cbn zeta. destruct (Rlt_dec 0 total); [lra|reflexivity].
Qed.
(** "split": the share of the splits made on the feature; all 0 for a model without splits. *)
Theorem C116_split (m : gmodel RNum) : (0 <= m_nfeat m)%Z -> (forall t, In t (m_trees m) -> stored_tree (m_nfeat m) t) ->
  exists imp : list R, importance (N := RNum) "split" m = Ok imp /\ List.length imp = Z.to_nat (m_nfeat m)
    /\ (forall f, f < Z.to_nat (m_nfeat m) -> nth f imp 0%R = (INR (List.length (splits_on (Z.of_nat f) m)) / INR (List.length (all_splits m)))%R)
    /\ (all_splits m <> [] -> Rsum imp = 1%R) /\ (all_splits m = [] -> Forall (fun v => v = 0%R) imp).
Proof.
  intros H0 HS. destruct (importance_R "split" m eq_refl H0 HS) as (imp & E & L & V & S1). cbn zeta in V, S1.
  assert (W : forall l : list (gnode RNum), Rsum (map (worth (N := RNum) "split") l) = INR (List.length l)).
  { intros l. change (map (worth (N := RNum) "split") l) with (map (fun _ : gnode RNum => 1%R) l). rewrite Rsum_map_const. lra. }
  rewrite W in *. exists imp. split; [exact E|]. split; [exact L|].
  assert (Z0 : forall f, List.length (splits_on (Z.of_nat f) m) <= List.length (all_splits m)).
  { intros f. unfold splits_on, all_splits. induction (flat_map gt_nodes (m_trees m)) as [|n ns IH]; [cbn; lia|]. cbn [filter].
    destruct (g_isleaf n); cbn [negb andb]; [exact IH|]. destruct (g_feat n =? Z.of_nat f)%Z; cbn [List.length]; lia. }
  assert (V' : forall f, f < Z.to_nat (m_nfeat m) -> nth f imp 0%R = (INR (List.length (splits_on (Z.of_nat f) m)) / INR (List.length (all_splits m)))%R).
  { intros f Hf. rewrite (V f Hf), W. destruct (Rlt_dec 0 _) as [|C]; [reflexivity|]. specialize (Z0 f).
    destruct (List.length (all_splits m)) as [|c]; [|exfalso; apply C, lt_0_INR; lia]. replace (List.length (splits_on (Z.of_nat f) m)) with 0 by lia. cbn. unfold Rdiv. lra. }
  split; [exact V'|]. split.
  - intros Hne. apply S1. apply lt_0_INR. destruct (all_splits m); [congruence|cbn; lia].
  - intros He. apply Forall_forall. intros v Hv. apply In_nth with (d := 0%R) in Hv as (f & Hf & <-). rewrite V' by lia.
    specialize (Z0 f). rewrite He in *. cbn [List.length] in *. replace (List.length (splits_on (Z.of_nat f) m)) with 0 by lia. cbn. unfold Rdiv. lra.
Qed.
(** "gain": the share of the gain, if the gains have a positive sum; otherwise the gains themselves. *)
Theorem C116_gain (m : gmodel RNum) : (0 <= m_nfeat m)%Z -> (forall t, In t (m_trees m) -> stored_tree (m_nfeat m) t) ->
  let gain (l : list (gnode RNum)) : R := Rsum (map (g_gain (N := RNum)) l) in
  exists imp : list R, importance (N := RNum) "gain" m = Ok imp /\ List.length imp = Z.to_nat (m_nfeat m)
    /\ (forall f, f < Z.to_nat (m_nfeat m) -> let s := gain (splits_on (Z.of_nat f) m) in
          (0 < gain (all_splits m) -> nth f imp 0 = s / gain (all_splits m))%R /\ (~ 0 < gain (all_splits m) -> nth f imp 0 = s)%R)
    /\ (0 < gain (all_splits m) -> Rsum imp = 1)%R.
Proof.
  intros H0 HS gain. destruct (importance_R "gain" m eq_refl H0 HS) as (imp & E & L & V & S1). cbn zeta in V, S1.
  change (worth (N := RNum) "gain") with (g_gain (N := RNum)) in *. exists imp. split; [exact E|]. split; [exact L|]. split; [|exact S1].
  intros f Hf s. rewrite (V f Hf). split; intros C; destruct (Rlt_dec 0 _) as [D|D]; unfold gain in *; try reflexivity; contradiction.
Qed.
(** A feature without a split has importance 0; if no gain is negative, no importance is. *)
Theorem C116_unused kind (m : gmodel RNum) (imp : list R) f : kind = "split" \/ kind = "gain" -> (0 <= m_nfeat m)%Z -> (forall t, In t (m_trees m) -> stored_tree (m_nfeat m) t) ->
  importance (N := RNum) kind m = Ok imp -> f < Z.to_nat (m_nfeat m) -> splits_on (Z.of_nat f) m = [] -> nth f imp 0%R = 0%R.
Proof.
  intros K H0 HS E Hf He. assert (Kc : counted kind = true) by (destruct K; subst kind; reflexivity).
  destruct (importance_R kind m Kc H0 HS) as (imp' & E' & _ & V & _). rewrite E in E'. injection E' as <-. cbn zeta in V. rewrite (V f Hf), He. cbn [map Rsum].
  destruct (Rlt_dec 0 _); unfold Rdiv; lra.
Qed.
Theorem C116_nonnegative kind (m : gmodel RNum) (imp : list R) : kind = "split" \/ kind = "gain" -> (0 <= m_nfeat m)%Z -> (forall t, In t (m_trees m) -> stored_tree (m_nfeat m) t) ->
  (forall n, In n (all_splits m) -> (0 <= g_gain n)%R) -> importance (N := RNum) kind m = Ok imp -> Forall (fun v => (0 <= v)%R) imp.
Proof.
  intros K H0 HS HG E. assert (Kc : counted kind = true) by (destruct K; subst kind; reflexivity).
  destruct (importance_R kind m Kc H0 HS) as (imp' & E' & L & V & _). rewrite E in E'. injection E' as <-. cbn zeta in V.
  apply Forall_forall. intros v Hv. apply In_nth with (d := 0%R) in Hv as (f & Hf & <-). rewrite V by lia.
  assert (Hs : (0 <= Rsum (map (worth (N := RNum) kind) (splits_on (Z.of_nat f) m)))%R).
  { apply Rsum_nonneg. intros q Hq. apply in_map_iff in Hq as (n & <- & Hn). unfold worth. destruct (kind =? "split"); [cbn; lra|]. apply HG.
    unfold splits_on in Hn. unfold all_splits. apply filter_In in Hn as [Hn1 Hn2]. apply filter_In. split; [exact Hn1|]. now destruct (g_isleaf n). }
  destruct (Rlt_dec 0 _) as [C|C]; [|exact Hs]. apply Rmult_le_pos; [exact Hs|]. left. now apply Rinv_0_lt_compat.
Qed.
(** Any other type gives 0 for every feature. *)
Theorem C116_other_type kind (m : gmodel RNum) : kind <> "split" -> kind <> "gain" -> (0 <= m_nfeat m)%Z ->
  importance (N := RNum) kind m = Ok (repeat (0%R : RNum) (Z.to_nat (m_nfeat m))).
Proof.
  intros K1 K2 H0. rewrite importance_other; [|unfold counted; apply String.eqb_neq in K1, K2; now rewrite K1, K2|exact H0]. cbn zeta. rewrite nsum_R.
  assert (Z : Rsum (repeat 0%R (Z.to_nat (m_nfeat m))) = 0%R) by (induction (Z.to_nat (m_nfeat m)) as [|k IH]; cbn; [reflexivity|rewrite IH; lra]).
  cbn [n0 RNum nlt]. change (@repeat (num RNum) 0%R) with (@repeat R 0%R). rewrite Z. destruct (Rltb_spec 0 0); [exfalso; lra|reflexivity].
Qed.
(** A split on a feature beyond NumFeatures, as a model file can have it, ends the program. *)
Theorem C116_out_of_range (N : Num) kind (m : gmodel N) : kind = "split" \/ kind = "gain" ->
  (exists t n, In t (m_trees m) /\ In n (gt_nodes t) /\ g_isleaf n = false /\ ~ (0 <= g_feat n < m_nfeat m)%Z) -> importance kind m = Panic.
Proof. intros K. apply importance_panics. destruct K; subst kind; reflexivity. Qed.
(** In exact or rounded arithmetic alike: the scores are the sums in the order of the trees, divided by their sum. *)
Theorem C116_any_number (N : Num) (m : gmodel N) : (0 <= m_nfeat m)%Z -> (forall t, In t (m_trees m) -> stored_tree (m_nfeat m) t) ->
  let raw := map (fun f => nsum (map g_gain (splits_on (Z.of_nat f) m))) (seq 0 (Z.to_nat (m_nfeat m))) in
  importance "gain" m = Ok (if nlt n0 (nsum raw) then map (fun v => ndiv v (nsum raw)) raw else raw).
Proof. intros H0 HS. apply (importance_ok "gain" m eq_refl H0). intros t n Ht. exact (stored_range _ t n (HS t Ht)). Qed.
Example C116_example : importance "split" (one_tree QNum) = Ok [(1 # 2)%Q : QNum; (1 # 2)%Q : QNum]
  /\ importance "gain" (one_tree QNum) = Ok [(3 # 4)%Q : QNum; (1 # 4)%Q : QNum]
  /\ importance "weight" (one_tree QNum) = Ok [(0 # 1)%Q : QNum; (0 # 1)%Q : QNum].
Proof. vm_compute. repeat split. Qed.
Example C116_hypotheses : (forall t, In t (m_trees (one_tree RNum)) -> stored_tree (m_nfeat (one_tree RNum)) t) /\ all_splits (one_tree RNum) <> []
  /\ (forall n, In n (all_splits (one_tree RNum)) -> (0 <= g_gain n)%R) /\ importance "gain" (mkgm "regression" 1 1 0 (f 1 1) [nan_right] 0 (f 0 1)) = Panic.
Proof.
  split; [intros t [<-|[]]; apply three_stored|]. split; [discriminate|]. split; [|reflexivity].
  intros n Hn. unfold all_splits in Hn. cbn in Hn. destruct Hn as [<-|[<-|[]]]; cbn; lra.
Qed.

Print Assumptions C115_leaf_of_prediction.
Print Assumptions C115_index_of_prediction.
Print Assumptions C115_score_of_leaves.
Print Assumptions C115_same_leaves.
Print Assumptions C115_same_numbers.
Print Assumptions C115_trained.
Print Assumptions C115_same_numbers_apart.
Print Assumptions C115_nan_refuted.
Print Assumptions C115_close_refuted.
Print Assumptions C115_category_refuted.
Print Assumptions C115_loaded_refuted.
Print Assumptions C116_split.
Print Assumptions C116_gain.
Print Assumptions C116_unused.
Print Assumptions C116_nonnegative.
Print Assumptions C116_other_type.
Print Assumptions C116_out_of_range.
Print Assumptions C116_any_number.
