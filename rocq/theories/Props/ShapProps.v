(** C59: per-feature contributions. *)
From Coq Require Import String List Arith ZArith Bool Permutation Lia Reals Lra.
From Verif Require Import Base.Num Base.GoRes Base.Mat Base.ListX Base.RTac Base.FTac Model.LgbTree Spec.LgbTree Model.Shap Spec.Shap
  Proofs.LgbArrayP Proofs.ShapP.
Import ListNotations.
Local Open Scope list_scope.

(** For all trees and samples and any arithmetic, the contributions do not depend on the order in
    which the map of counts is visited. *)
Theorem C59_order (N : Num) (toint : N -> Z) (ord1 ord2 : list (Z * nat) -> list (Z * nat)) fuel (m : gmodel N) (X : matrix N) :
  (forall l, Permutation l (ord1 l)) -> (forall l, Permutation l (ord2 l)) ->
  calculate_shap toint ord1 fuel m X = calculate_shap toint ord2 fuel m X.
Proof. intros H1 H2. exact (order_calc toint ord1 ord2 H1 H2 fuel m X). Qed.

Local Open Scope R_scope.
Section R.
Variable toint : R -> Z.
Variable ord : list (Z * nat) -> list (Z * nat).
Hypothesis Hord : forall l, Permutation l (ord l).

(** All trees of the model hold numeric decision trees that test features of the sample. *)
Definition ensemble (fuel : nat) (m : gmodel RNum) (Ts : list rtree) (x : list R) : Prop :=
  Forall2 (fun t T => @holds RNum x t T /\ (height T < fuel)%nat) (m_trees m) Ts.

(** Values and BaseValue of CalculateSHAP. *)
Theorem C59_values fuel (m : gmodel RNum) Ts (X : matrix RNum) : mrows X <> [] -> mcols X <> 0%nat -> m_trees m <> [] ->
  Forall (ensemble fuel m Ts) (mrows X) ->
  @calculate_shap RNum toint ord fuel m X =
    Some (Ok (map (fun x => map (fun j => m_lr m * Rsum (map (fun T => share T x j) Ts)) (seq 0 (length x))) (mrows X), m_init m)).
Proof.
  intros Hr Hc Ht H. unfold calculate_shap, newdense, nrows.
  destruct (Nat.eqb_spec (length (mrows X)) 0) as [E|_]; [destruct (mrows X); [congruence | discriminate]|].
  destruct (Nat.eqb_spec (mcols X) 0) as [E|_]; [contradiction|]. cbn [orb].
  assert (G : sequence (fun x => option_map (fun s => Ok s) (@sample_shap RNum toint ord fuel m x)) (mrows X) =
    Some (Ok (map (fun x => map (fun j => m_lr m * Rsum (map (fun T => share T x j) Ts)) (seq 0 (length x))) (mrows X)))).
  { clear Hr Hc. induction H as [|x l Hx H IH]; cbn [sequence map]; [reflexivity|].
    rewrite (sample_shap_R toint ord Hord fuel m Ts x Hx). cbn [option_map]. rewrite IH. reflexivity. }
  rewrite G. unfold base_value. destruct (m_trees m); [contradiction|reflexivity].
Qed.

(** The sum of the contributions of a sample. *)
Theorem C59_sum fuel (m : gmodel RNum) Ts (x : list R) : ensemble fuel m Ts x ->
  exists s, @sample_shap RNum toint ord fuel m x = Some s /\ length s = length x /\
    Rsum s = m_lr m * Rsum (map (fun T => (value T x - mean T) * repetition T x) Ts).
Proof.
  intros H. exists (map (fun j => m_lr m * Rsum (map (fun T => share T x j) Ts)) (seq 0 (length x))).
  split; [exact (sample_shap_R toint ord Hord fuel m Ts x H)|]. split; [rewrite map_length, seq_length; reflexivity|].
  rewrite Rsum_map_scal. f_equal. exact (sum_shares fuel m Ts x H).
Qed.

(** A feature no tree tests on the way of the sample gets nothing. *)
Theorem C59_unused fuel (m : gmodel RNum) Ts (x : list R) j : ensemble fuel m Ts x -> (j < length x)%nat ->
  (forall T, In T Ts -> ~ In j (route at_most T x)) ->
  exists s, @sample_shap RNum toint ord fuel m x = Some s /\ nth_error s j = Some 0.
Proof.
  intros H Hj Hn. exists (map (fun j => m_lr m * Rsum (map (fun T => share T x j) Ts)) (seq 0 (length x))).
  split; [exact (sample_shap_R toint ord Hord fuel m Ts x H)|].
  rewrite nth_error_map, nth_error_nth' with (d := 0%nat) by (rewrite seq_length; lia). rewrite seq_nth by lia. cbn [option_map Nat.add].
  f_equal. replace (map (fun T => share T x j) Ts) with (map (fun _ : rtree => 0) Ts).
  - rewrite Rsum_map_const. ring.
  - apply map_ext_in. intros T HT. unfold share. rewrite (proj1 (count_occ_not_In Nat.eq_dec _ j)) by auto. cbn. unfold Rdiv. ring.
Qed.

(** What Model.Predict sums up. *)
Theorem C59_prediction fuel (m : gmodel RNum) Ts (x : list R) : ensemble fuel m Ts x -> (m_class m <= 2)%Z ->
  Forall (fun T => (isize T < fuel)%nat) Ts ->
  @model_raw RNum toint fuel m x = Some (Ok [m_init m + Rsum (map (fun T => value T x) Ts)]).
Proof. apply raw_sum. Qed.

(** Contributions and prediction agree if the learning rate is 1, all leaves of every tree have mean
    zero, and no way tests a feature twice. *)
Theorem C59_additive fuel (m : gmodel RNum) Ts (x : list R) : ensemble fuel m Ts x -> (m_class m <= 2)%Z ->
  Forall (fun T => (isize T < fuel)%nat) Ts -> m_lr m = 1 -> m_trees m <> [] ->
  Forall (fun T => mean T = 0 /\ NoDup (route at_most T x)) Ts ->
  exists s, @sample_shap RNum toint ord fuel m x = Some s /\
    @model_raw RNum toint fuel m x = Some (Ok [@base_value RNum m + Rsum s]).
Proof.
  intros H Hc Hf Hl Ht Hm. destruct (C59_sum fuel m Ts x H) as (s & E & _ & S). exists s. split; auto.
  rewrite (C59_prediction fuel m Ts x H Hc Hf). do 3 f_equal. rewrite S, Hl, Rmult_1_l. unfold base_value.
  destruct (m_trees m) as [|t0 ts0] eqn:Em; [contradiction|]. f_equal. f_equal. apply map_ext_in. intros T HT.
  rewrite Forall_forall in Hm. destruct (Hm T HT) as [M D]. symmetry. exact (value_share T x M D).
Qed.

(** The gap for one tree tested on pairwise different features is its mean leaf. *)
Theorem C59_gap fuel (m : gmodel RNum) T (x : list R) : ensemble fuel m [T] x -> (m_class m <= 2)%Z -> (isize T < fuel)%nat -> m_lr m = 1 ->
  NoDup (route at_most T x) -> route at_most T x <> [] ->
  exists s p, @sample_shap RNum toint ord fuel m x = Some s /\ @model_raw RNum toint fuel m x = Some (Ok [p]) /\
    @base_value RNum m + Rsum s = p - mean T.
Proof.
  intros H Hc Hf Hl D Hn. destruct (C59_sum fuel m [T] x H) as (s & E & _ & S). exists s, (m_init m + Rsum (map (fun T => value T x) [T])).
  split; auto. split; [apply C59_prediction; auto|]. rewrite S, Hl. unfold base_value. unfold ensemble in H.
  destruct (m_trees m) as [|t0 ts0] eqn:Em; [inversion H|]. cbn [map Rsum]. rewrite (repetition_one T x D Hn). ring.
Qed.
End R.

(** Witnesses. A stump with the leaves 1 and 3, and a tree testing one feature twice. *)
Definition leafn {N : Num} (v : N) : gnode N := mkgn (-1) (-1) TLeaf (-1) n0 [] false n0 v n0.
Definition split {N : Num} (l r f : Z) (thr : N) (d : bool) : gnode N := mkgn l r TNum f thr [] d n0 n0 n0.
Definition stump {N : Num} (a b : N) : gtree N := mkgt [split 1 2 0 n0 true; leafn a; leafn b] [] n1 n0 2.
Definition twice {N : Num} (a b c : N) : gtree N := mkgt [split 1 4 0 n1 true; split 2 3 0 n0 true; leafn a; leafn b; leafn c] [] n1 n0 3.
Definition one_tree {N : Num} (t : gtree N) (init : N) : gmodel N := mkgm "regression" 1 1 0 n1 [t] 1 init.
Definition no_tree {N : Num} (init : N) : gmodel N := mkgm "regression" 1 0 0 n1 [] 1 init.
Definition keep (l : list (Z * nat)) := l.
Definition noint (_ : F0) : Z := 0%Z.
Definition explained (m : gmodel F0) (x : list F0) : option SpecFloat.spec_float :=
  option_map (fun s => fs (@nadd F0 (base_value m) (nsum s))) (sample_shap noint keep 10 m x).
Definition raw (m : gmodel F0) (x : list F0) : option (list SpecFloat.spec_float) :=
  match model_raw noint 10 m x with Some (Ok l) => Some (map fs l) | _ => None end.

(** A stump predicting 3 is explained by 1: the mean leaf 2 is missing. *)
Theorem C59_additive_refuted : exists m x, explained m x = Some (fs (f 1 1)) /\ raw m x = Some [fs (f 3 1)].
Proof. exists (one_tree (stump (f 1 1) (f 3 1)) (f 0 1)), [f 1 1]. split; vm_compute; reflexivity. Qed.
(** Leaves with mean zero, but a way testing its only feature twice: 2 is explained by 4. *)
Theorem C59_repeated_refuted : exists m x, explained m x = Some (fs (f 4 1)) /\ raw m x = Some [fs (f 2 1)] /\
  option_map (fun t => option_map fs (@tree_baseline F0 10 t)) (hd_error (m_trees m)) = Some (Some (fs (f 0 1))).
Proof. exists (one_tree (twice (f 1 1) (f 2 1) (f (-3) 1)) (f 0 1)), [f 1 2]. repeat split; vm_compute; reflexivity. Qed.
(** Without trees the base value is 0, while the prediction is InitScore. *)
Theorem C59_base_refuted : exists m x, explained m x = Some (fs (f 0 1)) /\ raw m x = Some [fs (f 5 1)].
Proof. exists (no_tree (f 5 1)), [f 1 1]. split; vm_compute; reflexivity. Qed.
(** A missing value is explained by the right leaf and predicted by the default (left) leaf. *)
Theorem C59_missing_refuted : exists m x, explained m x = Some (fs (f 1 1)) /\ raw m x = Some [fs (f (-1) 1)] /\ has_nan x.
Proof.
  exists (one_tree (stump (f (-1) 1) (f 1 1)) (f 0 1)), [@nnan F0]. split; [vm_compute; reflexivity|]. split; [vm_compute; reflexivity|].
  exists (@nnan F0). split; [now left | reflexivity].
Qed.

(** Two features on the way, leaves 1, 2 and -3: the value 2 is split into 1 and 1. *)
Definition two {N : Num} (a b c : N) : gtree N := mkgt [split 1 4 0 n0 true; split 2 3 1 n0 true; leafn a; leafn b; leafn c] [] n1 n0 3.
Definition two_tree (a b c : R) : rtree :=
  BNode (@mktest RNum 0 0 MissNaN true) (BNode (@mktest RNum 1 0 MissNaN true) (BLeaf (a : RNum)) (BLeaf (b : RNum))) (BLeaf (c : RNum)).
Example C59_example : let m := one_tree (@two RNum 1 2 (-3)) 0 in let x := [-1; 5] in
  ensemble 10 m [two_tree 1 2 (-3)] x /\ mean (two_tree 1 2 (-3)) = 0 /\ NoDup (route at_most (two_tree 1 2 (-3)) x)
  /\ route at_most (two_tree 1 2 (-3)) x = [0; 1]%nat /\ share (two_tree 1 2 (-3)) x 1 = 1 /\ repetition (two_tree 1 2 (-3)) x = 1
  /\ option_map (map fs) (sample_shap noint keep 10 (one_tree (two (f 1 1) (f 2 1) (f (-3) 1)) (f 0 1)) [f (-1) 1; f 5 1]) = Some [fs (f 1 1); fs (f 1 1)].
Proof.
  assert (E : route at_most (two_tree 1 2 (-3)) [-1; 5] = [0; 1]%nat).
  { cbn. unfold at_most. cbn. rewrite (proj2 (Rleb_true _ _)) by lra. cbn. unfold at_most. cbn. rewrite (proj2 (Rleb_false _ _)) by lra. reflexivity. }
  assert (M : mean (two_tree 1 2 (-3)) = 0) by (unfold mean; cbn; lra).
  assert (V : value (two_tree 1 2 (-3)) [-1; 5] = 2).
  { unfold value. cbn. unfold at_most. cbn. rewrite (proj2 (Rleb_true _ _)) by lra. cbn. unfold at_most. cbn. rewrite (proj2 (Rleb_false _ _)) by lra. reflexivity. }
  assert (D : NoDup [0; 1]%nat) by (repeat constructor; cbn; intuition lia).
  cbv zeta. split.
  - constructor; [|constructor]. split; [|cbn; lia]. split; [|split].
    + eapply (st_node (N := RNum) _ 0%Z (@split RNum 1 4 0 0 true)); try reflexivity; try (cbn; lia).
      * eapply (st_node (N := RNum) _ _ (@split RNum 2 3 1 0 true)); try reflexivity; try (cbn; lia).
        -- eapply (st_leaf (N := RNum) _ _ (@leafn RNum 1)); reflexivity.
        -- eapply (st_leaf (N := RNum) _ _ (@leafn RNum 2)); reflexivity.
      * eapply (st_leaf (N := RNum) _ _ (@leafn RNum (-3))); reflexivity.
    + repeat constructor.
    + intros j. cbn. intuition lia.
  - split; [exact M|]. split; [now rewrite E|]. split; [exact E|]. split.
    + unfold share. rewrite E, V, M. cbn. lra.
    + split; [unfold repetition; rewrite E; cbn; lra | vm_compute; reflexivity].
Qed.

Print Assumptions C59_order.
Print Assumptions C59_values.
Print Assumptions C59_sum.
Print Assumptions C59_unused.
Print Assumptions C59_prediction.
Print Assumptions C59_additive.
Print Assumptions C59_gap.
Print Assumptions C59_additive_refuted.
Print Assumptions C59_repeated_refuted.
Print Assumptions C59_base_refuted.
Print Assumptions C59_missing_refuted.
