(** C130: interaction values of the lightgbm SHAP explainer. *)
From Coq Require Import String List Arith ZArith Bool Lia Reals Lra.
From Verif Require Import Base.Num Base.GoRes Base.Mat Base.ListX Base.RTac Base.FTac Model.LgbTransform Model.LgbTree Model.Shap Model.ShapInter
  Spec.ShapInter Proofs.ShapInterP.
Import ListNotations.

(** One matrix for every row: square, symmetric, and with the contributions of CalculateSHAP on the diagonal.  Any arithmetic. *)
Theorem C130_shape : forall (N : Num) (toint : N -> Z) ord fuel (m : gmodel N) (X : matrix N) Ms,
  interactions toint ord fuel m X = Some (Ok Ms) ->
  Forall2 (fun x M => square (length x) M /\ (forall i j, i < length x -> j < length x -> entry M i j = entry M j i) /\
    exists s, sample_shap toint ord fuel m x = Some s /\ forall i, i < length x -> entry M i i = nth_error s i) (mrows X) Ms.
Proof.
  intros N toint ord fuel m X Ms H. unfold interactions in H.
  assert (G : forall l L, sequence (sample_interactions toint ord fuel m) l = Some (Ok L) -> Forall2 (fun x M => sample_interactions toint ord fuel m x = Some (Ok M)) l L).
  { induction l as [|x l IH]; intros L E; cbn [sequence] in E; [injection E as <-; constructor|].
    destruct (sample_interactions toint ord fuel m x) as [[M| |]|] eqn:E1; try discriminate.
    destruct (sequence (sample_interactions toint ord fuel m) l) as [[L'| |]|]; try discriminate. injection E as <-. constructor; auto. }
  assert (F : Forall2 (fun x M => sample_interactions toint ord fuel m x = Some (Ok M)) (mrows X) Ms).
  { destruct (mrows X) as [|x l]; [injection H as <-; constructor|]. destruct (mcols X =? 0)%nat; [discriminate|]. now apply G. }
  clear H G. induction F as [|x M l L H F IH]; constructor; auto. destruct (sample_entries toint ord fuel m x M H) as (s & Es & Sq & D & P).
  split; auto. split; [|eauto]. intros i j Hi Hj. destruct (Nat.lt_total i j) as [K|[->|K]]; auto.
  - destruct (P i j ltac:(lia)) as (v & _ & -> & ->). reflexivity.
  - destruct (P j i ltac:(lia)) as (v & _ & -> & ->). reflexivity.
Qed.

Local Open Scope R_scope.
(** Over the real numbers, for trees with numeric tests: the entry of two features is a tenth of the learning rate times, summed over
    the trees that test both anywhere, the distances between the values of the two sides at the tests of either feature on the way. *)
Theorem C130_values : forall (toint : RNum -> Z) ord fuel (m : gmodel RNum) Ts (x : list R), models fuel m Ts x ->
  exists M s, @sample_interactions RNum toint ord fuel m x = Some (Ok M) /\ @sample_shap RNum toint ord fuel m x = Some s /\
    forall i j, (i < length x)%nat -> (j < length x)%nat ->
      @entry RNum M i j = if Nat.eqb i j then nth_error s i else Some (m_lr m / 10 * Rsum (map (fun T => joint T x i j) Ts)).
Proof.
  intros toint ord fuel m Ts x H.
  destruct (@shap_v RNum toint ord fuel m x) as [s Es].
  { unfold models in H. clear -H. induction H as [|t T l Ts (V & X & F) H IH]; constructor; eauto. }
  destruct (sample_runs toint ord fuel m x s Es) as [M EM].
  { intros i j Hij. eexists. apply (pairwise_R toint fuel m Ts x i j); auto. lia. }
  exists M, s. split; auto. split; auto. destruct (sample_entries toint ord fuel m x M EM) as (s' & Es' & _ & D & P).
  replace s' with s in D by congruence. intros i j Hi Hj.
  assert (Q : forall i j, i <> j -> @pairwise RNum toint fuel m x i j = Some (Ok (m_lr m / 10 * Rsum (map (fun T => joint T x i j) Ts)))).
  { intros a b Hab. rewrite (pairwise_R toint fuel m Ts x a b Hab H). do 2 f_equal. change (num RNum) with R. field. }
  destruct (Nat.eqb_spec i j) as [<-|Hij]; [now apply D|]. destruct (Nat.lt_total i j) as [K|[->|K]]; [|congruence|].
  - destruct (P i j (conj K Hj)) as (v & E & -> & _). rewrite Q in E by auto. injection E as <-. reflexivity.
  - destruct (P j i (conj K Hi)) as (v & E & _ & ->). rewrite Q in E by auto. injection E as <-. do 2 f_equal. apply f_equal. apply map_ext. intros T.
    unfold joint. destruct (in_dec Nat.eq_dec j (tested T)), (in_dec Nat.eq_dec i (tested T)); auto. apply Rplus_comm.
Qed.

(** So for a learning rate that is not negative no entry off the diagonal is negative, and a row sums to the contribution of its
    feature, as interaction values should, only if all of them are zero. *)
Theorem C130_rows : forall (toint : RNum -> Z) ord fuel (m : gmodel RNum) Ts (x : list R) M s i r c, models fuel m Ts x -> 0 <= m_lr m ->
  @sample_interactions RNum toint ord fuel m x = Some (Ok M) -> @sample_shap RNum toint ord fuel m x = Some s ->
  nth_error M i = Some r -> nth_error s i = Some c ->
  (forall j v, j <> i -> nth_error r j = Some v -> 0 <= v) /\ (Rsum r = c <-> forall j v, j <> i -> nth_error r j = Some v -> v = 0).
Proof.
  intros toint ord fuel m Ts x M s i r c H Hl EM Es Er Ec.
  destruct (C130_values toint ord fuel m Ts x H) as (M' & s' & EM' & Es' & V). rewrite EM' in EM. injection EM as ->. rewrite Es' in Es. injection Es as ->.
  destruct (sample_entries toint ord fuel m x M EM') as (_ & _ & [L F] & _).
  assert (Li : (i < length x)%nat). { apply (Nat.lt_le_trans _ (length M)); [apply nth_error_Some; congruence|now apply Nat.eq_le_incl]. }
  assert (Lr : length r = length x). { rewrite Forall_forall in F. apply F. now apply nth_error_In in Er. }
  assert (E : forall j, nth_error r j = @entry RNum M i j) by (intros j; unfold entry; now rewrite Er).
  assert (P : forall j v, j <> i -> nth_error r j = Some v -> 0 <= v).
  { intros j v Hj Hv. assert (Lj : (j < length x)%nat). { apply (Nat.lt_le_trans _ (length r)); [apply nth_error_Some; congruence|now apply Nat.eq_le_incl]. }
    rewrite E, V in Hv by auto. destruct (Nat.eqb_spec i j); [congruence|]. injection Hv as <-.
    apply Rmult_le_pos; [lra|]. apply Rsum_nonneg. intros w Hw. apply in_map_iff in Hw. destruct Hw as (T & <- & _). apply joint_nonneg. }
  split; auto. apply row_sum; auto. rewrite E, V by auto. now rewrite Nat.eqb_refl.
Qed.

(** The sum of a function of the first and a function of the second feature has no interaction, but this is not what is reported. *)
Definition vleaf (v : R) : vtreeR := @VLeaf RNum v.
Definition vnode (v : R) (f : nat) (l r : vtreeR) : vtreeR := @VNode RNum v f 0 l r.
Definition additive_tree : vtreeR := vnode 3 0 (vnode 2 1 (vleaf 0) (vleaf 4)) (vnode 4 1 (vleaf 2) (vleaf 6)).
Definition leaf_at {N : Num} (v : N) : gnode N := mkgn (-1) (-1) TLeaf 0 n0 [] false n0 v n0.
Definition test_at {N : Num} (l r : Z) (f : Z) (v : N) : gnode N := mkgn l r TNum f n0 [] false n0 n0 v.
Definition additive_nodes {N : Num} : list (gnode N) :=
  [test_at 1 4 0 (nofnat 3); test_at 2 3 1 (nofnat 2); leaf_at n0; leaf_at (nofnat 4); test_at 5 6 1 (nofnat 4); leaf_at (nofnat 2); leaf_at (nofnat 6)].
Definition single {N : Num} (nodes : list (gnode N)) (lr : N) : gmodel N := mkgm "regression"%string 1 1 (-1) lr [mkgt nodes [] n1 n0 4] 2 n0.
Theorem C130_additive_refuted : exists (m : gmodel RNum) Ts T,
  Ts = [T] /\ (forall a b, models 9 m Ts [a; b]) /\ m_lr m = 1%R /\
  (exists g h : R -> R, forall a b, veval T [a; b] = g a + h b) /\
  forall toint ord, exists M, @sample_interactions RNum toint ord 9 m [1; 1] = Some (Ok M) /\ @entry RNum M 0 1 = Some (6 / 10).
Proof.
  assert (HM : forall a b, models 9 (@single RNum additive_nodes 1) [additive_tree] [a; b]).
  { intros a b. unfold models. cbn [single m_trees]. constructor; [|constructor]. split; [|split; [|cbn; lia]].
    - cbn [gt_nodes].
      assert (LF : forall id v, getZ (@additive_nodes RNum) id = Some (leaf_at v) -> vstores (@additive_nodes RNum) id (vleaf v)).
      { intros id v E. apply (vs_leaf _ id (leaf_at v)); auto. }
      assert (ND : forall id l r f v L R, getZ (@additive_nodes RNum) id = Some (test_at l r (Z.of_nat f) v) ->
        vstores (@additive_nodes RNum) l L -> vstores (@additive_nodes RNum) r R -> vstores (@additive_nodes RNum) id (vnode v f L R)).
      { intros id l r f v L R E HL HR. refine (vs_node _ id (test_at l r (Z.of_nat f) v) f L R E _ eq_refl eq_refl HL HR). discriminate. }
      unfold additive_tree.
      assert (N2 : @nofnat RNum 2 = 2 /\ @nofnat RNum 3 = 3 /\ @nofnat RNum 4 = 4 /\ @nofnat RNum 6 = 6) by (rewrite !nofnat_R; cbn; repeat split; lra).
      destruct N2 as (N2 & N3 & N4 & N6).
      apply (ND 0%Z 1%Z 4%Z 0%nat); [rewrite <- N3; reflexivity| |].
      + apply (ND 1%Z 2%Z 3%Z 1%nat); [rewrite <- N2; reflexivity| |]; apply LF; [reflexivity|rewrite <- N4; reflexivity].
      + apply (ND 4%Z 5%Z 6%Z 1%nat); [rewrite <- N4; reflexivity| |]; apply LF; [rewrite <- N2; reflexivity|rewrite <- N6; reflexivity].
    - cbn. intros f Hf. decompose [or] Hf; subst; lia || contradiction. }
  exists (@single RNum additive_nodes 1), [additive_tree], additive_tree. split; auto. split; auto. split; [reflexivity|]. split.
  - exists (fun a => if Rle_dec a 0 then 0 else 2), (fun b => if Rle_dec b 0 then 0 else 4). intros a b. unfold additive_tree, vnode, vleaf. cbn [veval nth_error].
    destruct (Rle_dec a 0); cbn [veval nth_error]; destruct (Rle_dec b 0); cbn [veval]; lra.
  - intros toint ord. destruct (C130_values toint ord 9 _ _ _ (HM 1 1)) as (M & s & EM & _ & V). exists M. split; auto.
    rewrite V by (cbn; lia). cbn [Nat.eqb map Rsum]. f_equal. unfold joint, additive_tree, vnode, vleaf. cbn [tested app].
    destruct (in_dec Nat.eq_dec 0%nat _) as [_|K]; [|exfalso; apply K; now left].
    destruct (in_dec Nat.eq_dec 1%nat _) as [_|K]; [|exfalso; apply K; right; now left].
    cbn [gaps nth_error Nat.eqb]. destruct (Rle_dec 1 0); [lra|]. cbn [gaps nth_error Nat.eqb app node_val Rsum]. destruct (Rle_dec 1 0); [lra|]. cbn [gaps Rsum single m_lr].
    rewrite !Rabs_left by lra. lra.
Qed.

(** A sample without a feature that a tree tests: contributions are given, interactions panic. *)
Definition narrow_model : gmodel F0 :=
  single [test_at 1 2 0 n0; leaf_at n0; test_at 3 4 1 n0; leaf_at n0; test_at 5 6 5 n0; leaf_at n0; leaf_at n1] n1.
Theorem C130_narrow_refuted : exists (m : gmodel F0) (x : list F0),
  sample_shap (fun _ => 0%Z) (fun l => l) 9 m x <> None /\ interactions (fun _ => 0%Z) (fun l => l) 9 m (mkmat 2 [x]) = Some Panic.
Proof.
  exists narrow_model, [n1; n1].
  assert (A : match sample_shap (fun _ => 0%Z) (fun l => l) 9 narrow_model [n1; n1] with None => false | _ => true end = true) by (vm_compute; reflexivity).
  assert (B : match interactions (fun _ => 0%Z) (fun l => l) 9 narrow_model (mkmat 2 [[n1; n1]]) with Some Panic => true | _ => false end = true) by (vm_compute; reflexivity).
  split.
  - destruct (sample_shap _ _ 9 narrow_model _); discriminate.
  - destruct (interactions _ _ 9 narrow_model _) as [[| |]|]; try discriminate. reflexivity.
Qed.

(** ** Examples *)
Example C130_example :
  match interactions (fun _ => 0%Z) (fun l => l) 9 (@single F0 additive_nodes n1) (mkmat 2 [[f 1 1; f 1 1]; [f (-1) 1; f 1 1]]) with
  | Some (Ok [A; B]) =>
      match entry A 0 1, entry B 1 0, entry A 0 0 with
      | Some a, Some b, Some c => nlt (nabs (nsub a (f 6 10))) (f 1 1048576) && nlt (nabs (nsub b (f 6 10))) (f 1 1048576) && nlt (nabs (nsub c (f 3 2))) (f 1 1048576)
      | _, _, _ => false
      end
  | _ => false
  end = true.
Proof. vm_compute. reflexivity. Qed.
(** Without a column *)
Example C130_no_columns : interactions (fun _ => 0%Z) (fun l => l) 9 (@single F0 additive_nodes n1) (mkmat 0 [[]]) = Some Panic.
Proof. reflexivity. Qed.

Print Assumptions C130_shape.
Print Assumptions C130_values.
Print Assumptions C130_rows.
Print Assumptions C130_additive_refuted.
Print Assumptions C130_narrow_refuted.
