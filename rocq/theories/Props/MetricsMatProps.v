(** C142: metrics of matrices *)
From Coq Require Import List Arith ZArith Bool Reals Lra Lia Permutation Sorted.
From Verif Require Import Base.Num Base.GoRes Base.RTac Base.Mat Base.GoSort Model.Metrics Model.MetricsMat Spec.Ranking Spec.Stats Proofs.AucP Props.MetricsProps.
Import ListNotations.
Local Open Scope R_scope.

Section C142.
  Context {N : Num}.
  Implicit Types T P : matrix N.
  (** MSEMatrix answers exactly for two matrices of one column and as many rows, at least one, and then with the error of the columns. *)
  Theorem C142_mse T P v : mse_matrix (Some T) (Some P) = Ok v <->
    mcols T = 1%nat /\ mcols P = 1%nat /\ nrows T = nrows P /\ nrows T <> 0%nat /\ mse (Some (column 0 (mrows T))) (Some (column 0 (mrows P))) = Ok v.
  Proof.
    unfold mse_matrix, first_column. split.
    - destruct (Nat.eqb_spec (nrows T) 0) as [E|E]; [discriminate|]. destruct (Nat.eqb_spec (mcols T) 0) as [E0|E0]; [discriminate|]. cbn [orb].
      destruct (Nat.eqb_spec (nrows T) (nrows P)) as [E1|E1]; [|discriminate]. destruct (Nat.eqb_spec (mcols T) (mcols P)) as [E2|E2]; [|discriminate]. cbn [andb negb].
      destruct (Nat.eqb_spec (mcols T) 1) as [E3|E3]; [|discriminate]. cbn [negb]. rewrite <- E2, E3. cbn. intros H. repeat split; auto; congruence.
    - intros (-> & -> & -> & H & Hm). apply Nat.eqb_neq in H. rewrite H, Nat.eqb_refl. cbn. exact Hm.
  Qed.
  (** When the rows agree and the columns do not, the dimension error names the two equal numbers of rows. *)
  Theorem C142_mse_columns T P : nrows T = nrows P -> nrows T <> 0%nat -> mcols T <> 0%nat -> mcols T <> mcols P ->
    mse_matrix (Some T) (Some P) = Err (EDimension (nrows T) (nrows T)).
  Proof.
    intros H1 H2 H3 H4. unfold mse_matrix. apply Nat.eqb_neq in H2, H3, H4. rewrite H2, H3, H4, andb_false_r. cbn. now rewrite <- H1.
  Qed.
  (** A nil matrix is an error for the ranking metrics and a panic for MSEMatrix. *)
  Theorem C142_nil sortf ss sr k (X : option (matrix N)) : auc_matrix sortf None X = Err EValue /\ auc_matrix sortf X None = Err EValue /\
    ndcg_matrix ss sr None X k = Err EValue /\ ndcg_matrix ss sr X None k = Err EValue /\ mse_matrix None X = Panic /\ mse_matrix X None = Panic.
  Proof. repeat split; destruct X; reflexivity. Qed.
  (** AUCMatrix and NDCGMatrix look at the first columns only. *)
  Theorem C142_first_columns sortf ss sr k T T' P P' : (0 < mcols T)%nat -> (0 < mcols T')%nat -> (0 < mcols P)%nat -> (0 < mcols P')%nat ->
    column 0 (mrows T) = column 0 (mrows T') -> column 0 (mrows P) = column 0 (mrows P') ->
    auc_matrix sortf (Some T) (Some P) = auc_matrix sortf (Some T') (Some P') /\ ndcg_matrix ss sr (Some T) (Some P) k = ndcg_matrix ss sr (Some T') (Some P') k.
  Proof.
    intros H1 H2 H3 H4 E1 E2. assert (L1 : nrows T = nrows T') by (apply (f_equal (@length _)) in E1; unfold column in E1; now rewrite !map_length in E1).
    assert (L2 : nrows P = nrows P') by (apply (f_equal (@length _)) in E2; unfold column in E2; now rewrite !map_length in E2).
    assert (C : columns_of (Some T) (Some P) = columns_of (Some T') (Some P')).
    { unfold columns_of, first_column. rewrite <- L1, <- L2, E1, E2. destruct (Nat.eqb_spec (mcols T) 0); [lia|]. destruct (Nat.eqb_spec (mcols T') 0); [lia|]. destruct (Nat.eqb_spec (mcols P) 0); [lia|]. destruct (Nat.eqb_spec (mcols P') 0); [lia|]. reflexivity. }
    unfold auc_matrix, ndcg_matrix. now rewrite C.
  Qed.
  (** On one column each they are the metrics of the columns. *)
  Theorem C142_vectors sortf ss sr k (t p : list N) : t <> [] -> p <> [] ->
    auc_matrix sortf (Some (mkmat 1 (map (fun x => [x]) t))) (Some (mkmat 1 (map (fun x => [x]) p))) = auc sortf (Some t) (Some p) /\
    ndcg_matrix ss sr (Some (mkmat 1 (map (fun x => [x]) t))) (Some (mkmat 1 (map (fun x => [x]) p))) k = ndcg ss sr (Some t) (Some p) k.
  Proof.
    intros Ht Hp. assert (C : columns_of (Some (mkmat 1 (map (fun x => [x]) t))) (Some (mkmat 1 (map (fun x => [x]) p))) = Ok (t, p)).
    { unfold columns_of, first_column, nrows, column. cbn [mcols mrows]. rewrite !map_length, !map_map, !map_id. destruct t; [contradiction|]. destruct p; [contradiction|]. reflexivity. }
    unfold auc_matrix, ndcg_matrix. rewrite C. split; reflexivity.
  Qed.
End C142.

(** Given the two probabilities of each row, as PredictProba returns them, AUCMatrix is one minus the AUC of the probabilities of class 1. *)
Theorem C142_probabilities (sortf : list (R * R) -> list (R * R)) (t p : list R) a : go_sort (@score_desc RNum) sortf -> @auc RNum sortf (Some t) (Some p) = Ok a ->
  @auc_matrix RNum sortf (Some (@mkmat (num RNum) 1 (map (fun y => [y]) t))) (Some (@mkmat (num RNum) 2 (map (fun x => [1 - x; x]) p))) = Ok (1 - a).
Proof.
  intros Hs H. destruct (C08_auc_rejects _ _ _ _ _ H) as (t' & p' & Et & Ep & Hl & Hne & Hb). injection Et as <-. injection Ep as <-.
  assert (Hb' : forall y, In y t -> y = 0 \/ y = 1). { intros y Hy. destruct (Hb y Hy) as [K | K]; [left | right]; revert K; unfold RNum; cbn; unfold Reqb; destruct (Req_EM_T y _); congruence. }
  assert (C : columns_of (Some (@mkmat (num RNum) 1 (map (fun y => [y]) t))) (Some (@mkmat (num RNum) 2 (map (fun x => [1 - x; x]) p))) = Ok (t, map (fun x => 1 - x) p)).
  { unfold columns_of, first_column, nrows, column. cbn [mcols mrows]. rewrite !map_length, !map_map. cbn [nth]. rewrite map_id. destruct t; [contradiction|]. destruct p; [discriminate|]. reflexivity. }
  unfold auc_matrix. rewrite C. cbn [bind]. replace (map (fun x => 1 - x) p) with (map (fun x => 1 + x) (map Ropp p)) by (rewrite map_map; apply map_ext; intros; lra).
  rewrite C09_auc_monotone_invariant; auto; [|intros; lra|now rewrite map_length]. now apply C09_auc_negated_scores.
Qed.

(** The expectation that AUCMatrix of class probabilities measures the classifier fails: one that ranks perfectly gets 0. *)
Theorem C142_probabilities_refuted : exists (t p : list R), (forall x, In x p -> 0 <= x <= 1) /\ @auc RNum desc_sort (Some t) (Some p) = Ok 1 /\
  @auc_matrix RNum desc_sort (Some (@mkmat (num RNum) 1 (map (fun y => [y]) t))) (Some (@mkmat (num RNum) 2 (map (fun x => [1 - x; x]) p))) = Ok 0.
Proof.
  exists [1; 0; 1], [3/4; 1/4; 1/2].
  assert (H : @auc RNum desc_sort (Some [1; 0; 1]) (Some [3/4; 1/4; 1/2]) = Ok 1).
  { rewrite (C08_auc_mann_whitney _ _ _ desc_sort_ok); try reflexivity.
    - f_equal. unfold mann_whitney, pos_scores, neg_scores. cbn [combine filter snd]. rdecide. cbn. unfold pair_sum, pair_score. cbn. rdecide. field.
    - intros y [<-|[<-|[<-|[]]]]; auto.
    - cbn; auto.
    - cbn; auto. }
  split; [intros x [<-|[<-|[<-|[]]]]; lra|]. split; [exact H|]. rewrite (C142_probabilities _ _ _ _ desc_sort_ok H). f_equal. lra.
Qed.
(** Errors of 1 and 2 in one column, and the same numbers in two columns *)
Example C142_example : @mse_matrix RNum (Some (mkmat 1 [[1]; [2]])) (Some (mkmat 1 [[2]; [4]])) = Ok (5 / 2) /\
  @mse_matrix RNum (Some (mkmat 2 [[1; 2]])) (Some (mkmat 2 [[2; 4]])) = Err EValue /\
  @mse_matrix RNum (Some (mkmat 1 [[1]; [2]])) (Some (mkmat 2 [[2; 2]; [4; 4]])) = Err (EDimension 2 2) /\
  @auc_matrix RNum desc_sort (Some (mkmat 1 [[1]; [0]; [1]; [0]])) (Some (mkmat 2 [[3; 9]; [2; 8]; [2; 7]; [1; 6]])) = Ok (7 / 8).
Proof.
  split; [|split; [reflexivity|split; [reflexivity|]]].
  - apply (proj2 (@C142_mse RNum _ _ _)). repeat split; try discriminate. cbn. f_equal. lra.
  - exact C08_example.
Qed.
Print Assumptions C142_mse. Print Assumptions C142_mse_columns. Print Assumptions C142_nil. Print Assumptions C142_first_columns. Print Assumptions C142_vectors.
Print Assumptions C142_probabilities. Print Assumptions C142_probabilities_refuted.
