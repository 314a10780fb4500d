(** C143: what IsEFBBeneficial says about bundling *)
From Coq Require Import List Arith Bool ZArith Reals Lra Lia.
From Verif Require Import Base.Num Base.GoRes Base.RTac Base.FTac Base.Mat Model.Efb Model.EfbUse Spec.Efb Proofs.EfbP Props.EfbProps.
Import ListNotations.
Local Open Scope R_scope.

Lemma sum_add {A} (l : list A) g h : list_sum (map (fun x => (g x + h x)%nat) l) = (list_sum (map g l) + list_sum (map h l))%nat.
Proof. induction l as [|x l IH]; [reflexivity|]. change (g x + h x + list_sum (map (fun x => (g x + h x)%nat) l) = g x + list_sum (map g l) + (h x + list_sum (map h l)))%nat. lia. Qed.
Lemma count_swap {A B} (t : A -> B -> bool) (l : list A) (m : list B) :
  list_sum (map (fun a => length (filter (t a) m)) l) = list_sum (map (fun b => length (filter (fun a => t a b) l)) m).
Proof.
  induction l as [|a l IH].
  - cbn. induction m as [|b m IHm]; [reflexivity|exact IHm].
  - change (list_sum (map (fun a => length (filter (t a) m)) (a :: l))) with (length (filter (t a) m) + list_sum (map (fun a => length (filter (t a) m)) l))%nat. rewrite IH.
    transitivity (list_sum (map (fun b => ((if t a b then 1 else 0) + length (filter (fun a => t a b) l))%nat) m)).
    + rewrite sum_add. f_equal. clear. induction m as [|b m IH]; [reflexivity|]. cbn [filter map]. change (list_sum ((if t a b then 1 else 0)%nat :: map (fun b0 => (if t a b0 then 1 else 0)%nat) m)) with ((if t a b then 1 else 0) + list_sum (map (fun b0 => (if t a b0 then 1 else 0)%nat) m))%nat. rewrite <- IH. destruct (t a b); reflexivity.
    + f_equal. apply map_ext. intros b. cbn [filter]. destruct (t a b); reflexivity.
Qed.
Lemma zero_elements_columns {N : Num} (X : matrix N) : zero_elements X = list_sum (map (zeros X) (seq 0 (mcols X))).
Proof. unfold zero_elements. exact (count_swap (fun row j => @is_zero N (nth j row n0)) (mrows X) (seq 0 (mcols X))). Qed.

Lemma sum_below (z : nat -> nat) (r : R) l : l <> [] -> (forall j, In j l -> INR (z j) < r) -> INR (list_sum (map z l)) < r * INR (length l).
Proof.
  induction l as [|j l IH]; [congruence|]. intros _ H. change (list_sum (map z (j :: l))) with (z j + list_sum (map z l))%nat. rewrite plus_INR. change (length (j :: l)) with (S (length l)). rewrite S_INR.
  pose proof (H j (or_introl eq_refl)). destruct l as [|k l]; [cbn; lra|]. assert (INR (list_sum (map z (k :: l))) < r * INR (length (k :: l))) by (apply IH; [discriminate|intros; apply H; now right]). lra.
Qed.
Lemma sum_above (z : nat -> nat) (r : R) l : (forall j, In j l -> r <= INR (z j)) -> r * INR (length l) <= INR (list_sum (map z l)).
Proof.
  induction l as [|j l IH]; [cbn; lra|]. intros H. change (list_sum (map z (j :: l))) with (z j + list_sum (map z l))%nat. rewrite plus_INR. change (length (j :: l)) with (S (length l)). rewrite S_INR.
  pose proof (H j (or_introl eq_refl)). assert (r * INR (length l) <= INR (list_sum (map z l))) by (apply IH; intros; apply H; now right). lra.
Qed.
Lemma beneficial_R (e : efb RNum) (X : matrix RNum) : @is_beneficial RNum e X = true <->
  (10 <= mcols X)%nat /\ e_ratio e <= INR (list_sum (map (@zeros RNum X) (seq 0 (mcols X)))) / INR (nrows X * mcols X).
Proof.
  unfold is_beneficial. destruct (Nat.ltb_spec (mcols X) 10).
  - split; [intros K; discriminate K|]. intros [K _]. lia.
  - rewrite zero_elements_columns. cbn [nle ndiv RNum]. rewrite !nofnat_R. split; [intros K; split; [lia|]; exact (proj1 (Rleb_true _ _) K)|intros [_ K]; exact (proj2 (Rleb_true _ _) K)].
Qed.
Lemma sparse_R ratio (X : matrix RNum) j : @sparse RNum ratio X j <-> (j < mcols X)%nat /\ ratio <= INR (@zeros RNum X j) / INR (nrows X).
Proof. unfold sparse. cbn [nle ndiv RNum]. rewrite !nofnat_R. split; intros [K1 K2]; (split; [exact K1|]); [exact (proj1 (Rleb_true _ _) K2)|exact (proj2 (Rleb_true _ _) K2)]. Qed.

(** If bundling is said to be worthwhile there are ten columns, and one at least is sparse enough to be bundled. *)
Theorem C143_sparse_column (e : efb RNum) (X : matrix RNum) : nrows X <> 0%nat -> @is_beneficial RNum e X = true ->
  (10 <= mcols X)%nat /\ exists j, @sparse RNum (e_ratio e) X j.
Proof.
  intros Hr H. apply beneficial_R in H. destruct H as [Hc H]. split; [exact Hc|].
  destruct (Exists_dec (fun j => e_ratio e <= INR (@zeros RNum X j) / INR (nrows X)) (seq 0 (mcols X))) as [D|D].
  { intros j. apply Rle_dec. }
  - apply Exists_exists in D. destruct D as (j & Hj & D). exists j. apply sparse_R. apply in_seq in Hj. split; [lia|exact D].
  - exfalso. assert (Pr : 0 < INR (nrows X)) by (apply lt_0_INR; lia). assert (Pc : 0 < INR (mcols X)) by (apply lt_0_INR; lia).
    pose proof (sum_below (@zeros RNum X) (e_ratio e * INR (nrows X)) (seq 0 (mcols X))) as S. rewrite seq_length in S.
    apply (Rlt_irrefl (e_ratio e)). eapply Rle_lt_trans; [exact H|]. rewrite mult_INR. apply (Rmult_lt_reg_r (INR (nrows X) * INR (mcols X))); [now apply Rmult_lt_0_compat|].
    unfold Rdiv. rewrite Rmult_assoc, Rinv_l, Rmult_1_r by (apply Rgt_not_eq; now apply Rmult_lt_0_compat). rewrite <- Rmult_assoc. apply S.
    + destruct (mcols X); [lia|discriminate].
    + intros j Hj. apply Rnot_le_lt. intros K. apply D. apply Exists_exists. exists j. split; [exact Hj|]. apply (Rmult_le_reg_r (INR (nrows X))); [exact Pr|]. unfold Rdiv. rewrite Rmult_assoc, Rinv_l by lra. lra.
Qed.
(** It is said to be worthwhile if there are ten columns and all are sparse. *)
Theorem C143_all_sparse (e : efb RNum) (X : matrix RNum) : nrows X <> 0%nat -> (10 <= mcols X)%nat -> (forall j, (j < mcols X)%nat -> @sparse RNum (e_ratio e) X j) ->
  @is_beneficial RNum e X = true.
Proof.
  intros Hr Hc H. apply beneficial_R. split; [exact Hc|]. assert (Pr : 0 < INR (nrows X)) by (apply lt_0_INR; lia). assert (Pc : 0 < INR (mcols X)) by (apply lt_0_INR; lia).
  pose proof (sum_above (@zeros RNum X) (e_ratio e * INR (nrows X)) (seq 0 (mcols X))) as S. rewrite seq_length in S. rewrite mult_INR.
  apply (Rmult_le_reg_r (INR (nrows X) * INR (mcols X))); [now apply Rmult_lt_0_compat|]. unfold Rdiv. rewrite (Rmult_assoc (INR (list_sum _))), Rinv_l, Rmult_1_r by (apply Rgt_not_eq; now apply Rmult_lt_0_compat). rewrite <- Rmult_assoc. apply S.
  intros j Hj. apply in_seq in Hj. destruct (proj1 (sparse_R _ _ _) (H j ltac:(lia))) as [_ K]. apply (Rmult_le_compat_r (INR (nrows X))) in K; [|lra]. unfold Rdiv in K. rewrite Rmult_assoc, Rinv_l in K by lra. lra.
Qed.
(** The answer is about the share of all entries: moving zeros between columns does not change it. *)
Theorem C143_share {N : Num} (e : efb N) (X Y : matrix N) : nrows X = nrows Y -> mcols X = mcols Y ->
  list_sum (map (zeros X) (seq 0 (mcols X))) = list_sum (map (zeros Y) (seq 0 (mcols Y))) -> is_beneficial e X = is_beneficial e Y.
Proof. intros H1 H2 H3. unfold is_beneficial. now rewrite !zero_elements_columns, H3, H1, H2. Qed.

Local Close Scope R_scope.
Local Open Scope nat_scope.
(** With the default ratio 0.8 bundling can be said to be worthwhile of data with a single sparse column: CreateBundles then finds no
    bundle, and with its answer BundleFeatures keeps the last column only. *)
Definition nearly : matrix F0 := @mkmat F0 10 (map (fun i => map (fun j => if (i <? 2) && negb (j =? 9) then f 1 1 else f 0 1) (seq 0 10)) (seq 0 9)).
Definition usual : efb F0 := mkefb (f 0 1) 0 (f 8 10).
Theorem C143_worthwhile_refuted : exists mapping B, is_beneficial usual nearly = true /\
  snd (create_bundles (fun l => l) usual nearly) = Some (Ok ([], mapping)) /\ bundle_features nearly [] mapping = Ok B /\ mcols B = 1.
Proof.
  exists (repeat 0 10). eexists. split; [vm_compute; reflexivity|]. split; [vm_compute; reflexivity|]. split; [reflexivity|reflexivity].
Qed.
(** And of data with bundles it can say the opposite, for nine columns as for twelve. *)
Definition onehot (n extra : nat) : matrix F0 := @mkmat F0 (n + extra) (map (fun i => map (fun j => if (i =? j) || (n <=? j) then f 1 1 else f 0 1) (seq 0 (n + extra))) (seq 0 n)).
Theorem C143_not_worthwhile_refuted : (exists b m, is_beneficial usual (onehot 9 0) = false /\ snd (create_bundles (fun l => l) usual (onehot 9 0)) = Some (Ok ([b], m)) /\ length b = 9) /\
  (exists b m, is_beneficial usual (onehot 9 3) = false /\ snd (create_bundles (fun l => l) usual (onehot 9 3)) = Some (Ok ([b], m)) /\ length b = 9).
Proof. split; eexists; eexists; (split; [vm_compute; reflexivity|]); (split; [vm_compute; reflexivity|reflexivity]). Qed.
(** One-hot data of twelve columns is worthwhile, and gets one bundle. *)
Example C143_example : is_beneficial usual (onehot 12 0) = true /\ exists b m, snd (create_bundles (fun l => l) usual (onehot 12 0)) = Some (Ok ([b], m)) /\ length b = 12.
Proof. split; [vm_compute; reflexivity|]. eexists; eexists; split; [vm_compute; reflexivity|reflexivity]. Qed.
Print Assumptions C143_sparse_column. Print Assumptions C143_all_sparse. Print Assumptions C143_share. Print Assumptions C143_worthwhile_refuted. Print Assumptions C143_not_worthwhile_refuted.
