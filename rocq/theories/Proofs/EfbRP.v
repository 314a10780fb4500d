(** Encoding and decoding of bundled values over the real numbers. *)
From Coq Require Import List Arith Bool Lia Reals Lra Permutation.
From Verif Require Import Base.Num Base.RTac Base.GoRes Base.Mat Base.ListX Model.Efb Spec.Efb Proofs.EfbP Proofs.LinearP.
Import ListNotations.
Local Open Scope list_scope.
Local Open Scope R_scope.

(** Both directions on all rows. *)
Section Whole.
Context {N : Num}.
Variables (X : matrix N) (bundles : list (list nat)).
Hypothesis W : wf X.
Hypothesis Hr : nrows X <> 0%nat.
Hypothesis Hc : (0 < mcols X)%nat.
Hypothesis D : NoDup (concat bundles).
Hypothesis Rg : forall x, In x (concat bundles) -> (x < mcols X)%nat.
Hypothesis I : forall b, In b bundles -> b <> [].
Let width := (length (unbundled bundles (mcols X)) + length bundles)%nat.
Lemma bundle_features_eq : bundle_features X bundles (map (spot bundles (mcols X)) (seq 0 (mcols X))) = Ok (mkmat width (map (coded bundles (mcols X)) (mrows X))).
Proof.
  pose proof (new_cols_width bundles (mcols X) D Rg I Hc) as NC. fold width in NC.
  unfold bundle_features. rewrite NC. unfold newdense.
  destruct (Nat.eqb_spec (nrows X) 0); [easy|]. destruct (Nat.eqb_spec width 0) as [Z|Z].
  - exfalso. rewrite <- NC in Z. unfold new_cols in Z. discriminate Z.
  - cbn [orb bind]. rewrite (mapM_all_ok _ (coded bundles (mcols X))); [reflexivity|].
    intros row Hrow. apply (bundle_row_coded bundles (mcols X) D Rg I). now apply W.
Qed.
Lemma unbundle_features_eq (g : list N -> list N) rows : length rows = nrows X ->
  (forall row, In row rows -> unbundle_row (mcols X) bundles (map (spot bundles (mcols X)) (seq 0 (mcols X))) row = Ok (g row)) ->
  unbundle_features (mkmat width rows) bundles (mcols X) = Ok (mkmat (mcols X) (map g rows)).
Proof.
  intros L H. unfold unbundle_features. unfold nrows at 1. cbn [mrows]. rewrite L. unfold newdense.
  destruct (Nat.eqb_spec (nrows X) 0); [easy|]. destruct (Nat.eqb_spec (mcols X) 0); [lia|].
  cbn [orb bind]. rewrite (mapping_spot _ _ D Rg). cbn [bind]. rewrite (mapM_all_ok _ g); [reflexivity|exact H].
Qed.
(** If every coded row is decoded to itself the data comes back. *)
Lemma round_matrix : (forall row b j, In row (mrows X) -> In b bundles -> In j b -> decode b (code 0 row b) j = nth j row n0) ->
  bind (bundle_features X bundles (map (spot bundles (mcols X)) (seq 0 (mcols X)))) (fun B => unbundle_features B bundles (mcols X)) = Ok X.
Proof.
  intros H. rewrite bundle_features_eq. cbn [bind].
  unfold unbundle_features. unfold nrows at 1. cbn [mrows]. rewrite map_length. fold (nrows X). unfold newdense.
  destruct (Nat.eqb_spec (nrows X) 0); [easy|]. destruct (Nat.eqb_spec (mcols X) 0); [lia|].
  cbn [orb bind]. rewrite (mapping_spot _ _ D Rg). cbn [bind].
  assert (E : mapM (unbundle_row (mcols X) bundles (map (spot bundles (mcols X)) (seq 0 (mcols X)))) (map (coded bundles (mcols X)) (mrows X)) = Ok (mrows X)).
  { assert (A : forall row, In row (mrows X) -> unbundle_row (mcols X) bundles (map (spot bundles (mcols X)) (seq 0 (mcols X))) (coded bundles (mcols X) row) = Ok row).
    { intros row Hrow. apply (round_row bundles (mcols X) D Rg I row); [now apply W|]. intros b j. now apply H. }
    clear - A. induction (mrows X) as [|r l IH]; cbn [map mapM]; [reflexivity|].
    rewrite (A r (or_introl eq_refl)). cbn [bind]. rewrite IH by (intros; apply A; now right). reflexivity. }
  rewrite E. cbn [rmap]. destruct X; reflexivity.
Qed.
End Whole.

Lemma tiny_R : @tiny RNum = 1 / 10000000000.
Proof. reflexivity. Qed.
Lemma base_R : @base_offset RNum = 1000.
Proof. unfold base_offset. now rewrite nofZ_R. Qed.
Lemma nonzero_R (v : R) : @nonzero RNum v = true <-> 1 / 10000000000 < Rabs v.
Proof. unfold nonzero. rewrite tiny_R. apply Rltb_true. Qed.
Lemma nonzero_R0 (v : R) : @nonzero RNum v = false <-> Rabs v <= 1 / 10000000000.
Proof. unfold nonzero. rewrite tiny_R. apply Rltb_false. Qed.

Lemma offset_R i : @nmul RNum (@base_offset RNum) (@nofnat RNum (S i)) = 1000 * (INR i + 1).
Proof. rewrite base_R, nofnat_R, S_INR. reflexivity. Qed.

Lemma code_first (row : list R) x : forall (pre post : list nat) i,
  (forall y, In y pre -> Rabs (nth y row 0) <= 1 / 10000000000) -> 1 / 10000000000 < Rabs (nth x row 0) ->
  @code RNum i row (pre ++ x :: post) = 1000 * (INR (i + length pre) + 1) + nth x row 0.
Proof.
  induction pre as [|y pre IH]; intros post i Hp Hx; cbn [app code].
  - replace (@nonzero RNum (nth x row 0)) with true by (symmetry; now apply nonzero_R). cbn [length]. rewrite Nat.add_0_r.
    change (@nonzero RNum (nth x row (@n0 RNum))) with (@nonzero RNum (nth x row 0)).
    destruct (@nonzero RNum (nth x row 0)) eqn:E; [|apply nonzero_R0 in E; lra]. rewrite offset_R. reflexivity.
  - change (@nonzero RNum (nth y row (@n0 RNum))) with (@nonzero RNum (nth y row 0)).
    destruct (@nonzero RNum (nth y row 0)) eqn:E.
    + apply nonzero_R in E. specialize (Hp y (or_introl eq_refl)). lra.
    + rewrite IH by (auto; intros; apply Hp; now right). cbn [length]. now replace (i + S (length pre))%nat with (S i + length pre)%nat by lia.
Qed.
Lemma code_none (row : list R) : forall (b : list nat) i, (forall y, In y b -> Rabs (nth y row 0) <= 1 / 10000000000) -> @code RNum i row b = 0.
Proof.
  induction b as [|y b IH]; intros i H; cbn [code]; [reflexivity|].
  change (@nonzero RNum (nth y row (@n0 RNum))) with (@nonzero RNum (nth y row 0)).
  destruct (@nonzero RNum (nth y row 0)) eqn:E.
  - apply nonzero_R in E. specialize (H y (or_introl eq_refl)). lra.
  - apply IH. intros; apply H; now right.
Qed.
Lemma match_hit (v : R) x : forall (pre post : list nat) i,
  1000 * (INR (i + length pre) + 1) <= v < 1000 * (INR (i + length pre) + 1) + 1000 ->
  @match_from RNum i (pre ++ x :: post) v = Some (x, 1000 * (INR (i + length pre) + 1)).
Proof.
  induction pre as [|y pre IH]; intros post i H; cbn [app match_from]; cbv zeta; rewrite offset_R, base_R;
    change (@nadd RNum) with Rplus; change (@nle RNum) with Rleb; change (@nlt RNum) with Rltb.
  - cbn [length] in *. rewrite Nat.add_0_r in *.
    destruct (Rleb_spec (1000 * (INR i + 1)) v); [|lra]. destruct (Rltb_spec v (1000 * (INR i + 1) + 1000)); [|lra]. reflexivity.
  - cbn [length] in *. replace (i + S (length pre))%nat with (S i + length pre)%nat in * by lia.
    destruct (Rltb_spec v (1000 * (INR i + 1) + 1000)) as [L|L].
    + exfalso. rewrite plus_INR, S_INR in H. pose proof (pos_INR (length pre)). lra.
    + rewrite andb_false_r. now apply IH.
Qed.
Lemma match_miss (v : R) : forall (b : list nat) i,
  v < 1000 * (INR i + 1) \/ 1000 * (INR (i + length b) + 1) <= v -> @match_from RNum i b v = None.
Proof.
  induction b as [|y b IH]; intros i H; cbn [match_from]; [reflexivity|]. cbv zeta. rewrite offset_R, base_R.
  change (@nadd RNum) with Rplus; change (@nle RNum) with Rleb; change (@nlt RNum) with Rltb.
  cbn [length] in *. rewrite plus_INR in H. rewrite S_INR in H. pose proof (pos_INR (length b)).
  destruct (Rleb_spec (1000 * (INR i + 1)) v); destruct (Rltb_spec v (1000 * (INR i + 1) + 1000)); cbn [andb]; try lra.
  - apply IH. right. rewrite plus_INR, S_INR. lra.
  - apply IH. left. rewrite S_INR. lra.
Qed.
Lemma is_zero_R (v : R) : @is_zero RNum v = true <-> Rabs v < 1 / 10000000000.
Proof. unfold is_zero. rewrite tiny_R. apply Rltb_true. Qed.
Lemma is_zero_far (v : R) : 1 <= v -> @is_zero RNum v = false.
Proof. intros H. apply not_true_iff_false. rewrite is_zero_R. rewrite Rabs_pos_eq by lra. lra. Qed.

(** Members before the first one that is present. *)
Lemma first_present (row : list R) : forall b : list nat,
  (forall y, In y b -> Rabs (nth y row 0) <= 1 / 10000000000) \/
  (exists pre x post, b = pre ++ x :: post /\ (forall y, In y pre -> Rabs (nth y row 0) <= 1 / 10000000000) /\ 1 / 10000000000 < Rabs (nth x row 0)).
Proof.
  induction b as [|y b IH]; [left; easy|].
  destruct (Rle_lt_dec (Rabs (nth y row 0)) (1 / 10000000000)) as [L|L].
  - destruct IH as [A|(pre & x & post & -> & A & B)].
    + left. intros z [<-|Hz]; auto.
    + right. exists (y :: pre), x, post. split; [reflexivity|]. split; [|exact B]. intros z [<-|Hz]; auto.
  - right. exists [], y, b. repeat split; easy.
Qed.
Lemma decode_code (row : list R) (b : list nat) j :
  (forall i k, In i b -> In k b -> i <> k -> nth i row 0 = 0 \/ nth k row 0 = 0) ->
  (forall i, In i b -> nth i row 0 = 0 \/ 1 / 10000000000 < nth i row 0 < 1000) ->
  In j b -> @decode RNum b (@code RNum 0 row b) j = nth j row 0.
Proof.
  intros Hx Hs Hj. unfold decode. destruct (first_present row b) as [A|(pre & x & post & E & A & B)].
  - rewrite code_none by exact A. replace (@is_zero RNum 0) with true.
    2:{ symmetry. apply is_zero_R. rewrite Rabs_R0. lra. }
    specialize (A j Hj). destruct (Hs j Hj) as [Z|[Z _]]; [now rewrite Z|]. rewrite Rabs_pos_eq in A by lra. lra.
  - assert (C : @code RNum 0 row b = 1000 * (INR (length pre) + 1) + nth x row 0) by (rewrite E; apply (code_first row x pre post 0); assumption).
    rewrite C. clear C.
    assert (Xb : In x b) by (rewrite E; apply in_or_app; right; now left).
    assert (V : 1 / 10000000000 < nth x row 0 < 1000).
    { destruct (Hs x Xb) as [Z|Z]; [|exact Z]. rewrite Z, Rabs_R0 in B. lra. }
    pose proof (pos_INR (length pre)).
    rewrite is_zero_far by (clear - V H; lra). rewrite E. rewrite match_hit by (cbn [Nat.add]; clear - V; lra). cbn [Nat.add].
    destruct (Nat.eqb_spec j x) as [->|D].
    + change (@nsub RNum) with Rminus. assert (W : forall a c : R, a + c - a = c) by (intros; ring). apply W.
    + destruct (Hx j x Hj Xb D) as [Z|Z]; [now rewrite Z|]. lra.
Qed.
Lemma and_or_length {A} (p q : A -> bool) l : (length (filter (fun r => p r && q r) l) <= length (filter (fun r => p r || q r) l))%nat.
Proof. induction l as [|r l IH]; cbn [filter]; [auto|]. destruct (p r), (q r); cbn [andb orb length]; lia. Qed.
Lemma both_zero (X : matrix R) a b : ~ @clash RNum 0 X a b -> @both RNum X a b = 0%nat.
Proof.
  intros H. rewrite clash_conflict in H. unfold conflict in H. change (@present RNum) with (@nonzero RNum).
  unfold both. change (@present RNum) with (@nonzero RNum).
  set (m := length (filter (fun r : list (num RNum) => nonzero (nth a r n0) && nonzero (nth b r n0)) (mrows X))) in *.
  change (length (filter (fun row : list (num RNum) => nonzero (nth a row n0) && nonzero (nth b row n0)) (mrows X))) with m.
  set (e := length (filter (fun r : list (num RNum) => nonzero (nth a r n0) || nonzero (nth b r n0)) (mrows X))).
  change (~ @nlt RNum 0 (if (0 <? e)%nat then @ndiv RNum (@nofnat RNum m) (@nofnat RNum e) else 0) = true) in H.
  assert (L : (m <= e)%nat).
  { unfold m, e. apply (and_or_length (fun r => @nonzero RNum (nth a r (@n0 RNum))) (fun r => @nonzero RNum (nth b r (@n0 RNum)))). }
  destruct (Nat.eq_dec m 0) as [Z|Z]; [exact Z|]. exfalso. apply H.
  destruct (Nat.ltb_spec 0 e); [|lia]. rewrite !nofnat_R.
  change (Rltb 0 (INR m / INR e) = true). apply Rltb_true.
  apply Rdiv_lt_0_compat; apply lt_0_INR; lia.
Qed.
Lemma exclusive_pair (X : matrix R) a b row : @both RNum X a b = 0%nat -> In row (mrows X) ->
  Rabs (nth a row 0) <= 1 / 10000000000 \/ Rabs (nth b row 0) <= 1 / 10000000000.
Proof.
  intros H I. unfold both in H. apply length_zero_iff_nil in H.
  destruct (@nonzero RNum (nth a row 0)) eqn:A; [|left; now apply nonzero_R0].
  destruct (@nonzero RNum (nth b row 0)) eqn:B; [|right; now apply nonzero_R0].
  exfalso. assert (F : In row (filter (fun row : list (num RNum) => present (nth a row n0) && present (nth b row n0)) (mrows X))).
  { apply filter_In. split; [exact I|]. change (@present RNum) with (@nonzero RNum).
    change (@nonzero RNum (nth a row 0) && @nonzero RNum (nth b row 0) = true). now rewrite A, B. }
  exact (eq_rect _ (In row) F _ H).
Qed.
