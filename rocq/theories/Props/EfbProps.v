(** C49: sklearn/lightgbm/efb.go. *)
From Coq Require Import List Arith Bool ZArith Reals Lra Lia Permutation.
From Flocq Require Import Core IEEE754.BinarySingleNaN.
From Verif Require Import Base.Num Base.GoRes Base.Mat Base.ListX Base.RTac Model.Efb Spec.Efb Proofs.EfbP Proofs.EfbRP Proofs.LinearP.
Import ListNotations.
Local Open Scope list_scope.

(** ** C49: feature bundling *)
(** For every order that sort.Slice may choose, CreateBundles ends with bundles that are disjoint,
    have at least two sparse columns each and keep to the conflict limit, and no sparse column
    was left out that could have been taken.  The optimizer then keeps the maximum number of
    bundles it used. *)
Theorem C49_bundles : forall (N : Num) (order : list (nat * nat) -> list (nat * nat)) (e : efb N) (X : matrix N),
  (forall l, Permutation l (order l)) ->
  let maxb := if e_maxb e =? 0 then Nat.max 1 (mcols X / 3) else e_maxb e in
  exists bundles mapping, create_bundles order e X = (mkefb (e_limit e) maxb (e_ratio e), Some (Ok (bundles, mapping))) /\
    bundling (e_limit e) (e_ratio e) maxb X bundles /\ length mapping = mcols X /\
    ((exists i j, i <> j /\ sparse (e_ratio e) X i /\ sparse (e_ratio e) X j) ->
     forall j p, nth_error mapping j = Some p -> place bundles (mcols X) j p).
Proof.
  intros N order e X Ho maxb. unfold create_bundles. cbv zeta. fold maxb.
  change (filter (fun i : nat => nle (e_ratio e) (sparsity X i)) (seq 0 (mcols X))) with (candidates (e_ratio e) X).
  destruct (Nat.ltb_spec (length (candidates (e_ratio e) X)) 2) as [L|L].
  - exists [], (repeat 0 (mcols X)). split; [reflexivity|]. split; [now apply few_bundles|]. split; [apply repeat_length|].
    intros (i & j & Hij & Hi & Hj). exfalso. apply candidates_sparse in Hi. apply candidates_sparse in Hj.
    destruct (candidates (e_ratio e) X) as [|a [|b l]]; cbn in *; [easy| |lia]. intuition congruence.
  - destruct (greedy_bundles order (e_limit e) (e_ratio e) maxb X Ho L) as (bundles & E & B).
    rewrite E. rewrite mapping_spot; [|apply B|].
    + cbn [rmap]. eexists. eexists. split; [reflexivity|]. split; [exact B|]. split; [now rewrite map_length, seq_length|].
      intros _ j p H. rewrite nth_error_map in H. destruct (nth_error (seq 0 (mcols X)) j) as [k|] eqn:K; [|easy].
      injection H as <-.
      assert (J : j < mcols X) by (rewrite <- (seq_length (mcols X) 0); apply nth_error_Some; congruence).
      rewrite (nth_error_nth' _ 0) in K by now rewrite seq_length. rewrite seq_nth in K by easy. injection K as <-.
      apply spot_place. apply B.
    + intros x Hx. apply in_concat in Hx. destruct Hx as (b & Hb & Hx). apply (bd_sparse _ _ _ _ _ B b x Hb Hx).
Qed.

(** The mapping built from disjoint bundles puts every column in its place, and the number of
    columns that BundleFeatures makes is the one GetBundlingInfo reports. *)
Theorem C49_mapping : forall bundles cols, NoDup (concat bundles) -> (forall x, In x (concat bundles) -> x < cols) ->
  exists mapping, feature_mapping bundles cols = Ok mapping /\ length mapping = cols /\
    (forall j p, nth_error mapping j = Some p -> place bundles cols j p) /\
    (0 < cols -> (forall b, In b bundles -> b <> []) -> new_cols mapping = reported_cols bundles cols).
Proof.
  intros bundles cols D R. exists (map (spot bundles cols) (seq 0 cols)). split; [now apply mapping_spot|].
  split; [now rewrite map_length, seq_length|]. split.
  - intros j p H. rewrite nth_error_map in H. destruct (nth_error (seq 0 cols) j) as [k|] eqn:K; [|easy].
    injection H as <-.
    assert (J : j < cols) by (rewrite <- (seq_length cols 0); apply nth_error_Some; congruence).
    rewrite (nth_error_nth' _ 0) in K by now rewrite seq_length. rewrite seq_nth in K by easy. injection K as <-.
    now apply spot_place.
  - intros C I. rewrite (new_cols_width bundles cols D R I C). unfold reported_cols. pose proof (unbundled_count bundles cols D R). lia.
Qed.

(** BundleFeatures followed by UnbundleFeatures. *)
Definition back {N : Num} (X : matrix N) (bundles : list (list nat)) (mapping : list nat) : res (matrix N) :=
  bind (bundle_features X bundles mapping) (fun B => unbundle_features B bundles (mcols X)).

(** With any numbers, NaN and infinities included: both succeed, and the columns outside the
    bundles come back as they were. *)
Theorem C49_unbundled_columns : forall (N : Num) (X : matrix N) bundles mapping,
  wf X -> nrows X <> 0 -> 0 < mcols X ->
  NoDup (concat bundles) -> (forall x, In x (concat bundles) -> x < mcols X) -> (forall b, In b bundles -> b <> []) ->
  feature_mapping bundles (mcols X) = Ok mapping ->
  exists B X', bundle_features X bundles mapping = Ok B /\ wf B /\ mcols B = reported_cols bundles (mcols X) /\ nrows B = nrows X /\
    back X bundles mapping = Ok X' /\ mcols X' = mcols X /\ nrows X' = nrows X /\
    forall i j row row', nth_error (mrows X) i = Some row -> nth_error (mrows X') i = Some row' ->
      length row' = mcols X /\ (j < mcols X -> ~ In j (concat bundles) -> nth_error row' j = nth_error row j).
Proof.
  intros N X bundles mapping W Hr Hc D R I M. rewrite (mapping_spot _ _ D R) in M. injection M as <-.
  pose proof (unbundled_count bundles (mcols X) D R) as UC.
  pose proof (bundle_features_eq X bundles W Hr Hc D R I) as E.
  set (g := fun row : list N => map (fun j => match slot bundles j with
                    | Some k => decode (nth k bundles []) (nth (length (unbundled bundles (mcols X)) + k) row n0) j
                    | None => nth (length (unbundled bundles j)) row n0 end) (seq 0 (mcols X))).
  exists (mkmat (length (unbundled bundles (mcols X)) + length bundles) (map (coded bundles (mcols X)) (mrows X))).
  exists (mkmat (mcols X) (map g (map (coded bundles (mcols X)) (mrows X)))).
  split; [exact E|]. split; [|split; [|split; [|split]]].
  - intros row H. apply in_map_iff in H. destruct H as (r & <- & _). cbn [mcols]. apply coded_length.
  - cbn [mcols]. unfold reported_cols. lia.
  - unfold nrows. cbn [mrows]. apply map_length.
  - unfold back. rewrite E. cbn [bind]. apply (unbundle_features_eq X bundles Hr Hc D R g).
    + apply map_length.
    + intros row H. apply in_map_iff in H. destruct H as (r & <- & _). apply (unbundle_row_eq bundles (mcols X) D R I). apply coded_length.
  - cbn [mcols mrows]. split; [reflexivity|]. split; [unfold nrows; cbn [mrows]; now rewrite !map_length|].
    intros i j row row' H H'. rewrite !nth_error_map, H in H'. cbn in H'. injection H' as <-. unfold g at 1.
    split; [now rewrite map_length, seq_length|]. intros Hj Hu.
    unfold g. rewrite nth_error_map, (nth_error_nth' _ 0) by now rewrite seq_length. rewrite seq_nth by easy. cbn [option_map Nat.add].
    pose proof Hu as Hs. apply slot_none in Hs. rewrite Hs. apply unbundled_concat in Hu.
    rewrite (nth_unbundled bundles (mcols X) row j Hj Hu).
    symmetry. apply nth_error_nth'. rewrite (W row); [exact Hj|]. eapply nth_error_In; eauto.
Qed.

Local Open Scope R_scope.
(** Over the real numbers: if no row has two members of a bundle that are not zero and all
    bundled values are zero or between 1e-10 and 1000, unbundling gives back the data. *)
Theorem C49_round_trip : forall (X : matrix R) bundles mapping,
  wf X -> nrows X <> 0%nat -> (0 < mcols X)%nat ->
  NoDup (concat bundles) -> (forall x, In x (concat bundles) -> (x < mcols X)%nat) -> (forall b, In b bundles -> b <> []) ->
  feature_mapping bundles (mcols X) = Ok mapping -> exclusive X bundles -> storable X bundles ->
  @back RNum X bundles mapping = Ok X.
Proof.
  intros X bundles mapping W Hr Hc D R I M Ex St. rewrite (mapping_spot _ _ D R) in M. injection M as <-.
  apply (@round_matrix RNum X bundles W Hr Hc D R I).
  intros row b j Hrow Hb Hj. apply decode_code; [| |exact Hj].
  - intros i k Hi Hk Hik. eapply Ex; eauto.
  - intros i Hi. apply St; [exact Hrow|]. apply in_concat. now exists b.
Qed.
(** In particular for the bundles of CreateBundles with conflict limit 0, if at least two columns
    are sparse and the sparse columns only have such values. *)
Theorem C49_created_round_trip : forall order (e : efb RNum) (X : matrix R) e' bundles mapping,
  (forall l, Permutation l (order l)) -> e_limit e = 0 -> wf X -> nrows X <> 0%nat -> (0 < mcols X)%nat ->
  (exists i j, i <> j /\ @sparse RNum (e_ratio e) X i /\ @sparse RNum (e_ratio e) X j) ->
  (forall row j, In row (mrows X) -> @sparse RNum (e_ratio e) X j -> nth j row 0 = 0 \/ 1 / 10000000000 < nth j row 0 < 1000) ->
  @create_bundles RNum order e X = (e', Some (Ok (bundles, mapping))) ->
  @back RNum X bundles mapping = Ok X.
Proof.
  intros order e X e' bundles mapping Ho H0 W Hr Hc Two St E.
  unfold create_bundles in E. cbv zeta in E.
  change (filter (fun i : nat => @nle RNum (e_ratio e) (@sparsity RNum X i)) (seq 0 (mcols X))) with (@candidates RNum (e_ratio e) X) in E.
  set (maxb := if (e_maxb e =? 0)%nat then _ else _) in E.
  destruct (Nat.ltb_spec (length (@candidates RNum (e_ratio e) X)) 2) as [L|L].
  - exfalso. destruct Two as (i & j & Hij & Hi & Hj). apply candidates_sparse in Hi. apply candidates_sparse in Hj.
    destruct (@candidates RNum (e_ratio e) X) as [|a [|b l]]; cbn in *; [easy| |lia]. intuition congruence.
  - destruct (@greedy_bundles RNum order (e_limit e) (e_ratio e) maxb X Ho L) as (bs & E2 & B).
    rewrite E2 in E.
    assert (R : forall x, In x (concat bs) -> (x < mcols X)%nat).
    { intros x Hx. apply in_concat in Hx. destruct Hx as (b & Hb & Hx). apply (bd_sparse _ _ _ _ _ B b x Hb Hx). }
    rewrite mapping_spot in E; [|apply B|exact R].
    assert (bs = bundles) by (injection E; auto). subst bs.
    assert (map (spot bundles (mcols X)) (seq 0 (mcols X)) = mapping) by (injection E; auto). subst mapping.
    apply C49_round_trip; try assumption.
    + apply B.
    + intros b Hb ->. pose proof (bd_two _ _ _ _ _ B [] Hb) as Q. cbn in Q. lia.
    + apply mapping_spot; [apply B|exact R].
    + intros row b i j Hrow Hb Hi Hj Hij.
      pose proof (bd_limit _ _ _ _ _ B b i j Hb Hi Hj Hij) as C. rewrite H0 in C.
      pose proof (exclusive_pair X i j row (both_zero X i j C) Hrow) as Q.
      assert (Z : forall k, In k b -> Rabs (nth k row 0) <= 1 / 10000000000 -> nth k row 0 = 0).
      { intros k Hk A. destruct (St row k Hrow (bd_sparse _ _ _ _ _ B b k Hb Hk)) as [F|F]; [exact F|].
        rewrite Rabs_pos_eq in A by lra. lra. }
      destruct Q as [Q|Q]; [left|right]; now apply Z.
    + intros row j Hrow Hj. apply in_concat in Hj. destruct Hj as (b & Hb & Hj). apply St; [exact Hrow|]. apply (bd_sparse _ _ _ _ _ B b j Hb Hj).
Qed.

(** What happens to any value over the real numbers: with v the value of member number i of the
    bundle and nothing before it, the member number k with 1000(k-i) <= v < 1000(k-i+1) gets
    v - 1000(k-i), all other members get 0; if there is no such k all members get 0. *)
Theorem C49_value : forall (row : list R) (pre post : list nat) x (out : list R),
  (forall y, In y pre -> Rabs (nth y row 0) <= 1 / 10000000000) -> 1 / 10000000000 < Rabs (nth x row 0) ->
  (forall y, In y (pre ++ x :: post) -> (y < length row)%nat /\ (y < length out)%nat) ->
  let b := pre ++ x :: post in let i := length pre in let v := nth x row 0 in
  exists code, @bundle_value RNum row b = Ok code /\
    (forall k y, nth_error b k = Some y -> 1000 * (INR k - INR i) <= v < 1000 * (INR k - INR i) + 1000 ->
       exists out', @unbundle_value RNum b code out = Ok out' /\ length out' = length out /\
         forall j, (j < length out)%nat -> nth j out' 0 = (if in_dec Nat.eq_dec j b then if Nat.eq_dec j y then v - 1000 * (INR k - INR i) else 0 else nth j out 0)) /\
    (v < - 1000 * INR i \/ 1000 * (INR (length b) - INR i) <= v ->
       exists out', @unbundle_value RNum b code out = Ok out' /\ length out' = length out /\
         forall j, (j < length out)%nat -> nth j out' 0 = (if in_dec Nat.eq_dec j b then 0 else nth j out 0)).
Proof.
  intros row pre post x out Hp Hx Hlen b i v. exists (1000 * (INR i + 1) + v).
  assert (C : @code RNum 0 row b = 1000 * (INR i + 1) + v) by (apply (code_first row x pre post 0); assumption).
  assert (Out : map (fun j => nth j out 0) (seq 0 (length out)) = out).
  { clear. induction out as [|a r IH]; cbn [length seq map nth]; [reflexivity|]. rewrite <- seq_shift, map_map. f_equal. exact IH. }
  assert (UD : @unbundle_value RNum b (1000 * (INR i + 1) + v) out =
               Ok (map (fun j => if memb j b then @decode RNum b (1000 * (INR i + 1) + v) j else nth j out 0) (seq 0 (length out)))).
  { rewrite <- Out at 1. apply (@unbundle_decode RNum). intros y Hy. now apply Hlen. }
  assert (MM : forall j, memb j b = if in_dec Nat.eq_dec j b then true else false).
  { intros j. destruct (in_dec Nat.eq_dec j b); [now apply memb_in|now apply memb_out]. }
  split; [|split].
  - unfold bundle_value. rewrite code_value by (intros y Hy; now apply Hlen). f_equal. exact C.
  - intros k y Hk Hv. eexists. split; [exact UD|]. split; [now rewrite map_length, seq_length|].
    intros j Hj. rewrite nth_map_seq by exact Hj. rewrite MM. destruct (in_dec Nat.eq_dec j b) as [Hb|Hb]; [|reflexivity].
    destruct (nth_error_split _ _ Hk) as (l1 & l2 & Eb & Lk).
    unfold decode. pose proof (pos_INR k).
    rewrite is_zero_far by lra. rewrite Eb.
    rewrite match_hit by (cbn [Nat.add]; rewrite Lk; lra). cbn [Nat.add]. rewrite Lk.
    destruct (Nat.eqb_spec j y), (Nat.eq_dec j y); try easy.
    change (@nsub RNum) with Rminus. lra.
  - intros Hv. eexists. split; [exact UD|]. split; [now rewrite map_length, seq_length|].
    intros j Hj. rewrite nth_map_seq by exact Hj. rewrite MM. destruct (in_dec Nat.eq_dec j b) as [Hb|Hb]; [|reflexivity].
    unfold decode. destruct (@is_zero RNum _); [reflexivity|]. rewrite match_miss; [reflexivity|]. cbn [Nat.add INR]. lra.
Qed.

Local Close Scope R_scope.
Local Open Scope nat_scope.
(** With fewer than two sparse columns CreateBundles answers with the mapping that sends every
    column to 0.  BundleFeatures with that answer keeps nothing but the last column, and
    UnbundleFeatures of its result panics if there were two columns or more. *)
Theorem C49_dense : forall (N : Num) order (e : efb N) (X : matrix N),
  (forall i j, sparse (e_ratio e) X i -> sparse (e_ratio e) X j -> i = j) -> wf X -> nrows X <> 0 -> 0 < mcols X ->
  exists e' mapping, create_bundles order e X = (e', Some (Ok ([], mapping))) /\
    bundle_features X [] mapping = Ok (mkmat 1 (map (fun row => [nth (mcols X - 1) row n0]) (mrows X))) /\
    (2 <= mcols X -> back X [] mapping = Panic).
Proof.
  intros N order e X H W Hr Hc. eexists. exists (repeat 0 (mcols X)).
  assert (L : length (candidates (e_ratio e) X) < 2).
  { destruct (candidates (e_ratio e) X) as [|a [|b l]] eqn:E; cbn; [lia|lia|]. exfalso.
    assert (D : NoDup (candidates (e_ratio e) X)) by apply NoDup_filter, seq_NoDup. rewrite E in D.
    assert (a = b) by (apply H; apply candidates_sparse; rewrite E; cbn; auto). subst b.
    inversion D as [|? ? F _]; subst. apply F. now left. }
  split.
  { unfold create_bundles. cbv zeta.
    change (filter (fun i : nat => nle (e_ratio e) (sparsity X i)) (seq 0 (mcols X))) with (candidates (e_ratio e) X).
    destruct (Nat.ltb_spec (length (candidates (e_ratio e) X)) 2); [reflexivity|lia]. }
  assert (NC : new_cols (repeat 0 (mcols X)) = 1).
  { unfold new_cols. f_equal. clear. induction (mcols X) as [|n IH]; cbn; [reflexivity|exact IH]. }
  assert (B : bundle_features X [] (repeat 0 (mcols X)) = Ok (mkmat 1 (map (fun row => [nth (mcols X - 1) row n0]) (mrows X)))).
  { unfold bundle_features. rewrite NC. unfold newdense. destruct (Nat.eqb_spec (nrows X) 0); [easy|]. cbn [Nat.eqb orb bind].
    rewrite (mapM_all_ok _ (fun row => [nth (mcols X - 1) row n0])); [reflexivity|]. intros row Hrow. apply W in Hrow.
    unfold bundle_row. cbn [is_bundled existsb].
    assert (G : forall c, 0 < c <= mcols X ->
      foldM (fun acc j => bind (get_at (repeat 0 (mcols X)) j) (fun m => bind (get_at row j) (fun v => set_at m v acc))) (repeat n0 1) (seq 0 c) = Ok [nth (c - 1) row n0]).
    { induction c as [|c IH]; [lia|]. intros Hc2. rewrite seq_S, foldM_app. destruct c as [|c].
      - cbn [seq foldM bind Nat.add]. rewrite (get_in _ 0) by (rewrite repeat_length; lia). cbn [bind]. rewrite (get_in _ n0) by lia. cbn [bind].
        rewrite nth_repeat. reflexivity.
      - rewrite IH by lia. cbn [foldM bind Nat.add]. rewrite (get_in _ 0) by (rewrite repeat_length; lia). cbn [bind]. rewrite (get_in _ n0) by lia. cbn [bind].
        rewrite nth_repeat. cbn [set_at length Nat.ltb Nat.leb upd bind]. replace (S (S c) - 1) with (S c) by lia. reflexivity. }
    rewrite G by lia. reflexivity. }
  split; [exact B|]. intros H2. unfold back. rewrite B. cbn [bind]. unfold unbundle_features, nrows. cbn [mrows]. rewrite map_length. fold (nrows X).
  unfold newdense. destruct (Nat.eqb_spec (nrows X) 0) as [|Z1]; [easy|]. destruct (Nat.eqb_spec (mcols X) 0) as [|Z2]; [lia|]. cbn [orb bind].
  rewrite mapping_spot by (cbn; try constructor; easy). cbn [bind].
  destruct (mrows X) as [|row rows] eqn:EX; [unfold nrows in Hr; rewrite EX in Hr; easy|]. cbn [map mapM].
  assert (P : unbundle_row (mcols X) [] (map (spot [] (mcols X)) (seq 0 (mcols X))) [nth (mcols X - 1) row n0] = Panic).
  { unfold unbundle_row. cbn [is_bundled existsb].
    destruct (mcols X) as [|[|c]]; [lia|lia|].
    replace (seq 0 (S (S c))) with ([0; 1] ++ seq 2 c) by reflexivity. rewrite foldM_app. cbn [foldM bind app].
    change (0 :: 1 :: seq 2 c) with (seq 0 (S (S c))).
    rewrite get_map_seq by lia. cbn [bind]. unfold spot at 1. cbn [slot]. rewrite (unbundled_nil 0). cbn [get_at nth_error bind].
    unfold set_at. rewrite repeat_length. cbn [Nat.ltb Nat.leb bind].
    rewrite get_map_seq by lia. cbn [bind]. unfold spot at 1. cbn [slot]. rewrite (unbundled_nil 1). reflexivity. }
  rewrite P. reflexivity.
Qed.

(** Concrete data with binary64 numbers. *)
Definition dat (cols : nat) (rows : list (list (Z * positive))) : matrix F0 := @mkmat F0 cols (map (map (fun q => f (fst q) (snd q))) rows).
Definition shown (r : res (matrix F0)) : res (list (list SpecFloat.spec_float)) := rmap (fun M => map (map fs) (mrows M)) r.
Local Open Scope Z_scope.
Definition ints (l : list Z) : list (Z * positive) := map (fun z => (z, 1%positive)) l.

(** Negative values and values from 1000 on are lost or turn up in another column: -5 in the
    second member becomes 995 in the first, 1500 in the first member becomes 500 in the second,
    -5 in the first member becomes 0. *)
Theorem C49_range_refuted : exists (X : matrix F0) mapping, X = dat 2 [ints [0; -5]; ints [1500; 0]; ints [-5; 0]] /\
  feature_mapping [[0%nat; 1%nat]] 2 = Ok mapping /\
  shown (back X [[0%nat; 1%nat]] mapping) = shown (Ok (dat 2 [ints [995; 0]; ints [0; 500]; ints [0; 0]])).
Proof. eexists. exists [0%nat; 0%nat]. split; [reflexivity|]. split; [reflexivity|]. vm_compute. reflexivity. Qed.
(** In binary64 even values within the range are changed by rounding: 0.1 does not come back. *)
Theorem C49_rounding_refuted : exists (X : matrix F0) mapping, X = dat 2 [[(1, 10%positive); (0, 1%positive)]] /\
  feature_mapping [[0%nat; 1%nat]] 2 = Ok mapping /\ is_ok (back X [[0%nat; 1%nat]] mapping) = true /\
  shown (back X [[0%nat; 1%nat]] mapping) <> shown (Ok X).
Proof. eexists. exists [0%nat; 0%nat]. split; [reflexivity|]. split; [reflexivity|]. split; [vm_compute; reflexivity|]. vm_compute. discriminate. Qed.
(** With a conflict limit above 0 the second of two values in a row is lost, as the bundles of
    CreateBundles allow. *)
Definition tolerant : efb F0 := mkefb (f 1 2) 0 (f 1 2).
Definition clashing : matrix F0 := dat 2 [ints [1; 2]; ints [3; 0]; ints [0; 4]; ints [0; 0]; ints [0; 0]; ints [0; 0]].
Theorem C49_conflict_refuted : exists mapping,
  snd (create_bundles (fun l => l) tolerant clashing) = Some (Ok ([[0%nat; 1%nat]], mapping)) /\
  shown (back clashing [[0%nat; 1%nat]] mapping) = shown (Ok (dat 2 [ints [1; 0]; ints [3; 0]; ints [0; 4]; ints [0; 0]; ints [0; 0]; ints [0; 0]])).
Proof. exists [0%nat; 0%nat]. split; vm_compute; reflexivity. Qed.
(** Data without sparse columns loses all columns but the last. *)
Theorem C49_dense_refuted : exists (X : matrix F0) mapping B, X = dat 2 [ints [1; 2]; ints [3; 4]] /\
  snd (create_bundles (fun l => l) tolerant X) = Some (Ok ([], mapping)) /\ bundle_features X [] mapping = Ok B /\
  mcols B = 1%nat /\ shown (Ok B) = shown (Ok (dat 1 [ints [2]; ints [4]])).
Proof.
  exists (dat 2 [ints [1; 2]; ints [3; 4]]), [0%nat; 0%nat], (dat 1 [ints [2]; ints [4]]). split; [reflexivity|]. split; [vm_compute; reflexivity|].
  split; [reflexivity|]. split; reflexivity.
Qed.
(** The optimizer remembers the number of bundles of the first data set: the same second data set
    gets other bundles from a fresh optimizer. *)
Definition fresh : efb F0 := mkefb (f 0 1) 0 (f 1 2).
Definition narrow : matrix F0 := dat 3 [ints [0; 0; 0]].
Definition wide : matrix F0 := dat 6 [ints [0; 0; 1; 0; 1; 0]; ints [0; 0; 0; 1; 0; 1]; ints [0; 0; 0; 0; 0; 0]; ints [0; 0; 0; 0; 0; 0]].
Theorem C49_memory_refuted :
  (exists m, snd (create_bundles (fun l => l) fresh wide) = Some (Ok ([[0; 1; 2; 3]; [4; 5]]%nat, m))) /\
  (exists m, snd (create_bundles (fun l => l) (fst (create_bundles (fun l => l) fresh narrow)) wide) = Some (Ok ([[0; 1; 2; 3]]%nat, m))).
Proof. split; eexists; vm_compute; reflexivity. Qed.

(** The hypotheses of the theorems above can be met: two sparse columns around a dense one. *)
Definition mixed : matrix R := mkmat 3 [[0; 7; 2]; [3; 7; 0]; [0; 7; 0]]%R.
Example C49_example : @back RNum mixed [[0; 2]]%nat [1; 0; 1]%nat = Ok mixed.
Proof.
  apply C49_round_trip; cbn.
  - intros row H. cbn in H. intuition (subst; reflexivity).
  - discriminate.
  - lia.
  - repeat constructor; cbn; intuition lia.
  - intuition lia.
  - intros b [<-|[]]. discriminate.
  - reflexivity.
  - intros row b i j Hr [<-|[]] Hi Hj Hij. cbn in Hr, Hi, Hj.
    assert (Q : i = 0%nat /\ j = 2%nat \/ i = 2%nat /\ j = 0%nat) by (intuition lia).
    destruct Q as [[-> ->]|[-> ->]]; destruct Hr as [<-|[<-|[<-|[]]]]; cbn; auto.
  - intros row j Hr Hj. cbn in Hr, Hj. assert (Q : j = 0%nat \/ j = 2%nat) by (intuition lia).
    destruct Q as [->| ->]; destruct Hr as [<-|[<-|[<-|[]]]]; cbn; auto; right; lra.
Qed.
Definition islands : matrix F0 := dat 4 [ints [1; 0; 9; 0]; ints [0; 2; 8; 0]; ints [0; 0; 7; 5]; ints [0; 0; 6; 0]].
Example C49_example_bundles : exists m, snd (create_bundles (fun l => l) fresh islands) = Some (Ok ([[0; 1; 3]]%nat, m)) /\
  m = [1; 1; 0; 1]%nat /\ new_cols m = 2%nat /\ shown (back islands [[0; 1; 3]]%nat m) = shown (Ok islands).
Proof. exists [1; 1; 0; 1]%nat. split; [vm_compute; reflexivity|]. split; [reflexivity|]. split; [reflexivity|]. vm_compute. reflexivity. Qed.

Print Assumptions C49_bundles.
Print Assumptions C49_mapping.
Print Assumptions C49_unbundled_columns.
Print Assumptions C49_round_trip.
Print Assumptions C49_created_round_trip.
Print Assumptions C49_value.
Print Assumptions C49_dense.
Print Assumptions C49_range_refuted.
Print Assumptions C49_rounding_refuted.
Print Assumptions C49_conflict_refuted.
Print Assumptions C49_dense_refuted.
Print Assumptions C49_memory_refuted.
