From Coq Require Import List Arith ZArith Bool Permutation Lia Reals Lra.
From Verif Require Import Base.Num Base.GoRes Base.Mat Base.ListX Base.RTac Model.LgbTree Spec.LgbTree Model.Shap Spec.Shap Proofs.LgbArrayP.
Import ListNotations.

Section Gen.
Context {N : Num}.
Variable toint : N -> Z.

Lemma collect_stores (t : gtree N) : forall T id fuel, stores (gt_nodes t) id T -> (height T < fuel)%nat ->
  collect_leaves fuel t id = Some (leaf_values T).
Proof.
  induction T as [v|q l IHl r IHr]; intros id fuel H Hf; (destruct fuel as [|fuel]; [lia|]); inversion H; subst; cbn [collect_leaves].
  - match goal with E : getZ _ id = Some _ |- _ => rewrite E end. match goal with E : g_type _ = TLeaf |- _ => now rewrite E end.
  - match goal with E : getZ _ id = Some _ |- _ => rewrite E end. match goal with E : g_type _ = TNum |- _ => rewrite E end.
    cbn [height] in Hf. rewrite (IHl _ fuel), (IHr _ fuel); auto; lia.
Qed.

(** The path: the inner nodes with their features, then the leaf. *)
Lemma path_stores (t : gtree N) x : numeric t -> forall T id fuel, stores (gt_nodes t) id T -> fits x T -> (height T < fuel)%nat ->
  exists ids leaf n, tree_path toint fuel t x id = Some (ids ++ [leaf]) /\ getZ (gt_nodes t) leaf = Some n /\
    eval at_most T x = Some (g_leaf n) /\
    Forall2 (fun i f => exists m, getZ (gt_nodes t) i = Some m /\ g_type m = TNum /\ g_feat m = Z.of_nat f /\ (f < length x)%nat)
      ids (route at_most T x).
Proof.
  intros Hnum. induction T as [v|q l IHl r IHr]; intros id fuel H Hx Hf; (destruct fuel as [|fuel]; [lia|]); inversion H; subst; cbn [tree_path].
  - match goal with E : getZ _ id = Some ?n |- _ => rewrite E; exists [], id, n end.
    match goal with E : g_type _ = TLeaf |- _ => rewrite E end. repeat split; auto. constructor.
  - match goal with E : getZ _ id = Some ?m |- _ => rename E into En; rename m into n end.
    match goal with E : g_type n = TNum |- _ => rename E into Et end. rewrite En, Et.
    assert (Hc : g_cats n = []).
    { unfold numeric in Hnum. rewrite Forall_forall in Hnum. apply Hnum. unfold getZ in En. destruct (id <? 0)%Z; [discriminate|].
      now apply nth_error_In in En. }
    assert (Hfeat : (Z.to_nat (g_feat n) < length x)%nat) by (apply Hx; now left).
    rewrite getZ_pos by auto. destruct (nth_error x (Z.to_nat (g_feat n))) as [v|] eqn:Ev; [| apply nth_error_None in Ev; lia].
    rewrite Hc. cbn [eval route q_feat]. rewrite Ev. cbn [at_most q_thr]. cbn [height] in Hf.
    assert (Hl : fits x l) by (intros f Hi; apply Hx; cbn; right; apply in_or_app; now left).
    assert (Hr : fits x r) by (intros f Hi; apply Hx; cbn; right; apply in_or_app; now right).
    change (at_most {| q_feat := Z.to_nat (g_feat n); q_thr := g_thr n; q_missing := MissNaN; q_left := g_defl n |} v) with (nle v (g_thr n)).
    destruct (nle v (g_thr n)) eqn:Eb.
    + destruct (IHl (g_left n) fuel) as (ids & leaf & m & P & G & E & F); auto; [lia|].
      exists (id :: ids), leaf, m. rewrite P. repeat split; auto. constructor; auto. exists n. repeat split; auto; try lia. 
    + destruct (IHr (g_right n) fuel) as (ids & leaf & m & P & G & E & F); auto; [lia|].
      exists (id :: ids), leaf, m. rewrite P. repeat split; auto. constructor; auto. exists n. repeat split; auto; try lia. 
Qed.

(** The counts. *)
Definition tally (l : list Z) (m : list (Z * nat)) : list (Z * nat) := fold_left (fun m f => count_up f m) l m.

Lemma counts_tally (t : gtree N) x ids rt leaf :
  Forall2 (fun i f => exists m, getZ (gt_nodes t) i = Some m /\ g_type m = TNum /\ g_feat m = Z.of_nat f /\ (f < length x)%nat) ids rt ->
  feature_counts t x (ids ++ [leaf]) = tally (map Z.of_nat rt) [].
Proof.
  intros H. unfold feature_counts. rewrite removelast_last. unfold tally. generalize ([] : list (Z * nat)) as m.
  induction H as [|i f ids rt (n & G & T & E & L) H IH]; intros m; cbn [fold_left map]; auto.
  rewrite G, T, E, getZ_pos by lia. rewrite Nat2Z.id. destruct (nth_error x f) eqn:K; [| apply nth_error_None in K; lia]. apply IH.
Qed.
End Gen.

Lemma count_up_keys f m : NoDup (map fst m) -> NoDup (map fst (count_up f m)).
Proof.
  assert (A : forall m z, In z (map fst (count_up f m)) -> z = f \/ In z (map fst m)).
  { induction m0 as [|[g c] r IH]; cbn; intros z; [intros [|[]]; auto|]. destruct (Z.eqb_spec f g); cbn; [tauto|]. intros [|H]; auto. apply IH in H. tauto. }
  induction m as [|[g c] r IH]; cbn; intros H; [constructor; [intros []|constructor]|].
  inversion H; subst. destruct (Z.eqb_spec f g) as [|Hn]; cbn; constructor; auto. intros Hi. apply A in Hi as [->|]; auto.
Qed.

Definition look (z : Z) (m : list (Z * nat)) : nat := match find (fun e => Z.eqb z (fst e)) m with Some e => snd e | None => 0 end.

Lemma look_count_up f z m : look z (count_up f m) = (look z m + if Z.eqb z f then 1 else 0)%nat.
Proof.
  unfold look. induction m as [|[g c] r IH]; cbn.
  - destruct (Z.eqb z f); reflexivity.
  - destruct (Z.eqb_spec f g) as [->|Hn]; cbn.
    + destruct (Z.eqb_spec z g); cbn; lia.
    + destruct (Z.eqb_spec z g) as [->|]; cbn; auto. destruct (Z.eqb_spec g f); [congruence|]. lia.
Qed.

Lemma tally_look l : forall m z, look z (tally l m) = (look z m + count_occ Z.eq_dec l z)%nat.
Proof.
  induction l as [|a l IH]; intros m z; cbn [tally fold_left count_occ]; [lia|].
  change (fold_left (fun m f => count_up f m) l (count_up a m)) with (tally l (count_up a m)). rewrite IH, look_count_up.
  destruct (Z.eq_dec a z) as [Ha|Ha]; destruct (Z.eqb_spec z a) as [Hb|Hb]; try congruence; lia.
Qed.

Lemma tally_keys l : forall m, NoDup (map fst m) -> NoDup (map fst (tally l m)).
Proof. induction l as [|a l IH]; intros m H; cbn; auto. apply IH. now apply count_up_keys. Qed.

Lemma tally_in l : forall m z, In z (map fst (tally l m)) <-> In z (map fst m) \/ In z l.
Proof.
  assert (A : forall f m z, In z (map fst (count_up f m)) <-> z = f \/ In z (map fst m)).
  { intros f. induction m as [|[g c] r IH]; intros z; cbn; [intuition|]. destruct (Z.eqb_spec f g) as [->|]; cbn; [intuition|].
    rewrite IH. intuition. }
  induction l as [|a l IH]; intros m z; cbn [tally fold_left]; [cbn; tauto|]. 
  change (fold_left (fun m f => count_up f m) l (count_up a m)) with (tally l (count_up a m)). rewrite IH, A. cbn. intuition.
Qed.

Lemma in_look z c m : NoDup (map fst m) -> In (z, c) m -> look z m = c.
Proof.
  unfold look. induction m as [|[g d] r IH]; cbn; [tauto|]. intros H [E|Hi].
  - injection E as -> ->. now rewrite Z.eqb_refl.
  - inversion H; subst. destruct (Z.eqb_spec z g) as [->|]; auto. exfalso. apply H2. now apply (in_map fst) in Hi.
Qed.

Lemma tally_length rt : length (tally (map Z.of_nat rt) []) = distinct rt.
Proof.
  unfold distinct. rewrite <- (map_length fst), <- (map_length Z.of_nat (nodup Nat.eq_dec rt)).
  apply Nat.le_antisymm; apply NoDup_incl_length.
  - apply tally_keys. constructor.
  - intros z Hz. apply tally_in in Hz as [[]|Hz]. apply in_map_iff in Hz as [n [<- Hn]]. apply in_map. now apply nodup_In.
  - apply FinFun.Injective_map_NoDup; [intros a b; lia | apply NoDup_nodup].
  - intros z Hz. apply in_map_iff in Hz as [n [<- Hn]]. apply tally_in. right. apply in_map. now apply nodup_In in Hn.
Qed.

Lemma tally_entry rt z c : In (z, c) (tally (map Z.of_nat rt) []) -> exists j, z = Z.of_nat j /\ In j rt /\ c = count_occ Nat.eq_dec rt j.
Proof.
  intros H. assert (Hz : In z (map fst (tally (map Z.of_nat rt) []))) by now apply (in_map fst) in H.
  apply tally_in in Hz as [[]|Hz]. apply in_map_iff in Hz as [j [<- Hj]]. exists j. repeat split; auto.
  apply in_look in H; [| apply tally_keys; constructor]. rewrite tally_look in H. cbn in H. subst c.
  clear. induction rt as [|a rt IH]; cbn; auto. destruct (Z.eq_dec (Z.of_nat a) (Z.of_nat j)), (Nat.eq_dec a j); try lia; auto.
Qed.

Local Open Scope R_scope.
Lemma Rsum_upd0 (l : list R) j d : (j < length l)%nat -> Rsum (upd j (fun v => v + d) l) = Rsum l + d.
Proof. revert j. induction l as [|a l IH]; intros [|j] H; cbn in *; try lia; [lra|]. rewrite IH by lia. lra. Qed.

(** Adding one share after the other. *)
Lemma shares_nth (g : nat -> R) (es : list (Z * nat)) : NoDup (map fst es) ->
  forall (s : list R) j, (forall z, In z (map fst es) -> (0 <= z)%Z) ->
  nth_error (fold_left (fun s e => upd (Z.to_nat (fst e)) (fun v => v + g (snd e)) s) es s) j =
  option_map (fun v => v + match find (fun e => Z.eqb (Z.of_nat j) (fst e)) es with Some e => g (snd e) | None => 0 end) (nth_error s j).
Proof.
  induction es as [|[z c] es IH]; intros Hn s j Hz; cbn [fold_left find fst snd].
  - destruct (nth_error s j); cbn; auto. f_equal. lra.
  - inversion Hn; subst. rewrite IH; auto; [| intros; apply Hz; now right].
    assert (0 <= z)%Z by (apply Hz; now left).
    destruct (Z.eqb_spec (Z.of_nat j) z) as [E|E].
    + replace (Z.to_nat z) with j by lia. rewrite nth_error_upd_same. destruct (nth_error s j); cbn; auto. f_equal.
      destruct (find (fun e => Z.eqb (Z.of_nat j) (fst e)) es) as [e|] eqn:F; [| lra].
      exfalso. apply find_some in F as [F1 F2]. apply Z.eqb_eq in F2. apply H1. rewrite <- E, F2. now apply in_map.
    + rewrite nth_error_upd_other by lia. reflexivity.
Qed.

Lemma indicator_sum a k n : Rsum (map (fun j => if Nat.eq_dec a j then 1 else 0) (seq k n)) = if (k <=? a)%nat && (a <? k + n)%nat then 1 else 0.
Proof.
  revert k. induction n as [|n IH]; intros k; cbn [seq map Rsum].
  - destruct (Nat.leb_spec k a), (Nat.ltb_spec a (k + 0)); cbn; auto; lia.
  - rewrite IH. destruct (Nat.eq_dec a k); destruct (Nat.leb_spec k a), (Nat.ltb_spec a (k + S n)), (Nat.leb_spec (S k) a), (Nat.ltb_spec a (S k + n)); cbn; try lia; lra.
Qed.
Lemma counts_sum rt n : (forall f, In f rt -> (f < n)%nat) -> Rsum (map (fun j => INR (count_occ Nat.eq_dec rt j)) (seq 0 n)) = INR (length rt).
Proof.
  induction rt as [|a rt IH]; intros H.
  - cbn [count_occ length]. rewrite (Rsum_map_const (INR 0)). cbn. lra.
  - rewrite (map_ext (fun j => INR (count_occ Nat.eq_dec (a :: rt) j))
      (fun j => (if Nat.eq_dec a j then 1 else 0) + INR (count_occ Nat.eq_dec rt j))).
    + rewrite Rsum_map_plus, IH, indicator_sum by (intros; apply H; now right).
      assert (a < n)%nat by (apply H; now left). destruct (Nat.ltb_spec a (0 + n)); [|lia]. cbn [andb Nat.leb length]. rewrite S_INR. lra.
    + intros j. cbn [count_occ]. destruct (Nat.eq_dec a j); [rewrite S_INR; lra | lra].
Qed.

Lemma list_of_nth (s : list R) n (g : nat -> R) : length s = n -> (forall j, (j < n)%nat -> nth_error s j = Some (g j)) -> s = map g (seq 0 n).
Proof.
  intros Hl H. apply nth_error_ext. intros j. destruct (Nat.lt_ge_cases j n) as [Hj|Hj].
  - rewrite H by auto. symmetry. rewrite nth_error_map, nth_error_nth' with (d := 0%nat) by (rewrite seq_length; lia).
    rewrite seq_nth by lia. reflexivity.
  - rewrite (proj2 (nth_error_None s j)), (proj2 (nth_error_None (map g (seq 0 n)) j)); auto; [rewrite map_length, seq_length; lia | lia].
Qed.

Lemma upd_fold_length {E} (g : E -> R -> R) (i : E -> nat) es : forall s, length (fold_left (fun s e => upd (i e) (g e) s) es s) = length s.
Proof. induction es as [|e es IH]; intros s; cbn; auto. rewrite IH. apply upd_length. Qed.

Lemma route_in (T : rtree) x : fits x T -> forall f, In f (route at_most T x) -> (f < length x)%nat.
Proof.
  induction T as [v|q l IHl r IHr]; intros Hx f; cbn [route]; [intros []|].
  destruct (nth_error x (q_feat q)) eqn:E; [|intros []].
  intros [<-|Hi]; [apply Hx; now left|].
  destruct (at_most q _); [apply IHl in Hi | apply IHr in Hi]; auto; intros g Hg; apply Hx; cbn; right; apply in_or_app; auto.
Qed.

Lemma leaf_values_pos (T : rtree) : leaf_values T <> [].
Proof. induction T as [v|q l IHl r IHr]; cbn; [discriminate|]. intros H. apply app_eq_nil in H. tauto. Qed.

Section R.
Variable toint : R -> Z.
Variable ord : list (Z * nat) -> list (Z * nat).
Hypothesis Hord : forall l, Permutation l (ord l).

Lemma find_perm (es es' : list (Z * nat)) (z : Z) (g : nat -> R) : Permutation es es' -> NoDup (map fst es) ->
  match find (fun e => Z.eqb z (fst e)) es' with Some e => g (snd e) | None => 0 end =
  match find (fun e => Z.eqb z (fst e)) es with Some e => g (snd e) | None => 0 end.
Proof.
  intros P Hn. assert (Hn' : NoDup (map fst es')) by (eapply Permutation_NoDup; [apply Permutation_map, P | exact Hn]).
  assert (K : forall l : list (Z * nat), NoDup (map fst l) -> forall c, In (z, c) l -> find (fun e => Z.eqb z (fst e)) l = Some (z, c)).
  { induction l as [|[a b] l IH]; cbn; intros H c; [tauto|]. inversion H; subst. intros [E|Hi].
    - injection E as -> ->. now rewrite Z.eqb_refl.
    - destruct (Z.eqb_spec z a) as [->|]; auto. exfalso. apply H2. now apply (in_map fst) in Hi. }
  destruct (find (fun e => Z.eqb z (fst e)) es) as [[a c]|] eqn:E.
  - apply find_some in E as [E1 E2]. cbn in E2. apply Z.eqb_eq in E2. subst a. rewrite (K es' Hn' c); auto. now apply (Permutation_in _ P).
  - destruct (find (fun e => Z.eqb z (fst e)) es') as [[a c]|] eqn:E'; auto.
    apply find_some in E' as [E1 E2]. cbn in E2. apply (Permutation_in _ (Permutation_sym P)) in E1.
    apply (find_none _ _ E) in E1. cbn in E1. congruence.
Qed.

Lemma tree_shap_R fuel (t : gtree RNum) (T : rtree) (x : list R) : @holds RNum x t T -> (height T < fuel)%nat ->
  @tree_shap RNum toint ord fuel t x = Some (map (share T x) (seq 0 (length x))).
Proof.
  intros (HS & Hnum & Hx) Hf.
  destruct (@path_stores RNum toint t x Hnum T 0%Z fuel HS Hx Hf) as (ids & leaf & n & P & G & E & F).
  assert (Hv : value T x = g_leaf n) by (unfold value; rewrite E; reflexivity).
  unfold tree_shap. destruct (gt_nodes t) as [|n0' ns] eqn:En.
  { exfalso. unfold getZ in G. destruct (leaf <? 0)%Z; [discriminate|]. destruct (Z.to_nat leaf); discriminate. }
  rewrite <- En in *. clear En n0' ns.
  rewrite P. destruct (ids ++ [leaf]) as [|p0 ps] eqn:Ep; [destruct ids; discriminate|]. rewrite <- Ep.
  rewrite last_last, G. unfold tree_baseline.
  destruct (gt_nodes t) as [|n0' ns] eqn:En.
  { exfalso. unfold getZ in G. destruct (leaf <? 0)%Z; [discriminate|]. destruct (Z.to_nat leaf); discriminate. }
  rewrite <- En in *. clear En n0' ns.
  rewrite (@collect_stores RNum t T 0%Z fuel HS Hf).
  destruct (leaf_values T) as [|v vs] eqn:El; [now apply leaf_values_pos in El|].
  assert (Hm : ndiv (@nsum RNum (v :: vs)) (@nofnat RNum (length (v :: vs))) = mean T).
  { unfold mean. rewrite El. rewrite nsum_R, nofnat_R. reflexivity. }
  cbv zeta. rewrite Hm. rewrite (@counts_tally RNum t x ids _ leaf F).
  set (rt := route at_most T x) in *. set (es := tally (map Z.of_nat rt) []).
  set (g := fun c : nat => @ndiv RNum (@nmul RNum (@nsub RNum (g_leaf n) (mean T)) (@nofnat RNum c)) (@nofnat RNum (length es))).
  f_equal. apply list_of_nth.
  - etransitivity; [exact (upd_fold_length (fun e v => @nadd RNum v (g (snd e))) (fun e => Z.to_nat (fst e)) (ord es) _)|]. now rewrite map_length.
  - intros j Hj.
    assert (Nd : NoDup (map fst es)) by (apply tally_keys; constructor).
    etransitivity; [apply (shares_nth g (ord es))|].
    + eapply Permutation_NoDup; [apply Permutation_map, Hord | exact Nd].
    + intros z Hz. assert (Hz' : In z (map fst es)) by (eapply Permutation_in; [apply Permutation_sym, Permutation_map, Hord | exact Hz]).
      unfold es in Hz'. apply tally_in in Hz' as [[]|Hz']. apply in_map_iff in Hz' as [q [<- _]]. lia.
    + match goal with |- option_map ?F _ = _ => transitivity (option_map F (nth_error (map (fun _ : R => 0) x) j)); [reflexivity|] end.
      rewrite nth_error_map.
      destruct (nth_error x j) as [xj|] eqn:Ej; [| apply nth_error_None in Ej; lia]. cbn [option_map]. f_equal.
      etransitivity; [apply f_equal, (find_perm es (ord es) (Z.of_nat j) g (Hord es) Nd)|].
      unfold share. fold rt. rewrite Hv. rewrite Rplus_0_l.
      assert (Hg : forall c, g c = (g_leaf n - mean T) * INR c / INR (distinct rt)).
      { intros c. unfold g. rewrite !nofnat_R. unfold es. rewrite tally_length. reflexivity. }
      destruct (find (fun e => Z.eqb (Z.of_nat j) (fst e)) es) as [[a c]|] eqn:Ef.
      * apply find_some in Ef as [F1 F2]. cbn in F2. apply Z.eqb_eq in F2. subst a. apply tally_entry in F1 as [j' [E1 [_ E2]]].
        cbn [snd]. rewrite Hg, E2. replace j' with j by lia. reflexivity.
      * assert (~ In j rt).
        { intros Hi. assert (Hi' : In (Z.of_nat j) (map fst es)) by (unfold es; apply tally_in; right; now apply in_map).
          apply in_map_iff in Hi' as [e [E1 E2]]. apply (find_none _ _ Ef) in E2. rewrite E1, Z.eqb_refl in E2. discriminate. }
        rewrite (proj1 (count_occ_not_In Nat.eq_dec rt j)) by auto. cbn [INR]. unfold Rdiv. rewrite Rmult_0_r, Rmult_0_l. reflexivity.
Qed.

Lemma share_sum (T : rtree) x : fits x T -> Rsum (map (share T x) (seq 0 (length x))) = (value T x - mean T) * repetition T x.
Proof.
  intros Hx. unfold share, repetition. pose proof (route_in T x Hx) as Hr. set (rt := route at_most T x) in *.
  rewrite (map_ext _ (fun j => ((value T x - mean T) / INR (distinct rt)) * INR (count_occ Nat.eq_dec rt j))) by (intros; unfold Rdiv; ring).
  rewrite Rsum_map_scal, counts_sum by exact Hr. destruct rt as [|a rt]; [cbn; unfold Rdiv; ring|]. unfold Rdiv. ring.
Qed.

Lemma sample_shap_R fuel (m : gmodel RNum) (Ts : list rtree) (x : list R) :
  Forall2 (fun t T => @holds RNum x t T /\ (height T < fuel)%nat) (m_trees m) Ts ->
  @sample_shap RNum toint ord fuel m x = Some (map (fun j => m_lr m * Rsum (map (fun T => share T x j) Ts)) (seq 0 (length x))).
Proof.
  intros H. unfold sample_shap.
  assert (G : forall (trees : list (gtree RNum)) Ts (g : nat -> R), Forall2 (fun t T => @holds RNum x t T /\ (height T < fuel)%nat) trees Ts ->
    fold_left (fun acc t => match gt_nodes t with
      | [] => acc
      | _ => match acc, @tree_shap RNum toint ord fuel t x with
             | Some s, Some ts => Some (mapi (fun j v => @nadd RNum v (@nmul RNum (nth j ts (@n0 RNum)) (m_lr m))) s)
             | _, _ => None
             end
      end) trees (Some (map g (seq 0 (length x)))) =
    Some (map (fun j => g j + m_lr m * Rsum (map (fun T => share T x j) Ts)) (seq 0 (length x)))).
  { clear Ts H. intros trees Ts g H. revert g. induction H as [|t T trees Ts [Ht Hf] H IH]; intros g; cbn [fold_left].
    - f_equal. apply map_ext. intros j. cbn. ring.
    - destruct (gt_nodes t) as [|n0' ns] eqn:En.
      { exfalso. destruct Ht as (HS & _). rewrite En in HS. inversion HS; subst; unfold getZ in *; discriminate. }
      rewrite (tree_shap_R fuel t T x Ht Hf).
      match goal with |- fold_left ?F ?tr (Some ?l) = _ =>
        transitivity (fold_left F tr (Some (map (fun j => g j + m_lr m * share T x j) (seq 0 (length x)))));
        [replace l with (map (fun j => g j + m_lr m * share T x j) (seq 0 (length x))); [reflexivity | symmetry; apply list_of_nth] |] end.
      + unfold mapi. rewrite mapi_from_length, map_length, seq_length. reflexivity.
      + intros j Hj. unfold mapi. rewrite nth_error_mapi_from, nth_error_map.
        rewrite nth_error_nth' with (d := 0%nat) by (rewrite seq_length; lia). rewrite seq_nth by lia. cbn [option_map Nat.add]. f_equal.
        rewrite nth_indep with (d' := share T x 0) by (rewrite map_length, seq_length; lia). rewrite map_nth, seq_nth by lia. change (g j + share T x j * m_lr m = g j + m_lr m * share T x j). ring.
      + rewrite IH. f_equal. apply map_ext. intros j. cbn [map Rsum]. ring. }
  assert (Z : map (fun _ : nat => 0) (seq 0 (length x)) = map (fun _ : R => 0) x).
  { clear. generalize 0%nat as k. induction x as [|a x IH]; intros k; cbn; [reflexivity|]. f_equal. apply IH. }
  specialize (G (m_trees m) Ts (fun _ => 0) H). rewrite Z in G. etransitivity; [exact G|].
  f_equal. apply map_ext. intros j. ring.
Qed.
End R.

(** ** Order *)
Section Order.
Context {N : Num}.
Variable toint : N -> Z.
Variables ord1 ord2 : list (Z * nat) -> list (Z * nat).
Hypothesis H1 : forall l, Permutation l (ord1 l).
Hypothesis H2 : forall l, Permutation l (ord2 l).

Lemma counts_keys (t : gtree N) x path : NoDup (map fst (feature_counts t x path)) /\ (forall z, In z (map fst (feature_counts t x path)) -> (0 <= z)%Z).
Proof.
  unfold feature_counts. assert (G : NoDup (map (@fst Z nat) []) /\ (forall z, In z (map (@fst Z nat) []) -> (0 <= z)%Z)) by (split; [constructor | intros z []]).
  revert G. generalize (@nil (Z * nat)) as m. induction (removelast path) as [|i p IH]; intros m G; cbn [fold_left]; auto.
  apply IH. destruct (getZ (gt_nodes t) i) as [n|]; auto. destruct (g_type n); auto; destruct (getZ x (g_feat n)) eqn:E; auto; apply getZ_some in E.
  all: destruct G as [G1 G2]; split; [now apply count_up_keys|]; intros z Hz.
  all: change (count_up (g_feat n) m) with (tally [g_feat n] m) in Hz; apply tally_in in Hz as [Hz|[<-|[]]]; auto.
Qed.

Lemma fold_upd_perm (g : Z * nat -> N -> N) (es es' : list (Z * nat)) : Permutation es es' -> NoDup (map fst es) -> (forall z, In z (map fst es) -> (0 <= z)%Z) ->
  forall s, fold_left (fun s e => upd (Z.to_nat (fst e)) (g e) s) es s = fold_left (fun s e => upd (Z.to_nat (fst e)) (g e) s) es' s.
Proof.
  induction 1 as [|e l l' P IH|a b l|l l' l'' P IH P' IH']; intros Hn Hz s; cbn [fold_left]; auto.
  - apply IH; [now inversion Hn | intros; apply Hz; now right].
  - rewrite upd_comm; auto. cbn in Hn, Hz. inversion Hn as [|? ? Hi]; subst. cbn in Hi.
    assert (0 <= fst a)%Z by (apply Hz; auto). assert (0 <= fst b)%Z by (apply Hz; auto).
    intros E. apply Hi. left. apply Z2Nat.inj; auto.
  - rewrite IH, IH'; auto.
    + eapply Permutation_NoDup; [apply Permutation_map, P | exact Hn].
    + intros z Hi. apply Hz. eapply Permutation_in; [apply Permutation_sym, Permutation_map, P | exact Hi].
Qed.

Lemma order_tree fuel t x : tree_shap toint ord1 fuel t x = tree_shap toint ord2 fuel t x.
Proof.
  unfold tree_shap. destruct (gt_nodes t) as [|nd ns] eqn:En; auto. destruct (tree_path toint fuel t x 0) as [path|]; auto. destruct path as [|p ps]; auto.
  destruct (getZ _ _) as [leaf|]; auto. destruct (tree_baseline fuel t) as [b|]; auto. f_equal.
  destruct (counts_keys t x (p :: ps)) as [K1 K2]. set (es := feature_counts t x (p :: ps)) in *.
  set (g := fun (e : Z * nat) (v : N) => nadd v (ndiv (nmul (nsub (g_leaf leaf) b) (nofnat (snd e))) (nofnat (length es)))).
  change (fold_left (fun s e => upd (Z.to_nat (fst e)) (g e) s) (ord1 es) (map (fun _ => n0) x) = fold_left (fun s e => upd (Z.to_nat (fst e)) (g e) s) (ord2 es) (map (fun _ => n0) x)).
  rewrite <- (fold_upd_perm g es (ord1 es)), <- (fold_upd_perm g es (ord2 es)); auto.
Qed.

Lemma order_calc fuel m X : calculate_shap toint ord1 fuel m X = calculate_shap toint ord2 fuel m X.
Proof.
  unfold calculate_shap. destruct (newdense _ _); auto.
  assert (E : forall x, sample_shap toint ord1 fuel m x = sample_shap toint ord2 fuel m x).
  { intros x. unfold sample_shap. generalize (Some (map (fun _ : N => @n0 N) x)). induction (m_trees m) as [|t ts IH]; intros acc; cbn [fold_left]; auto.
    rewrite order_tree. apply IH. }
  assert (S : forall l, sequence (fun x => option_map (fun s => Ok s) (sample_shap toint ord1 fuel m x)) l
    = sequence (fun x => option_map (fun s => Ok s) (sample_shap toint ord2 fuel m x)) l).
  { induction l as [|x l IH]; cbn [sequence]; auto. now rewrite E, IH. }
  now rewrite S.
Qed.
End Order.

(** ** Sums *)
Lemma sum_shares fuel (m : gmodel RNum) (Ts : list rtree) x : Forall2 (fun t T => @holds RNum x t T /\ (height T < fuel)%nat) (m_trees m) Ts ->
  Rsum (map (fun j => Rsum (map (fun T => share T x j) Ts)) (seq 0 (length x))) = Rsum (map (fun T => (value T x - mean T) * repetition T x) Ts).
Proof.
  induction 1 as [|t T ts Ts [(_ & _ & Hx) _] H IH]; cbn [map Rsum].
  - rewrite Rsum_map_const. ring.
  - rewrite Rsum_map_plus, IH. f_equal. exact (share_sum T x Hx).
Qed.

Lemma stores_passes ns z (T : rtree) x : forall id, @stores RNum ns id T -> eval (passes z) T x = eval at_most T x.
Proof.
  induction T as [v|q l IHl r IHr]; intros id H; cbn [eval]; auto. inversion H; subst. cbn [q_feat].
  destruct (nth_error x _) as [v|]; auto. unfold passes, at_most. cbn [q_missing q_thr]. cbn [nisnan RNum].
  destruct (nle v (g_thr n)); [eapply IHl | eapply IHr]; eassumption.
Qed.

Lemma fold_Rplus (l : list R) : forall a : R, fold_left Rplus l a = a + Rsum l.
Proof. induction l as [|v l IH]; intros a; cbn [fold_left Rsum]; [ring|]. rewrite IH. ring. Qed.

Lemma raw_sum toint fuel (m : gmodel RNum) (Ts : list rtree) x : Forall2 (fun t T => @holds RNum x t T /\ (height T < fuel)%nat) (m_trees m) Ts ->
  (m_class m <= 2)%Z -> Forall (fun T => (isize T < fuel)%nat) Ts ->
  @model_raw RNum toint fuel m x = Some (Ok [m_init m + Rsum (map (fun T => value T x) Ts)]).
Proof.
  intros H Hc Hf. unfold model_raw.
  assert (G : sequence (fun t => @tree_predict RNum toint fuel t x) (m_trees m) = Some (Ok (map (fun T => value T x) Ts))).
  { clear Hc. revert Hf. induction H as [|t T ts Ts [(HS & Hn & Hx) Hh] H IH]; intros Hf; cbn [sequence map]; auto. inversion Hf; subst.
    assert (P : @tree_predict RNum toint fuel t x = Some (Ok (value T x))).
    { unfold tree_predict. rewrite (gwalk_stores (N := RNum) toint 0 t x T 0%Z fuel HS) by auto.
      rewrite (stores_passes _ _ T x _ HS).
      destruct (@path_stores RNum toint t x Hn T 0%Z fuel HS Hx Hh) as (ids & leaf & n & _ & _ & E & _).
      unfold value. rewrite E. reflexivity. }
    rewrite P, IH by auto. reflexivity. }
  rewrite G. unfold outputs_count. destruct (Z.ltb_spec 2 (m_class m)); [lia|]. rewrite accumulate_one. do 3 f_equal.
  exact (fold_Rplus _ (m_init m)).
Qed.

Lemma distinct_nodup r : NoDup r -> distinct r = length r.
Proof. intros H. unfold distinct. now rewrite nodup_fixed_point. Qed.
Lemma repetition_one (T : rtree) x : NoDup (route at_most T x) -> route at_most T x <> [] -> repetition T x = 1.
Proof.
  unfold repetition. intros H Hn. destruct (route at_most T x) as [|a r]; [congruence|]. rewrite distinct_nodup by auto.
  unfold Rdiv. apply Rinv_r. apply not_0_INR. discriminate.
Qed.
Lemma value_share (T : rtree) x : mean T = 0 -> NoDup (route at_most T x) -> (value T x - mean T) * repetition T x = value T x.
Proof.
  intros M D. destruct (route at_most T x) as [|a r] eqn:E.
  - unfold repetition. rewrite E. rewrite Rmult_0_r. destruct T as [v|q l r]; cbn [route] in E.
    + unfold mean in M. cbn in M. unfold value. cbn. lra.
    + unfold value. cbn [eval]. destruct (nth_error x (q_feat q)); [discriminate|reflexivity].
  - rewrite repetition_one; [rewrite M; ring | rewrite E; auto | rewrite E; discriminate].
Qed.
