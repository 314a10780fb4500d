(** Categorical histograms and splits in terms of rows. *)
From Coq Require Import List Arith ZArith Bool Lia Permutation Sorted Reals Lra.
From Verif Require Import Base.Num Base.GoRes Base.ListX Base.RTac Base.GoSort Spec.Order Model.LgbTree Model.LgbHist
  Spec.LgbHist Spec.LgbSplit Proofs.OrderP Proofs.LgbHistP Proofs.LgbHistRP Proofs.LgbSplitP.
Import ListNotations.
Local Open Scope list_scope.
Local Open Scope R_scope.

(** ** Sorted categories *)
Lemma zsorted_cats (l : list Z) : StronglySorted Z.lt (isort Z.ltb (nodup Z.eq_dec l)).
Proof.
  assert (A : asym Z.ltb) by (intros a b; rewrite Z.ltb_lt, Z.ltb_ge; lia).
  assert (T : negtrans Z.ltb) by (intros a b c; rewrite !Z.ltb_ge; lia).
  destruct (isort_go_sort Z.ltb A T (nodup Z.eq_dec l)) as [P O].
  assert (D : NoDup (isort Z.ltb (nodup Z.eq_dec l))) by (eapply Permutation_NoDup; [exact P|apply NoDup_nodup]).
  revert O D. generalize (isort Z.ltb (nodup Z.eq_dec l)). clear. induction l as [|x l IH]; intros O D; [constructor|].
  inversion O as [|? ? O1 O2]; subst. inversion D as [|? ? D1 D2]; subst. constructor; [now apply IH|].
  rewrite Forall_forall in *. intros y Hy. specialize (O2 y Hy). apply Z.ltb_ge in O2. assert (x <> y) by (intros ->; auto). lia.
Qed.
Lemma cats_in (l : list Z) c : In c (isort Z.ltb (nodup Z.eq_dec l)) <-> In c l.
Proof.
  rewrite <- (nodup_In Z.eq_dec l c). split; apply Permutation_in; [symmetry|]; apply isort_perm.
Qed.
Lemma sorted_nodup (l : list Z) : StronglySorted Z.lt l -> NoDup l.
Proof.
  induction 1 as [|x l H IH F]; constructor; [|exact IH]. intros Hin. rewrite Forall_forall in F. specialize (F x Hin). lia.
Qed.

(** ** Sums over categories *)
Section Group.
  Variable cat : nat -> Z.
  Definition rows_of (c : Z) (idxs : list nat) : list nat := filter (fun i => (cat i =? c)%Z) idxs.
  Lemma group_one (v : nat -> R) i cats (p : Z -> bool) : NoDup cats -> In (cat i) cats ->
    Rsum (map (fun c => Rsum (map v (rows_of c [i]))) (filter p cats)) = if p (cat i) then v i else 0.
  Proof.
    intros D. induction cats as [|c cats IH]; intros Hin; [destruct Hin|].
    inversion D as [|? ? D1 D2]; subst.
    assert (Z0 : forall l, ~ In (cat i) l -> Rsum (map (fun c => Rsum (map v (rows_of c [i]))) (filter p l)) = 0).
    { clear. induction l as [|c l IH]; intros H; [reflexivity|]. cbn [filter]. cbn in H. destruct (p c); [|apply IH; tauto].
      cbn [map Rsum]. rewrite IH by tauto. unfold rows_of. cbn [filter]. destruct (Z.eqb_spec (cat i) c); [exfalso; apply H; left; congruence|]. cbn. lra. }
    destruct (Z.eq_dec (cat i) c) as [E|E].
    - subst c. cbn [filter]. destruct (p (cat i)).
      + cbn [map Rsum]. rewrite Z0 by exact D1. unfold rows_of. cbn [filter]. rewrite Z.eqb_refl. cbn. lra.
      + now apply Z0.
    - destruct Hin as [H|Hin]; [congruence|]. specialize (IH D2 Hin). cbn [filter]. destruct (p c); [|exact IH].
      cbn [map Rsum]. rewrite IH. unfold rows_of. cbn [filter]. destruct (Z.eqb_spec (cat i) c); [tauto|]. cbn. lra.
  Qed.
  Lemma group_sum (v : nat -> R) idxs cats (p : Z -> bool) : NoDup cats -> (forall i, In i idxs -> In (cat i) cats) ->
    Rsum (map (fun c => Rsum (map v (rows_of c idxs))) (filter p cats)) = Rsum (map v (filter (fun i => p (cat i)) idxs)).
  Proof.
    intros D. induction idxs as [|i idxs IH]; intros Hin.
    - cbn. induction (filter p cats) as [|c l IHl]; [reflexivity|]. cbn in *. rewrite IHl. lra.
    - assert (E : forall c, Rsum (map v (rows_of c (i :: idxs))) = Rsum (map v (rows_of c [i])) + Rsum (map v (rows_of c idxs))).
      { intros c. unfold rows_of. cbn [filter]. destruct (_ =? _)%Z; cbn; lra. }
      rewrite (map_ext _ _ E), Rsum_map_plus, IH by (intros j Hj; apply Hin; now right).
      rewrite (group_one v i cats p D) by (apply Hin; now left). cbn [filter]. destruct (p (cat i)); cbn; lra.
  Qed.
  Lemma group_count idxs cats (p : Z -> bool) : NoDup cats -> (forall i, In i idxs -> In (cat i) cats) ->
    fold_right (fun c z => (Z.of_nat (List.length (rows_of c idxs)) + z)%Z) 0%Z (filter p cats)
    = Z.of_nat (List.length (filter (fun i => p (cat i)) idxs)).
  Proof.
    intros D Hin. apply eq_IZR. pose proof (group_sum (fun _ => 1) idxs cats p D Hin) as K.
    rewrite Rsum_map_const in K. rewrite <- INR_IZR_INZ. rewrite Rmult_1_r in K. rewrite <- K. clear K.
    induction (filter p cats) as [|c l IH]; [reflexivity|]. cbn [fold_right map Rsum]. rewrite plus_IZR, IH, <- INR_IZR_INZ, Rsum_map_const. lra.
  Qed.
End Group.

(** ** Fisher's argument: some cut of the items sorted by ratio is at least as good as any
    division. *)
Section Fisher.
  Context {A : Type} (g h : A -> R).
  Definition total (v : A -> R) (l : list A) : R := Rsum (map v l).
  Lemma total_app v l r : total v (l ++ r) = total v l + total v r.
  Proof. unfold total. rewrite map_app. apply Rsum_app. Qed.
  Lemma total_perm v l r : Permutation l r -> total v l = total v r.
  Proof. intros P. apply Rsum_perm, Permutation_map, P. Qed.
  Lemma total_split (p : A -> bool) v l : total v l = total v (filter p l) + total v (filter (fun x => negb (p x)) l).
  Proof. unfold total. induction l as [|x l IH]; cbn; [lra|]. destruct (p x); cbn; rewrite IH; lra. Qed.
  Lemma total_pos v l : (forall x, In x l -> 0 < v x) -> l <> [] -> 0 < total v l.
  Proof.
    intros H Hne. destruct l as [|x l]; [easy|]. unfold total. cbn. assert (0 < v x) by (apply H; now left).
    assert (0 <= Rsum (map v l)); [|lra]. apply Rsum_nonneg. intros y Hy. apply in_map_iff in Hy as (z & <- & Hz). left. apply H. now right.
  Qed.
  Definition score (gs hs : R) : R := gs * gs / hs.
  Lemma score_tangent gs hs w : 0 < hs -> 2 * gs * w - hs * (w * w) <= score gs hs.
  Proof.
    intros H. unfold score. assert (E : gs * gs / hs - (2 * gs * w - hs * (w * w)) = hs * ((gs / hs - w) * (gs / hs - w))) by (field; lra).
    pose proof (sq_nonneg (gs / hs - w)). nra.
  Qed.
  Lemma score_touch gs hs : 0 < hs -> score gs hs = 2 * gs * (gs / hs) - hs * (gs / hs * (gs / hs)).
  Proof. intros H. unfold score. field. lra. Qed.
  (** [t x w]: contribution of item [x] with slope [w] *)
  Definition item (w : R) (x : A) : R := 2 * g x * w - h x * (w * w).
  Lemma item_total w l : total (item w) l = 2 * total g l * w - total h l * (w * w).
  Proof. unfold total, item. induction l as [|x l IH]; cbn; [lra|]. rewrite IH. lra. Qed.
  Lemma fisher_lt (l : list A) (p : A -> bool) :
    (forall x, In x l -> 0 < h x) -> StronglySorted (fun x y => g x / h x <= g y / h y) l ->
    let gl := total g (filter p l) in let hl := total h (filter p l) in
    let gr := total g (filter (fun x => negb (p x)) l) in let hr := total h (filter (fun x => negb (p x)) l) in
    0 < hl -> 0 < hr -> gl / hl < gr / hr ->
    exists k, (0 < k < List.length l)%nat
      /\ score gl hl + score gr hr <= score (total g (firstn k l)) (total h (firstn k l)) + score (total g (skipn k l)) (total h (skipn k l)).
  Proof.
    intros Hpos Hs gl hl gr hr Hl Hr Hw. set (wl := gl / hl) in *. set (wr := gr / hr) in *.
    set (c := (wl + wr) / 2).
    (* the items preferring the left slope *)
    assert (Hpref : forall x, In x l -> (g x / h x <= c -> item wr x <= item wl x) /\ (c <= g x / h x -> item wl x <= item wr x)).
    { intros x Hx. specialize (Hpos x Hx). unfold item. set (q := g x / h x). assert (Eg : g x = h x * q) by (unfold q; field; lra). rewrite Eg.
      split; intros Hq; unfold c in Hq.
      - assert (E : 2 * (h x * q) * wl - h x * (wl * wl) - (2 * (h x * q) * wr - h x * (wr * wr)) = h x * ((wr - wl) * (wl + wr - 2 * q))) by ring.
        assert (0 <= (wr - wl) * (wl + wr - 2 * q)) by (apply Rmult_le_pos; lra). assert (0 <= h x * ((wr - wl) * (wl + wr - 2 * q))) by (apply Rmult_le_pos; lra). lra.
      - assert (E : 2 * (h x * q) * wr - h x * (wr * wr) - (2 * (h x * q) * wl - h x * (wl * wl)) = h x * ((wr - wl) * (2 * q - (wl + wr)))) by ring.
        assert (0 <= (wr - wl) * (2 * q - (wl + wr))) by (apply Rmult_le_pos; lra). assert (0 <= h x * ((wr - wl) * (2 * q - (wl + wr)))) by (apply Rmult_le_pos; lra). lra. }
    (* a cut with all smaller ratios left of it *)
    assert (Hcut : forall l', StronglySorted (fun x y => g x / h x <= g y / h y) l' -> exists k, (k <= List.length l')%nat
              /\ (forall x, In x (firstn k l') -> g x / h x <= c) /\ forall x, In x (skipn k l') -> c <= g x / h x).
    { clear. intros l'. induction 1 as [|x l0 H IH F]; [exists 0%nat; split; [cbn; lia|]; split; intros x []|].
      destruct (Rle_dec (g x / h x) c) as [Hx|Hx].
      - destruct IH as (k & K1 & K2 & K3). exists (S k). split; [cbn; lia|]. split; [intros y [<-|Hy]; auto|exact K3].
      - exists 0%nat. split; [lia|]. split; [intros y []|]. intros y [<-|Hy]; [lra|]. rewrite Forall_forall in F. specialize (F y Hy). lra. }
    destruct (Hcut l Hs) as (k & Hk & K1 & K2). clear Hcut.
    assert (Hin1 : forall x, In x (firstn k l) -> In x l) by (intros x Hx; rewrite <- (firstn_skipn k l); apply in_app_iff; now left).
    assert (Hin2 : forall x, In x (skipn k l) -> In x l) by (intros x Hx; rewrite <- (firstn_skipn k l); apply in_app_iff; now right).
    (* every item contributes at least as much in the cut *)
    assert (Hval : total (item wl) (filter p l) + total (item wr) (filter (fun x => negb (p x)) l)
                   <= total (item wl) (firstn k l) + total (item wr) (skipn k l)).
    { assert (E : forall l', total (item wl) (filter p l') + total (item wr) (filter (fun x => negb (p x)) l') = total (fun x => if p x then item wl x else item wr x) l').
      { clear. intros l'. unfold total. induction l' as [|x l0 IH]; cbn; [lra|]. destruct (p x); cbn; lra. }
      rewrite E. rewrite <- (firstn_skipn k l) at 1. rewrite total_app.
      assert (L : forall l', (forall x, In x l' -> g x / h x <= c /\ In x l) -> total (fun x => if p x then item wl x else item wr x) l' <= total (item wl) l').
      { clear - Hpref. intros l' H. unfold total. induction l' as [|x l' IH]; cbn; [lra|]. destruct (H x (or_introl eq_refl)) as [H1 H2].
        pose proof (proj1 (Hpref x H2) H1). assert (Rsum (map (fun x => if p x then item wl x else item wr x) l') <= Rsum (map (item wl) l')) by (apply IH; intros y Hy; apply H; now right).
        destruct (p x); lra. }
      assert (L2 : forall l', (forall x, In x l' -> c <= g x / h x /\ In x l) -> total (fun x => if p x then item wl x else item wr x) l' <= total (item wr) l').
      { clear - Hpref. intros l' H. unfold total. induction l' as [|x l' IH]; cbn; [lra|]. destruct (H x (or_introl eq_refl)) as [H1 H2].
        pose proof (proj2 (Hpref x H2) H1). assert (Rsum (map (fun x => if p x then item wl x else item wr x) l') <= Rsum (map (item wr) l')) by (apply IH; intros y Hy; apply H; now right).
        destruct (p x); lra. }
      pose proof (L (firstn k l)) as La. pose proof (L2 (skipn k l)) as Lb.
      assert (forall x, In x (firstn k l) -> g x / h x <= c /\ In x l) by (intros; split; auto).
      assert (forall x, In x (skipn k l) -> c <= g x / h x /\ In x l) by (intros; split; auto).
      specialize (La H). specialize (Lb H0). lra. }
    assert (EL : score gl hl = total (item wl) (filter p l)) by (rewrite item_total; fold gl hl; unfold wl; apply score_touch, Hl).
    assert (ER : score gr hr = total (item wr) (filter (fun x => negb (p x)) l)) by (rewrite item_total; fold gr hr; unfold wr; apply score_touch, Hr).
    rewrite <- EL, <- ER in Hval.
    assert (EG : total g l = gl + gr) by apply total_split. assert (EH : total h l = hl + hr) by apply total_split.
    (* the degenerate cuts are worse than any division with different slopes *)
    assert (Hdeg : forall w, 2 * (gl + gr) * w - (hl + hr) * (w * w) < score gl hl + score gr hr).
    { intros w. pose proof (score_tangent gl hl w Hl). pose proof (score_tangent gr hr w Hr).
      destruct (Req_dec w wl) as [Ew|Ew].
      - assert (2 * gr * w - hr * (w * w) < score gr hr); [|lra].
        assert (E : score gr hr - (2 * gr * w - hr * (w * w)) = hr * ((wr - w) * (wr - w))) by (unfold wr, score; field; lra).
        assert (0 < (wr - w) * (wr - w)) by (apply Rmult_lt_0_compat || nra; lra). assert (0 < hr * ((wr - w) * (wr - w))) by (apply Rmult_lt_0_compat; lra). lra.
      - assert (2 * gl * w - hl * (w * w) < score gl hl); [|lra].
        assert (E : score gl hl - (2 * gl * w - hl * (w * w)) = hl * ((wl - w) * (wl - w))) by (unfold wl, score; field; lra).
        assert (0 < (wl - w) * (wl - w)) by (assert (wl - w <> 0) by lra; now apply Rsqr_pos_lt). assert (0 < hl * ((wl - w) * (wl - w))) by (apply Rmult_lt_0_compat; lra). lra. }
    exists k. assert (K : (0 < k < List.length l)%nat).
    { split.
      - destruct k as [|k]; [exfalso|lia]. cbn [firstn skipn] in Hval. unfold total in Hval at 1. cbn [map Rsum] in Hval.
        rewrite item_total, EG, EH in Hval. specialize (Hdeg wr). lra.
      - destruct (Nat.eq_dec k (List.length l)) as [->|]; [exfalso|lia]. rewrite firstn_all, skipn_all in Hval.
        unfold total in Hval at 2. cbn [map Rsum] in Hval. rewrite item_total, EG, EH in Hval. specialize (Hdeg wl). lra. }
    split; [exact K|]. rewrite !item_total in Hval.
    assert (P1 : 0 < total h (firstn k l)).
    { apply total_pos; [auto|]. destruct l; [cbn in K; lia|]. destruct k; [lia|]. discriminate. }
    assert (P2 : 0 < total h (skipn k l)).
    { apply total_pos; [auto|]. intros E. pose proof (skipn_length k l) as Ek. rewrite E in Ek. cbn in Ek. lia. }
    pose proof (score_tangent (total g (firstn k l)) (total h (firstn k l)) wl P1).
    pose proof (score_tangent (total g (skipn k l)) (total h (skipn k l)) wr P2). lra.
  Qed.
  Lemma fisher (l : list A) (p : A -> bool) :
    (forall x, In x l -> 0 < h x) -> StronglySorted (fun x y => g x / h x <= g y / h y) l ->
    let gl := total g (filter p l) in let hl := total h (filter p l) in
    let gr := total g (filter (fun x => negb (p x)) l) in let hr := total h (filter (fun x => negb (p x)) l) in
    0 < hl -> 0 < hr ->
    score gl hl + score gr hr <= score (gl + gr) (hl + hr)
    \/ exists k, (0 < k < List.length l)%nat
      /\ score gl hl + score gr hr <= score (total g (firstn k l)) (total h (firstn k l)) + score (total g (skipn k l)) (total h (skipn k l)).
  Proof.
    intros Hpos Hs gl hl gr hr Hl Hr. destruct (Rtotal_order (gl / hl) (gr / hr)) as [H|[H|H]].
    - right. exact (fisher_lt l p Hpos Hs Hl Hr H).
    - left. unfold score. assert (E1 : gl = hl * (gr / hr)) by (rewrite <- H; field; lra). assert (E2 : gr = hr * (gr / hr)) by (field; lra).
      set (w := gr / hr) in *. rewrite E1, E2.
      replace (hl * w * (hl * w) / hl + hr * w * (hr * w) / hr) with ((hl * w + hr * w) * (hl * w + hr * w) / (hl + hr)) by (field; lra). lra.
    - right. assert (Ep : filter (fun x => negb (negb (p x))) l = filter p l) by (apply filter_ext; intros x; apply negb_involutive).
      destruct (fisher_lt l (fun x => negb (p x)) Hpos Hs) as (k & K1 & K2).
      + exact Hr.
      + rewrite Ep. exact Hl.
      + rewrite Ep. exact H.
      + exists k. split; [exact K1|]. rewrite Ep in K2. fold gl hl gr hr in K2. lra.
  Qed.
End Fisher.

(** ** Cuts of the sorted categories *)
Lemma filter_all {A} (p : A -> bool) l : (forall x, In x l -> p x = true) -> filter p l = l.
Proof. induction l as [|x l IH]; intros H; [reflexivity|]. cbn. rewrite (H x (or_introl eq_refl)). f_equal. apply IH. intros y Hy. apply H. now right. Qed.
Lemma filter_none {A} (p : A -> bool) l : (forall x, In x l -> p x = false) -> filter p l = [].
Proof. induction l as [|x l IH]; intros H; [reflexivity|]. cbn. rewrite (H x (or_introl eq_refl)). apply IH. intros y Hy. apply H. now right. Qed.
Definition among (l : list Z) (c : Z) : bool := existsb (Z.eqb c) l.
Lemma among_in l c : among l c = true <-> In c l.
Proof. unfold among. rewrite existsb_exists. split; [intros (x & H & E); apply Z.eqb_eq in E; now subst|intros H; exists c; split; [exact H|apply Z.eqb_refl]]. Qed.
Lemma among_cut (l : list Z) k : NoDup l ->
  filter (among (firstn k l)) l = firstn k l /\ filter (fun c => negb (among (firstn k l) c)) l = skipn k l.
Proof.
  intros D. assert (S : forall x, In x (skipn k l) -> among (firstn k l) x = false).
  { intros x Hx. destruct (among (firstn k l) x) eqn:E; [|reflexivity]. apply among_in in E. exfalso.
    rewrite <- (firstn_skipn k l) in D. revert E Hx D. generalize (firstn k l) (skipn k l). clear. intros a b.
    induction a as [|y a IH]; [intros []|]. cbn. intros [->|E] Hx D; inversion D; subst; [|auto]. apply H1. apply in_app_iff. now right. }
  assert (F : forall x, In x (firstn k l) -> among (firstn k l) x = true) by (intros x Hx; now apply among_in).
  assert (E1 : filter (among (firstn k l)) (firstn k l ++ skipn k l) = firstn k l) by (rewrite filter_app, (filter_all _ _ F), (filter_none _ _ S); apply app_nil_r).
  assert (E2 : filter (fun c => negb (among (firstn k l) c)) (firstn k l ++ skipn k l) = skipn k l).
  { rewrite filter_app, filter_none, filter_all; [reflexivity| |]; intros x Hx; [now rewrite (S x Hx)|now rewrite (F x Hx)]. }
  rewrite firstn_skipn in E1, E2. split; assumption.
Qed.
Lemma sorted_map {A B} (r : B -> B -> Prop) (g : A -> B) l : StronglySorted r (map g l) -> StronglySorted (fun x y => r (g x) (g y)) l.
Proof.
  induction l as [|x l IH]; intros H; [constructor|]. inversion H as [|? ? H1 H2]; subst. constructor; [now apply IH|].
  rewrite Forall_forall in *. intros y Hy. apply H2. now apply in_map.
Qed.

Section CatRows.
  Variables (toint : R -> Z) (sortr : list (R * bin RNum) -> list (R * bin RNum)).
  Variables (X : nat -> nat -> R) (G H : nat -> R) (f : nat) (idxs : list nat).
  Variables (lambda alpha : R) (mindata : Z).
  Hypothesis Hint : forall z : Z, toint (IZR z) = z.
  Hypothesis Hsort : go_sort (fun a b => @nlt RNum (fst a) (fst b)) sortr.
  Let cat i := toint (X i f).
  Let cb := @cat_bin RNum toint X G H f idxs.
  Let hist := @cat_hist RNum toint X G H f idxs.
  Definition gs (c : Z) : R := Rsum (map G (rows_of cat c idxs)).
  Definition hs (c : Z) : R := Rsum (map H (rows_of cat c idxs)).
  Lemma cb_fields c : b_cnt (cb c) = Z.of_nat (List.length (rows_of cat c idxs)) /\ b_g (cb c) = gs c /\ b_h (cb c) = hs c
    /\ toint (b_lo (cb c)) = c.
  Proof.
    unfold cb, cat_bin. cbn [b_cnt b_g b_h b_lo]. split; [reflexivity|]. split; [apply nsum_R|]. split; [apply nsum_R|].
    rewrite nofZ_R. apply Hint.
  Qed.
  Lemma sorted_cats : exists cats', NoDup cats' /\ (forall c, In c cats' <-> exists i, In i idxs /\ cat i = c)
    /\ List.length cats' = List.length (h_bins hist)
    /\ map snd (sortr (map (fun b => (@ndiv RNum (b_g b) (@nadd RNum (b_h b) lambda), b)) (h_bins hist))) = map cb cats'
    /\ StronglySorted (fun x y => gs x / (hs x + lambda) <= gs y / (hs y + lambda)) cats'.
  Proof.
    set (cats := isort Z.ltb (nodup Z.eq_dec (map cat idxs))).
    assert (Eh : h_bins hist = map cb cats) by reflexivity.
    set (pr := fun c => (gs c / (hs c + lambda), cb c) : R * bin RNum).
    assert (Ep : map (fun b => (@ndiv RNum (b_g b) (@nadd RNum (b_h b) lambda), b)) (h_bins hist) = map pr cats).
    { rewrite Eh, map_map. apply map_ext. intros c. destruct (cb_fields c) as (_ & E1 & E2 & _). unfold pr. rewrite E1, E2. reflexivity. }
    destruct (Hsort (map pr cats)) as [P O]. rewrite Ep. apply Permutation_sym in P.
    destruct (Permutation_map_inv _ _ P) as (cats' & E & P').
    exists cats'. split; [eapply Permutation_NoDup; [exact P'|apply sorted_nodup, zsorted_cats]|]. split; [|split; [|split]].
    - intros c.
      split.
      + intros Hc. apply Permutation_sym, (fun p => Permutation_in c p Hc) in P'. apply cats_in, in_map_iff in P' as (i & <- & Hi). now exists i.
      + intros (i & Hi & <-). apply (Permutation_in _ P'). apply cats_in. now apply in_map.
    - rewrite Eh, map_length. symmetry. now apply Permutation_length.
    - rewrite E, map_map. reflexivity.
    - rewrite E in O. apply sorted_map in O. clear - O. induction O as [|x l O IH F]; constructor; [exact IH|].
      rewrite Forall_forall in *. intros y Hy. specialize (F y Hy). unfold pr in F. cbn [fst nlt RNum] in F. now apply Rltb_false.
  Qed.
  Definition lrows (p : Z -> bool) : list nat := filter (fun i => p (cat i)) idxs.
  Definition rrows (p : Z -> bool) : list nat := filter (fun i => negb (p (cat i))) idxs.
  Lemma cut_cats cats' k : NoDup cats' -> (forall c, In c cats' <-> exists i, In i idxs /\ cat i = c) ->
    let bins := map cb cats' in let p := among (firstn k cats') in
    @count_all RNum (firstn k bins) = Z.of_nat (List.length (lrows p)) /\ @count_all RNum (skipn k bins) = Z.of_nat (List.length (rrows p))
    /\ @left_g RNum bins k = sum_of G (lrows p) /\ @left_h RNum bins k = sum_of H (lrows p)
    /\ sum_of G idxs = sum_of G (lrows p) + sum_of G (rrows p) /\ sum_of H idxs = sum_of H (lrows p) + sum_of H (rrows p).
  Proof.
    intros D Hc bins p. assert (Hin : forall i, In i idxs -> In (cat i) cats') by (intros i Hi; apply Hc; now exists i).
    destruct (among_cut cats' k D) as [A1 A2]. fold p in A1, A2.
    assert (EC : forall l, @count_all RNum (map cb l) = fold_right (fun c z => (Z.of_nat (List.length (rows_of cat c idxs)) + z)%Z) 0%Z l).
    { induction l as [|c l IH]; [reflexivity|]. cbn. unfold count_all in IH. cbn in IH. now rewrite IH. }
    assert (Ef : firstn k bins = map cb (firstn k cats')) by apply firstn_map.
    assert (Es : skipn k bins = map cb (skipn k cats')) by apply skipn_map.
    split; [|split; [|split; [|split; [|split]]]].
    - rewrite Ef, EC, <- A1. unfold lrows. now rewrite (group_count cat idxs cats' p D Hin).
    - rewrite Es, EC, <- A2. unfold rrows. now rewrite (group_count cat idxs cats' (fun c => negb (p c)) D Hin).
    - unfold left_g. rewrite Ef, map_map. rewrite nsum_R.
      rewrite (map_ext _ gs) by (intros c; apply cb_fields). rewrite <- A1. apply (group_sum cat G idxs cats' p D Hin).
    - unfold left_h. rewrite Ef, map_map. rewrite nsum_R.
      rewrite (map_ext _ hs) by (intros c; apply cb_fields). rewrite <- A1. apply (group_sum cat H idxs cats' p D Hin).
    - apply (total_split (fun i => p (cat i)) G idxs).
    - apply (total_split (fun i => p (cat i)) H idxs).
  Qed.
End CatRows.
