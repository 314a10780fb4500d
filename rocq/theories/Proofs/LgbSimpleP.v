From Coq Require Import String List Arith ZArith Bool Lia.
From Verif Require Import Base.Num Base.GoRes Base.Mat Base.ListX Model.LgbTransform Model.LgbTree Model.LgbEstimator Model.LgbSimple
  Spec.LgbTree Spec.LgbSimple Proofs.LgbTreeP Proofs.LgbArrayP.
Import ListNotations.
Local Open Scope list_scope.
Local Open Scope nat_scope.

Section P.
  Context {N : Num}.
  Lemma getZ_get {A} (l : list A) z : (0 <= z)%Z -> getZ l z = nth_error l (Z.to_nat z).
  Proof. intros H. rewrite <- (Z2Nat.id z) at 1 by exact H. apply getZ_nat. Qed.
  Lemma swalk_stores (T : gtree N) x : forall t id fuel, stores (gt_nodes T) id t -> isize t < fuel ->
    swalk fuel T id x = Some (Ok (times_rate (gt_shrink T) (leaf_of t x))).
  Proof.
    induction t as [v|q l IHl r IHr]; intros id fuel S Hf; (destruct fuel as [|fuel]; [lia|]); inversion S as [? n E1 E2 E3|? n ? ? E1 E2 P1 P2 P3 SL SR]; subst; cbn [swalk leaf_of].
    - now rewrite E1, E2.
    - rewrite E1, E2. cbn [isize] in Hf. unfold goes_left. cbn [q_feat q_thr q_left].
      assert (D : swalk fuel T (g_default n) x = Some (Ok (times_rate (gt_shrink T) (if g_defl n then leaf_of l x else leaf_of r x)))).
      { unfold g_default. destruct (g_defl n); [apply IHl|apply IHr]; auto; lia. }
      destruct (Z.leb_spec (Z.of_nat (List.length x)) (g_feat n)) as [G|G].
      + replace (nth_error x (Z.to_nat (g_feat n))) with (@None N) by (symmetry; apply nth_error_None; lia). exact D.
      + rewrite getZ_get by exact P3. destruct (nth_error x (Z.to_nat (g_feat n))) as [v|] eqn:Ev; [|apply nth_error_None in Ev; lia].
        destruct (nisnan v); [exact D|]. destruct (nle v (g_thr n)).
        * replace (g_left n <? 0)%Z with false by (symmetry; apply Z.ltb_ge; lia). apply IHl; auto; lia.
        * replace (g_right n <? 0)%Z with false by (symmetry; apply Z.ltb_ge; lia). apply IHr; auto; lia.
  Qed.
  Lemma simple_stores (T : gtree N) x t fuel : stores (gt_nodes T) 0 t -> isize t < fuel ->
    simple_tree fuel T x = Some (Ok (times_rate (gt_shrink T) (leaf_of t x))).
  Proof.
    intros S Hf. unfold simple_tree. destruct (gt_nodes T) as [|n ns] eqn:E; [|rewrite <- E in S; now apply swalk_stores].
    exfalso. inversion S; discriminate.
  Qed.
  Lemma swalk_text (d : tdoc N) (T : gtree N) x : fin_node d (gt_nodes T) -> gt_leaves T = d_lv d ->
    forall t c is ls fuel, describes d c t is ls -> inner t = true -> isize t < fuel ->
    swalk fuel T c x = Some (Ok (if ends_missing t x then n0 else times_rate (gt_shrink T) (leaf_of t x))).
  Proof.
    intros HF HLv. induction t as [v|q l IHl r IHr]; intros c is ls fuel D Hi Hf; [discriminate|].
    inversion D as [|i f th code lc rc l' r' il ir ll lr E1 E2 E3 E4 E5 E6 DL DR]; subst. cbn [isize ends_missing leaf_of] in *.
    destruct fuel as [|fuel]; [lia|]. cbn [swalk].
    rewrite getZ_nat, (HF i f th code lc rc) by assumption. unfold g_default, goes_left, lacks. cbn [g_left g_right g_feat g_defl g_type g_thr test_of q_feat q_left q_thr].
    (* one child, reached by a missing value or by a comparison *)
    assert (K : forall child cc ci cl, describes d cc child ci cl -> isize child < fuel ->
        (forall is ls fuel, describes d cc child is ls -> inner child = true -> isize child < fuel ->
           swalk fuel T cc x = Some (Ok (if ends_missing child x then n0 else times_rate (gt_shrink T) (leaf_of child x)))) ->
        swalk fuel T cc x = Some (Ok (if (if inner child then ends_missing child x else true) then n0 else times_rate (gt_shrink T) (leaf_of child x)))
        /\ (if (cc <? 0)%Z then Some (Ok (match getZ (gt_leaves T) (- (cc + 1)) with Some w => shrunk T w | None => n0 end)) else swalk fuel T cc x)
           = Some (Ok (if (if inner child then ends_missing child x else false) then n0 else times_rate (gt_shrink T) (leaf_of child x)))).
    { intros child cc ci cl DC Hs IH. destruct child as [w|qc c1 c2].
      - inversion DC as [k w' Ek|]; subst. destruct fuel as [|fuel']; [lia|]. cbn [inner leaf_of swalk]. rewrite getZ_neg by lia. split; [reflexivity|].
        replace (- Z.of_nat k - 1 <? 0)%Z with true by (symmetry; apply Z.ltb_lt; lia).
        replace (- (- Z.of_nat k - 1 + 1))%Z with (Z.of_nat k) by lia. rewrite getZ_nat, HLv, Ek. reflexivity.
      - destruct (describes_node _ _ _ _ _ DC eq_refl) as [k [il' [-> _]]]. replace (Z.of_nat k <? 0)%Z with false by (symmetry; apply Z.ltb_ge; lia).
        cbn [inner]. rewrite (IH _ _ _ DC eq_refl Hs). split; reflexivity. }
    destruct (K l lc _ _ DL ltac:(lia) (fun is ls fu => IHl lc is ls fu)) as [KL1 KL2].
    destruct (K r rc _ _ DR ltac:(lia) (fun is ls fu => IHr rc is ls fu)) as [KR1 KR2]. clear K.
    destruct (Z.leb_spec (Z.of_nat (List.length x)) (Z.of_nat f)) as [G|G].
    - replace (nth_error x f) with (@None N) by (symmetry; apply nth_error_None; lia).
      destruct (Z.testbit code 1); assumption.
    - rewrite getZ_nat. destruct (nth_error x f) as [v|] eqn:Ev; [|apply nth_error_None in Ev; lia].
      destruct (nisnan v); [destruct (Z.testbit code 1); assumption|]. destruct (nle v th); assumption.
  Qed.
  Lemma simple_text (d : tdoc N) t first T x fuel : well_formed d t -> finalize first d = Ok T -> isize t < fuel ->
    simple_tree fuel T x = Some (Ok (if ends_missing t x then n0 else times_rate (d_shrink d) (leaf_of t x))).
  Proof.
    intros W F Hf. destruct (finalize_spec d t first W) as [ns [E [Hl HF]]]. rewrite E in F. injection F as <-.
    destruct W as [is [ls [D _]]]. pose proof (describes_inner _ _ _ _ _ D) as Hi. cbn in Hi.
    destruct (describes_node _ _ _ _ _ D Hi) as [i0 [is0 [Ei0 ->]]]. destruct (describes_range _ _ _ _ _ D i0 (or_introl eq_refl)) as [Hr _].
    unfold simple_tree. cbn [gt_nodes]. destruct ns as [|n ns]; [cbn in Hl; lia|].
    apply (swalk_text d (mkgt (n :: ns) (d_lv d) (d_shrink d) _ (d_leaves d)) x HF eq_refl t 0 _ _ fuel D Hi Hf).
  Qed.
  Lemma acc_nth (add : N -> N -> N) k init (outs : list N) c : c < k ->
    nth_error (accumulate add k init outs) c = Some (fold_left add (class_outputs k c outs) init).
  Proof.
    intros Hc. unfold accumulate, class_outputs. generalize (combine (seq 0 (List.length outs)) outs). intros l.
    assert (K : forall acc a, nth_error acc c = Some a ->
      nth_error (fold_left (fun acc io => upd (Nat.modulo (fst io) k) (fun v => add v (snd io)) acc) l acc) c
      = Some (fold_left add (map snd (filter (fun io => Nat.eqb (Nat.modulo (fst io) k) c) l)) a)).
    { induction l as [|io l IH]; intros acc a Ha; cbn [fold_left filter map]; [exact Ha|].
      destruct (Nat.eqb_spec (Nat.modulo (fst io) k) c) as [E|E].
      - cbn [map fold_left]. apply IH. rewrite E, nth_error_upd_same, Ha. reflexivity.
      - apply IH. rewrite nth_error_upd_other by congruence. exact Ha. }
    apply K. rewrite nth_error_repeat by exact Hc. reflexivity.
  Qed.
  Lemma leaf_eval (t : btree N) x : fits x t -> eval plain_left t x = Some (leaf_of t x).
  Proof.
    induction t as [v|q l IHl r IHr]; intros H; [reflexivity|]. cbn [eval leaf_of]. unfold goes_left.
    destruct (nth_error x (q_feat q)) as [v|] eqn:Ev; [|apply nth_error_None in Ev; specialize (H (q_feat q) (or_introl eq_refl)); lia].
    change (if nisnan v then q_left q else nle v (q_thr q)) with (plain_left q v).
    destruct (plain_left q v); [apply IHl|apply IHr]; intros f' Hf'; apply H; right; apply in_or_app; auto.
  Qed.
End P.
