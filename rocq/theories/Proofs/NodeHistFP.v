(** No row of finite data is lost by the trainer's own histograms, in binary64. *)
From Coq Require Import List Arith ZArith Bool Lia Sorted Permutation Reals Lra.
From Flocq Require Import Core.Core IEEE754.BinarySingleNaN.
From Verif Require Import Base.Num Base.GoRes Base.ListX Base.GoSort Base.FTac Spec.Order Model.LgbTree Model.LgbHist Model.NodeHist
  Spec.LgbHist Proofs.OrderP Proofs.LgbHistP Proofs.NodeHistP.
Import ListNotations.
Local Open Scope list_scope.

(** ** The search, from the comparison laws alone *)
Section Laws.
  Context {N : Num}.
  Hypotheses (LT : lt_laws N) (CMP : cmp_laws N).
  Local Open Scope num_scope.
  Notation ok v := (nisnan v = false).

  Lemma scan_or_last (v : N) bs : forall a i0, ok v -> (forall b, In b (a :: bs) -> ok b) -> v <? a = false ->
    (exists i, node_scan v (empty_bins (a :: bs)) i0 = Some (i0 + i)%nat /\ (i < List.length bs)%nat)
    \/ v <? last (a :: bs) n0 = false /\ node_scan v (empty_bins (a :: bs)) i0 = None.
  Proof.
    induction bs as [|b bs IH]; intros a i0 Hv Hb Ha; [right; split; [exact Ha|reflexivity]|].
    change (empty_bins (a :: b :: bs)) with (mkbin a b 0 n0 n0 :: empty_bins (b :: bs)). cbn [node_scan b_lo b_hi].
    rewrite (cmp_le N CMP) by (first [exact Hv | apply Hb; now left]). rewrite Ha. cbn [negb andb].
    destruct (v <? b) eqn:E.
    - left. exists 0%nat. rewrite Nat.add_0_r. cbn. split; [reflexivity|lia].
    - destruct (IH b (S i0) Hv ltac:(intros; apply Hb; now right) E) as [(i & Ei & Hi)|[E1 E2]].
      + left. exists (S i). split; [rewrite Ei; f_equal; lia|cbn; lia].
      + right. split; [exact E1|exact E2].
  Qed.
  Lemma last_hi (bs : list N) : forall a b d, b_hi (last (empty_bins (a :: b :: bs)) d) = last (b :: bs) n0.
  Proof.
    induction bs as [|c bs IH]; intros a b d; [reflexivity|].
    change (empty_bins (a :: b :: c :: bs)) with (mkbin a b 0 n0 n0 :: empty_bins (b :: c :: bs)).
    change (last (b :: c :: bs) n0) with (last (c :: bs) n0). rewrite <- (IH b c d).
    change (empty_bins (b :: c :: bs)) with (mkbin b c 0 n0 n0 :: empty_bins (c :: bs)). reflexivity.
  Qed.
  Lemma node_find_some (v a b : N) bs : ok v -> (forall x, In x (a :: b :: bs) -> ok x) -> v <? a = false -> last (b :: bs) n0 <? v = false ->
    exists i, node_find v (empty_bins (a :: b :: bs)) = Some i /\ (i < List.length (empty_bins (a :: b :: bs)))%nat.
  Proof.
    intros Hv Hb Ha Hl. rewrite empty_bins_length. cbn [List.length].
    destruct (scan_or_last v (b :: bs) a 0%nat Hv Hb Ha) as [(i & Ei & Hi)|[E1 E2]]; unfold node_find.
    - rewrite Ei. exists i. cbn in Hi. split; [reflexivity|lia].
    - rewrite E2. change (empty_bins (a :: b :: bs)) with (mkbin a b 0 n0 n0 :: empty_bins (b :: bs)) at 1. cbv iota beta.
      change (mkbin a b 0 n0 n0 :: empty_bins (b :: bs)) with (empty_bins (a :: b :: bs)). rewrite last_hi.
      assert (Ho : ok (last (b :: bs) n0)).
      { apply Hb. right. assert (K : forall l (x : N), In (last (x :: l) n0) (x :: l)) by (induction l as [|y l IH]; intros x; [now left|right; apply IH]). apply K. }
      rewrite (cmp_eq N CMP) by assumption. change (last (a :: b :: bs) n0) with (last (b :: bs) n0) in E1. rewrite E1, Hl. cbn [negb andb].
      eexists. split; [reflexivity|]. rewrite empty_bins_length. cbn. lia.
  Qed.

  Lemma uniq_from_in (l : list N) : forall p x, In x (uniq_from p l) -> In x l.
  Proof.
    induction l as [|y l IH]; intros p x K; cbn in K; [easy|]. destruct (y =? p); [right; eauto|]. destruct K as [<-|K]; [now left|right; eauto].
  Qed.
  Lemma uniq_last (l : list N) : forall p, (forall x, In x (p :: l) -> ok x) -> ordered fless (p :: l) ->
    forall v, In v (p :: l) -> last (p :: uniq_from p l) n0 <? v = false.
  Proof.
    assert (Lin : forall (l : list N) p, In (last (p :: uniq_from p l) n0) (p :: l)).
    { intros l0 p. assert (K : forall (m : list N) x, In (last (x :: m) n0) (x :: m)) by (induction m as [|y m IH]; intros x; [now left|right; apply IH]).
      destruct (K (uniq_from p l0) p) as [K'|K']; [rewrite <- K'; now left|right; eapply uniq_from_in; exact K']. }
    induction l as [|x l IH]; intros p Hok Ho v Hv.
    { destruct Hv as [<-|[]]. apply (lt_irrefl N LT). }
    inversion Ho as [|? ? Ho' Hf]; subst. rewrite Forall_forall in Hf.
    assert (Okp : ok p) by (apply Hok; now left). assert (Okx : ok x) by (apply Hok; right; now left).
    assert (Hok' : forall y, In y (x :: l) -> ok y) by (intros; apply Hok; now right).
    assert (Hxp : x <? p = false).
    { specialize (Hf x (or_introl eq_refl)). unfold fless in Hf. now apply orb_false_elim in Hf. }
    assert (Main : forall w, In w (p :: x :: l) -> last (x :: uniq_from x l) n0 <? w = false).
    { intros w [<-|Hw]; [|now apply IH]. apply (lt_negtrans N LT _ x); [apply Hok', Lin|exact Okx|exact Okp| |exact Hxp]. apply IH; auto. now left. }
    cbn [uniq_from]. destruct (x =? p) eqn:E.
    - destruct (uniq_from x l) as [|y r] eqn:Er.
      + cbn [last] in *. rewrite (cmp_eq N CMP) in E by assumption. apply andb_prop in E as [_ E]. apply negb_true_iff in E.
        apply (lt_negtrans N LT _ x); [exact Okp|exact Okx|apply Hok, Hv|exact E|apply Main, Hv].
      + change (last (p :: y :: r) n0) with (last (x :: y :: r) n0). apply Main, Hv.
    - change (last (p :: x :: uniq_from x l) n0) with (last (x :: uniq_from x l) n0). apply Main, Hv.
  Qed.
  Lemma mids_in (u : list N) x : In x (mids u) -> exists a b, x = mid a b /\ In a u /\ In b u.
  Proof.
    induction u as [|a [|b u] IH]; cbn [mids]; try easy. intros [<-|K]; [exists a, b; repeat split; [now left|right; now left]|].
    destruct (IH K) as (c & d & E & Hc & Hd). exists c, d. repeat split; [exact E|now right|now right].
  Qed.
  Lemma mids_length (u : list N) : List.length (mids u) = (List.length u - 1)%nat.
  Proof. induction u as [|a [|b u] IH]; [reflexivity|reflexivity|]. cbn [mids List.length] in *. lia. Qed.

  (** What is needed of the arithmetic *)
  Variable fine : N -> Prop.
  Hypotheses (fine_ok : forall x, fine x -> ok x) (fine_mid : forall a b, fine a -> fine b -> ok (mid a b))
    (fine_up : forall x, fine x -> ok (x + eps10) /\ x + eps10 <? x = false)
    (fine_down : forall x, fine x -> ok (x - eps10) /\ x <? x - eps10 = false).
  Variable sortf : list N -> list N.
  Hypothesis Hsort : go_sort fless sortf.

  Lemma count_tmpl (bs : list N) k : count_all (firstn k (empty_bins bs)) = 0%Z.
  Proof.
    revert k. induction bs as [|a [|b bs] IH]; intros k; try (destruct k; reflexivity).
    change (empty_bins (a :: b :: bs)) with (mkbin a b 0 n0 n0 :: empty_bins (b :: bs)). destruct k as [|k]; [reflexivity|]. cbn [firstn]. cbn [count_all fold_right b_cnt].
    exact (IH k).
  Qed.
  Lemma bounds_cover (maxbin : Z) (values : list N) : (1 <= maxbin)%Z -> values <> [] -> (forall v, In v values -> fine v) ->
    exists tmpl, node_bins sortf maxbin values = Ok tmpl /\ count_all tmpl = 0%Z
      /\ forall v, In v values -> exists i, node_find v tmpl = Some i /\ (i < List.length tmpl)%nat.
  Proof.
    intros Hm Hne Hfine. destruct (Hsort values) as [Hp Ho].
    assert (Hin : forall v, In v (sortf values) <-> In v values) by (intros v; split; apply Permutation_in; [now symmetry|exact Hp]).
    unfold node_bins, node_bounds. destruct (sortf values) as [|s0 sl].
    { destruct values as [|v values]; [easy|]. exfalso. apply (Hin v). now left. }
    set (u := uniq (s0 :: sl)). assert (Hu : forall x, In x u -> fine x).
    { intros x Hx. apply Hfine, Hin. unfold u in Hx. cbn [uniq] in Hx. destruct Hx as [<-|Hx]; [now left|right; eapply uniq_from_in; exact Hx]. }
    assert (F0 : fine s0) by (apply Hfine, Hin; now left).
    assert (Hlu : last u n0 = last (s0 :: uniq_from s0 sl) n0) by reflexivity.
    assert (Hin_last : In (last u n0) u).
    { rewrite Hlu. assert (K : forall (m : list N) x, In (last (x :: m) n0) (x :: m)) by (induction m as [|y m IH]; intros x; [now left|right; apply IH]). apply K. }
    assert (Hokv : forall x, In x (s0 :: sl) -> ok x) by (intros; now apply fine_ok, Hfine, Hin).
    assert (Hlast : forall v, In v values -> last u n0 <? v = false).
    { intros v Hv. rewrite Hlu. apply uniq_last; [exact Hokv|exact Ho|now apply Hin]. }
    assert (Hfirst : forall v, In v values -> v <? s0 = false).
    { intros v Hv. apply Hin in Hv. destruct Hv as [<-|Hv]; [apply (lt_irrefl N LT)|]. inversion Ho as [|? ? _ Hf]; subst. rewrite Forall_forall in Hf.
      specialize (Hf v Hv). unfold fless in Hf. now apply orb_false_elim in Hf. }
    destruct (fine_down s0 F0) as [D1 D2]. destruct (fine_up _ (Hu _ Hin_last)) as [U1 U2].
    assert (Core : forall inner, (forall x, In x inner -> ok x) -> (S (List.length inner) <= Z.to_nat maxbin)%nat ->
      exists tmpl, Ok (firstn (Z.to_nat maxbin) (empty_bins ((s0 - eps10) :: inner ++ [last u n0 + eps10]))) = Ok tmpl /\ count_all tmpl = 0%Z
        /\ forall v, In v values -> exists i, node_find v tmpl = Some i /\ (i < List.length tmpl)%nat).
    { intros inner Hi Hl. eexists. split; [reflexivity|]. split; [apply count_tmpl|]. intros v Hv.
      rewrite firstn_all2 by (rewrite empty_bins_length; cbn [List.length]; rewrite app_length; cbn; lia).
      assert (Hvok : ok v) by now apply fine_ok, Hfine.
      assert (Hlo : v <? s0 - eps10 = false) by (apply (lt_negtrans N LT _ s0); auto).
      assert (Hhi : last u n0 + eps10 <? v = false) by (apply (lt_negtrans N LT _ (last u n0)); auto).
      assert (Hbn : forall x, In x ((s0 - eps10) :: inner ++ [last u n0 + eps10]) -> ok x).
      { intros x [<-|Hx]; [exact D1|]. apply in_app_iff in Hx as [Hx|[<-|[]]]; [now apply Hi|exact U1]. }
      destruct inner as [|b inner]; cbn [app] in *.
      - apply node_find_some; try assumption.
      - apply node_find_some; try assumption. change (b :: inner ++ [last u n0 + eps10]) with ((b :: inner) ++ [last u n0 + eps10]). now rewrite last_last. }
    destruct (Z.leb_spec (Z.of_nat (List.length u)) maxbin) as [Hl|Hl].
    - cbn [bind]. apply Core.
      + intros x Hx. apply mids_in in Hx as (a & b & -> & Ha & Hb). apply fine_mid; auto.
      + rewrite mids_length. assert (1 <= List.length u)%nat by (unfold u; cbn; lia). lia.
    - destruct (Z.ltb_spec maxbin 0); [lia|]. destruct (Z.eqb_spec maxbin 0) as [Hz|Hz]; [lia|]. cbn [bind]. apply Core.
      + intros x Hx. apply in_map_iff in Hx as (i & <- & Hi). apply in_seq in Hi. unfold quantile.
        assert (Hq : ((List.length u - 1) * i / Z.to_nat maxbin <= List.length u - 1)%nat).
        { apply Nat.div_le_upper_bound; [lia|]. nia. }
        destruct (Nat.ltb_spec ((List.length u - 1) * i / Z.to_nat maxbin) (List.length u - 1)).
        * apply fine_mid; apply Hu, nth_In; lia.
        * apply fine_ok, Hu, nth_In. lia.
      + rewrite map_length, seq_length. lia.
  Qed.

  Lemma count_node_upd (bins : list (bin N)) g h : forall i, (i < List.length bins)%nat -> count_all (upd i (node_add g h) bins) = (count_all bins + 1)%Z.
  Proof.
    induction bins as [|b r IH]; intros [|i] Hi; cbn in *; try lia. unfold count_all in IH. rewrite IH by lia. lia.
  Qed.
  Lemma upd_len {A} (g : A -> A) : forall i l, List.length (upd i g l) = List.length l.
  Proof. induction i as [|i IH]; intros [|x l]; cbn; auto. Qed.
  Lemma node_counts (tmpl : list (bin N)) ss : (forall s, In s ss -> exists i, node_find (fst s) tmpl = Some i /\ (i < List.length tmpl)%nat) ->
    forall bins, List.length bins = List.length tmpl ->
    count_all (fold_left (node_put tmpl) ss bins) = (count_all bins + Z.of_nat (List.length ss))%Z.
  Proof.
    induction ss as [|s ss IH]; intros K bins Hb; cbn [fold_left List.length]; [lia|].
    destruct (K s (or_introl eq_refl)) as (i & Ei & Hi). rewrite IH; [|intros; apply K; now right|].
    - unfold node_put. rewrite Ei. rewrite count_node_upd by lia. lia.
    - unfold node_put. rewrite Ei. now rewrite upd_len.
  Qed.
End Laws.

(** ** Binary64 *)
Definition feps : F64 := f64_div (f64_ofZ 1) (f64_ofZ 10000000000).
Lemma feps_pos : is_finite feps = true /\ Bsign feps = false /\ (0 < B2R feps)%R.
Proof.
  assert (E : exists m e, B2SF feps = SpecFloat.S754_finite false m e) by (vm_compute; eauto).
  destruct E as (m & e & E). destruct feps as [s|s| |s m' e' h]; cbn in E; try discriminate. injection E as -> <- <-.
  repeat split. cbn. apply F2R_gt_0. reflexivity.
Qed.
Lemma overflow_inf (x : F64) s : B2SF x = binary_overflow fprec femax mode_NE s -> x = B754_infinity s.
Proof. destruct x as [s'|s'| |s' m e h]; cbn; intros E; try discriminate. now injection E as ->. Qed.
Lemma le_round (x : F64) r : (B2R x <= r)%R -> (B2R x <= round radix2 (SpecFloat.fexp fprec femax) (round_mode mode_NE) r)%R.
Proof.
  intros K. rewrite <- (round_generic radix2 (SpecFloat.fexp fprec femax) (round_mode mode_NE) (B2R x)) by apply generic_format_B2R.
  apply round_le; [apply fexp_correct; reflexivity|apply valid_rnd_N|exact K].
Qed.
Lemma round_ge (x : F64) r : (r <= B2R x)%R -> (round radix2 (SpecFloat.fexp fprec femax) (round_mode mode_NE) r <= B2R x)%R.
Proof.
  intros K. rewrite <- (round_generic radix2 (SpecFloat.fexp fprec femax) (round_mode mode_NE) (B2R x)) by apply generic_format_B2R.
  apply round_le; [apply fexp_correct; reflexivity|apply valid_rnd_N|exact K].
Qed.
Lemma finite_not_nan (x : F64) : is_finite x = true -> f64_isnan x = false.
Proof. now destruct x. Qed.
Lemma f_up (x : F64) : is_finite x = true -> f64_isnan (f64_plus x feps) = false /\ Bltb (f64_plus x feps) x = false.
Proof.
  intros Hx. destruct feps_pos as (E1 & E2 & E3).
  pose proof (Bplus_correct fprec femax fprec_gt_0 fprec_lt_emax mode_NE x feps Hx E1) as C. fold (f64_plus x feps) in C.
  destruct (Rlt_bool _ _) in C.
  - destruct C as (C1 & C2 & _). split; [now apply finite_not_nan|]. rewrite Bltb_correct by assumption. apply Rlt_bool_false.
    rewrite C1. apply le_round. lra.
  - destruct C as (C1 & C2). apply overflow_inf in C1. rewrite C1, C2, E2. split; [reflexivity|]. now destruct x as [[]|[]| |[]].
Qed.
Lemma f_down (x : F64) : is_finite x = true -> f64_isnan (f64_minus x feps) = false /\ Bltb x (f64_minus x feps) = false.
Proof.
  intros Hx. destruct feps_pos as (E1 & E2 & E3).
  pose proof (Bminus_correct fprec femax fprec_gt_0 fprec_lt_emax mode_NE x feps Hx E1) as C. fold (f64_minus x feps) in C.
  destruct (Rlt_bool _ _) in C.
  - destruct C as (C1 & C2 & _). split; [now apply finite_not_nan|]. rewrite Bltb_correct by assumption. apply Rlt_bool_false.
    rewrite C1. apply round_ge. lra.
  - destruct C as (C1 & C2). apply overflow_inf in C1. rewrite C1, C2, E2. split; [reflexivity|]. now destruct x as [[]|[]| |[]].
Qed.
Lemma f_mid (a b : F64) : is_finite a = true -> is_finite b = true -> f64_isnan (f64_div (f64_plus a b) (f64_ofZ 2)) = false.
Proof.
  intros Ha Hb. assert (T : exists m e, B2SF (f64_ofZ 2) = SpecFloat.S754_finite false m e) by (vm_compute; eauto).
  destruct T as (m & e & T). destruct (f64_ofZ 2) as [s|s| |s m' e' h] eqn:ET; cbn in T; try discriminate. clear ET.
  pose proof (Bplus_correct fprec femax fprec_gt_0 fprec_lt_emax mode_NE a b Ha Hb) as C. fold (f64_plus a b) in C.
  destruct (Rlt_bool _ _) in C.
  - destruct C as (_ & C2 & _). set (y := f64_plus a b) in *. clearbody y.
    pose proof (Bdiv_correct fprec femax fprec_gt_0 fprec_lt_emax mode_NE y (B754_finite s m' e' h)) as D. fold (f64_div y (B754_finite s m' e' h)) in D.
    specialize (D ltac:(injection T as -> _ _; cbn; apply Rgt_not_eq, F2R_gt_0; reflexivity)).
    destruct (Rlt_bool _ _) in D.
    + destruct D as (_ & D2 & _). apply finite_not_nan. now rewrite D2.
    + apply overflow_inf in D. now rewrite D.
  - destruct C as (C1 & _). apply overflow_inf in C1. rewrite C1. reflexivity.
Qed.
