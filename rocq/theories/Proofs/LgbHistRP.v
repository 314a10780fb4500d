(** Bin boundaries and histograms over the real numbers. *)
From Coq Require Import List Arith ZArith Bool Lia Sorted Permutation Reals Lra.
From Verif Require Import Base.Num Base.GoRes Base.ListX Base.RTac Base.GoSort Spec.Order Model.LgbTree Model.LgbHist
  Spec.LgbHist Proofs.OrderP Proofs.LgbTreeP Proofs.LgbArrayP Proofs.LgbHistP.
Import ListNotations.
Local Open Scope list_scope.
Local Open Scope R_scope.

Definition asc (l : list R) : Prop := StronglySorted Rle l.
Definition sasc (l : list R) : Prop := StronglySorted Rlt l.

Lemma ordered_asc (l : list R) : ordered (@nlt RNum) l -> asc l.
Proof.
  intros H. induction H as [|a l _ IH Hf]; constructor; [exact IH|].
  eapply Forall_impl; [|exact Hf]. intros b Hb. cbn in Hb. now apply Rltb_false in Hb.
Qed.
Lemma fless_R (a b : R) : @fless RNum a b = Rltb a b.
Proof. unfold fless; cbn. now rewrite orb_false_r. Qed.
Lemma ordered_fless_asc (l : list R) : ordered (@fless RNum) l -> asc l.
Proof.
  intros H. induction H as [|a l _ IH Hf]; constructor; [exact IH|].
  eapply Forall_impl; [|exact Hf]. intros b Hb. cbn beta in Hb. rewrite fless_R in Hb. now apply Rltb_false in Hb.
Qed.
Lemma sasc_increasing (l : list R) : sasc l -> @increasing RNum l.
Proof.
  intros H. induction H as [|a l _ IH Hf]; constructor; [exact IH|].
  eapply Forall_impl; [|exact Hf]. intros b Hb. cbn. now apply Rltb_true.
Qed.
Lemma increasing_sasc (l : list R) : @increasing RNum l -> sasc l.
Proof.
  intros H. induction H as [|a l _ IH Hf]; constructor; [exact IH|].
  eapply Forall_impl; [|exact Hf]. intros b Hb. cbn in Hb. now apply Rltb_true in Hb.
Qed.

Lemma uniq_from_R (l : list R) : forall prev, asc (prev :: l) ->
  sasc (prev :: @uniq_from RNum prev l) /\ (forall v, In v (prev :: @uniq_from RNum prev l) <-> In v (prev :: l)).
Proof.
  induction l as [|x l IH]; intros prev H.
  - split; [repeat constructor|tauto].
  - cbn [uniq_from]. change (@neqb RNum x prev) with (Reqb x prev).
    inversion H as [|? ? H1 H2]; subst. inversion H2 as [|? ? Hpx H3]; subst. destruct (IH x H1) as [I1 I2].
    destruct (Reqb_spec x prev) as [->|Hne].
    + split; [exact I1|]. intros v. rewrite I2. cbn; tauto.
    + split.
      * constructor; [exact I1|]. inversion I1 as [|? ? _ I3]; subst. constructor; [lra|].
        eapply Forall_impl; [|exact I3]. intros b Hb. cbn beta in Hb. lra.
      * intros v. specialize (I2 v). cbn in *. tauto.
Qed.
Lemma uniq_R (l : list R) : asc l -> sasc (@uniq RNum l) /\ (forall v, In v (@uniq RNum l) <-> In v l).
Proof.
  destruct l as [|x l]; intros H; [split; [constructor|tauto]|]. exact (uniq_from_R l x H).
Qed.
Lemma sasc_NoDup (l : list R) : sasc l -> NoDup l.
Proof.
  induction 1 as [|a l _ IH Hf]; constructor; [|exact IH]. intros Hin. rewrite Forall_forall in Hf. specialize (Hf a Hin). lra.
Qed.
Lemma sasc_nth (l : list R) : sasc l -> forall i j, (i < j < List.length l)%nat -> nth i l 0 < nth j l 0.
Proof.
  induction 1 as [|a l _ IH Hf]; intros i j Hij; [cbn in Hij; lia|]. destruct j as [|j]; [lia|].
  destruct i as [|i]; cbn [nth List.length] in *.
  - rewrite Forall_forall in Hf. apply Hf, nth_In. lia.
  - apply IH. lia.
Qed.
Lemma asc_last (l : list R) v d : asc l -> In v l -> v <= last l d.
Proof.
  intros H. revert v. induction H as [|a l _ IH Hf]; intros v Hv; [easy|].
  destruct l as [|b l]; [destruct Hv as [->|[]]; cbn; lra|].
  change (last (a :: b :: l) d) with (last (b :: l) d). destruct Hv as [->|Hv]; [|now apply IH].
  inversion Hf as [|? ? Hab _]; subst. specialize (IH b (or_introl eq_refl)). lra.
Qed.
Lemma asc_head (a : R) l v : asc (a :: l) -> In v (a :: l) -> a <= v.
Proof. intros H [->|Hv]; [lra|]. inversion H as [|? ? _ Hf]; subst. rewrite Forall_forall in Hf. now apply Hf. Qed.
Lemma sasc_asc (l : list R) : sasc l -> asc l.
Proof.
  induction 1 as [|a l _ IH Hf]; constructor; [exact IH|]. eapply Forall_impl; [|exact Hf]. intros b Hb. cbn beta in Hb. lra.
Qed.
Lemma last_in (l : list R) d : l <> [] -> In (last l d) l.
Proof.
  induction l as [|a l IH]; [easy|]. intros _. destruct l as [|b l]; [now left|]. right. apply IH. easy.
Qed.
Lemma sasc_map_plus (l : list R) e : sasc l -> sasc (map (fun v => v + e) l).
Proof.
  induction 1 as [|a l _ IH Hf]; cbn; constructor; [exact IH|]. rewrite Forall_forall in *. intros b Hb.
  apply in_map_iff in Hb as (c & <- & Hc). specialize (Hf c Hc). lra.
Qed.
Lemma last_map {A B} (g : A -> B) (l : list A) d d' : l <> [] -> last (map g l) d' = g (last l d).
Proof.
  induction l as [|a l IH]; [easy|]. intros _. destruct l as [|b l]; [reflexivity|].
  change (last (map g (a :: b :: l)) d') with (last (map g (b :: l)) d'). rewrite IH by easy. reflexivity.
Qed.

Lemma rising_sasc (l : list R) : forall prev, sasc (prev :: @rising_from RNum prev l).
Proof.
  induction l as [|x l IH]; intros prev; [repeat constructor|]. cbn [rising_from].
  change (@nlt RNum prev x) with (Rltb prev x). destruct (Rltb_spec prev x) as [H|H]; [|apply IH].
  pose proof (IH x) as Hx. constructor; [exact Hx|]. inversion Hx as [|? ? _ Hf]; subst. constructor; [exact H|].
  eapply Forall_impl; [|exact Hf]. intros b Hb. cbn beta in Hb. lra.
Qed.
Lemma rising_snoc (l : list R) t : forall prev, prev < t -> (forall x, In x l -> x < t) ->
  @rising_from RNum prev (l ++ [t]) = @rising_from RNum prev l ++ [t].
Proof.
  induction l as [|x l IH]; intros prev Hp Hl; cbn [app rising_from].
  - change (@nlt RNum prev t) with (Rltb prev t). destruct (Rltb_spec prev t); [reflexivity|lra].
  - change (@nlt RNum prev x) with (Rltb prev x).
    destruct (Rltb prev x); [cbn [app]; f_equal|]; apply IH; auto; try (apply Hl; now left); intros y Hy; apply Hl; now right.
Qed.
Lemma rising_length (l : list R) : forall prev, (List.length (@rising_from RNum prev l) <= List.length l)%nat.
Proof.
  induction l as [|x l IH]; intros prev; cbn [rising_from]; [reflexivity|].
  destruct (nlt _ _); cbn [List.length]; specialize (IH x) as I1; specialize (IH prev) as I2; lia.
Qed.

Definition e10 : R := 1 / 10000000000.
Lemma eps10_R : @eps10 RNum = e10.
Proof. reflexivity. Qed.
Lemma e10_pos : 0 < e10.
Proof. unfold e10; lra. Qed.

Section Bounds.
  Variable sortf : list R -> list R.
  Hypothesis Hsort : go_sort (@fless RNum) sortf.

  Lemma sortf_asc l : asc (sortf l).
  Proof. apply ordered_fless_asc, Hsort. Qed.
  Lemma sortf_in l v : In v (sortf l) <-> In v l.
  Proof. split; apply Permutation_in; [symmetry|]; apply Hsort. Qed.

  Lemma boundaries_R (maxbin : Z) (values : list R) : (1 <= maxbin)%Z -> values <> [] ->
    exists bs : list R, @boundaries RNum sortf maxbin values = Ok bs /\ sasc bs
      /\ (2 <= List.length bs <= S (Z.to_nat maxbin))%nat
      /\ (forall v, In v values -> nth 0 bs 0 < v /\ v < last bs 0).
  Proof.
    intros Hm Hne. pose proof e10_pos as He. unfold boundaries. pose proof (sortf_asc values) as Hs.
    assert (Hin : forall v, In v values <-> In v (sortf values)) by (intros v; symmetry; apply sortf_in).
    change (list (num RNum)) with (list R) in *.
    destruct (sortf values) as [|s0 s] eqn:Es.
    { exfalso. destruct values as [|v values]; [easy|]. apply (Hin v). now left. }
    rewrite eps10_R. destruct (uniq_R (s0 :: s) Hs) as [U1 U2].
    match goal with |- context [Z.leb ?a ?b] => destruct (Z.leb_spec a b) as [Hk|Hk] end.
    - change (@nsub RNum s0 e10) with (s0 - e10).
      change (map (fun v : num RNum => @nadd RNum v e10)) with (map (fun v => v + e10)).
      remember (@uniq RNum (s0 :: s)) as u eqn:Eu. change (num RNum) with R in *.
      assert (Hu0 : exists r, u = s0 :: r) by (exists (@uniq_from RNum s0 s); exact Eu). destruct Hu0 as [r Hr].
      exists ((s0 - e10) :: map (fun v => v + e10) u). split; [rewrite Eu; reflexivity|]. split; [|split].
      + constructor; [now apply sasc_map_plus|]. rewrite Forall_forall. intros b Hb.
        apply in_map_iff in Hb as (c & <- & Hc). apply U2 in Hc. pose proof (asc_head s0 s c Hs Hc). lra.
      + assert (Hk' : (Z.of_nat (List.length u) <= maxbin)%Z) by (rewrite Eu; exact Hk). clear Hk.
        assert (H1 : (1 <= List.length u)%nat) by (rewrite Hr; cbn; lia).
        cbn [List.length]. rewrite map_length. lia.
      + intros v Hv. apply Hin in Hv. split; [cbn [nth]; pose proof (asc_head s0 s v Hs Hv); lra|].
        apply U2 in Hv. pose proof (asc_last u v 0 (sasc_asc _ U1) Hv) as HL.
        assert (El : last ((s0 - e10) :: map (fun v => v + e10) u) 0 = last u 0 + e10).
        { rewrite Hr. change (last ((s0 - e10) :: map (fun v => v + e10) (s0 :: r)) 0) with (last (map (fun v => v + e10) (s0 :: r)) 0).
          now rewrite (last_map (fun v => v + e10) (s0 :: r) 0 0). }
        rewrite El. lra.
    - destruct (Z.ltb_spec maxbin 0); [lia|]. destruct (Z.eqb_spec maxbin 0) as [|Hm0]; [lia|].
      change (@nsub RNum s0 e10) with (s0 - e10). change (@nadd RNum (last (s0 :: s) (@n0 RNum)) e10) with (last (s0 :: s) 0 + e10).
      set (m := Z.to_nat maxbin). set (n := List.length (s0 :: s)).
      set (mid := map (fun i => nth ((n - 1) * i / m) (s0 :: s) (@n0 RNum)) (seq 1 (m - 1))).
      change (@n0 RNum) with 0 in mid. change (num RNum) with R in *.
      assert (Hmid : forall x, In x mid -> x < last (s0 :: s) 0 + e10).
      { intros x Hx. subst mid. apply in_map_iff in Hx as (i & <- & Hi). apply in_seq in Hi.
        assert (Hn : In (nth ((n - 1) * i / m) (s0 :: s) 0) (s0 :: s)).
        { apply nth_In. fold n. apply Nat.le_lt_trans with ((n - 1) * m / m)%nat.
          - apply Nat.div_le_mono; [lia|]. apply Nat.mul_le_mono_l. lia.
          - rewrite Nat.div_mul by lia. subst n. cbn; lia. }
        pose proof (asc_last (s0 :: s) _ 0 Hs Hn). lra. }
      assert (H0 : s0 - e10 < last (s0 :: s) 0 + e10).
      { pose proof (asc_last (s0 :: s) s0 0 Hs (or_introl eq_refl)). lra. }
      pose proof (rising_snoc mid (last (s0 :: s) 0 + e10) (s0 - e10) H0 Hmid) as Er.
      exists ((s0 - e10) :: @rising_from RNum (s0 - e10) (mid ++ [last (s0 :: s) 0 + e10])). split; [reflexivity|].
      split; [apply rising_sasc|]. rewrite Er. split.
      + cbn [List.length]. rewrite app_length. cbn [List.length].
        pose proof (rising_length mid (s0 - e10)) as HL. subst mid. rewrite map_length, seq_length in HL.
        change (num RNum) with R in *. lia.
      + intros v Hv. apply Hin in Hv. split; [cbn [nth]; pose proof (asc_head s0 s v Hs Hv); lra|].
        rewrite app_comm_cons, last_last.
        pose proof (asc_last (s0 :: s) v 0 Hs Hv). lra.
  Qed.
  (** With few different values, the boundaries separate them. *)
  Lemma boundaries_few (maxbin : Z) (values : list R) : values <> [] ->
    @few_values RNum values (Z.to_nat maxbin) ->
    exists u, sasc u /\ (forall v, In v u <-> In v values) /\
      @boundaries RNum sortf maxbin values = Ok ((nth 0 u 0 - e10) :: map (fun v => v + e10) u).
  Proof.
    intros Hne (us & Hlen & Hincl). unfold boundaries. pose proof (sortf_asc values) as Hs.
    assert (Hin : forall v, In v (sortf values) <-> In v values) by (intros v; apply sortf_in).
    change (num RNum) with R in *.
    destruct (sortf values) as [|s0 s] eqn:Es.
    { exfalso. destruct values as [|v values]; [easy|]. apply (Hin v). now left. }
    rewrite eps10_R. destruct (uniq_R (s0 :: s) Hs) as [U1 U2].
    exists (@uniq RNum (s0 :: s)). split; [exact U1|]. split; [intros v; rewrite U2; apply Hin|].
    assert (HL : (List.length (@uniq RNum (s0 :: s)) <= List.length us)%nat).
    { apply NoDup_incl_length; [now apply sasc_NoDup|]. intros v Hv. apply Hincl. apply Hin. now apply U2. }
    assert (H1 : (1 <= List.length (@uniq RNum (s0 :: s)))%nat) by (cbn; lia).
    change (num RNum) with R in *.
    match goal with |- context [Z.leb ?a ?b] => destruct (Z.leb_spec a b) as [Hk|Hk] end; [reflexivity|].
    exfalso. change (num RNum) with R in *. lia.
  Qed.
  Lemma few_in_bin (u values : list R) i : sasc u -> (forall v, In v u <-> In v values) -> apart values ->
    (i < List.length u)%nat ->
    @in_bin RNum ((nth 0 u 0 - e10) :: map (fun v => v + e10) u) i (nth i u 0).
  Proof.
    intros Hu Hin Hap Hi. pose proof e10_pos. apply in_bin_iff. change (num RNum) with R. cbn [List.length]. rewrite map_length.
    split; [lia|]. assert (Hn : forall k, (k < List.length u)%nat -> nth (S k) ((nth 0 u 0 - e10) :: map (fun v => v + e10) u) 0 = nth k u 0 + e10).
    { intros k Hk. cbn [nth]. rewrite (nth_indep _ 0 (0 + e10)) by (rewrite map_length; lia). apply (map_nth (fun v => v + e10)). }
    split.
    - destruct i as [|i]; [now left|]. right. change (@nle RNum) with Rleb. change (@n0 RNum) with 0. apply Rleb_true.
      rewrite Hn by lia. assert (Hlt : nth i u 0 < nth (S i) u 0) by (apply sasc_nth; [exact Hu|lia]).
      assert (Hd : e10 < nth (S i) u 0 - nth i u 0) by (unfold e10; apply Hap; [apply Hin, nth_In; lia|apply Hin, nth_In; lia|exact Hlt]). lra.
    - right. change (@nlt RNum) with Rltb. change (@n0 RNum) with 0. apply Rltb_true. rewrite Hn by lia. lra.
  Qed.
End Bounds.

(** Sums over bins *)
Section Sums.
  Notation sample := (R * (R * R))%type.
  Lemma grad_all_upd (bins : list (bin RNum)) (g h : R) : forall i, (i < List.length bins)%nat ->
    @grad_all RNum (upd i (@add_to_bin RNum g h) bins) = @grad_all RNum bins + g
    /\ @hess_all RNum (upd i (@add_to_bin RNum g h) bins) = @hess_all RNum bins + h.
  Proof.
    induction bins as [|b bins IH]; intros [|i] H; cbn in *; try lia; [lra|].
    destruct (IH i ltac:(lia)) as [I1 I2]. unfold grad_all, hess_all in I1, I2. cbn in I1, I2. rewrite I1, I2. lra.
  Qed.
  Lemma grad_all_empty (bs : list R) : @grad_all RNum (@empty_bins RNum bs) = 0 /\ @hess_all RNum (@empty_bins RNum bs) = 0.
  Proof.
    induction bs as [|a bs IH]; [now split|]. destruct bs as [|b bs]; [now split|].
    change (@empty_bins RNum (a :: b :: bs)) with (@mkbin RNum a b 0 0 0 :: @empty_bins RNum (b :: bs)).
    unfold grad_all, hess_all in *. cbn [fold_right b_g b_h]. destruct IH as [I1 I2]. rewrite I1, I2. cbn. lra.
  Qed.
  Lemma fill_mass find (bs : list R) (ss : list sample) :
    (forall s, In s ss -> 0 <= find (fst s) bs < Z.of_nat (List.length bs - 1))%Z ->
    @grad_all RNum (@fill RNum find bs ss) = Rsum (map (fun s => fst (snd s)) ss)
    /\ @hess_all RNum (@fill RNum find bs ss) = Rsum (map (fun s => snd (snd s)) ss).
  Proof.
    intros H. unfold fill.
    assert (K : forall bins : list (bin RNum), List.length bins = (List.length bs - 1)%nat ->
      @grad_all RNum (fold_left (@put RNum find bs) ss bins) = @grad_all RNum bins + Rsum (map (fun s => fst (snd s)) ss)
      /\ @hess_all RNum (fold_left (@put RNum find bs) ss bins) = @hess_all RNum bins + Rsum (map (fun s => snd (snd s)) ss)).
    { induction ss as [|s ss IH]; intros bins Hb; cbn [fold_left map Rsum]; [lra|].
      destruct (IH (fun s Hs => H s (or_intror Hs)) (@put RNum find bs bins s)) as [I1 I2]; [rewrite put_length; exact Hb|].
      change (num RNum) with R in *. rewrite I1, I2. unfold put. change (num RNum) with R.
      specialize (H s (or_introl eq_refl)).
      destruct (Z.leb_spec 0 (find (fst s) bs)); [|lia]. cbn [andb].
      destruct (Z.ltb_spec (find (fst s) bs) (Z.of_nat (List.length bins))); [|lia].
      destruct (grad_all_upd bins (fst (snd s)) (snd (snd s)) (Z.to_nat (find (fst s) bs))) as [J1 J2]; [lia|].
      change (num RNum) with R in *. rewrite J1, J2. unfold Rsum; cbn [fold_right]. lra. }
    destruct (K (@empty_bins RNum bs) (empty_bins_length _)) as [K1 K2]. rewrite K1, K2.
    destruct (grad_all_empty bs) as [E1 E2]. rewrite E1, E2. lra.
  Qed.

  Lemma filter_perm {A} (p : A -> bool) l l' : Permutation l l' -> Permutation (filter p l) (filter p l').
  Proof.
    induction 1; cbn; try (destruct (p x)); try (destruct (p y)); auto; try constructor; eauto using Permutation_trans; reflexivity.
  Qed.
  Lemma sub_bins_nth {N : Num} (ps ss rs : list (bin N)) : List.length ps = List.length ss -> List.length rs = List.length ps ->
    (forall i p s, nth_error ps i = Some p -> nth_error ss i = Some s -> nth_error rs i = Some (sub_bin p s)) ->
    sub_bins ps ss = Ok rs.
  Proof.
    revert ss rs. induction ps as [|p ps IH]; intros [|s ss] [|r rs] H1 H2 H; cbn in *; try lia; [reflexivity|].
    rewrite (IH ss rs); [|lia|lia|intros i; apply (H (S i))]. cbn. specialize (H 0%nat p s eq_refl eq_refl). cbn in H. congruence.
  Qed.
  Lemma perm_sums (P L Q : list sample) : Permutation P (L ++ Q) ->
    Z.of_nat (List.length Q) = (Z.of_nat (List.length P) - Z.of_nat (List.length L))%Z
    /\ forall g : sample -> R, @nsum RNum (map g Q) = @nsum RNum (map g P) - @nsum RNum (map g L).
  Proof.
    intros Ho. split; [rewrite (Permutation_length Ho), app_length; lia|]. intros g.
    rewrite !nsum_R, (Rsum_perm _ _ (Permutation_map g Ho)), map_app, Rsum_app. lra.
  Qed.
  Lemma fill_sub find (bs : list R) (par l r : list sample) : Permutation par (l ++ r) ->
    @sub_bins RNum (@fill RNum find bs par) (@fill RNum find bs l) = Ok (@fill RNum find bs r).
  Proof.
    intros Hp. apply sub_bins_nth; [now rewrite !fill_length|now rewrite !fill_length|].
    intros i p s Hpi Hsi. assert (Hi : (S i < List.length bs)%nat).
    { assert (Hl : nth_error (@fill RNum find bs par) i <> None) by congruence. apply nth_error_Some in Hl.
      rewrite fill_length in Hl. change (num RNum) with R in *. lia. }
    rewrite fill_nth in Hpi by exact Hi. rewrite fill_nth in Hsi by exact Hi. rewrite fill_nth by exact Hi.
    injection Hpi as <-. injection Hsi as <-. unfold sub_bin. cbn [b_lo b_hi b_cnt b_g b_h].
    assert (Ho : Permutation (own find bs i par) (own find bs i l ++ own find bs i r)).
    { unfold own. rewrite <- filter_app. now apply filter_perm. }
    destruct (perm_sums _ _ _ Ho) as (P1 & P2). f_equal. f_equal; [exact P1|exact (P2 (fun s => fst (snd s)))|exact (P2 (fun s => snd (snd s)))].
  Qed.
End Sums.

(** The bounds of the optimised builder *)
Section Opt.
  Variable toint : R -> Z.
  Hypothesis Htr : truncates toint.

  Lemma trunc_step (x y : R) : 0 <= x -> x + 1 <= y -> (toint x < toint y)%Z.
  Proof.
    intros Hx Hy. destruct (Htr x Hx) as [A1 A2]. destruct (Htr y) as [B1 B2]; [lra|]. apply lt_IZR. lra.
  Qed.
  Lemma trunc_nonneg (x : R) : 0 <= x -> (0 <= toint x)%Z.
  Proof. intros Hx. destruct (Htr x Hx) as [A1 A2]. assert (H : (-1 < toint x)%Z) by (apply lt_IZR; lra). lia. Qed.
  Lemma trunc_lt (x : R) (n : Z) : 0 <= x -> x < IZR n -> (toint x < n)%Z.
  Proof. intros Hx Hn. destruct (Htr x Hx) as [A1 A2]. apply lt_IZR. lra. Qed.

  Lemma sasc_of_nth (l : list R) : (forall i, (S i < List.length l)%nat -> nth i l 0 < nth (S i) l 0) -> sasc l.
  Proof.
    induction l as [|a l IH]; intros H; constructor.
    - apply IH. intros i Hi. apply (H (S i)). cbn; lia.
    - assert (Hl : sasc l) by (apply IH; intros i Hi; apply (H (S i)); cbn; lia).
      destruct l as [|b l]; [constructor|]. assert (Hab : a < b) by (apply (H 0%nat); cbn; lia).
      constructor; [exact Hab|]. inversion Hl as [|? ? _ Hf]; subst. eapply Forall_impl; [|exact Hf]. intros c Hc. cbn beta in Hc. lra.
  Qed.
  Lemma sasc_snoc (l : list R) t : sasc l -> (forall x, In x l -> x < t) -> sasc (l ++ [t]).
  Proof.
    induction 1 as [|a l _ IH Hf]; intros H; cbn; [repeat constructor|]. constructor; [apply IH; intros; apply H; now right|].
    apply Forall_app. split; [exact Hf|]. repeat constructor. apply H. now left.
  Qed.
  Definition optu (values : list R) : list R := @uniq RNum (@sort_opt RNum values).
  Lemma optu_spec values : sasc (optu values) /\ (forall v, In v (optu values) <-> In v values).
  Proof.
    destruct (sort_opt_go_sort lt_laws_R values) as [Hp Ho]. apply ordered_asc in Ho. destruct (uniq_R _ Ho) as [U1 U2].
    split; [exact U1|]. intros v. unfold optu. rewrite U2. split; apply Permutation_in; [now symmetry|exact Hp].
  Qed.
  Lemma opt_unfold maxbin values : values <> [] ->
    @boundaries_opt RNum toint maxbin values =
      if (Z.of_nat (List.length (optu values)) <=? maxbin)%Z then Ok (optu values ++ [last (optu values) 0 + e10])
      else if (maxbin <? 0)%Z then Panic
      else
        let step := INR (List.length (optu values) - 1) / IZR maxbin in
        let* mid := mapM (fun i => match getZ (optu values) (toint (INR i * step)) with
                                   | Some v => Ok v | None => Panic end) (seq 0 (Z.to_nat maxbin)) in
        Ok (mid ++ [last (optu values) 0 + e10]).
  Proof.
    intros Hne. unfold boundaries_opt, optu. destruct (sort_opt_go_sort lt_laws_R values) as [Hp _].
    destruct (@sort_opt RNum values) as [|s0 s]; [now apply Permutation_sym, Permutation_nil in Hp|].
    change (num RNum) with R in *. destruct (_ <=? maxbin)%Z; [reflexivity|]. destruct (maxbin <? 0)%Z; [reflexivity|].
    cbn zeta. rewrite nofnat_R, nofZ_R.
    match goal with |- bind (mapM ?g _) _ = bind (mapM ?g' _) _ =>
      assert (E : forall l, mapM g l = mapM g' l); [|rewrite E; reflexivity] end.
    intros l. induction l as [|i l IH]; [reflexivity|]. cbn [mapM]. rewrite IH, nofnat_R. reflexivity.
  Qed.
  Lemma opt_R (maxbin : Z) (values : list R) : (1 <= maxbin)%Z -> values <> [] ->
    exists bs : list R, @boundaries_opt RNum toint maxbin values = Ok bs /\ sasc bs
      /\ (2 <= List.length bs <= S (Z.to_nat maxbin))%nat
      /\ (forall v, In v values -> nth 0 bs 0 <= v /\ v < last bs 0).
  Proof.
    intros Hm Hne. rewrite opt_unfold by exact Hne. destruct (optu_spec values) as [U1 U2]. pose proof e10_pos as He.
    remember (optu values) as u eqn:Eu. clear Eu.
    assert (Hu : u <> []) by (destruct values as [|v values]; [easy|]; specialize (U2 v); destruct u; [exfalso; apply U2; now left|easy]).
    assert (H1 : (1 <= List.length u)%nat) by (destruct u; [easy|cbn; lia]).
    assert (Hlast : forall x, In x u -> x < last u 0 + e10).
    { intros x Hx. pose proof (asc_last u x 0 (sasc_asc _ U1) Hx). lra. }
    assert (Hfst : forall x, In x u -> nth 0 u 0 <= x).
    { intros x Hx. destruct u as [|a u]; [easy|]. exact (asc_head a u x (sasc_asc _ U1) Hx). }
    destruct (Z.leb_spec (Z.of_nat (List.length u)) maxbin) as [Hk|Hk].
    - eexists. split; [reflexivity|]. split; [now apply sasc_snoc|]. rewrite app_length; cbn [List.length]. split; [lia|].
      intros v Hv. apply U2 in Hv. rewrite last_last, app_nth1 by lia. auto.
    - destruct (Z.ltb_spec maxbin 0); [lia|]. cbn zeta.
      set (k := List.length u) in *. set (step := INR (k - 1) / IZR maxbin).
      assert (Hmp : 0 < IZR maxbin) by (apply IZR_lt; lia).
      assert (Hk1 : IZR maxbin <= INR (k - 1)) by (rewrite INR_IZR_INZ; apply IZR_le; lia).
      assert (Hstep : 1 <= step).
      { unfold step. apply Rmult_le_reg_r with (IZR maxbin); [lra|]. unfold Rdiv. rewrite Rmult_assoc, Rinv_l; lra. }
      assert (Hpos : forall i, 0 <= INR i * step) by (intros i; apply Rmult_le_pos; [apply pos_INR|lra]).
      assert (Htop : forall i, (i < Z.to_nat maxbin)%nat -> (toint (INR i * step) < Z.of_nat k - 1)%Z).
      { intros i Hi. apply trunc_lt; [apply Hpos|]. rewrite minus_IZR, <- INR_IZR_INZ. rewrite minus_INR in * by lia.
        unfold step. rewrite minus_INR by lia. cbn [INR] in *.
        assert (Hi' : INR i < IZR maxbin) by (rewrite INR_IZR_INZ; apply IZR_lt; lia).
        apply Rmult_lt_reg_r with (IZR maxbin); [lra|]. field_simplify; [|lra].
        assert (INR i * (INR k - 1) < IZR maxbin * (INR k - 1)) by (apply Rmult_lt_compat_r; [lra|exact Hi']). lra. }
      set (g := fun i => match getZ u (toint (INR i * step)) with Some v => Ok v | None => Panic end).
      assert (Hg : forall i, (i < Z.to_nat maxbin)%nat -> g i = Ok (nth (Z.to_nat (toint (INR i * step))) u 0)).
      { intros i Hi. unfold g. rewrite getZ_pos by (apply trunc_nonneg, Hpos).
        rewrite (nth_error_nth' u 0); [reflexivity|]. specialize (Htop i Hi). fold k. pose proof (trunc_nonneg _ (Hpos i)). lia. }
      assert (EM : mapM g (seq 0 (Z.to_nat maxbin)) = Ok (map (fun i => nth (Z.to_nat (toint (INR i * step))) u 0) (seq 0 (Z.to_nat maxbin)))).
      { assert (K : forall l, (forall i, In i l -> (i < Z.to_nat maxbin)%nat) -> mapM g l = Ok (map (fun i => nth (Z.to_nat (toint (INR i * step))) u 0) l)).
        { intros l. induction l as [|i l IH]; intros Hl; [reflexivity|]. cbn [mapM map]. rewrite Hg by (apply Hl; now left). cbn [bind].
          rewrite IH by (intros; apply Hl; now right). reflexivity. }
        apply K. intros i Hi. apply in_seq in Hi. lia. }
      rewrite EM. cbn [bind]. set (mid := map (fun i => nth (Z.to_nat (toint (INR i * step))) u 0) (seq 0 (Z.to_nat maxbin))).
      assert (Lm : List.length mid = Z.to_nat maxbin) by (unfold mid; now rewrite map_length, seq_length).
      assert (Nm : forall i, (i < Z.to_nat maxbin)%nat -> nth i mid 0 = nth (Z.to_nat (toint (INR i * step))) u 0).
      { intros i Hi. apply nth_error_nth. unfold mid. rewrite nth_error_map, nth_error_nth' with (d := 0%nat) by (rewrite seq_length; exact Hi).
        rewrite seq_nth by exact Hi. reflexivity. }
      assert (Im : forall x, In x mid -> In x u).
      { intros x Hx. apply in_map_iff in Hx as (i & <- & Hi). apply in_seq in Hi. apply nth_In. fold k.
        specialize (Htop i ltac:(lia)). pose proof (trunc_nonneg _ (Hpos i)). lia. }
      eexists. split; [reflexivity|]. split.
      + apply sasc_snoc; [|intros x Hx; apply Hlast, Im, Hx]. apply sasc_of_nth. intros i Hi. rewrite Lm in Hi. rewrite !Nm by lia.
        apply sasc_nth; [exact U1|]. fold k. specialize (Htop (S i) ltac:(lia)). pose proof (trunc_nonneg _ (Hpos i)).
        assert ((toint (INR i * step) < toint (INR (S i) * step))%Z); [|lia].
        apply trunc_step; [apply Hpos|]. rewrite S_INR. lra.
      + rewrite app_length, Lm. cbn [List.length]. split; [lia|]. intros v Hv. apply U2 in Hv. rewrite last_last, app_nth1 by lia.
        split; [|auto]. rewrite Nm by lia. cbn [INR]. rewrite Rmult_0_l.
        assert (E0 : toint 0 = 0%Z). { destruct (Htr 0) as [T1 T2]; [lra|]. pose proof (trunc_nonneg 0 ltac:(lra)).
          assert (toint 0 < 1)%Z by (apply lt_IZR; lra). lia. }
        rewrite E0. now apply Hfst.
  Qed.
  Lemma opt_few (maxbin : Z) (values : list R) : values <> [] -> @few_values RNum values (Z.to_nat maxbin) ->
    exists u, sasc u /\ (forall v, In v u <-> In v values) /\
      @boundaries_opt RNum toint maxbin values = Ok (u ++ [last u 0 + e10]).
  Proof.
    intros Hne (us & Hlen & Hincl). exists (optu values). destruct (optu_spec values) as [U1 U2]. split; [exact U1|]. split; [exact U2|].
    rewrite opt_unfold by exact Hne.
    assert (HL : (List.length (optu values) <= List.length us)%nat).
    { apply NoDup_incl_length; [now apply sasc_NoDup|]. intros v Hv. apply Hincl. now apply U2. }
    assert (H1 : (1 <= List.length (optu values))%nat).
    { destruct values as [|v values]; [easy|]. specialize (U2 v). destruct (optu (v :: values)); [exfalso; apply U2; now left|cbn; lia]. }
    destruct (Z.leb_spec (Z.of_nat (List.length (optu values))) maxbin) as [Hk|Hk]; [reflexivity|].
    exfalso. change (num RNum) with R in *. lia.
  Qed.
  Lemma opt_in_bin (u : list R) i : sasc u -> (i < List.length u)%nat ->
    @in_bin RNum (u ++ [last u 0 + e10]) i (nth i u 0).
  Proof.
    intros Hu Hi. pose proof e10_pos. apply in_bin_iff. change (num RNum) with R. rewrite app_length. cbn [List.length].
    change (@nle RNum) with Rleb. change (@nlt RNum) with Rltb. change (@n0 RNum) with 0.
    split; [lia|]. split.
    - right. apply Rleb_true. rewrite app_nth1 by lia. lra.
    - destruct (Nat.eq_dec (S i) (List.length u)) as [E|E]; [left; lia|]. right. apply Rltb_true.
      rewrite app_nth1 by lia. apply sasc_nth; [exact Hu|lia].
  Qed.
End Opt.
