(** Proofs about multinomial naive Bayes. *)
From Coq Require Import List Arith ZArith Bool Lia Reals Lra Permutation Sorted.
From Verif Require Import Base.Num Base.GoRes Base.Mat Base.ListX Base.Inf Base.RTac
  Model.NaiveBayes Spec.NaiveBayes.
Import ListNotations.

(** * Class extraction *)
Lemma exchange_spec : forall l x m l', exchange x l = (m, l') ->
  Permutation (x :: l) (m :: l') /\ (forall y, In y (m :: l') -> (m <= y)%Z).
Proof.
  induction l as [|y l IH]; intros x m l' H; cbn [exchange] in H.
  - injection H as <- <-. split; [reflexivity|]. intros y [<-|[]]; lia.
  - destruct (Z.ltb_spec y x) as [Hlt|Hge].
    + destruct (exchange y l) as [m0 r0] eqn:E. injection H as <- <-.
      destruct (IH _ _ _ E) as [HP Hm]. split.
      * rewrite HP. apply perm_swap.
      * assert (m0 <= y)%Z by (apply Hm; apply (Permutation_in _ HP); now left).
        intros z [<-|[<-|Hz]]; [lia|lia|]. apply Hm. now right.
    + destruct (exchange x l) as [m0 r0] eqn:E. injection H as <- <-.
      destruct (IH _ _ _ E) as [HP Hm]. split.
      * rewrite perm_swap, HP. apply perm_swap.
      * assert (m0 <= x)%Z by (apply Hm; apply (Permutation_in _ HP); now left).
        intros z [<-|[<-|Hz]]; [lia|lia|]. apply Hm. now right.
Qed.

Lemma exchange_sort_spec : forall n l, length l = n ->
  Permutation l (exchange_sort n l) /\ StronglySorted Z.le (exchange_sort n l).
Proof.
  induction n as [|n IH]; intros [|x l] Hn; simpl in Hn; try lia; cbn [exchange_sort].
  - split; constructor.
  - destruct (exchange x l) as [m l'] eqn:E. destruct (exchange_spec _ _ _ _ E) as [HP Hm].
    assert (Hl : length l' = n) by (apply Permutation_length in HP; simpl in HP; lia).
    destruct (IH l' Hl) as [HP' HS]. split.
    + rewrite HP. now constructor.
    + constructor; [exact HS|]. apply Forall_forall. intros y Hy. apply Hm. right.
      apply (Permutation_in _ (Permutation_sym HP')), Hy.
Qed.

Lemma extract_classes_spec order labels : (forall l, Permutation (order l) l) ->
  StronglySorted Z.lt (extract_classes order labels) /\
  forall c, In c (extract_classes order labels) <-> In c labels.
Proof.
  intros Ho. unfold extract_classes, distinct.
  destruct (exchange_sort_spec _ (order (nodup Z.eq_dec labels)) eq_refl) as [HP HS].
  set (r := exchange_sort _ _) in *.
  assert (HP2 : Permutation (nodup Z.eq_dec labels) r) by (rewrite <- HP; symmetry; apply Ho).
  split.
  - assert (Hnd : NoDup r) by (apply (Permutation_NoDup HP2), NoDup_nodup).
    clear HP HP2. induction HS as [|a l Hl IH Ha]; [constructor|].
    inversion Hnd as [|? ? Hna Hnd']; subst. constructor; [auto|].
    rewrite Forall_forall in *. intros y Hy. specialize (Ha y Hy).
    assert (a <> y) by (intros ->; contradiction). lia.
  - intros c. split; intros H.
    + apply (Permutation_in _ (Permutation_sym HP2)) in H. now apply nodup_In in H.
    + apply (Permutation_in _ HP2). now apply nodup_In.
Qed.

Lemma sorted_lt_nodup l : StronglySorted Z.lt l -> NoDup l.
Proof.
  induction 1 as [|a l Hl IH Ha]; constructor; auto. intros Hin.
  rewrite Forall_forall in Ha. specialize (Ha a Hin). lia.
Qed.

Lemma sorted_lt_unique l1 : forall l2, StronglySorted Z.lt l1 -> StronglySorted Z.lt l2 ->
  (forall c, In c l1 <-> In c l2) -> l1 = l2.
Proof.
  induction l1 as [|a l1 IH]; intros [|b l2] H1 H2 Hin.
  - reflexivity.
  - exfalso. destruct (proj2 (Hin b)). now left.
  - exfalso. destruct (proj1 (Hin a)). now left.
  - inversion H1 as [|? ? S1 F1]; subst. inversion H2 as [|? ? S2 F2]; subst.
    rewrite Forall_forall in F1, F2.
    assert (a = b).
    { destruct (proj1 (Hin a) (or_introl eq_refl)) as [->|Ha]; [reflexivity|].
      destruct (proj2 (Hin b) (or_introl eq_refl)) as [->|Hb]; [reflexivity|].
      specialize (F1 _ Hb). specialize (F2 _ Ha). lia. }
    subst b. f_equal. apply IH; auto. intros c. split; intros Hc.
    + destruct (proj1 (Hin c) (or_intror Hc)) as [<-|]; [|assumption].
      specialize (F1 _ Hc). lia.
    + destruct (proj2 (Hin c) (or_intror Hc)) as [<-|]; [|assumption].
      specialize (F2 _ Hc). lia.
Qed.

(** * Class positions *)
Lemma class_index_from_spec c cl : forall k,
  match class_index_from k c cl with
  | None => ~ In c cl
  | Some i => k <= i /\ nth_error cl (i - k) = Some c
  end.
Proof.
  induction cl as [|x cl IH]; intros k; cbn [class_index_from]; [easy|].
  destruct (Z.eqb_spec x c) as [->|Hne].
  - rewrite Nat.sub_diag. split; [lia|reflexivity].
  - specialize (IH (S k)). destruct (class_index_from (S k) c cl) as [i|].
    + destruct IH as [H1 H2]. split; [lia|]. replace (i - k) with (S (i - S k)) by lia. exact H2.
    + intros [H|H]; contradiction.
Qed.

Lemma upd_class {A} (g : A -> A) (h : Z -> A) c : forall cl k, NoDup cl -> nth_error cl k = Some c ->
  upd k g (map h cl) = map (fun d => if Z.eqb c d then g (h d) else h d) cl.
Proof.
  induction cl as [|x cl IH]; intros [|k] Hnd Hk; simpl in Hk; try discriminate.
  - injection Hk as ->. simpl. rewrite Z.eqb_refl. f_equal.
    inversion Hnd as [|? ? Hn _]; subst. apply map_ext_in. intros d Hd.
    destruct (Z.eqb_spec c d) as [->|_]; [contradiction|reflexivity].
  - inversion Hnd as [|? ? Hn Hnd']; subst. simpl. rewrite (IH k Hnd' Hk).
    destruct (Z.eqb_spec c x) as [->|_]; [|reflexivity].
    exfalso. apply Hn. eapply nth_error_In; eauto.
Qed.

(** * Batches, for any arithmetic *)
Section Any.
  Context {N : Num}.
  Variable toint : N -> Z.

  Lemma validate_ok (X y : matrix N) : validate X y = Ok tt <->
    nrows X = nrows y /\ mcols y = 1 /\ (forall row v, In row (mrows X) -> In v row -> nlt v n0 = false).
  Proof.
    unfold validate. destruct (Nat.eqb_spec (nrows X) (nrows y)) as [E1|E1]; cbn [negb].
    2:{ split; [discriminate|tauto]. }
    destruct (Nat.eqb_spec (mcols y) 1) as [E2|E2]; cbn [negb]; [|split; [discriminate|tauto]].
    unfold has_negative. split.
    - intros H. split; [exact E1|]. split; [exact E2|]. intros row v Hr Hv.
      destruct (nlt v n0) eqn:E; [|reflexivity]. exfalso.
      assert (Ht : existsb (existsb (fun v => nlt v n0)) (mrows X) = true).
      { apply existsb_exists. exists row. split; [exact Hr|]. apply existsb_exists. exists v. auto. }
      rewrite Ht in H. discriminate.
    - intros (_ & _ & H). destruct (existsb _ _) eqn:E; [|reflexivity]. exfalso.
      apply existsb_exists in E as (row & Hr & E). apply existsb_exists in E as (v & Hv & E).
      now rewrite (H row v Hr Hv) in E.
  Qed.

  Lemma combine_app {A B} (a1 a2 : list A) (b1 b2 : list B) : length a1 = length b1 ->
    combine (a1 ++ a2) (b1 ++ b2) = combine a1 b1 ++ combine a2 b2.
  Proof.
    revert b1. induction a1 as [|x a1 IH]; intros [|y b1] H; simpl in *; try lia; auto.
    f_equal. apply IH. lia.
  Qed.

  Definition stack (X1 X2 : matrix N) : matrix N := mkmat (mcols X1) (mrows X1 ++ mrows X2).

  Lemma count_batch_stack cl c (X1 y1 X2 y2 : matrix N) : nrows X1 = nrows y1 ->
    count_batch toint cl c (stack X1 X2) (stack y1 y2) =
    count_batch toint cl (count_batch toint cl c X1 y1) X2 y2.
  Proof.
    intros H. unfold count_batch, labels_of, stack. cbn [mrows].
    rewrite map_app, combine_app by (rewrite map_length; exact H). apply fold_left_app.
  Qed.

  Lemma validate_stack (X1 y1 X2 y2 : matrix N) :
    validate X1 y1 = Ok tt -> validate X2 y2 = Ok tt -> validate (stack X1 X2) (stack y1 y2) = Ok tt.
  Proof.
    rewrite !validate_ok. unfold stack, nrows. cbn [mrows mcols]. intros (A1 & A2 & A3) (B1 & B2 & B3).
    rewrite !app_length. split; [lia|]. split; [exact A2|].
    intros row v Hr. apply in_app_iff in Hr as [Hr|Hr]; eauto.
  Qed.

  Lemma partial_fit_ok order (p : params N) X y given (s : nb N) cl : validate X y = Ok tt ->
    b_classes s = Some cl -> mcols X = b_nfeat s ->
    nb_partial_fit toint order p X y given s =
      (update_model p cl (b_nfeat s) (count_batch toint cl (b_ccount s, b_fcount s, b_seen s) X y), Ok tt).
  Proof.
    intros HV HC HM. unfold nb_partial_fit. rewrite HV, HC, HM, Nat.eqb_refl. reflexivity.
  Qed.

  Lemma partial_fit_first order (p : params N) X y cl (s : nb N) : validate X y = Ok tt -> b_classes s = None ->
    nb_partial_fit toint order p X y (Some cl) s =
      (update_model p cl (mcols X) (count_batch toint cl (zero_counts (length cl) (mcols X) (b_seen s)) X y), Ok tt).
  Proof.
    intros HV HC. unfold nb_partial_fit. rewrite HV, HC, Nat.eqb_refl. reflexivity.
  Qed.

  Lemma update_model_fields (p : params N) cl nf c :
    b_classes (update_model p cl nf c) = Some cl /\ b_nfeat (update_model p cl nf c) = nf /\
    (b_ccount (update_model p cl nf c), b_fcount (update_model p cl nf c), b_seen (update_model p cl nf c)) = c.
  Proof. destruct c as [[cc fc] seen]. cbn. auto. Qed.

  (** Two batches in a row are one. *)
  Lemma partial_fit_two order (p : params N) X1 y1 X2 y2 given (s : nb N) :
    validate X1 y1 = Ok tt -> validate X2 y2 = Ok tt -> mcols X2 = mcols X1 ->
    b_classes s <> None \/ given <> None ->
    snd (nb_partial_fit toint order p X1 y1 given s) = Ok tt ->
    nb_partial_fit toint order p X2 y2 given (fst (nb_partial_fit toint order p X1 y1 given s)) =
    nb_partial_fit toint order p (stack X1 X2) (stack y1 y2) given s.
  Proof.
    intros V1 V2 Hc Hg Hok.
    pose proof (validate_stack _ _ _ _ V1 V2) as V.
    assert (HR : nrows X1 = nrows y1) by (now apply (proj1 (validate_ok _ _)) in V1).
    destruct (b_classes s) as [cl|] eqn:EC.
    - assert (HM : mcols X1 = b_nfeat s).
      { unfold nb_partial_fit in Hok. rewrite V1, EC in Hok.
        destruct (Nat.eqb_spec (mcols X1) (b_nfeat s)); [assumption|discriminate]. }
      rewrite (partial_fit_ok order p X1 y1 given s cl V1 EC HM). cbn [fst].
      set (s1 := update_model _ _ _ _).
      destruct (update_model_fields p cl (b_nfeat s) (count_batch toint cl (b_ccount s, b_fcount s, b_seen s) X1 y1)) as (F1 & F2 & F3).
      fold s1 in F1, F2, F3.
      rewrite (partial_fit_ok order p X2 y2 given s1 cl V2 F1) by congruence.
      rewrite F2, F3.
      rewrite (partial_fit_ok order p (stack X1 X2) (stack y1 y2) given s cl V EC HM).
      now rewrite count_batch_stack by exact HR.
    - destruct Hg as [Hg|Hg]; [congruence|]. destruct given as [cl|]; [|congruence].
      rewrite (partial_fit_first order p X1 y1 cl s V1 EC). cbn [fst].
      set (s1 := update_model _ _ _ _).
      destruct (update_model_fields p cl (mcols X1) (count_batch toint cl (zero_counts (length cl) (mcols X1) (b_seen s)) X1 y1)) as (F1 & F2 & F3).
      fold s1 in F1, F2, F3.
      rewrite (partial_fit_ok order p X2 y2 (Some cl) s1 cl V2 F1) by congruence.
      rewrite F2, F3.
      rewrite (partial_fit_first order p (stack X1 X2) (stack y1 y2) cl s V EC).
      now rewrite count_batch_stack by exact HR.
  Qed.
End Any.

(** * Counts over the reals *)
Section Real.
  Local Open Scope R_scope.
  Variable toint : R -> Z.

  Definition samples (X y : matrix R) : list sample := combine (mrows X) (@labels_of RNum toint y).

  Lemma vadd_nth : forall (a b : list R) j, length a = length b -> nth j (@vadd RNum a b) 0 = nth j a 0 + nth j b 0.
  Proof.
    induction a as [|x a IH]; intros [|y b] j H; simpl in H; try discriminate.
    - simpl. destruct j; simpl; lra.
    - destruct j; cbn; [reflexivity|]. apply IH. congruence.
  Qed.
  Lemma vadd_length : forall (a b : list R), length (@vadd RNum a b) = length a.
  Proof. induction a as [|x a IH]; intros [|y b]; cbn; auto. Qed.

  Lemma with_label_snoc S0 s c :
    with_label (S0 ++ [s]) c = with_label S0 c ++ (if Z.eqb (snd s) c then [s] else []).
  Proof. unfold with_label. rewrite filter_app. reflexivity. Qed.

  Definition table (S0 : list sample) (nf : nat) (c : Z) : list R := map (feature_total S0 c) (seq 0 nf).
  Definition seen_of (S0 : list sample) (cl : list Z) : nat :=
    length (filter (fun s => if in_dec Z.eq_dec (snd s) cl then true else false) S0).

  Lemma table_add S0 nf x l c : length x = nf ->
    (if Z.eqb l c then @vadd RNum (table S0 nf c) x else table S0 nf c) = table (S0 ++ [(x, l)]) nf c.
  Proof.
    intros Hx. unfold table, feature_total. rewrite with_label_snoc. cbn [snd].
    destruct (Z.eqb l c).
    - apply (nth_ext _ _ 0 0).
      + rewrite vadd_length, !map_length. reflexivity.
      + intros j Hj. rewrite vadd_length, map_length, seq_length in Hj.
        rewrite vadd_nth by (rewrite map_length, seq_length; auto).
        set (g1 := fun i => Rsum (map (fun s : sample => nth i (fst s) 0) (with_label S0 c))).
        set (g2 := fun i => Rsum (map (fun s : sample => nth i (fst s) 0) (with_label S0 c ++ [(x, l)]))).
        rewrite (nth_indep (map g1 _) 0 (g1 0%nat)) by (rewrite map_length, seq_length; auto).
        rewrite (nth_indep (map g2 _) 0 (g2 0%nat)) by (rewrite map_length, seq_length; auto).
        rewrite !map_nth, !seq_nth by exact Hj. unfold g1, g2. rewrite map_app, Rsum_app. simpl. lra.
    - now rewrite app_nil_r.
  Qed.

  Lemma counts_ok cl nf (HN : NoDup cl) : forall S0 seen,
    (forall s, In s S0 -> length (fst s) = nf) ->
    fold_left (@count_sample RNum cl) S0 (@zero_counts RNum (length cl) nf seen)
    = (map (class_total S0) cl, map (table S0 nf) cl, (seen + seen_of S0 cl)%nat).
  Proof.
    induction S0 as [|[x l] S0 IH] using rev_ind; intros seen HL.
    - cbn [fold_left]. unfold zero_counts, seen_of. cbn [filter length]. rewrite Nat.add_0_r. f_equal. f_equal.
      + induction cl as [|c cl IHc]; [reflexivity|]. cbn. inversion HN; subst. f_equal. auto.
      + assert (Hz : forall c, table [] nf c = repeat 0 nf).
        { intros c. unfold table, feature_total. simpl. generalize 0%nat.
          induction nf as [|k IHk]; intros q; [reflexivity|]. simpl. f_equal. apply IHk. intros s []. }
        induction cl as [|c cl IHc]; [reflexivity|]. cbn [length repeat map].
        rewrite Hz. f_equal. inversion HN; subst. apply IHc; auto.
    - rewrite fold_left_app, IH by (intros s Hs; apply HL, in_app_iff; auto). cbn [fold_left].
      unfold count_sample. cbn [snd fst].
      assert (Hx : length x = nf) by (apply (HL (x, l)), in_app_iff; right; now left).
      pose proof (class_index_from_spec l cl 0) as Hci. unfold class_index.
      assert (Hct : forall c, class_total (S0 ++ [(x, l)]) c = if Z.eqb l c then class_total S0 c + 1 else class_total S0 c).
      { intros c. unfold class_total. rewrite with_label_snoc, app_length. cbn [snd].
        destruct (Z.eqb l c); simpl length; [rewrite plus_INR; simpl; lra|]. now rewrite Nat.add_0_r. }
      destruct (class_index_from 0 l cl) as [k|].
      + destruct Hci as [_ Hk]. rewrite Nat.sub_0_r in Hk. f_equal; [f_equal|].
        * rewrite (upd_class _ _ _ _ _ HN Hk). apply map_ext. intros c. rewrite Hct. reflexivity.
        * rewrite (upd_class _ _ _ _ _ HN Hk). apply map_ext. intros c. now apply table_add.
        * unfold seen_of. rewrite filter_app, app_length. cbn [filter snd].
          destruct (in_dec Z.eq_dec l cl) as [_|Hn]; [simpl; lia|].
          exfalso. apply Hn. eapply nth_error_In; eauto.
      + f_equal; [f_equal|].
        * apply map_ext_in. intros c Hc. rewrite Hct. destruct (Z.eqb_spec l c) as [->|_]; [contradiction|reflexivity].
        * apply map_ext_in. intros c Hc. rewrite <- (table_add _ _ _ _ _ Hx).
          destruct (Z.eqb_spec l c) as [->|_]; [contradiction|reflexivity].
        * unfold seen_of. rewrite filter_app, app_length. cbn [filter snd].
          destruct (in_dec Z.eq_dec l cl) as [Hi|_]; [contradiction|]. simpl. lia.
  Qed.

  Lemma with_label_perm S1 S2 c : Permutation S1 S2 -> Permutation (with_label S1 c) (with_label S2 c).
  Proof.
    unfold with_label. induction 1; simpl.
    - constructor.
    - destruct (Z.eqb (snd x) c); [now constructor|assumption].
    - destruct (Z.eqb (snd x) c), (Z.eqb (snd y) c); try reflexivity. apply perm_swap.
    - etransitivity; eauto.
  Qed.
  Lemma class_total_perm S1 S2 c : Permutation S1 S2 -> class_total S1 c = class_total S2 c.
  Proof. intros H. unfold class_total. now rewrite (Permutation_length (with_label_perm _ _ c H)). Qed.
  Lemma feature_total_perm S1 S2 c j : Permutation S1 S2 -> feature_total S1 c j = feature_total S2 c j.
  Proof. intros H. unfold feature_total. apply Rsum_perm, Permutation_map, with_label_perm, H. Qed.
  Lemma seen_perm S1 S2 cl : Permutation S1 S2 -> seen_of S1 cl = seen_of S2 cl.
  Proof.
    unfold seen_of. induction 1; simpl; auto.
    - destruct (in_dec Z.eq_dec (snd x) cl); simpl; auto.
    - destruct (in_dec Z.eq_dec (snd x) cl), (in_dec Z.eq_dec (snd y) cl); reflexivity.
    - lia.
  Qed.

  Lemma samples_width (X y : matrix R) : wf X -> forall s, In s (samples X y) -> length (fst s) = mcols X.
  Proof. intros HW [x l] Hs. apply HW. exact (in_combine_l _ _ _ _ Hs). Qed.
  Lemma samples_labels (X y : matrix R) : nrows X = nrows y -> map snd (samples X y) = @labels_of RNum toint y.
  Proof.
    unfold samples, nrows, labels_of. intros H.
    assert (G : forall (a : list (list R)) (b : list Z), length a = length b -> map snd (combine a b) = b).
    { induction a as [|u a IH]; intros [|v b] Hl; simpl in *; try lia; auto. f_equal. apply IH. lia. }
    apply G. rewrite map_length. exact H.
  Qed.

  (** The state after a successful Fit. *)
  Lemma fit_state order p (X y : matrix R) s : (forall l, Permutation (order l) l) -> wf X ->
    validate (N := RNum) X y = Ok tt ->
    let cl := extract_classes order (@labels_of RNum toint y) in
    nb_fit (N := RNum) toint order p X y s =
      (@update_model RNum p cl (mcols X)
         (map (class_total (samples X y)) cl, map (table (samples X y) (mcols X)) cl,
          seen_of (samples X y) cl), Ok tt).
  Proof.
    intros Ho HW HV cl. unfold nb_fit. rewrite HV. fold cl.
    pose proof (sorted_lt_nodup _ (proj1 (extract_classes_spec order (@labels_of RNum toint y) Ho))) as HN.
    exact (f_equal (fun c => (@update_model RNum p cl (mcols X) c, Ok tt))
             (counts_ok cl (mcols X) HN (samples X y) 0 (samples_width X y HW))).
  Qed.
End Real.

(** * Probabilities over the reals *)
Section Prob.
  Local Open Scope R_scope.

  Lemma list_as_map (row : list R) : row = map (fun j => nth j row 0) (seq 0 (length row)).
  Proof.
    induction row as [|x row IH]; [reflexivity|]. simpl. f_equal.
    rewrite <- seq_shift, map_map. exact IH.
  Qed.
  Lemma combine_map {A B C} (g : A -> B) (h : A -> C) l : combine (map g l) (map h l) = map (fun x => (g x, h x)) l.
  Proof. induction l; simpl; congruence. Qed.

  Lemma Rprod_pos l : (forall x, In x l -> 0 < x) -> 0 < Rprod l.
  Proof.
    induction l as [|x l IH]; simpl; intros H; [lra|]. apply Rmult_lt_0_compat; [apply H; auto|apply IH; auto].
  Qed.

  Lemma joint_exp : forall (l : list (R * R)) acc,
    exp (fold_left (fun a xf => a + fst xf * snd xf) l acc)
    = exp acc * Rprod (map (fun xf => exp (fst xf * snd xf)) l).
  Proof.
    induction l as [|xf l IH]; intros acc; cbn [fold_left map Rprod]; [lra|].
    rewrite IH, exp_plus. lra.
  Qed.

  Lemma exp_sum_pos l : l <> [] -> 0 < Rsum (map exp l).
  Proof.
    destruct l as [|x l]; [easy|]. intros _. simpl. pose proof (exp_pos x).
    assert (0 <= Rsum (map exp l)); [|lra]. apply Rsum_nonneg. intros y Hy.
    apply in_map_iff in Hy as (z & <- & _). left. apply exp_pos.
  Qed.

  Lemma exp_shift l K : Rsum (map (fun v => exp (v - K)) l) = exp (- K) * Rsum (map exp l).
  Proof.
    rewrite <- Rsum_map_scal. f_equal. apply map_ext. intros v. unfold Rminus. rewrite exp_plus. lra.
  Qed.

  Lemma log_normalise_R (l : list R) : l <> [] ->
    @log_normalise RNum l = map (fun v => ln (exp v / Rsum (map exp l))) l.
  Proof.
    intros Hl. unfold log_normalise. set (m := @row_max RNum l). rewrite nsum_R. cbn.
    pose proof (exp_sum_pos l Hl) as HP.
    assert (E : Rsum (map (fun v => exp (v - m)) l) = exp (- m) * Rsum (map exp l)) by apply exp_shift.
    rewrite E. rewrite ln_mult, ln_exp; [|apply exp_pos|exact HP].
    apply map_ext. intros v. unfold Rdiv.
    rewrite ln_mult, ln_exp, ln_Rinv; [|exact HP|apply exp_pos|now apply Rinv_0_lt_compat]. lra.
  Qed.

  Lemma normalise_R (l : list R) : l <> [] ->
    @normalise_row RNum l = map (fun v => exp v / Rsum (map exp l)) l.
  Proof.
    intros Hl. unfold normalise_row. set (m := @row_max RNum l). rewrite nsum_R. cbn.
    pose proof (exp_sum_pos l Hl) as HP. rewrite map_map.
    assert (E : Rsum (map (fun v => exp (v - m)) l) = exp (- m) * Rsum (map exp l)) by apply exp_shift.
    apply map_ext. intros v. rewrite E. unfold Rminus. rewrite exp_plus.
    pose proof (exp_pos (- m)). field. lra.
  Qed.

  Lemma proba_row_R (l : list R) : l <> [] ->
    @normalise_row RNum (@log_normalise RNum l) = map (fun v => exp v / Rsum (map exp l)) l.
  Proof.
    intros Hl. rewrite log_normalise_R by exact Hl. pose proof (exp_sum_pos l Hl) as HP.
    rewrite normalise_R by (destruct l; [easy|discriminate]). rewrite !map_map.
    assert (E : forall v, exp (ln (exp v / Rsum (map exp l))) = exp v / Rsum (map exp l)).
    { intros v. apply exp_ln. apply Rdiv_lt_0_compat; [apply exp_pos|exact HP]. }
    assert (E1 : Rsum (map (fun v => exp (ln (exp v / Rsum (map exp l)))) l) = 1).
    { rewrite (map_ext _ _ E). set (K := Rsum (map exp l)) in *.
      rewrite (map_ext _ (fun v => / K * exp v)) by (intros v; unfold Rdiv; lra).
      rewrite Rsum_map_scal. fold K. field. lra. }
    apply map_ext. intros v. rewrite E1, E. lra.
  Qed.

  (** * The fitted state *)
  Lemma feature_log_probs_R p S0 nf c : 
    @feature_log_probs RNum p (table S0 nf c) = map (fun j => ln (theta S0 (alpha p) nf c j)) (seq 0 nf).
  Proof.
    unfold feature_log_probs. cbn.
    assert (E : fold_left (fun t c0 => t + (c0 + alpha p)) (table S0 nf c) 0
                = Rsum (map (fun i => feature_total S0 c i) (seq 0 nf)) + INR nf * alpha p).
    { rewrite fold_left_sum. unfold table. rewrite map_map, Rsum_map_plus, Rsum_map_const, seq_length.
      apply Rplus_0_l. }
    rewrite E. unfold table. rewrite map_map. reflexivity.
  Qed.

  Lemma feature_total_nonneg S0 c j : (forall s v, In s S0 -> In v (fst s) -> 0 <= v) -> 0 <= feature_total S0 c j.
  Proof.
    intros H. apply Rsum_nonneg. intros x Hx. apply in_map_iff in Hx as (s & <- & Hs).
    apply filter_In in Hs as [Hs _]. destruct (Nat.lt_ge_cases j (length (fst s))) as [Hj|Hj].
    - apply (H s); [exact Hs|]. now apply nth_In.
    - rewrite nth_overflow by exact Hj. lra.
  Qed.

  Lemma theta_pos S0 a nf c j : 0 < a -> (0 < nf)%nat ->
    (forall s v, In s S0 -> In v (fst s) -> 0 <= v) -> 0 < theta S0 a nf c j.
  Proof.
    intros Ha Hn H. unfold theta. apply Rdiv_lt_0_compat.
    - pose proof (feature_total_nonneg S0 c j H). lra.
    - assert (0 <= Rsum (map (fun i => feature_total S0 c i) (seq 0 nf))).
      { apply Rsum_nonneg. intros x Hx. apply in_map_iff in Hx as (i & <- & _). now apply feature_total_nonneg. }
      assert (0 < INR nf) by (now apply lt_0_INR). nra.
  Qed.

  Lemma theta_sum S0 a nf c : 0 < a -> (0 < nf)%nat ->
    (forall s v, In s S0 -> In v (fst s) -> 0 <= v) -> Rsum (map (theta S0 a nf c) (seq 0 nf)) = 1.
  Proof.
    intros Ha Hn H. unfold theta. set (K := Rsum (map (fun i => feature_total S0 c i) (seq 0 nf)) + INR nf * a).
    assert (HK : 0 < K).
    { unfold K. assert (0 <= Rsum (map (fun i => feature_total S0 c i) (seq 0 nf))).
      { apply Rsum_nonneg. intros x Hx. apply in_map_iff in Hx as (i & <- & _). now apply feature_total_nonneg. }
      assert (0 < INR nf) by (now apply lt_0_INR). nra. }
    rewrite (map_ext _ (fun j => / K * (feature_total S0 c j + a))) by (intros j; unfold Rdiv; lra).
    rewrite Rsum_map_scal, Rsum_map_plus, Rsum_map_const, seq_length. change (/ K * K = 1). field. lra.
  Qed.

  Lemma class_total_sum cl : NoDup cl -> forall S0, (forall s, In s S0 -> In (snd s) cl) ->
    Rsum (map (class_total S0) cl) = INR (length S0).
  Proof.
    intros HN. induction S0 as [|s S0 IH]; intros H.
    - simpl. rewrite (map_ext _ (fun _ => 0)) by reflexivity. rewrite Rsum_map_const. lra.
    - cbn [length]. rewrite S_INR, <- IH by (intros; apply H; now right).
      assert (E : forall c, class_total (s :: S0) c = class_total S0 c + (if Z.eqb (snd s) c then 1 else 0)).
      { intros c. unfold class_total, with_label. simpl. destruct (Z.eqb (snd s) c); cbn [length]; [rewrite S_INR|]; lra. }
      rewrite (map_ext _ _ E), Rsum_map_plus. f_equal.
      assert (Hin : In (snd s) cl) by (apply H; now left). clear - HN Hin.
      induction cl as [|c cl IH]; [easy|]. simpl. inversion HN as [|? ? Hn HN']; subst.
      destruct (Z.eqb_spec (snd s) c) as [<-|Hne].
      + rewrite (map_ext_in _ (fun _ => 0)).
        * rewrite Rsum_map_const. lra.
        * intros d Hd. destruct (Z.eqb_spec (snd s) d) as [<-|]; [contradiction|reflexivity].
      + destruct Hin as [->|Hin]; [congruence|]. rewrite IH; auto. lra.
  Qed.

  Lemma log_priors_R (p : params RNum) S0 cl prior : NoDup cl -> (forall s, In s S0 -> In (snd s) cl) ->
    is_prior S0 cl (fit_prior p) (class_prior p) prior ->
    @log_priors RNum p (length cl) (map (class_total S0) cl) = map (fun c => ln (prior c)) cl.
  Proof.
    intros HN HS HP. unfold log_priors, is_prior in *. destruct (fit_prior p).
    - rewrite nsum_R, (class_total_sum cl HN S0 HS), map_map. apply map_ext. intros c. cbn. now rewrite HP.
    - destruct (class_prior p) as [pr|].
      + apply nth_error_ext. intros i. rewrite !nth_error_map.
        destruct (Nat.lt_ge_cases i (length cl)) as [Hi|Hi].
        * rewrite (nth_error_nth' (seq 0 (length cl)) 0%nat) by (rewrite seq_length; exact Hi).
          rewrite seq_nth by exact Hi. cbn [option_map plus].
          destruct (nth_error cl i) as [c|] eqn:Ec; [|apply nth_error_None in Ec; lia].
          cbn [option_map]. f_equal. rewrite (HP i c Ec). 
          destruct (nth_error pr i) as [v|] eqn:Ev; cbn.
          -- f_equal. symmetry. now apply nth_error_nth.
          -- apply nth_error_None in Ev. rewrite nth_overflow by exact Ev. now rewrite ln_1.
        * rewrite !(proj2 (nth_error_None _ _)); [reflexivity|exact Hi|now rewrite seq_length].
      + rewrite (map_ext _ (fun _ => ln (1 / INR (length cl)))) by (intros c; now rewrite HP).
        clear. rewrite nofnat_R. cbn. generalize (ln (1 / INR (length cl))). intros v.
        induction cl; simpl; congruence.
  Qed.

  Lemma joints_R (p : params RNum) S0 nf cl seen prior row : (0 < nf)%nat -> 0 < alpha p ->
    (forall s v, In s S0 -> In v (fst s) -> 0 <= v) ->
    NoDup cl -> (forall s, In s S0 -> In (snd s) cl) ->
    is_prior S0 cl (fit_prior p) (class_prior p) prior -> (forall c, In c cl -> 0 < prior c) ->
    length row = nf ->
    map exp (@joints RNum (@update_model RNum p cl nf
       (map (class_total S0) cl, map (table S0 nf) cl, seen)) row)
    = map (weight S0 (alpha p) nf prior row) cl.
  Proof.
    intros Hn Ha Hnn HN HS HP Hpos Hrow. unfold joints, update_model. cbn [b_logprior b_flp].
    rewrite (log_priors_R p S0 cl prior HN HS HP).
    rewrite (map_map (table S0 nf)), combine_map, !map_map. apply map_ext_in. intros c Hc. cbn [fst snd].
    unfold joint. etransitivity; [apply joint_exp|]. unfold weight.
    rewrite exp_ln by auto. f_equal.
    rewrite feature_log_probs_R. set (g := fun j => ln (theta S0 (alpha p) nf c j)).
    assert (Er : row = map (fun j => nth j row 0) (seq 0 nf)) by (rewrite <- Hrow; apply list_as_map).
    assert (E : combine row (map g (seq 0 nf)) = map (fun j => (nth j row 0, g j)) (seq 0 nf))
      by (rewrite <- combine_map, <- Er; reflexivity).
    unR. rewrite E, map_map. reflexivity.
  Qed.

  Lemma weight_pos S0 a nf prior row c : (0 < nf)%nat -> 0 < a -> 0 < prior c ->
    0 < weight S0 a nf prior row c.
  Proof.
    intros Hn Ha Hp. unfold weight. apply Rmult_lt_0_compat; [exact Hp|]. apply Rprod_pos.
    intros x Hx. apply in_map_iff in Hx as (j & <- & _). unfold Rpower. apply exp_pos.
  Qed.

  (** * The winning class *)
  Lemma best_class_R : forall cs vs best at_, length cs = length vs ->
    (best_class (N := RNum) cs vs (Some best) at_ = at_ /\ (forall j v, nth_error vs j = Some v -> v <= best)) \/
    (exists k v, nth_error cs k = Some (best_class (N := RNum) cs vs (Some best) at_) /\
       nth_error vs k = Some v /\ best < v /\
       (forall j u, nth_error vs j = Some u -> u <= v) /\ (forall j u, (j < k)%nat -> nth_error vs j = Some u -> u < v)).
  Proof.
    induction cs as [|c cs IH]; intros [|v vs] best at_ Hl; simpl in Hl; try discriminate.
    - left. split; [reflexivity|]. intros [|j] u H; discriminate.
    - injection Hl as Hl. cbn [best_class gt_best]. change (nlt (n := RNum) best v) with (Rltb best v).
      destruct (Rltb_spec best v) as [Hlt|Hge].
      + right. destruct (IH vs v c Hl) as [[E H]|(k & w & H1 & H2 & H3 & H4 & H5)].
        * exists 0%nat, v. rewrite E. split; [reflexivity|]. split; [reflexivity|]. split; [exact Hlt|].
          split; [|lia]. intros [|j] u Hu; simpl in Hu; [injection Hu as ->; lra|eauto].
        * exists (S k), w. split; [exact H1|]. split; [exact H2|]. split; [lra|]. split.
          -- intros [|j] u Hu; simpl in Hu; [injection Hu as ->; lra|eauto].
          -- intros [|j] u Hj Hu; simpl in Hu; [injection Hu as ->; lra|]. apply (H5 j); [lia|exact Hu].
      + destruct (IH vs best at_ Hl) as [[E H]|(k & w & H1 & H2 & H3 & H4 & H5)].
        * left. split; [exact E|]. intros [|j] u Hu; simpl in Hu; [injection Hu as ->; lra|eauto].
        * right. exists (S k), w. split; [exact H1|]. split; [exact H2|]. split; [exact H3|]. split.
          -- intros [|j] u Hu; simpl in Hu; [injection Hu as ->; lra|eauto].
          -- intros [|j] u Hj Hu; simpl in Hu; [injection Hu as ->; lra|]. apply (H5 j); [lia|exact Hu].
  Qed.

  Lemma best_class_first cs vs c0 : length cs = length vs -> cs <> [] ->
    exists k v, nth_error cs k = Some (best_class (N := RNum) cs vs None c0) /\
      nth_error vs k = Some v /\
      (forall j u, nth_error vs j = Some u -> u <= v) /\ (forall j u, (j < k)%nat -> nth_error vs j = Some u -> u < v).
  Proof.
    intros Hl Hne. destruct cs as [|c cs]; [easy|]. destruct vs as [|v vs]; [discriminate|].
    injection Hl as Hl. cbn [best_class gt_best]. change (negb (nisnan (n := RNum) v) && _) with true. cbn iota.
    destruct (best_class_R cs vs v c Hl) as [[E H]|(k & w & H1 & H2 & H3 & H4 & H5)].
    - exists 0%nat, v. rewrite E. split; [reflexivity|]. split; [reflexivity|]. split; [|lia].
      intros [|j] u Hu; simpl in Hu; [injection Hu as ->; lra|eauto].
    - exists (S k), w. split; [exact H1|]. split; [exact H2|]. split.
      + intros [|j] u Hu; simpl in Hu; [injection Hu as ->; lra|eauto].
      + intros [|j] u Hj Hu; simpl in Hu; [injection Hu as ->; lra|]. apply (H5 j); [lia|exact Hu].
  Qed.
End Prob.
