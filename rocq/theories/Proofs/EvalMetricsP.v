From Coq Require Import List Arith ZArith Bool Lia Permutation Sorting.
From Verif Require Import Base.Num Base.GoRes Base.GoSort Model.Metrics Model.EvalMetrics Spec.EvalMetrics.
Import ListNotations.

Lemma count_filter {A} (t : A -> bool) l n : count t l n = length (filter t l) + n.
Proof. revert n. induction l as [|x l IH]; intros n; cbn [count filter]; [reflexivity|]. rewrite IH. destruct (t x); cbn [length]; lia. Qed.

Lemma times_filter l a : times l a = length (filter (fun t => Z.eqb t a) l).
Proof.
  unfold times. induction l as [|x l IH]; cbn [count_occ filter]; auto.
  destruct (Z.eq_dec x a) as [->|Hn]; [rewrite Z.eqb_refl; cbn [length]; lia|].
  destruct (Z.eqb_spec x a); [congruence|auto].
Qed.

Lemma filter_S (t : nat -> bool) n : length (filter t (seq 1 n)) = length (filter (fun i => t (S i)) (seq 0 n)).
Proof.
  rewrite <- seq_shift. induction (seq 0 n) as [|x l IH]; cbn [map filter]; auto. destruct (t (S x)); cbn [length]; congruence.
Qed.
Lemma agreeing_count yt : forall yp, length yt = length yp -> agreeing yt yp = count (fun s => Z.eqb (fst s) (snd s)) (combine yt yp) 0.
Proof.
  intros yp Hl. rewrite count_filter, Nat.add_0_r. unfold agreeing. revert yp Hl.
  induction yt as [|a yt IH]; intros [|b yp] Hl; try discriminate; [reflexivity|].
  cbn [length seq combine filter nth fst snd]. destruct (Z.eqb a b); cbn [length]; rewrite filter_S; cbn [nth]; rewrite IH by (cbn in Hl; lia); reflexivity.
Qed.

(** *** The classes *)
Lemma ltb_asym : asym Z.ltb. Proof. intros a b H. apply Z.ltb_ge. apply Z.ltb_lt in H. lia. Qed.
Lemma ltb_negtrans : negtrans Z.ltb. Proof. intros a b c H1 H2. apply Z.ltb_ge in H1, H2. apply Z.ltb_ge. lia. Qed.
Lemma increasing l : NoDup l -> ordered Z.ltb l -> StronglySorted Z.lt l.
Proof.
  unfold ordered. intros Hn Ho. induction Ho as [|x l Ho IH Hf]; constructor; inversion Hn as [|? ? Hx Hn']; subst; auto.
  rewrite Forall_forall in *. intros y Hy. specialize (Hf y Hy). cbn beta in Hf. apply Z.ltb_ge in Hf. assert (x <> y) by congruence. lia.
Qed.
Lemma increasing_unique l1 : forall l2, StronglySorted Z.lt l1 -> StronglySorted Z.lt l2 -> (forall c, In c l1 <-> In c l2) -> l1 = l2.
Proof.
  induction l1 as [|a l1 IH]; intros [|b l2] H1 H2 H; auto.
  - destruct (proj2 (H b) (or_introl eq_refl)).
  - destruct (proj1 (H a) (or_introl eq_refl)).
  - inversion H1 as [|? ? S1 F1]; inversion H2 as [|? ? S2 F2]; subst. rewrite Forall_forall in F1, F2.
    assert (a = b).
    { destruct (proj1 (H a) (or_introl eq_refl)) as [E|E]; auto. destruct (proj2 (H b) (or_introl eq_refl)) as [E'|E']; auto.
      specialize (F1 _ E'). specialize (F2 _ E). lia. }
    subst b. f_equal. apply IH; auto. intros c. split; intros Hc.
    + destruct (proj1 (H c) (or_intror Hc)) as [E|E]; auto. subst c. specialize (F1 _ Hc). lia.
    + destruct (proj2 (H c) (or_intror Hc)) as [E|E]; auto. subst c. specialize (F2 _ Hc). lia.
Qed.

Section Any.
  Context {N : Num}.
  Variable order : list Z -> list Z.
  Hypothesis order_perm : forall l, Permutation (order l) l.
  Notation new_metrics := (@new_metrics N order).

  (** A metrics object as the constructor makes it. *)
  Definition made (yt yp : list Z) (proba : option (list N)) (cm : cmetrics N) : Prop :=
    cm_true cm = yt /\ cm_pred cm = yp /\ cm_proba cm = proba /\ yt <> [] /\ length yt = length yp
    /\ (forall p, proba = Some p -> length p = length yt)
    /\ StronglySorted Z.lt (cm_classes cm) /\ forall c, In c (cm_classes cm) <-> In c yt \/ In c yp.

  Lemma sorted_classes l : StronglySorted Z.lt (isort Z.ltb (order (nodup Z.eq_dec l))) /\ forall c, In c (isort Z.ltb (order (nodup Z.eq_dec l))) <-> In c l.
  Proof.
    pose proof (isort_perm Z.ltb (order (nodup Z.eq_dec l))) as HP. pose proof (order_perm (nodup Z.eq_dec l)) as HO.
    split.
    - apply increasing; [|apply isort_ordered; [apply ltb_asym|apply ltb_negtrans]].
      eapply Permutation_NoDup; [exact HP|]. eapply Permutation_NoDup; [symmetry; exact HO|]. apply NoDup_nodup.
    - intros c. split; intros H.
      + apply (nodup_In Z.eq_dec). eapply Permutation_in; [exact HO|]. eapply Permutation_in; [symmetry; exact HP|]. exact H.
      + eapply Permutation_in; [exact HP|]. eapply Permutation_in; [symmetry; exact HO|]. now apply nodup_In.
  Qed.
  Lemma new_made yt yp proba cm : new_metrics yt yp proba = Ok cm <-> made yt yp proba cm.
  Proof.
    unfold new_metrics, made, EvalMetrics.new_metrics. destruct (sorted_classes (yt ++ yp)) as [HS HI]. split.
    - destruct (Nat.eqb_spec (length yt) 0) as [E0|E0]; [discriminate|]. destruct (Nat.eqb_spec (length yt) (length yp)) as [E|E]; [|discriminate]. cbn [negb].
      assert (Hne : yt <> []) by (intros ->; now apply E0).
      assert (G : forall p, proba = Some p -> length p = length yt -> mkcm yt yp proba (isort Z.ltb (order (nodup Z.eq_dec (yt ++ yp)))) = cm ->
        cm_true cm = yt /\ cm_pred cm = yp /\ cm_proba cm = proba /\ yt <> [] /\ length yt = length yp /\ (forall q, proba = Some q -> length q = length yt)
        /\ StronglySorted Z.lt (cm_classes cm) /\ forall c, In c (cm_classes cm) <-> In c yt \/ In c yp).
      { intros p Ep Hp <-. cbn [cm_true cm_pred cm_proba cm_classes]. do 3 (split; [reflexivity|]). split; [exact Hne|]. split; [exact E|].
        split; [intros q Hq; congruence|]. split; [exact HS|]. intros c. rewrite (HI c). apply in_app_iff. }
      destruct proba as [p|].
      + destruct (Nat.eqb_spec (length p) (length yt)) as [Ep|Ep]; [|discriminate]. cbn [negb]. intros H. apply (G p eq_refl Ep). now injection H.
      + intros H. injection H as <-. cbn [cm_true cm_pred cm_proba cm_classes]. do 3 (split; [reflexivity|]). split; [exact Hne|]. split; [exact E|].
        split; [discriminate|]. split; [exact HS|]. intros c. rewrite (HI c). apply in_app_iff.
    - destruct cm as [t p' q cl]. cbn [cm_true cm_pred cm_proba cm_classes]. intros (-> & -> & -> & Hne & Hl & Hp & Hs & Hc).
      assert (E : cl = isort Z.ltb (order (nodup Z.eq_dec (yt ++ yp)))).
      { apply increasing_unique; auto. intros c. rewrite (Hc c), (HI c). symmetry. apply in_app_iff. }
      destruct yt as [|t0 yt]; [contradiction|]. cbn [length Nat.eqb]. rewrite <- Hl. cbn [length Nat.eqb]. rewrite Nat.eqb_refl. cbn [negb].
      destruct proba as [p|]; [|now rewrite E]. rewrite (Hp p eq_refl). cbn [length Nat.eqb]. rewrite Nat.eqb_refl. cbn [negb]. now rewrite E.
  Qed.
  Lemma new_total yt yp proba : (exists cm, new_metrics yt yp proba = Ok cm) \/ (exists e, new_metrics yt yp proba = Err e).
  Proof.
    unfold new_metrics, EvalMetrics.new_metrics. destruct (Nat.eqb _ 0); [right; eauto|]. destruct (negb _); [right; eauto|].
    destruct proba as [p|]; [|left; eauto]. destruct (negb _); [right|left]; eauto.
  Qed.
  Lemma new_ok_iff yt yp proba : (exists cm, new_metrics yt yp proba = Ok cm) <-> yt <> [] /\ length yt = length yp /\ (forall p, proba = Some p -> length p = length yt).
  Proof.
    split.
    - intros [cm H]. apply new_made in H. destruct H as (_ & _ & _ & H1 & H2 & H3 & _). auto.
    - intros (H1 & H2 & H3). destruct (sorted_classes (yt ++ yp)) as [HS HI].
      exists (mkcm yt yp proba (isort Z.ltb (order (nodup Z.eq_dec (yt ++ yp))))). apply new_made. unfold made. cbn.
      repeat (split; auto). intros H; apply in_app_iff, HI, H. intros H; apply HI, in_app_iff, H.
  Qed.

  (** *** Counting *)
  Lemma tp_fp_spec c l : forall tp fp, tp_fp c l tp fp =
    (length (filter (fun s => Z.eqb (fst s) c && Z.eqb (snd s) c) l) + tp, length (filter (fun s => negb (Z.eqb (fst s) c) && Z.eqb (snd s) c) l) + fp).
  Proof.
    induction l as [|[t p] l IH]; intros tp fp; cbn [tp_fp filter fst snd]; [reflexivity|].
    destruct (Z.eqb p c), (Z.eqb t c); cbn [andb negb length]; rewrite IH; f_equal; lia.
  Qed.
  Lemma tp_fn_spec c l : forall tp fn, tp_fn c l tp fn =
    (length (filter (fun s => Z.eqb (fst s) c && Z.eqb (snd s) c) l) + tp, length (filter (fun s => Z.eqb (fst s) c && negb (Z.eqb (snd s) c)) l) + fn).
  Proof.
    induction l as [|[t p] l IH]; intros tp fn; cbn [tp_fn filter fst snd]; [reflexivity|].
    destruct (Z.eqb p c), (Z.eqb t c); cbn [andb negb length]; rewrite IH; f_equal; lia.
  Qed.
  Lemma col_total yt : forall yp c, length yt = length yp ->
    length (filter (fun s => Z.eqb (fst s) c && Z.eqb (snd s) c) (combine yt yp)) + length (filter (fun s => negb (Z.eqb (fst s) c) && Z.eqb (snd s) c) (combine yt yp)) = times yp c.
  Proof.
    induction yt as [|a yt IH]; intros [|b yp] c Hl; try discriminate; [reflexivity|]. cbn [combine filter fst snd].
    specialize (IH yp c ltac:(cbn in Hl; lia)). rewrite times_filter in *. cbn [filter].
    destruct (Z.eqb a c), (Z.eqb b c); cbn [andb negb length]; lia.
  Qed.
  Lemma row_total yt : forall yp c, length yt = length yp ->
    length (filter (fun s => Z.eqb (fst s) c && Z.eqb (snd s) c) (combine yt yp)) + length (filter (fun s => Z.eqb (fst s) c && negb (Z.eqb (snd s) c)) (combine yt yp)) = times yt c.
  Proof.
    induction yt as [|a yt IH]; intros [|b yp] c Hl; try discriminate; [reflexivity|]. cbn [combine filter fst snd].
    specialize (IH yp c ltac:(cbn in Hl; lia)). rewrite times_filter in *. cbn [filter].
    destruct (Z.eqb a c), (Z.eqb b c); cbn [andb negb length]; lia.
  Qed.

  Local Open Scope num_scope.
  Lemma precision_eq yt yp proba cm i c : made yt yp proba cm -> nth_error (cm_classes cm) i = Some c ->
    class_precision cm i = Ok (if Nat.eqb (times yp c) 0 then n0 else nofnat (seen yt yp c c) / nofnat (times yp c)).
  Proof.
    intros (E1 & E2 & _ & _ & Hl & _) Hi. unfold class_precision, samples. rewrite Hi, E1, E2, tp_fp_spec, !Nat.add_0_r, (col_total yt yp c Hl). reflexivity.
  Qed.
  Lemma recall_eq yt yp proba cm i c : made yt yp proba cm -> nth_error (cm_classes cm) i = Some c ->
    class_recall cm i = Ok (if Nat.eqb (times yt c) 0 then n0 else nofnat (seen yt yp c c) / nofnat (times yt c)).
  Proof.
    intros (E1 & E2 & _ & _ & Hl & _) Hi. unfold class_recall, samples. rewrite Hi, E1, E2, tp_fn_spec, !Nat.add_0_r, (row_total yt yp c Hl). reflexivity.
  Qed.
  Lemma support_eq yt yp proba cm i c : made yt yp proba cm -> nth_error (cm_classes cm) i = Some c -> class_support cm i = Ok (nofnat (times yt c)).
  Proof. intros (E1 & _) Hi. unfold class_support. now rewrite Hi, E1, count_filter, Nat.add_0_r, times_filter. Qed.
  Lemma accuracy_eq yt yp proba cm : made yt yp proba cm -> cm_accuracy cm = nofnat (agreeing yt yp) / nofnat (length yt).
  Proof. intros (E1 & E2 & _ & _ & Hl & _). unfold cm_accuracy, samples, nsamples. now rewrite E1, E2, (agreeing_count yt yp Hl). Qed.

  (** *** The confusion matrix *)
  Lemma sorted_nodup l : StronglySorted Z.lt l -> NoDup l.
  Proof.
    induction 1 as [|x l H IH F]; constructor; auto. intros Hi. rewrite Forall_forall in F. specialize (F _ Hi). lia.
  Qed.
  Lemma class_index_absent c cl : forall i f, ~ In c cl -> class_index i cl c f = f.
  Proof.
    induction cl as [|k cl IH]; intros i f H; cbn [class_index]; auto. destruct (Z.eqb_spec k c) as [->|]; [exfalso; apply H; now left|].
    apply IH. intros Hc; apply H; now right.
  Qed.
  Lemma class_index_spec c cl : NoDup cl -> In c cl -> forall i f, exists j, class_index i cl c f = (i + j)%nat /\ nth_error cl j = Some c.
  Proof.
    induction cl as [|k cl IH]; intros Hn Hc i f; [easy|]. inversion Hn as [|? ? Hk Hn']; subst. cbn [class_index].
    destruct (Z.eqb_spec k c) as [->|Hkc].
    - exists 0%nat. split; [|reflexivity]. rewrite class_index_absent by assumption. lia.
    - destruct Hc as [->|Hc]; [congruence|]. destruct (IH Hn' Hc (S i) f) as [j [E Ej]]. exists (S j). split; [rewrite E; lia|exact Ej].
  Qed.

  Lemma upd_map {A B} (g g' : B -> A) (f : A -> res A) cl : NoDup cl -> forall j c, nth_error cl j = Some c ->
    f (g c) = Ok (g' c) -> (forall d, In d cl -> d <> c -> g' d = g d) -> upd j f (map g cl) = Ok (map g' cl).
  Proof.
    induction cl as [|k cl IH]; intros Hn j c Hj Hf He; [now destruct j|]. inversion Hn as [|? ? Hk Hn']; subst. destruct j as [|j]; cbn [nth_error] in Hj; cbn [map upd].
    - injection Hj as ->. rewrite Hf. cbn [bind]. do 2 f_equal. apply map_ext_in. intros d Hd. symmetry. apply He; [now right|congruence].
    - rewrite (IH Hn' j c Hj Hf) by (intros d Hd; apply He; now right). cbn [bind]. do 2 f_equal. symmetry. apply He; [now left|].
      intros ->. apply Hk. eapply nth_error_In; eauto.
  Qed.
  Lemma bump_spec cl (m : Z -> Z -> nat) a b : NoDup cl -> In a cl -> In b cl ->
    bump (class_index 0 cl a 0) (class_index 0 cl b 0) (map (fun x => map (fun y => @ones N (m x y)) cl) cl)
    = Ok (map (fun x => map (fun y => @ones N (m x y + (if Z.eqb a x && Z.eqb b y then 1 else 0))%nat) cl) cl).
  Proof.
    intros Hn Ha Hb. destruct (class_index_spec a cl Hn Ha 0 0) as [i [-> Hi]]. destruct (class_index_spec b cl Hn Hb 0 0) as [j [-> Hj]].
    unfold bump. cbn [Nat.add]. eapply upd_map; [exact Hn|exact Hi| |].
    - eapply upd_map; [exact Hn|exact Hj| |].
      + rewrite !Z.eqb_refl. cbn [andb]. rewrite Nat.add_1_r. reflexivity.
      + intros d _ Hd. destruct (Z.eqb_spec b d); [congruence|]. rewrite andb_false_r, Nat.add_0_r. reflexivity.
    - intros d _ Hd. apply map_ext. intros y. destruct (Z.eqb_spec a d); [congruence|]. cbn [andb]. rewrite Nat.add_0_r. reflexivity.
  Qed.
  Lemma confusion_loop cl l : NoDup cl -> (forall s, In s l -> In (fst s) cl /\ In (snd s) cl) -> forall m,
    foldM (fun m s => bump (class_index 0 cl (fst s) 0) (class_index 0 cl (snd s) 0) m) (map (fun x => map (fun y => @ones N (m x y)) cl) cl) l
    = Ok (map (fun x => map (fun y => @ones N (m x y + length (filter (fun s => Z.eqb (fst s) x && Z.eqb (snd s) y) l))%nat) cl) cl).
  Proof.
    intros Hn. induction l as [|[a b] l IH]; intros Hc m; cbn [foldM].
    - f_equal. apply map_ext. intros x. apply map_ext. intros y. cbn. now rewrite Nat.add_0_r.
    - destruct (Hc (a, b) (or_introl eq_refl)) as [Ha Hb]. cbn [fst snd] in *. rewrite (bump_spec cl m a b Hn Ha Hb). cbn [bind].
      rewrite (IH ltac:(intros s Hs; apply Hc; now right) (fun x y => (m x y + (if Z.eqb a x && Z.eqb b y then 1 else 0))%nat)).
      f_equal. apply map_ext. intros x. apply map_ext. intros y. f_equal. cbn [filter fst snd]. destruct (Z.eqb a x && Z.eqb b y); cbn [length]; lia.
  Qed.
  Lemma repeat_map {A B} (x : B) (l : list A) : repeat x (length l) = map (fun _ => x) l.
  Proof. induction l; cbn; congruence. Qed.
  Lemma confusion_eq yt yp proba cm : made yt yp proba cm ->
    confusion cm = Ok (map (fun a => map (fun b => @ones N (seen yt yp a b)) (cm_classes cm)) (cm_classes cm)).
  Proof.
    intros (E1 & E2 & _ & _ & Hl & _ & Hs & Hc). unfold confusion, nclasses, samples. rewrite E1, E2, (repeat_map (repeat _ _)).
    replace (map (fun _ : Z => repeat n0 (length (cm_classes cm))) (cm_classes cm)) with (map (fun _ => map (fun _ => @ones N 0) (cm_classes cm)) (cm_classes cm))
      by (apply map_ext; intros _; symmetry; apply (repeat_map (@n0 N))).
    rewrite (confusion_loop (cm_classes cm) (combine yt yp) (sorted_nodup _ Hs)) with (m := fun _ _ => 0%nat); [reflexivity|].
    intros [a b] H. split; apply Hc; [left; eapply in_combine_l|right; eapply in_combine_r]; exact H.
  Qed.

  (** *** The report *)
  Lemma precision_total cm i : (i < nclasses cm)%nat -> exists v, @class_precision N cm i = Ok v.
  Proof. unfold class_precision, nclasses. intros H. destruct (nth_error (cm_classes cm) i) eqn:E; [|apply nth_error_None in E; lia]. destruct (tp_fp _ _ _ _). eauto. Qed.
  Lemma recall_total cm i : (i < nclasses cm)%nat -> exists v, @class_recall N cm i = Ok v.
  Proof. unfold class_recall, nclasses. intros H. destruct (nth_error (cm_classes cm) i) eqn:E; [|apply nth_error_None in E; lia]. destruct (tp_fn _ _ _ _). eauto. Qed.
  Lemma support_total cm i : (i < nclasses cm)%nat -> exists v, @class_support N cm i = Ok v.
  Proof. unfold class_support, nclasses. intros H. destruct (nth_error (cm_classes cm) i) eqn:E; [|apply nth_error_None in E; lia]. eauto. Qed.
  Lemma macro_total (f : nat -> res N) n : (forall i, (i < n)%nat -> exists v, f i = Ok v) -> exists v, macro f n = Ok v.
  Proof.
    intros H. unfold macro. assert (G : forall l s, (forall i, In i l -> (i < n)%nat) -> exists v, foldM (fun s i => let* v := f i in Ok (s + v)) s l = Ok v).
    { induction l as [|i l IH]; intros s Hl; cbn [foldM]; [eauto|]. destruct (H i (Hl i (or_introl eq_refl))) as [v ->]. cbn [bind]. apply IH. intros; apply Hl; now right. }
    destruct (G (seq 0 n) n0) as [v ->]; [intros i Hi; apply in_seq in Hi; lia|]. cbn [bind]. eauto.
  Qed.
  Lemma cm_precision_total cm : exists v, @cm_precision N cm = Ok v.
  Proof.
    unfold cm_precision. destruct (Nat.eqb_spec (nclasses cm) 2) as [E|E]; [apply precision_total; lia|]. apply macro_total, precision_total.
  Qed.
  Lemma cm_recall_total cm : exists v, @cm_recall N cm = Ok v.
  Proof.
    unfold cm_recall. destruct (Nat.eqb_spec (nclasses cm) 2) as [E|E]; [apply recall_total; lia|]. apply macro_total, recall_total.
  Qed.
  Lemma mapM_total {A B} (f : A -> res B) l : (forall x, In x l -> exists v, f x = Ok v) -> exists r, mapM f l = Ok r /\ Forall2 (fun x v => f x = Ok v) l r.
  Proof.
    induction l as [|x l IH]; intros H; cbn [mapM]; [exists []; split; auto|]. destruct (H x (or_introl eq_refl)) as [v Ev]. rewrite Ev. cbn [bind].
    destruct IH as [r [-> Hr]]; [intros; apply H; now right|]. cbn [bind]. exists (v :: r). split; auto.
  Qed.
End Any.
