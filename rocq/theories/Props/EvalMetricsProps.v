(** C109, C110 and C111: evaluation reports of the gradient boosting package. *)
From Coq Require Import List Arith ZArith Bool Lia Reals Lra Permutation Sorting.
From Verif Require Import Base.Num Base.GoRes Base.GoSort Base.RTac Base.FTac Model.Metrics Model.EvalMetrics Spec.Stats Spec.Ranking Spec.EvalMetrics.
From Verif Require Import Proofs.AucP Proofs.RegrP Proofs.EvalMetricsP Proofs.EvalMetricsRP Proofs.EvalAucP Proofs.EvalRegrP Props.MetricsProps.
Import ListNotations.
Local Open Scope list_scope.

Section AnyNumber.
  Context {N : Num}.
  Local Open Scope num_scope.
  (** The order in which the set of labels is visited *)
  Variable order : list Z -> list Z.
  Hypothesis order_perm : forall l, Permutation (order l) l.
  Notation metrics := (new_metrics (N := N) order).

  (** *** C109 *)
  (** The constructor refuses empty data and lists of different lengths, and learns the different true
      and predicted labels in increasing order. *)
  Theorem C109_constructor yt yp proba : 
    (exists cm, metrics yt yp proba = Ok cm /\ StronglySorted Z.lt (cm_classes cm) /\ forall c, In c (cm_classes cm) <-> In c yt \/ In c yp)
    <-> yt <> [] /\ length yt = length yp /\ (forall p, proba = Some p -> length p = length yt).
  Proof.
    rewrite <- (new_ok_iff order order_perm yt yp proba). split; intros [cm H]; exists cm; [tauto|]. split; [exact H|].
    apply (new_made order order_perm) in H. destruct H as (_ & _ & _ & _ & _ & _ & H). exact H.
  Qed.
  (** Entry (a, b) of the confusion matrix counts the positions with true label a and prediction b. *)
  Theorem C109_confusion yt yp proba cm : metrics yt yp proba = Ok cm ->
    confusion cm = Ok (map (fun a => map (fun b => ones (seen yt yp a b)) (cm_classes cm)) (cm_classes cm)).
  Proof. intros H. eapply confusion_eq. apply (new_made order order_perm), H. Qed.
  Theorem C109_accuracy yt yp proba cm : metrics yt yp proba = Ok cm -> cm_accuracy cm = nofnat (agreeing yt yp) / nofnat (length yt).
  Proof. intros H. eapply accuracy_eq. apply (new_made order order_perm), H. Qed.
  (** Precision and recall of a class: the correct predictions of it among its predictions, among its
      occurrences; 0 where there are none. Support: its occurrences. *)
  Theorem C109_class yt yp proba cm i c : metrics yt yp proba = Ok cm -> nth_error (cm_classes cm) i = Some c ->
    class_precision cm i = Ok (if Nat.eqb (times yp c) 0 then n0 else nofnat (seen yt yp c c) / nofnat (times yp c))
    /\ class_recall cm i = Ok (if Nat.eqb (times yt c) 0 then n0 else nofnat (seen yt yp c c) / nofnat (times yt c))
    /\ class_support cm i = Ok (nofnat (times yt c)).
  Proof.
    intros H Hi. apply (new_made order order_perm) in H. split; [|split].
    - exact (precision_eq _ _ _ _ _ _ H Hi). - exact (recall_eq _ _ _ _ _ _ H Hi). - exact (support_eq _ _ _ _ _ _ H Hi).
  Qed.
  (** With two labels Precision and Recall are the ones of the larger label. *)
  Theorem C109_two yt yp proba cm a b : metrics yt yp proba = Ok cm -> cm_classes cm = [a; b] ->
    (a < b)%Z /\ cm_precision cm = Ok (if Nat.eqb (times yp b) 0 then n0 else nofnat (seen yt yp b b) / nofnat (times yp b))
    /\ cm_recall cm = Ok (if Nat.eqb (times yt b) 0 then n0 else nofnat (seen yt yp b b) / nofnat (times yt b)).
  Proof.
    intros H Hc. assert (H1 : nth_error (cm_classes cm) 1 = Some b) by now rewrite Hc.
    destruct (C109_class yt yp proba cm 1 b H H1) as (P & R & _). unfold cm_precision, cm_recall, nclasses. rewrite Hc. cbn [length Nat.eqb]. split; [|split; assumption].
    apply (new_made order order_perm) in H. destruct H as (_ & _ & _ & _ & _ & _ & Hs & _). rewrite Hc in Hs. inversion Hs as [|? ? _ F]; subst. now inversion F.
  Qed.
  (** The report never fails on accepted data. It lists every class once, in increasing order, with
      the values of the methods; the area under the curve and the log loss are there exactly if there
      are two labels and probabilities. *)
  Theorem C109_report yt yp proba cm : metrics yt yp proba = Ok cm -> exists rep, evaluate_classification order yt yp proba = Ok rep
    /\ r_accuracy rep = cm_accuracy cm /\ cm_precision cm = Ok (r_precision rep) /\ cm_recall cm = Ok (r_recall rep) /\ cm_f1 cm = Ok (r_f1 rep)
    /\ map fst (r_classes rep) = cm_classes cm
    /\ (forall i c p r f s, nth_error (r_classes rep) i = Some (c, (p, r, f, s)) ->
          class_precision cm i = Ok p /\ class_recall cm i = Ok r /\ class_f1 cm i = Ok f /\ class_support cm i = Ok s)
    /\ (forall v, r_auc rep = Some v <-> cm_auc cm = Ok v) /\ (forall v, r_log_loss rep = Some v <-> cm_log_loss cm = Ok v)
    /\ (r_auc rep <> None <-> length (cm_classes cm) = 2%nat /\ proba <> None) /\ (r_log_loss rep <> None <-> length (cm_classes cm) = 2%nat /\ proba <> None).
  Proof.
    intros H. unfold evaluate_classification. rewrite H. unfold cm_report.
    destruct (cm_precision_total cm) as [p Ep], (cm_recall_total cm) as [r Er]. unfold cm_f1. rewrite Ep, Er. cbn [bind].
    assert (Ea : exists a, (if Nat.eqb (nclasses cm) 2 then when_ok (cm_auc cm) else Ok None) = Ok a /\ (forall v, a = Some v <-> cm_auc cm = Ok v)
                 /\ (a <> None <-> length (cm_classes cm) = 2%nat /\ proba <> None)).
    { apply (new_made order order_perm) in H. destruct H as (_ & _ & E3 & _). unfold nclasses, cm_auc. rewrite E3.
      destruct (cm_classes cm) as [|a [|b [|c l]]]; cbn [length Nat.eqb]; try (exists None; split; [reflexivity|]; split; [intros v; split; discriminate|]; split; [congruence|intros [? _]; lia]).
      destruct proba as [q|]; [|exists None; cbn; split; [reflexivity|]; split; [intros v; split; discriminate|]; split; [congruence|intros [_ ?]; congruence]].
      destruct (Nat.eqb _ 0 || Nat.eqb _ 0); eexists (Some _); cbn [when_ok]; (split; [reflexivity|]; split; [intros v; split; intros E; injection E as <-; reflexivity|split; [split; [reflexivity|discriminate]|discriminate]]). }
    assert (El : exists a, (if Nat.eqb (nclasses cm) 2 then when_ok (cm_log_loss cm) else Ok None) = Ok a /\ (forall v, a = Some v <-> cm_log_loss cm = Ok v)
                 /\ (a <> None <-> length (cm_classes cm) = 2%nat /\ proba <> None)).
    { apply (new_made order order_perm) in H. destruct H as (_ & _ & E3 & _). unfold nclasses, cm_log_loss. rewrite E3.
      destruct (cm_classes cm) as [|a [|b [|c l]]]; cbn [length Nat.eqb];
        try (exists None; split; [reflexivity|]; split; [intros v; destruct proba; split; discriminate|]; split; [congruence|intros [? _]; lia]).
      destruct proba as [q|]; [|exists None; cbn; split; [reflexivity|]; split; [intros v; split; discriminate|]; split; [congruence|intros [_ ?]; congruence]].
      eexists (Some _); cbn [when_ok]; (split; [reflexivity|]; split; [intros v; split; intros E; injection E as <-; reflexivity|split; [split; [reflexivity|discriminate]|discriminate]]). }
    destruct Ea as [a (-> & Ha1 & Ha2)], El as [l (-> & Hl1 & Hl2)]. cbn [bind].
    match goal with |- context [mapM ?g ?x] => destruct (mapM_total g x) as [pc [-> Hpc]] end.
    { intros [i c] Hin. apply in_combine_l, in_seq in Hin. cbn [fst snd]. unfold class_f1.
      destruct (precision_total cm i) as [? ->]; [lia|]. destruct (recall_total cm i) as [? ->]; [lia|]. destruct (support_total cm i) as [? ->]; [lia|]. cbn [bind]. eauto. }
    cbn [bind]. eexists. split; [reflexivity|]. cbn [r_accuracy r_precision r_recall r_f1 r_classes r_auc r_log_loss].
    do 4 (split; [reflexivity|]).
    assert (G : forall (s : nat) (cl : list Z) (pc : list (Z * (N * N * N * N))), Forall2 (fun ic v => (let* cp := class_precision cm (fst ic) in let* cr := class_recall cm (fst ic) in let* cf := class_f1 cm (fst ic) in let* cs := class_support cm (fst ic) in Ok (snd ic, (cp, cr, cf, cs))) = Ok v)
        (combine (seq s (length cl)) cl) pc ->
        map fst pc = cl /\ forall i c p r f s', nth_error pc i = Some (c, (p, r, f, s')) -> class_precision cm (s + i) = Ok p /\ class_recall cm (s + i) = Ok r /\ class_f1 cm (s + i) = Ok f /\ class_support cm (s + i) = Ok s').
    { clear - cm. intros s cl. revert s. induction cl as [|c cl IH]; intros s pc F; cbn [length seq combine] in F; inversion F as [|x v ? vs E F' ]; subst; [split; [reflexivity|intros [|i]; discriminate]|].
      cbn [fst snd] in E. destruct (IH (S s) vs F') as [I1 I2].
      destruct (class_precision cm s) as [cp| |] eqn:E1; cbn [bind] in E; try discriminate. destruct (class_recall cm s) as [cr| |] eqn:E2; cbn [bind] in E; try discriminate.
      destruct (class_f1 cm s) as [cf| |] eqn:E3; cbn [bind] in E; try discriminate. destruct (class_support cm s) as [cs| |] eqn:E4; cbn [bind] in E; try discriminate.
      injection E as <-. split; [cbn; now rewrite I1|]. intros [|i] c' p r f s' Hn; cbn [nth_error] in Hn.
      - injection Hn as <- <- <- <- <-. rewrite Nat.add_0_r. auto.
      - replace (s + S i)%nat with (S s + i)%nat by lia. exact (I2 i c' p r f s' Hn). }
    destruct (G 0%nat (cm_classes cm) pc Hpc) as [G1 G2]. split; [exact G1|]. split; [exact G2|]. auto.
  Qed.
  Theorem C109_refused yt yp proba : (forall cm, metrics yt yp proba <> Ok cm) -> exists e, evaluate_classification order yt yp proba = Err (EWrapped e).
  Proof.
    intros H. unfold evaluate_classification. destruct (new_total order yt yp proba) as [[cm E]|[e E]]; [destruct (H _ E)|]. rewrite E. eauto.
  Qed.

  (** *** C110, without arithmetic *)
  (** A third label, if only among the predictions, which neither of them reads, takes the area under
      the curve and the log loss away. *)
  Theorem C110_stray_label yt yp proba cm a b c : metrics yt yp proba = Ok cm -> In a yt -> In b yt -> a <> b -> In c yp -> c <> a -> c <> b ->
    (exists e, cm_auc cm = Err e) /\ exists e, cm_log_loss cm = Err e.
  Proof.
    intros H Ha Hb Hab Hc Hca Hcb. apply (new_made order order_perm) in H. destruct H as (_ & _ & _ & _ & _ & _ & _ & HI).
    assert (Ia : In a (cm_classes cm)) by (apply HI; now left). assert (Ib : In b (cm_classes cm)) by (apply HI; now left). assert (Ic : In c (cm_classes cm)) by (apply HI; now right).
    unfold cm_auc, cm_log_loss. destruct (cm_classes cm) as [|x [|y [|z l]]].
    - easy.
    - destruct Ia as [->|[]], Ib as [->|[]]; congruence.
    - exfalso. destruct Ia as [->|[->|[]]], Ib as [->|[->|[]]], Ic as [E|[E|[]]]; congruence.
    - split; [eauto|]. destruct (cm_proba cm); eauto.
  Qed.

  (** *** C111 *)
  (** The regression functions of the package are the ones of the metrics package. *)
  Theorem C111_same_metrics (yt yp : vec N) : lmse yt yp = mse yt yp /\ lmae yt yp = mae yt yp /\ lr2 yt yp = r2_score yt yp
    /\ lmape yt yp = mape yt yp /\ levs yt yp = explained_variance_score yt yp.
  Proof. auto using lmse_same, lmae_same, lr2_same, lmape_same, levs_same. Qed.
  (** EvaluateRegression succeeds exactly if all of them but MAPE do, and reports their values, with NaN
      for a failed MAPE. *)
  Theorem C111_entries (yt yp : vec N) rep : evaluate_regression yt yp = Ok rep <->
    mse yt yp = Ok (rr_mse rep) /\ rr_rmse rep = nsqrt (rr_mse rep) /\ mae yt yp = Ok (rr_mae rep) /\ r2_score yt yp = Ok (rr_r2 rep)
    /\ explained_variance_score yt yp = Ok (rr_evs rep) /\ match mape yt yp with Ok v => rr_mape rep = v | Err _ => rr_mape rep = nnan | Panic => False end.
  Proof. exact (evaluate_entries yt yp rep). Qed.
End AnyNumber.

Section Real.
  Local Open Scope R_scope.
  Variable order : list Z -> list Z.
  Hypothesis order_perm : forall l, Permutation (order l) l.
  Notation metrics := (@new_metrics RNum order).

  (** *** C109 over the reals *)
  (** The rows of the confusion matrix add up to the supports, the columns to the numbers of
      predictions, all entries to the number of samples, the diagonal to accuracy times samples. *)
  Theorem C109_totals yt yp proba cm M : metrics yt yp proba = Ok cm -> confusion cm = Ok M ->
    map Rsum M = map (fun a => INR (times yt a)) (cm_classes cm)
    /\ (forall j b, nth_error (cm_classes cm) j = Some b -> Rsum (map (fun row => nth j row 0) M) = INR (times yp b))
    /\ Rsum (map Rsum M) = INR (length yt)
    /\ Rsum (map (fun i => nth i (nth i M []) 0) (seq 0 (length (cm_classes cm)))) = cm_accuracy cm * INR (length yt).
  Proof.
    intros H HM. pose proof (C109_accuracy order order_perm _ _ _ _ H) as HA. rewrite (C109_confusion order order_perm yt yp proba cm H) in HM. injection HM as <-.
    apply (new_made order order_perm) in H. destruct H as (_ & _ & _ & Hne & Hl & _ & Hs & Hc).
    set (cl := cm_classes cm) in *. assert (Hn : NoDup cl) by now apply sorted_nodup.
    assert (E : forall f, map (fun a => map (fun b => @ones RNum (f a b)) cl) cl = map (fun a => map (fun b => INR (f a b)) cl) cl)
      by (intros f; apply map_ext; intros a; apply map_ext; intros b; apply ones_R).
    rewrite !E. clear E.
    assert (R1 : map Rsum (map (fun a => map (fun b => INR (seen yt yp a b)) cl) cl) = map (fun a => INR (times yt a)) cl).
    { rewrite map_map. apply map_ext. intros a. apply seen_row; auto. intros c Hi. apply Hc. now right. }
    assert (NE : forall {A} (g : Z -> A) d j b, nth_error cl j = Some b -> nth j (map g cl) d = g b).
    { intros A g d j b Hj. apply nth_error_nth. now apply map_nth_error. }
    split; [exact R1|]. split; [|split].
    - intros j b Hj. rewrite map_map. rewrite (Rsum_map_ext _ (fun a => INR (seen yt yp a b))) by (intros a _; exact (NE _ (fun b => INR (seen yt yp a b)) 0 j b Hj)).
      apply seen_col; auto. intros c Hi. apply Hc. now left.
    - rewrite R1. apply times_sum; auto. intros c Hi. apply Hc. now left.
    - rewrite HA, !nofnat_R. assert (0 < INR (length yt)) by (apply lt_0_INR; destruct yt; [contradiction|cbn; lia]).
      cbn [ndiv RNum]. unfold Rdiv. rewrite Rmult_assoc, Rinv_l, Rmult_1_r by lra. rewrite <- (diagonal_sum yt yp cl) by (auto; intros c Hi; apply Hc; now left).
      f_equal. transitivity (map (fun i => nth i (map (fun c => INR (seen yt yp c c)) cl) 0) (seq 0 (length cl))).
      + apply map_ext_in. intros i Hi. apply in_seq in Hi. destruct (nth_error cl i) as [c|] eqn:Ei; [|apply nth_error_None in Ei; lia].
        etransitivity; [exact (f_equal (fun r => nth i r 0) (NE _ (fun a => map (fun b => INR (seen yt yp a b)) cl) [] i c Ei))|].
        etransitivity; [exact (NE _ (fun b => INR (seen yt yp c b)) 0 i c Ei)|]. symmetry. exact (NE _ (fun c => INR (seen yt yp c c)) 0 i c Ei).
      + clear. rewrite <- (map_length (fun c => INR (seen yt yp c c)) cl). generalize (map (fun c => INR (seen yt yp c c)) cl). clear. intros l.
        apply nth_ext with (d := 0) (d' := 0); [now rewrite map_length, seq_length|]. intros i Hi. rewrite map_length, seq_length in Hi.
        rewrite (nth_indep _ 0 (nth 0%nat l 0)) by (now rewrite map_length, seq_length). rewrite (map_nth (fun i => nth i l 0)). now rewrite seq_nth.
  Qed.
  (** The recalls weighted by the supports average to the accuracy. *)
  Theorem C109_weighted_recall yt yp proba cm : metrics yt yp proba = Ok cm ->
    Rsum (map (fun c => INR (times yt c) * recall_of yt yp c) (cm_classes cm)) = cm_accuracy cm * INR (length yt).
  Proof.
    intros H. rewrite (C109_accuracy order order_perm _ _ _ _ H), !nofnat_R.
    apply (new_made order order_perm) in H. destruct H as (_ & _ & _ & Hne & Hl & _ & Hs & Hc).
    assert (0 < INR (length yt)) by (apply lt_0_INR; destruct yt; [contradiction|cbn; lia]).
    cbn [ndiv RNum]. unfold Rdiv. rewrite Rmult_assoc, Rinv_l, Rmult_1_r by lra.
    rewrite <- (diagonal_sum yt yp (cm_classes cm)) by (auto using sorted_nodup; intros c Hi; apply Hc; now left).
    apply Rsum_map_ext. intros c _. unfold recall_of. pose proof (seen_le_true yt yp c Hl). destruct (Nat.eqb_spec (times yt c) 0) as [E|E].
    - replace (seen yt yp c c) with 0%nat by lia. cbn. lra.
    - field. apply not_0_INR. exact E.
  Qed.
  (** One class, or more than two: means over all classes, and their harmonic mean. *)
  Theorem C109_means yt yp proba cm : metrics yt yp proba = Ok cm -> length (cm_classes cm) <> 2%nat ->
    let k := INR (length (cm_classes cm)) in
    let p := Rsum (map (precision_of yt yp) (cm_classes cm)) / k in
    let r := Rsum (map (recall_of yt yp) (cm_classes cm)) / k in
    cm_precision cm = Ok p /\ cm_recall cm = Ok r /\ cm_f1 cm = Ok (harmonic p r).
  Proof.
    intros H Hk k p r. apply (new_made order order_perm) in H.
    assert (EP : cm_precision cm = Ok p).
    { unfold cm_precision, nclasses. destruct (Nat.eqb_spec (length (cm_classes cm)) 2); [contradiction|]. apply macro_R. intros i c. apply (precision_R yt yp proba cm i c H). }
    assert (ER : cm_recall cm = Ok r).
    { unfold cm_recall, nclasses. destruct (Nat.eqb_spec (length (cm_classes cm)) 2); [contradiction|]. apply macro_R. intros i c. apply (recall_R yt yp proba cm i c H). }
    split; [exact EP|]. split; [exact ER|]. unfold cm_f1. rewrite EP, ER. cbn [bind]. f_equal. apply f1_R.
  Qed.
  (** F1Score is not the mean of the classes' F1 scores, as its comment says, but never below it. *)
  Theorem C109_f1_bound yt yp proba cm f : metrics yt yp proba = Ok cm -> length (cm_classes cm) <> 2%nat -> cm_f1 cm = Ok f ->
    Rsum (map (fun c => harmonic (precision_of yt yp c) (recall_of yt yp c)) (cm_classes cm)) / INR (length (cm_classes cm)) <= f.
  Proof.
    intros H Hk Hf. destruct (C109_means yt yp proba cm H Hk) as (_ & _ & E). rewrite E in Hf. injection Hf as <-.
    apply (new_made order order_perm) in H. destruct H as (_ & _ & _ & Hne & Hl & _ & _ & Hc).
    apply harmonic_means.
    - destruct yt as [|t yt]; [contradiction|]. intros E0. assert (Hin : In t (cm_classes cm)) by (apply Hc; left; now left). now rewrite E0 in Hin.
    - intros c _. split; [apply (precision_range yt yp c Hl)|apply (recall_range yt yp c Hl)].
  Qed.
  (** The F1 score of a class is the harmonic mean of its precision and recall, which lie in [0, 1]. *)
  Theorem C109_f1_class yt yp proba cm i c f : metrics yt yp proba = Ok cm -> nth_error (cm_classes cm) i = Some c -> class_f1 cm i = Ok f ->
    let p := precision_of yt yp c in let r := recall_of yt yp c in
    f = harmonic p r /\ 0 <= p <= 1 /\ 0 <= r <= 1 /\ Rmin p r <= f <= Rmax p r.
  Proof.
    intros H Hi Hf p r. apply (new_made order order_perm) in H. pose proof H as (_ & _ & _ & Hne & Hl & _). unfold class_f1 in Hf.
    rewrite (precision_R yt yp proba cm i c H Hi), (recall_R yt yp proba cm i c H Hi) in Hf. cbn [bind] in Hf. rewrite f1_R in Hf. injection Hf as <-.
    pose proof (precision_range yt yp c Hl). pose proof (recall_range yt yp c Hl). split; [reflexivity|]. split; [assumption|]. split; [assumption|]. apply harmonic_bounds; [apply (precision_range yt yp c Hl)|apply (recall_range yt yp c Hl)].
  Qed.

  (** *** C110 *)
  (** The area under the curve is the one of the metrics package for the labels encoded as 0 and 1:
      the share of pairs of a larger and a smaller label that the probabilities rank right. *)
  Theorem C110_auc yt yp p cm a b sortf : metrics yt yp (Some p) = Ok cm -> cm_classes cm = [a; b] -> go_sort (@score_desc RNum) sortf ->
    cm_auc cm = @auc RNum sortf (Some (encoded b yt)) (Some p).
  Proof. intros H Hc Hs. apply (new_made order order_perm) in H. exact (cm_auc_R yt yp p cm a b sortf H Hc Hs). Qed.
  Theorem C110_auc_value yt yp p cm a b : metrics yt yp (Some p) = Ok cm -> cm_classes cm = [a; b] ->
    (In a yt -> In b yt -> cm_auc cm = Ok (mann_whitney (combine p (encoded b yt)))) /\ (~ (In a yt /\ In b yt) -> cm_auc cm = Ok (1 / 2))
    /\ exists v, cm_auc cm = Ok v /\ 0 <= v <= 1.
  Proof.
    intros H Hc. pose proof (C110_auc yt yp p cm a b desc_sort H Hc desc_sort_ok) as E. rewrite E.
    apply (new_made order order_perm) in H. destruct H as (_ & _ & _ & Hne & Hl & Hp & Hs & HI). specialize (Hp p eq_refl). rewrite Hc in Hs, HI.
    assert (D : a <> b) by (inversion Hs as [|? ? _ F]; subst; inversion F; subst; lia).
    assert (Hlen : length (encoded b yt) = length p) by (unfold encoded; now rewrite map_length).
    assert (Hne' : encoded b yt <> []) by (destruct yt; [contradiction|discriminate]).
    assert (In1 : In 1 (encoded b yt) <-> In b yt).
    { unfold encoded. rewrite in_map_iff. split; [intros [t [Et Ht]]; destruct (Z.eqb_spec t b); [now subst|lra] | intros Hb; exists b; now rewrite Z.eqb_refl]. }
    assert (In0 : In 0 (encoded b yt) <-> In a yt).
    { unfold encoded. rewrite in_map_iff. split.
      - intros [t [Et Ht]]. destruct (Z.eqb_spec t b) as [|n]; [lra|]. destruct (proj2 (HI t) (or_introl Ht)) as [->|[->|[]]]; congruence.
      - intros Ha. exists a. destruct (Z.eqb_spec a b); [congruence|auto]. }
    split; [|split].
    - intros Ha Hb. apply C08_auc_mann_whitney; auto; try apply desc_sort_ok; try apply encoded_binary; tauto.
    - intros Hn. destruct (in_dec Z.eq_dec b yt) as [Hb|Hb].
      + apply C08_auc_one_class with (c := 1); auto; try apply desc_sort_ok. intros y Hy. destruct (encoded_binary _ _ _ Hy) as [->| ->]; auto. tauto.
      + apply C08_auc_one_class with (c := 0); auto; try apply desc_sort_ok. intros y Hy. destruct (encoded_binary _ _ _ Hy) as [->| ->]; auto. tauto.
    - pose proof (auc_R desc_sort (encoded b yt) p desc_sort_ok Hlen Hne' (encoded_binary b yt)) as EA. eexists. split; [exact EA|].
      exact (C09_auc_range desc_sort _ _ _ desc_sort_ok EA).
  Qed.
  (** The log loss is the one of the metrics package: the mean of minus the log of the probability of
      the true label, between 0 and 35, where probabilities within 1e-15 of 0 and 1 are moved there. *)
  Theorem C110_log_loss yt yp p cm a b : metrics yt yp (Some p) = Ok cm -> cm_classes cm = [a; b] ->
    cm_log_loss cm = @binary_log_loss RNum (Some (encoded b yt)) (Some p)
    /\ (exists v, cm_log_loss cm = Ok v /\ 0 <= v <= - ln (1 / 1000000000000000))
    /\ ((forall x, In x p -> 1 / 1000000000000000 <= x <= 1 - 1 / 1000000000000000) ->
        cm_log_loss cm = Ok (mean_of (map (fun s => - ln (if Z.eqb (snd s) b then fst s else 1 - fst s)) (combine p yt)))).
  Proof.
    intros H Hc. apply (new_made order order_perm) in H. rewrite <- (log_loss_same yt yp p cm a b H Hc). split; [reflexivity|].
    rewrite (cm_log_loss_R yt yp p cm a b H Hc). destruct H as (_ & _ & _ & Hne & Hl & Hp & _). specialize (Hp p eq_refl).
    assert (0 < INR (length yt)) by (apply lt_0_INR; destruct yt; [contradiction|cbn; lia]).
    assert (Hlen : length (combine p yt) = length yt) by (rewrite combine_length; lia). split.
    - eexists. split; [reflexivity|]. split.
      + apply Rmult_le_pos; [|left; now apply Rinv_0_lt_compat]. apply Rsum_nonneg. intros x Hx. apply in_map_iff in Hx as [s [<- _]]. apply sample_loss_range.
      + apply Rmult_le_reg_r with (INR (length yt)); auto. unfold Rdiv at 1. rewrite Rmult_assoc, Rinv_l, Rmult_1_r by lra.
        rewrite <- Hlen at 1. rewrite (Rmult_comm (- _)), <- (Rsum_map_const (- ln (1 / 1000000000000000)) (combine p yt)). apply Rsum_le. intros s _. apply sample_loss_range.
    - intros Hx. f_equal. unfold mean_of. rewrite map_length. etransitivity; [|exact (f_equal (fun n => _ / INR n) (eq_sym Hlen))]. f_equal. apply Rsum_map_ext. intros [x t] Hin. cbn [fst snd]. rewrite sample_loss_eq.
      rewrite clipped_id by (apply Hx; eapply in_combine_l; exact Hin). reflexivity.
  Qed.

  (** *** C111 over the reals *)
  (** MAPE: a hundred times the mean of the relative errors of the targets that are not 0. *)
  Theorem C111_mape (t p : list R) : length t = length p -> t <> [] ->
    match @mape RNum (Some t) (Some p) with
    | Ok v => (exists y, In y t /\ y <> 0) /\ v = 100 * mean_of (relative_errors t p) /\ 0 <= v
    | Err _ => forall y, In y t -> y = 0
    | Panic => False
    end.
  Proof.
    intros Hl Hne. match goal with |- match ?r with _ => _ end => assert (EM : r = if Nat.eqb (length (relative_errors t p)) 0 then Err (EOther 1) else Ok (100 * mean_of (relative_errors t p))) by exact (mape_R t p Hl Hne); rewrite EM; clear EM end. destruct (Nat.eqb_spec (length (relative_errors t p)) 0) as [E|E].
    - intros y Hy. destruct (Req_dec y 0) as [|Hy0]; auto. exfalso. unfold relative_errors in E. rewrite map_length in E.
      destruct (In_nth _ _ 0 Hy) as [i [Hi Ey]]. assert (Hin : In (y, nth i p 0) (filter (fun ab => negb (Reqb (fst ab) 0)) (combine t p))).
      { apply filter_In. split; [|cbn [fst]; destruct (Reqb_spec y 0); auto; contradiction]. rewrite <- Ey, <- (combine_nth t p i 0 0 Hl). apply nth_In. rewrite combine_length. lia. }
      destruct (filter _ _); [destruct Hin|discriminate].
    - split; [|split; [reflexivity|]].
      + unfold relative_errors in E. rewrite map_length in E. destruct (filter (fun ab => negb (Reqb (fst ab) 0)) (combine t p)) as [|[y q] l] eqn:F; [now destruct E|].
        assert (Hin : In (y, q) (filter (fun ab => negb (Reqb (fst ab) 0)) (combine t p))) by (rewrite F; now left).
        apply filter_In in Hin as [Hin Hb]. exists y. split; [eapply in_combine_l; exact Hin|]. cbn [fst] in Hb. destruct (Reqb_spec y 0); [discriminate|auto].
      + apply Rmult_le_pos; [lra|]. apply Rmult_le_pos; [|left; apply Rinv_0_lt_compat, lt_0_INR; lia]. apply Rsum_nonneg. unfold relative_errors. intros x Hx.
        apply in_map_iff in Hx as [[a b] [<- Hin]]. apply filter_In in Hin as [_ Hb]. cbn [fst snd] in *. destruct (Reqb_spec a 0); [discriminate|].
        apply Rmult_le_pos; [apply Rabs_pos|]. left. apply Rinv_0_lt_compat. now apply Rabs_pos_lt.
  Qed.
  (** EvaluateRegression succeeds exactly for lists of equal length with two different targets, so
      constant targets have no report at all; the NaN entry for MAPE never occurs. *)
  Theorem C111_success (t p : list R) : (exists rep, @evaluate_regression RNum (Some t) (Some p) = Ok rep) <-> length t = length p /\ exists x y, In x t /\ In y t /\ x <> y.
  Proof.
    split.
    - intros [rep H]. apply evaluate_entries in H. destruct H as (H1 & _ & _ & H4 & _).
      assert (Hl : length t = length p /\ t <> []).
      { destruct (Nat.eq_dec (length t) (length p)) as [Hl|Hl]; [|destruct (C11_rejects RNum t p (or_introl Hl)) as (e & He & _); discriminate (eq_trans (eq_sym He) H1)].
        split; [exact Hl|]. intros E. destruct (C11_rejects RNum t p (or_intror E)) as (e & He & _); discriminate (eq_trans (eq_sym He) H1). }
      destruct Hl as [Hl Hne]. split; [exact Hl|]. destruct t as [|c t]; [contradiction|].
      destruct (existsb (fun y => negb (Reqb y c)) t) eqn:E.
      + apply existsb_exists in E as [y [Hy Hb]]. exists c, y. split; [now left|]. split; [now right|]. destruct (Reqb_spec y c); [discriminate|congruence].
      + exfalso. destruct (C12_constant_target (c :: t) p c Hl Hne) as [[e He] _]; [|congruence].
        intros y [->|Hy]; auto. rewrite <- Bool.not_true_iff_false in E. destruct (Req_dec y c) as [|Hn]; auto. destruct E. apply existsb_exists. exists y. split; auto. destruct (Reqb_spec y c); [contradiction|reflexivity].
    - intros [Hl (x & y & Hx & Hy & Hxy)]. assert (Hne : t <> []) by (intros ->; easy).
      destruct (C11_mse t p Hl Hne) as [m [Hm _]]. destruct (C11_mae t p Hl Hne) as [a [Ha _]]. destruct (C12_r2 t p x y Hl Hx Hy Hxy) as (r & e & Hr & He & _).
      pose proof (C111_mape t p Hl Hne) as Hq. destruct (@mape RNum (Some t) (Some p)) as [q| |] eqn:Eq; [| |destruct Hq].
      + exists (@mkrr RNum m (sqrt m) a r q e). apply evaluate_entries. cbn. rewrite Eq. repeat split; assumption.
      + exfalso. apply Hxy. rewrite (Hq x Hx), (Hq y Hy). reflexivity.
  Qed.
  Theorem C111_values (t p : list R) rep : @evaluate_regression RNum (Some t) (Some p) = Ok rep ->
    @mape RNum (Some t) (Some p) = Ok (rr_mape rep) /\ rr_rmse rep * rr_rmse rep = rr_mse rep /\ rr_mae rep <= rr_rmse rep /\ rr_r2 rep <= rr_evs rep <= 1.
  Proof.
    intros H. assert (S : exists rep, @evaluate_regression RNum (Some t) (Some p) = Ok rep) by eauto. apply C111_success in S. destruct S as [Hl (x & y & Hx & Hy & Hxy)].
    assert (Hne : t <> []) by (intros ->; easy). apply evaluate_entries in H. destruct H as (H1 & H2 & H3 & H4 & H5 & H6).
    pose proof (C111_mape t p Hl Hne) as Hq. destruct (@mape RNum (Some t) (Some p)) as [q| |]; [| exfalso; apply Hxy; rewrite (Hq x Hx), (Hq y Hy); reflexivity|destruct H6].
    assert (HR : @rmse RNum (Some t) (Some p) = Ok (rr_rmse rep)) by (unfold rmse; rewrite H1, H2; reflexivity).
    destruct (C11_rmse t p Hl Hne) as (m & s & G1 & _ & G2 & G3 & _). rewrite HR in G1. injection G1 as <-. rewrite H1 in G2. injection G2 as <-.
    destruct (C12_r2 t p x y Hl Hx Hy Hxy) as (r & e & Hr & He & _ & _ & Hre & He1). rewrite H4 in Hr. injection Hr as <-. rewrite H5 in He. injection He as <-.
    split; [now rewrite H6|]. split; [exact G3|]. split; [exact (C11_mae_le_rmse t p _ _ H3 HR)|]. split; assumption.
  Qed.
End Real.

(** *** Cases that meet the hypotheses *)
Lemma kept_perm : forall l : list Z, Permutation ((fun l => l) l) l. Proof. intros l. apply Permutation_refl. Qed.
(** Three classes: every hypothesis of the statements about the mean over the classes is met. *)
Definition three : cmetrics RNum := @mkcm RNum [0; 0; 1; 2]%Z [0; 1; 1; 2]%Z None [0; 1; 2]%Z.
Example three_made : @new_metrics RNum (fun l => l) [0; 0; 1; 2]%Z [0; 1; 1; 2]%Z None = Ok three. Proof. reflexivity. Qed.
Lemma three_values : map (precision_of [0; 0; 1; 2]%Z [0; 1; 1; 2]%Z) [0; 1; 2]%Z = [1; 1 / 2; 1]%R
  /\ map (recall_of [0; 0; 1; 2]%Z [0; 1; 1; 2]%Z) [0; 1; 2]%Z = [1 / 2; 1; 1]%R.
Proof. split; cbn; repeat f_equal; lra. Qed.
Example C109_confusion_case : @confusion RNum three = Ok [[1; 1; 0]; [0; 1; 0]; [0; 0; 1]]%R.
Proof. rewrite (C109_confusion _ kept_perm _ _ _ _ three_made). cbn. repeat f_equal; lra. Qed.
Lemma harmonic_eq p r : (p + r <> 0 -> harmonic p r = 2 * p * r / (p + r))%R.
Proof. intros H. unfold harmonic. destruct (Req_EM_T _ _); [contradiction|reflexivity]. Qed.
Lemma three_f1 : @cm_f1 RNum three = Ok (5 / 6)%R.
Proof.
  destruct (C109_means _ kept_perm _ _ _ _ three_made) as (_ & _ & E); [discriminate|]. rewrite E. clear E.
  destruct three_values as [EP ER]. change (cm_classes three) with [0; 1; 2]%Z. rewrite EP, ER. f_equal. cbn. rewrite harmonic_eq by lra. field.
Qed.
(** The documented value, the mean of the F1 scores of the classes, is another one. *)
Theorem C109_f1_macro_refuted : exists yt yp cm f, @new_metrics RNum (fun l => l) yt yp None = Ok cm /\ cm_f1 cm = Ok f
  /\ f <> (Rsum (map (fun c => harmonic (precision_of yt yp c) (recall_of yt yp c)) (cm_classes cm)) / INR (length (cm_classes cm)))%R.
Proof.
  exists [0; 0; 1; 2]%Z, [0; 1; 1; 2]%Z, three, (5 / 6)%R. split; [reflexivity|]. split; [exact three_f1|].
  replace (map (fun c => harmonic (precision_of [0; 0; 1; 2]%Z [0; 1; 1; 2]%Z c) (recall_of [0; 0; 1; 2]%Z [0; 1; 1; 2]%Z c)) (cm_classes three)) with [2 / 3; 2 / 3; 1]%R; [cbn; lra|].
  destruct three_values as [EP ER].
  pose proof (f_equal (fun l => (nth 0 l 0, nth 1 l 0, nth 2 l 0)%R) EP) as E1. pose proof (f_equal (fun l => (nth 0 l 0, nth 1 l 0, nth 2 l 0)%R) ER) as E2. cbn [map nth] in E1, E2.
  assert (G : forall a b c d e f : R, (a, b, c) = (d, e, f) -> a = d /\ b = e /\ c = f) by (intros; split; [|split]; congruence).
  apply G in E1, E2. cbn [three cm_classes map].
  destruct E1 as (P0 & P1 & P2), E2 as (R0 & R1 & R2). rewrite P0, P1, P2, R0, R1, R2. rewrite !harmonic_eq by lra. clear. apply f_equal2; [field|]. apply f_equal2; [field|]. apply f_equal2; [field|reflexivity].
Qed.
(** Two labels with probabilities: every hypothesis of C110 is met. *)
Definition two : cmetrics RNum := @mkcm RNum [3; 7; 7; 3]%Z [3; 7; 3; 7]%Z (Some [1 / 5; 4 / 5; 2 / 5; 2 / 5]%R) [3; 7]%Z.
Example two_made : @new_metrics RNum (fun l => l) [3; 7; 7; 3]%Z [3; 7; 3; 7]%Z (Some [1 / 5; 4 / 5; 2 / 5; 2 / 5]%R) = Ok two. Proof. reflexivity. Qed.
Example C110_auc_case : @cm_auc RNum two = Ok (7 / 8)%R.
Proof.
  destruct (C110_auc_value _ kept_perm _ _ _ _ 3%Z 7%Z two_made eq_refl) as (E & _ & _). rewrite E by (cbn; auto). f_equal.
  unfold mann_whitney, pos_scores, neg_scores, encoded. cbn [map Z.eqb Pos.eqb combine filter snd].
  rdecide. cbn. unfold pair_sum, pair_score. cbn. rdecide. field.
Qed.
(** A third label, only predicted: the report has neither value. *)
Example C110_stray_case : exists rep, @evaluate_classification RNum (fun l => l) [3; 7; 7; 3]%Z [3; 7; 9; 7]%Z (Some [1 / 5; 4 / 5; 2 / 5; 2 / 5]%R) = Ok rep /\ r_auc rep = None /\ r_log_loss rep = None.
Proof. eexists. split; [reflexivity|]. split; reflexivity. Qed.

(** Over the floats: probabilities that are all NaN give the area 0, no error, for a report that has
    one prediction right of two. *)
Definition nan_case : cmetrics F0 := @mkcm F0 [0; 1]%Z [0; 0]%Z (Some [@nnan F0; @nnan F0]) [0; 1]%Z.
Theorem C110_nan_refuted : @new_metrics F0 (fun l => l) [0; 1]%Z [0; 0]%Z (Some [@nnan F0; @nnan F0]) = Ok nan_case
  /\ rmap fs (cm_auc nan_case) = Ok (fs (f 0 1)).
Proof. split; [reflexivity|]. vm_compute. reflexivity. Qed.

(** Regression: a report, and none for a constant target although every error is 0. *)
Example C111_success_case : exists rep, @evaluate_regression RNum (Some [1; 2; 0]%R) (Some [1; 3; 5]%R) = Ok rep.
Proof. apply C111_success. split; [reflexivity|]. exists 1%R, 2%R. split; [cbn; auto|]. split; [cbn; auto|lra]. Qed.
Theorem C111_constant_refuted : exists t : list R, @mse RNum (Some t) (Some t) = Ok 0%R /\ forall rep, @evaluate_regression RNum (Some t) (Some t) <> Ok rep.
Proof.
  exists [3; 3]%R. split; [unfold mse; cbn; f_equal; field|]. intros rep H.
  destruct (proj1 (C111_success _ _) (ex_intro _ rep H)) as (_ & x & y & [<-|[<-|[]]] & [<-|[<-|[]]] & E); now apply E.
Qed.
Example C111_mape_case : @mape RNum (Some [1; 2; 0]%R) (Some [1; 3; 5]%R) = Ok 25%R.
Proof.
  unfold mape. cbn. rdecide. cbn. f_equal. rewrite (Rabs_right (1 - 1)), (Rabs_left (2 - 3)), (Rabs_right 1), (Rabs_right 2) by lra. field.
Qed.

Print Assumptions C109_constructor.
Print Assumptions C109_confusion.
Print Assumptions C109_accuracy.
Print Assumptions C109_class.
Print Assumptions C109_two.
Print Assumptions C109_report.
Print Assumptions C109_refused.
Print Assumptions C110_stray_label.
Print Assumptions C111_same_metrics.
Print Assumptions C111_entries.
Print Assumptions C109_totals.
Print Assumptions C109_weighted_recall.
Print Assumptions C109_means.
Print Assumptions C109_f1_bound.
Print Assumptions C109_f1_class.
Print Assumptions C110_auc.
Print Assumptions C110_auc_value.
Print Assumptions C110_log_loss.
Print Assumptions C111_mape.
Print Assumptions C111_success.
Print Assumptions C111_values.
Print Assumptions C109_f1_macro_refuted.
Print Assumptions C110_nan_refuted.
Print Assumptions C111_constant_refuted.
