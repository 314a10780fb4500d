(** C37, C38, C39, C63, C64 - early stopping and callbacks. *)
From Coq Require Import String List Arith ZArith Bool Lia Reals Lra.
From Verif Require Import Base.Num Base.GoRes Base.RTac Model.EarlyStop Spec.Order Spec.EarlyStop
  Proofs.OrderP Proofs.EarlyStopP.
Import ListNotations.
Local Open Scope list_scope.

(** ** C37.  The early-stopping handler *)

(** The handler after the updates [h]. *)
Definition after_updates {N : Num} (rounds : Z) (metric : string) (h : list (Z * N)) : estop N :=
  fold_left (fun e p => fst (es_update e (fst p) (snd p))) h (es_new rounds metric).

Lemma minimized_iff metric : metric_minimized metric = true <-> ~ maximised metric.
Proof.
  unfold metric_minimized, maximised. rewrite negb_true_iff. split.
  - intros H Hin. assert (Ht : existsb (String.eqb metric) ["auc"; "accuracy"; "precision"; "recall"; "f1"; "r2"]%string = true).
    { apply existsb_exists. exists metric. split; [exact Hin|apply String.eqb_refl]. }
    congruence.
  - intros H. destruct (existsb _ _) eqn:E; [|reflexivity]. exfalso. apply H.
    apply existsb_exists in E as (x & Hx & Ex). apply String.eqb_eq in Ex. now subst.
Qed.

Theorem C37_tracks : forall (N : Num), lt_laws N -> forall rounds metric minimize (h : list (Z * N)),
  (0 < rounds)%Z -> (minimize = true <-> ~ maximised metric) ->
  let e := after_updates rounds metric h in
  (((forall i u, In (i, u) h -> ~ usable minimize u) /\ s_best e = None /\ es_best_iteration e = 0%Z) \/
   (exists pre it s post, best_entry minimize h pre it s post /\
      s_best e = Some s /\ es_best_iteration e = it)) /\
  (es_should_stop e = true <-> exhausted minimize rounds h).
Proof.
  intros N laws rounds metric minimize h Hr Hm e.
  assert (Em : minimize = metric_minimized metric).
  { pose proof (minimized_iff metric) as Hi. destruct minimize, (metric_minimized metric); auto;
      exfalso; intuition congruence. }
  subst minimize. split; [|now apply (exhausted_iff laws)].
  destruct (run_tracked laws rounds metric h Hr) as (_ & _ & He & T).
  unfold e, after_updates. fold (run (es_new rounds metric) h).
  unfold es_best_iteration. rewrite He.
  destruct (s_best (run (es_new rounds metric) h)) as [b|]; cbn [tracked] in T.
  - right. destruct T as (pre & post & HB & _). exists pre, (s_iter (run (es_new rounds metric) h)), b, post. auto.
  - left. destruct T as (Hno & Hit & _). auto.
Qed.

(** Update answers what ShouldStop answers afterwards. *)
Theorem C37_update_answer : forall (N : Num) rounds metric (h : list (Z * N)) i s,
  snd (es_update (after_updates rounds metric h) i s) =
  es_should_stop (after_updates rounds metric (h ++ [(i, s)])).
Proof.
  intros N rounds metric h i s. unfold after_updates. rewrite fold_left_app. cbn [fold_left fst snd].
  set (e := fold_left _ h _). unfold es_update, es_should_stop. destruct (s_enabled e) eqn:E.
  - destruct (improves _ _ _); cbn; reflexivity.
  - cbn [fst snd]. now rewrite E.
Qed.

(** For real-number scores: the minimum (or maximum) and its first position. *)
Theorem C37_minimum : forall rounds metric (h : list (Z * RNum)), (0 < rounds)%Z -> h <> [] ->
  exists pre it s post,
    h = pre ++ (it, s) :: post /\
    s_best (after_updates rounds metric h) = Some s /\
    es_best_iteration (after_updates rounds metric h) = it /\
    (~ maximised metric ->
       (forall i u, In (i, u) h -> s <= u)%R /\ (forall i u, In (i, u) pre -> s < u)%R) /\
    (maximised metric ->
       (forall i u, In (i, u) h -> u <= s)%R /\ (forall i u, In (i, u) pre -> u < s)%R) /\
    (es_should_stop (after_updates rounds metric h) = true <-> (rounds <= Z.of_nat (length post))%Z).
Proof.
  intros rounds metric h Hr Hne.
  destruct (C37_tracks RNum lt_laws_R rounds metric (metric_minimized metric) h Hr (minimized_iff metric))
    as [[(Hno & _)|(pre & it & s & post & HB & Hs & Hi)] Hstop].
  { exfalso. destruct h as [|[i u] h]; [easy|]. apply (Hno i u (or_introl eq_refl)). split; reflexivity. }
  exists pre, it, s, post. pose proof HB as (Hh & _ & Hpre & Hpost).
  split; [exact Hh|]. split; [exact Hs|]. split; [exact Hi|].
  assert (U : forall mi (u : RNum), usable mi u) by (intros; split; reflexivity).
  split; [|split].
  - intros Hm. apply minimized_iff in Hm. rewrite Hm in *. cbn [better] in *.
    assert (P : forall i u, In (i, u) pre -> (s < u)%R).
    { intros i u Hin. specialize (Hpre i u Hin (U _ _)). cbn in Hpre. now apply Rltb_true in Hpre. }
    split; [|exact P]. intros i u Hin. rewrite Hh in Hin. apply in_app_iff in Hin as [Hin|[Hin|Hin]].
    + specialize (P _ _ Hin). lra.
    + injection Hin as _ ->. lra.
    + specialize (Hpost _ _ Hin). cbn in Hpost. apply Rltb_false in Hpost. lra.
  - intros Hm. assert (Em : metric_minimized metric = false).
    { destruct (metric_minimized metric) eqn:E; [|reflexivity]. now apply minimized_iff in E. }
    rewrite Em in *. cbn [better] in *.
    assert (P : forall i u, In (i, u) pre -> (u < s)%R).
    { intros i u Hin. specialize (Hpre i u Hin (U _ _)). cbn in Hpre. now apply Rltb_true in Hpre. }
    split; [|exact P]. intros i u Hin. rewrite Hh in Hin. apply in_app_iff in Hin as [Hin|[Hin|Hin]].
    + specialize (P _ _ Hin). lra.
    + injection Hin as _ ->. lra.
    + specialize (Hpost _ _ Hin). cbn in Hpost. apply Rltb_false in Hpost. lra.
  - rewrite Hstop. split.
    + intros [[Hno _]|(pre' & it' & s' & post' & HB' & H)].
      * exfalso. apply (Hno it s); [rewrite Hh; apply in_app_iff; right; now left|apply U].
      * destruct (best_entry_unique _ _ _ _ _ _ _ _ _ _ HB HB') as (_ & _ & _ & ->). exact H.
    + intros H. right. eauto 7.
Qed.

(** Without patience the handler is inert. *)
Theorem C37_disabled : forall (N : Num) rounds metric (h : list (Z * N)), (rounds <= 0)%Z ->
  es_should_stop (after_updates rounds metric h) = false /\
  es_best_iteration (after_updates rounds metric h) = (-1)%Z.
Proof.
  intros N rounds metric h Hr.
  assert (H : after_updates rounds metric h = mkes 0 (Some n0) 0 0 false false).
  { induction h as [|[i s] h IH] using rev_ind.
    - unfold after_updates, es_new. destruct (Z.leb_spec rounds 0); [reflexivity|lia].
    - unfold after_updates in *. rewrite fold_left_app, IH. reflexivity. }
  rewrite H. auto.
Qed.

Lemma scores_S {N : Num} {T} (next : list T -> T) (score : list T -> N) n :
  scores next score (S n) = scores next score n ++ [(Z.of_nat n, score (ensemble next (S n)))].
Proof. unfold scores. now rewrite seq_S, map_app. Qed.

Lemma scores_nth {N : Num} {T} (next : list T -> T) (score : list T -> N) n pre it s post :
  scores next score n = pre ++ (it, s) :: post ->
  it = Z.of_nat (length pre) /\ s = score (ensemble next (S (length pre))) /\ n = S (length pre + length post).
Proof.
  intros H. assert (Hn : n = S (length pre + length post)).
  { apply (f_equal (@length _)) in H. unfold scores in H. rewrite map_length, seq_length, app_length in H.
    simpl in H. lia. }
  assert (E : nth_error (scores next score n) (length pre) = Some (it, s)).
  { rewrite H, nth_error_app2, Nat.sub_diag by lia. reflexivity. }
  unfold scores in E. rewrite nth_error_map, (nth_error_nth' _ 0) in E by (rewrite seq_length; lia).
  rewrite seq_nth in E by lia. simpl in E. injection E as <- <-. auto.
Qed.

(** Training with validation data: with the first exhausting iteration count [j], if
    any, the trees up to the first best iteration are kept. *)
Theorem C37_fit : forall (N : Num), lt_laws N -> forall (T : Type) (next : list T -> T)
    (score : list T -> N) iterations rounds metric minimize,
  (0 < rounds)%Z -> (minimize = true <-> ~ maximised metric) ->
  let h := scores next score in
  let result := fit_with_validation (fun ts => Ok (next ts)) score iterations rounds metric true in
  (result = Ok (ensemble next (Z.to_nat iterations)) /\
   forall j, j <= Z.to_nat iterations -> ~ exhausted minimize rounds (h j)) \/
  (exists j, j <= Z.to_nat iterations /\ exhausted minimize rounds (h j) /\
     (forall i, i < j -> ~ exhausted minimize rounds (h i)) /\
     ((exists b pre post, best_entry minimize (h j) pre (Z.of_nat b) (score (ensemble next (S b))) post /\
         j = b + 1 + Z.to_nat rounds /\ result = Ok (ensemble next (b + 1))) \/
      ((forall i u, In (i, u) (h j) -> ~ usable minimize u) /\
       j = Z.to_nat rounds /\ result = Ok (ensemble next 1)))).
Proof.
  intros N laws T next score iterations rounds metric minimize Hr Hm h result.
  set (metric' := if String.eqb metric "" then "l2"%string else metric).
  assert (Em : minimize = metric_minimized metric').
  { assert (Hi : metric_minimized metric' = true <-> ~ maximised metric).
    { rewrite minimized_iff. unfold metric'. destruct (String.eqb_spec metric "") as [->|]; [|reflexivity].
      split; intros _; unfold maximised; simpl; intuition discriminate. }
    destruct minimize, (metric_minimized metric'); auto; exfalso; intuition congruence. }
  clear Hm. subst minimize.
  assert (Hnil : ~ exhausted (metric_minimized metric') rounds (h 0)).
  { intros [[_ H]|(pre & it & s & post & (H & _) & _)]; [simpl in H; lia|].
    unfold h, scores in H. simpl in H. now destruct pre. }
  assert (Hex : forall j, exhausted (metric_minimized metric') rounds (h j) <->
            es_should_stop (run (es_new rounds metric') (h j)) = true)
    by (intros j; symmetry; now apply (exhausted_iff laws)).
  assert (Hres : result = fit_loop (fun ts => Ok (next ts)) score (Z.to_nat iterations) 0
                   (Some (run (es_new rounds metric') (h 0))) (ensemble next 0)).
  { unfold result, fit_with_validation. destruct (Z.ltb_spec 0 rounds); [|lia]. reflexivity. }
  destruct (fit_loop_on laws next score rounds metric' Hr (Z.to_nat iterations) 0)
    as (j & Hj & Hpre & [(Hj' & Hst & E)|(Hj' & Hst & E)]).
  { change (hist next score 0) with (h 0). rewrite es_new_enabled by exact Hr. reflexivity. }
  - left. change (hist next score) with h in *. split.
    + rewrite Hres. etransitivity; [exact E|]. now rewrite Hj'.
    + intros i Hi. rewrite Hex. destruct i as [|i]; [rewrite <- Hex; exact Hnil|].
      destruct (Nat.eq_dec (S i) j) as [->|Hne]; [rewrite Hst; [easy|lia]|]. rewrite Hpre; [easy|lia].
  - right. change (hist next score) with h in *.
    assert (Hmin : forall i, i < j -> ~ exhausted (metric_minimized metric') rounds (h i)).
    { intros i Hi. rewrite Hex. destruct i as [|i]; [rewrite <- Hex; exact Hnil|]. rewrite Hpre; [easy|lia]. }
    exists j. split; [lia|]. split; [now apply Hex|]. split; [exact Hmin|].
    destruct (run_tracked laws rounds metric' (h j) Hr) as (Hrd & _ & Hen & Tr).
    unfold es_should_stop in Hst. rewrite Hen, Hrd in Hst. apply Z.leb_le in Hst.
    destruct (s_best (run (es_new rounds metric') (h j))) as [b|]; cbn [tracked] in Tr.
    + left. destruct Tr as (pre & post & HB & Hk).
      pose proof HB as (Hh & U & A & B). destruct (scores_nth _ _ _ _ _ _ _ Hh) as (Hit & -> & Hn).
      exists (length pre), pre, post. rewrite Hit in HB. split; [exact HB|].
      assert (Hlen : length post = Z.to_nat rounds).
      { destruct (Nat.le_gt_cases (length post) (Z.to_nat rounds)) as [Hle|Hgt]; [lia|]. exfalso.
        destruct (exists_last (l := post)) as [post0 [x Ex]]; [intros ->; simpl in Hgt; lia|].
        destruct j as [|j]; [lia|]. apply (Hmin j); [lia|]. right.
        exists pre, (Z.of_nat (length pre)), (score (ensemble next (S (length pre)))), post0.
        subst post. rewrite app_length in *. simpl in *. split; [|lia]. split; [|split; [exact U|split; [exact A|]]].
        - unfold h in Hh. rewrite scores_S, app_comm_cons, app_assoc in Hh.
          apply app_inj_tail in Hh as [Hh _]. rewrite <- Hit. exact Hh.
        - intros i u Hin. apply (B i u). apply in_app_iff. now left. }
      split; [lia|]. rewrite Hres. etransitivity; [exact E|]. cbn zeta. rewrite Hit.
      destruct (Z.ltb_spec (Z.of_nat (length pre)) (Z.of_nat j)) as [_|?]; [|lia].
      rewrite ensemble_prefix by lia. f_equal. f_equal. lia.
    + right. destruct Tr as (Hno & Hit & Hk). split; [exact Hno|].
      assert (Hl : forall i, length (h i) = i) by (intros i; unfold h, scores; now rewrite map_length, seq_length).
      rewrite Hl in Hk.
      assert (Hlen : j = Z.to_nat rounds).
      { destruct (Nat.le_gt_cases j (Z.to_nat rounds)) as [Hle|Hgt]; [lia|]. exfalso.
        destruct j as [|j]; [lia|]. apply (Hmin j); [lia|]. left. rewrite Hl. split; [|lia].
        intros i u Hin. apply (Hno i u). unfold h. rewrite scores_S. apply in_app_iff. now left. }
      split; [exact Hlen|]. rewrite Hres. etransitivity; [exact E|]. cbn zeta. rewrite Hit.
      destruct (Z.ltb_spec 0 (Z.of_nat j)) as [_|?]; [|lia].
      rewrite ensemble_prefix by lia. reflexivity.
Qed.

(** Without patience or validation data all iterations run. *)
Theorem C37_fit_plain : forall (N : Num) (T : Type) (next : list T -> T) (score : list T -> N)
    iterations rounds metric validation, (rounds <= 0)%Z \/ validation = false ->
  fit_with_validation (fun ts => Ok (next ts)) score iterations rounds metric validation
    = Ok (ensemble next (Z.to_nat iterations)).
Proof.
  intros N T next score iterations rounds metric validation H. unfold fit_with_validation.
  replace ((0 <? rounds)%Z && validation) with false.
  - exact (fit_loop_off next score (Z.to_nat iterations) 0).
  - symmetry. destruct H as [H| ->]; [|apply andb_false_r]. destruct (Z.ltb_spec 0 rounds); [lia|reflexivity].
Qed.

(** ** C63.  A maximised metric turns the loss comparison around *)
Theorem C63_improving_run_cut : forall (N : Num), lt_laws N -> forall (T : Type)
    (next : list T -> T) (loss : list T -> N) iterations rounds metric,
  maximised metric -> (0 < rounds < iterations)%Z ->
  (forall i, i < Z.to_nat rounds ->
     nlt (loss (ensemble next (S (S i)))) (loss (ensemble next (S i))) = true) ->
  fit_with_validation (fun ts => Ok (next ts)) loss iterations rounds metric true = Ok (ensemble next 1).
Proof.
  intros N laws T next loss iterations rounds metric Hm Hr Hdec.
  assert (Hd : forall i, 0 < i <= Z.to_nat rounds -> nlt (loss (ensemble next (S i))) (loss (ensemble next 1)) = true).
  { induction i as [|i IH]; intros Hi; [lia|]. destruct i as [|i]; [apply Hdec; lia|].
    eapply (lt_trans N laws); [apply Hdec; lia|apply IH; lia]. }
  assert (U0 : usable false (loss (ensemble next 1))).
  { pose proof (Hd 1 ltac:(lia)) as H. split; [now apply (lt_not_nan N laws) in H|now apply (lt_inf N laws) in H]. }
  assert (HB : exists post, length post = Z.to_nat rounds /\
            best_entry false (scores next loss (S (Z.to_nat rounds))) [] 0 (loss (ensemble next 1)) post).
  { exists (map (fun i => (Z.of_nat i, loss (ensemble next (S i)))) (seq 1 (Z.to_nat rounds))).
    split; [now rewrite map_length, seq_length|]. split; [reflexivity|]. split; [exact U0|]. split; [easy|].
    intros i u Hin. apply in_map_iff in Hin as (x & Hx & Hin). injection Hx as _ <-. apply in_seq in Hin.
    cbn [better]. destruct (nlt (loss (ensemble next 1)) (loss (ensemble next (S x)))) eqn:E; [|exact E].
    pose proof (lt_trans N laws _ _ _ E (Hd x ltac:(lia))) as Hc. now rewrite (lt_irrefl N laws) in Hc. }
  destruct HB as (post & Hlen & HB).
  assert (Hex : exhausted false rounds (scores next loss (S (Z.to_nat rounds)))).
  { right. exists [], 0%Z, (loss (ensemble next 1)), post. split; [exact HB|lia]. }
  destruct (C37_fit N laws T next loss iterations rounds metric false ltac:(lia)) as [[_ H]|(j & Hj & Hx & Hmin & H)].
  - split; [discriminate|]. intros Hc. contradiction.
  - exfalso. apply (H (S (Z.to_nat rounds))); [lia|exact Hex].
  - assert (Hjle : j <= S (Z.to_nat rounds)).
    { destruct (Nat.le_gt_cases j (S (Z.to_nat rounds))) as [|Hgt]; [assumption|]. exfalso. now apply (Hmin _ Hgt). }
    destruct H as [(b & pre & post' & HB' & Ej & Er)|(Hno & Ej & Er)]; [|exact Er].
    replace b with 0 in Er by lia. exact Er.
Qed.

(** ** C38.  The callback version *)
Section C38.
  Context (N : Num) (laws : lt_laws N) (W T : Type) (next : list T -> T) (loss : list T -> N)
    (lr : N) (leaves : Z).
  Let grow := fun ts : list T => Ok (next ts).
  Let sc (i : nat) : N := loss (ensemble next (S i)).

  (** Patience one (or less): one tree, whatever the scores. *)
  Theorem C38_patience_one : forall (get : W -> es_state (N := N)) put (w : W) minimize rounds iterations,
    (forall s w, get (put s w) = s) -> get w = (None, 0%Z, 0%Z) ->
    (rounds <= 1)%Z -> (1 <= iterations)%Z ->
    snd (fit_with_callbacks lr leaves grow loss
           [early_stopping_callback get put rounds "training_loss" minimize] iterations w)
      = Ok (ensemble next 1).
  Proof.
    intros get put w minimize rounds iterations Hgp Hg Hr Hi. unfold fit_with_callbacks.
    destruct (Z.to_nat iterations) as [|fuel] eqn:Ef; [lia|].
    destruct (es_cb_first next loss lr leaves get put Hgp rounds minimize fuel w _ Hg)
      as (w1 & e1 & Hw1 & Hv & Hs & E).
    etransitivity; [exact (f_equal snd E)|]. clear E.
    unfold next_state, waits in *. destruct (improves minimize None _) eqn:Ei; cbn [snd] in *.
    - destruct (Z.leb_spec rounds 0) as [|Hgt]; [reflexivity|].
      destruct fuel as [|fuel]; [reflexivity|].
      destruct (es_cb_iteration next loss lr leaves get put Hgp rounds minimize fuel 1 e1 w1 1 _ _ Hv Hs Hw1)
        as (w1' & w2' & e2' & _ & _ & _ & _ & E).
      etransitivity; [exact (f_equal snd E)|]. clear E.
      unfold next_state, waits. rewrite improves_some, (better_irrefl laws). cbn [snd].
      destruct (Z.leb_spec rounds (0 + 1)); [reflexivity|lia].
    - destruct (Z.leb_spec rounds (0 + 1)); [reflexivity|lia].
  Qed.

  (** Improving up to tree [b], then no better: stopped after half the patience. *)
  Theorem C38_half_patience : forall (get : W -> es_state (N := N)) put (w : W) minimize r b iterations,
    (forall s w, get (put s w) = s) -> get w = (None, 0%Z, 0%Z) -> 2 <= r ->
    usable minimize (sc 0) ->
    (forall i, i < b -> better minimize (sc (S i)) (sc i) = true) ->
    (forall i, b < i <= b + r / 2 -> better minimize (sc i) (sc b) = false) ->
    (Z.of_nat (b + 1 + r / 2) <= iterations)%Z ->
    snd (fit_with_callbacks lr leaves grow loss
           [early_stopping_callback get put (Z.of_nat r) "training_loss" minimize] iterations w)
      = Ok (ensemble next (b + 1 + r / 2)).
  Proof.
    intros get put w minimize r b iterations Hgp Hg Hr U Hup Hno Hi. unfold fit_with_callbacks.
    destruct (Z.to_nat iterations) as [|fuel] eqn:Ef; [lia|].
    destruct (es_cb_first next loss lr leaves get put Hgp (Z.of_nat r) minimize fuel w _ Hg)
      as (w1 & e1 & Hw1 & Hv & Hs & E).
    etransitivity; [exact (f_equal snd E)|]. clear E.
    unfold next_state, waits in *. assert (Ui : improves minimize None (loss (ensemble next 1)) = true) by (apply improves_none; exact U).
    rewrite Ui in *. cbn [snd] in *.
    destruct (Z.leb_spec (Z.of_nat r) 0) as [|_]; [lia|].
    assert (Efuel : fuel = b + (fuel - b)) by lia. rewrite Efuel.
    destruct (es_cb_phase1 next loss lr leaves get put Hgp laws minimize r b Hr Hup b 0 (fuel - b) e1 w1 ltac:(lia) ltac:(lia) Hv Hs Hw1)
      as (e' & w' & He' & Hs' & Hw' & E).
    etransitivity; [exact (f_equal snd E)|]. clear E.
    assert (He2 : c_eval e' = [("training_loss"%string, sc (b + 0))]) by (rewrite Nat.add_0_r; exact He').
    destruct (es_cb_phase2 next loss lr leaves get put Hgp laws minimize r b Hr Hno (fuel - b) 0 (Z.of_nat b) e' w'
                ltac:(lia) ltac:(lia) He2 Hs' Hw') as (w2 & E).
    rewrite Nat.add_0_r in E. etransitivity; [exact (f_equal snd E)|]. reflexivity.
  Qed.

  (** A run that keeps improving is not stopped from patience two on. *)
  Theorem C38_improving : forall (get : W -> es_state (N := N)) put (w : W) minimize r iterations,
    (forall s w, get (put s w) = s) -> get w = (None, 0%Z, 0%Z) -> 2 <= r ->
    usable minimize (sc 0) ->
    (forall i, better minimize (sc (S i)) (sc i) = true) ->
    snd (fit_with_callbacks lr leaves grow loss
           [early_stopping_callback get put (Z.of_nat r) "training_loss" minimize] iterations w)
      = Ok (ensemble next (Z.to_nat iterations)).
  Proof.
    intros get put w minimize r iterations Hgp Hg Hr U Hup. unfold fit_with_callbacks.
    destruct (Z.to_nat iterations) as [|fuel] eqn:Ef; [reflexivity|].
    destruct (es_cb_first next loss lr leaves get put Hgp (Z.of_nat r) minimize fuel w _ Hg)
      as (w1 & e1 & Hw1 & Hv & Hs & E).
    etransitivity; [exact (f_equal snd E)|]. clear E.
    unfold next_state, waits in *. assert (Ui : improves minimize None (loss (ensemble next 1)) = true) by (apply improves_none; exact U).
    rewrite Ui in *. cbn [snd] in *.
    destruct (Z.leb_spec (Z.of_nat r) 0) as [|_]; [lia|].
    destruct (es_cb_phase1 next loss lr leaves get put Hgp laws minimize r fuel Hr (fun i _ => Hup i) fuel 0 0 e1 w1 ltac:(lia) ltac:(lia) Hv Hs Hw1)
      as (e' & w' & He' & Hs' & Hw' & E).
    rewrite Nat.add_0_r in E. etransitivity; [exact (f_equal snd E)|]. cbn [cb_loop snd].
    now rewrite Nat.add_1_r.
  Qed.

  (** Watching anything but the training loss never stops the run. *)
  Theorem C38_other_metric : forall (get : W -> es_state (N := N)) put (w : W) minimize rounds metric iterations,
    metric <> "training_loss"%string ->
    snd (fit_with_callbacks lr leaves grow loss
           [early_stopping_callback get put rounds metric minimize] iterations w)
      = Ok (ensemble next (Z.to_nat iterations)).
  Proof.
    intros get put w minimize rounds metric iterations Hm. unfold fit_with_callbacks.
    destruct (cb_loop_harmless next loss lr leaves [early_stopping_callback get put rounds metric minimize])
      with (fuel := Z.to_nat iterations) (m := 0) (iter := 0%Z) (e := mkcenv 0 lr leaves [] false) (w := w)
      as (w' & E); [|easy|reflexivity|exact (f_equal snd E)].
    constructor; [|constructor]. intros e w0 He. exists e, w0. split; [|auto].
    unfold early_stopping_callback. replace (lookup metric (c_eval e)) with (@None N); [reflexivity|].
    symmetry. unfold lookup. replace (find _ (c_eval e)) with (@None (string * N)); [reflexivity|].
    symmetry. unfold only_tl in He. revert He. induction (c_eval e) as [|[k v] l IH]; intros He; [reflexivity|].
    cbn [find fst]. assert (Hk : k = "training_loss"%string) by (apply (He (k, v)); now left).
    destruct (String.eqb_spec k metric) as [->|_]; [congruence|]. apply IH. intros p Hp. apply He. now right.
  Qed.

  (** The recorded history: every value twice, except the last. *)
  Theorem C38_history_doubled : forall (get : W -> list (string * list N)) put (w : W) iterations,
    (forall s w, get (put s w) = s) -> get w = [] -> (1 <= iterations)%Z ->
    let n := Z.to_nat iterations in
    exists w', fit_with_callbacks lr leaves grow loss [record_evaluation get put] iterations w
               = (w', Ok (ensemble next n)) /\
      get w' = [("training_loss"%string,
                 concat (map (fun i => [sc i; sc i]) (seq 0 (n - 1))) ++ [sc (n - 1)])].
  Proof.
    intros get put w iterations Hgp Hg Hi n. unfold fit_with_callbacks. fold n.
    destruct n as [|fuel] eqn:En; [subst n; lia|]. cbn [cb_loop].
    cbn [run_before run_after record_evaluation c_stop c_eval fold_left fst snd grow].
    rewrite Hgp, Hg. cbn [append_at].
    change ([] ++ [next []]) with (ensemble next 1). fold (sc 0).
    destruct (record_loop next loss lr leaves get put Hgp fuel 0 (0 + 1)%Z
                (mkcenv 0 lr leaves [("training_loss"%string, sc 0)] false)
                (put [("training_loss"%string, [sc 0])] (put [] w))) as (w' & E & Hw'); auto.
    exists w'. split; [exact E|]. rewrite Hw'. simpl. rewrite Nat.sub_0_r. reflexivity.
  Qed.

  (** ** C64.  Learning-rate schedules and parameter resets change nothing *)
  Theorem C64_no_effect : forall (cbs : list (callback N W)) iterations w,
    (forall cb, In cb cbs ->
       (exists decay steps, steps <> 0%Z /\ cb = learning_rate_schedule decay steps) \/
       (exists params, cb = reset_parameter params)) ->
    snd (fit_with_callbacks lr leaves grow loss cbs iterations w)
      = snd (fit_with_callbacks lr leaves grow loss [] iterations w).
  Proof.
    intros cbs iterations w Hc. unfold fit_with_callbacks.
    destruct (cb_loop_harmless next loss lr leaves cbs)
      with (fuel := Z.to_nat iterations) (m := 0) (iter := 0%Z) (e := mkcenv 0 lr leaves [] false) (w := w)
      as (w' & E); [|easy|reflexivity|].
    { apply Forall_forall. intros cb Hin e w0 _. destruct (Hc cb Hin) as [(d & s & Hs & ->)|(ps & ->)].
      - unfold learning_rate_schedule. destruct (0 <? c_iter e)%Z; [|eauto].
        destruct (Z.eqb_spec s 0) as [|_]; [contradiction|]. destruct (Z.rem (c_iter e) s =? 0)%Z; [|eauto].
        eexists _, _. split; [reflexivity|auto].
      - unfold reset_parameter. destruct (ps (c_iter e)) as [l lv]. eexists _, _. split; [reflexivity|auto]. }
    destruct (cb_loop_harmless (W := W) next loss lr leaves [])
      with (fuel := Z.to_nat iterations) (m := 0) (iter := 0%Z) (e := mkcenv 0 lr leaves [] false) (w := w)
      as (w2 & E2); [constructor|easy|reflexivity|].
    etransitivity; [exact (f_equal snd E)|]. symmetry. exact (f_equal snd E2).
  Qed.
End C38.

(** ** C39.  The training API *)
Theorem C39_never_returns : forall (N : Num), lt_laws N ->
  forall (M : Type) (fit : res M) (eval : M -> nat -> N) nvalid keys picks rounds_total patience objective,
  1 <= nvalid <= length keys ->
  (forall i rs, rs <> [] -> exists p, picks i rs = Some p /\ In p rs) ->
  (0 < patience)%Z -> (Z.of_nat nvalid * patience < rounds_total)%Z ->
  train fit eval nvalid keys picks rounds_total patience objective =
    match fit with
    | Ok _ => Err (EOther 99)
    | Err e => Err (EWrapped e)
    | Panic => Panic
    end.
Proof.
  intros N laws M fit eval nvalid keys picks n r obj Hv Hpick Hr Hn. unfold train.
  destruct (Z.ltb_spec 0 r) as [_|]; [|lia].
  destruct (Z.to_nat n) as [|fuel] eqn:Ef; [nia|]. cbn [train_loop].
  destruct fit as [m|e|]; [|reflexivity|reflexivity]. cbn [bind].
  destruct (evaluate_ok eval m nvalid nvalid 0 keys []) as (rs & E & Hf & Hne); [lia|lia|intros k v []|].
  rewrite E. cbn [bind]. specialize (Hne ltac:(left; lia)).
  set (c0 := aes_init r obj).
  destruct (aes_after_cases eval m nvalid picks Hpick 0 rs c0 Hne Hf ltac:(exact Hr)) as (i & Hi & ->).
  assert (Hpot : forall c : aes N, a_rounds c = r -> a_wait c = 0%Z -> open_sets eval m nvalid c < nvalid ->
            (potential eval m nvalid c <= Z.of_nat fuel)%Z).
  { intros c Hc Hw Ho. unfold potential. rewrite Hc, Hw. nia. }
  assert (Hk : nvalid <= length keys) by lia. assert (Hv0 : 0 < nvalid) by lia.
  destruct (aes_improved c0 (eval m i)) eqn:Eimp.
  - apply (train_loop_stops laws eval m nvalid keys picks Hk Hv0 Hpick); [exact Hf|cbn; lia|].
    pose proof (open_sets_decrease laws eval m nvalid c0 i 0 Hi Eimp) as Hd.
    pose proof (open_sets_le eval m nvalid c0) as Hl. apply Hpot; [reflexivity|reflexivity|]. unfold c0 in *. cbn in *. lia.
  - destruct (Z.leb_spec (a_rounds c0) (a_wait c0 + 1)) as [|Hgt]; [reflexivity|].
    apply (train_loop_stops laws eval m nvalid keys picks Hk Hv0 Hpick); [exact Hf|cbn in *; lia|].
    assert (Ho : open_sets eval m nvalid c0 < nvalid).
    { unfold open_sets. rewrite <- (seq_length nvalid 0) at 2.
      replace (length (seq 0 nvalid)) with (length (filter (fun _ => true) (seq 0 nvalid))).
      - apply (filter_length_lt _ _ _ i); auto. apply in_seq. lia.
      - f_equal. clear. induction (seq 0 nvalid); simpl; congruence. }
    pose proof (Hpot c0 eq_refl eq_refl Ho) as Hp0.
    change (Z.of_nat (open_sets eval m nvalid c0) * r + (r - 0) <= Z.of_nat fuel)%Z in Hp0.
    change (Z.of_nat (open_sets eval m nvalid c0) * r + (r - (0 + 1)) <= Z.of_nat fuel)%Z. lia.
Qed.

(** Few enough rounds: the model of the first iteration is returned. *)
Theorem C39_short_runs : forall (N : Num) (M : Type) (m : M) (eval : M -> nat -> N) nvalid keys picks
    rounds_total patience objective,
  1 <= nvalid <= length keys ->
  (forall i rs, rs <> [] -> exists p, picks i rs = Some p /\ In p rs) ->
  (1 <= rounds_total)%Z ->
  (rounds_total < patience)%Z \/
  (rounds_total = patience /\ forall i, i < nvalid ->
     nisnan (eval m i) = false /\ nisinf (eval m i) = false) ->
  train (Ok m) eval nvalid keys picks rounds_total patience objective = Ok (Some m).
Proof.
  intros N M m eval nvalid keys picks n r obj Hv Hpick Hn Hr. unfold train.
  assert (Hr0 : (0 < r)%Z) by (destruct Hr as [?|[? _]]; lia).
  destruct (Z.ltb_spec 0 r) as [_|]; [|lia].
  destruct (Z.to_nat n) as [|fuel] eqn:Ef; [lia|]. cbn [train_loop bind].
  destruct (evaluate_ok eval m nvalid nvalid 0 keys []) as (rs & E & Hf & Hne); [lia|lia|intros k v []|].
  rewrite E. cbn [bind]. specialize (Hne ltac:(left; lia)).
  set (c0 := aes_init r obj).
  destruct (aes_after_cases eval m nvalid picks Hpick 0 rs c0 Hne Hf ltac:(cbn; lia)) as (i & Hi & ->).
  assert (Hk : nvalid <= length keys) by lia. assert (Hv0 : 0 < nvalid) by lia.
  destruct (aes_improved c0 (eval m i)) eqn:Eimp.
  - assert (Hle : (n <= r)%Z) by (destruct Hr as [?|[? _]]; lia).
    apply (train_loop_quiet eval m nvalid keys picks Hk Hv0 Hpick); [exact Hf| |]; unfold c0; cbn [a_wait a_rounds aes_init]; lia.
  - destruct Hr as [Hr|[-> Hr]].
    + destruct (Z.leb_spec (a_rounds c0) (a_wait c0 + 1)) as [Hle|Hgt]; [cbn in Hle; lia|].
      apply (train_loop_quiet eval m nvalid keys picks Hk Hv0 Hpick); [exact Hf| |]; unfold c0; cbn [a_wait a_rounds aes_init]; lia.
    + exfalso. destruct (Hr i Hi) as [H1 H2]. unfold aes_improved, c0 in Eimp. cbn [a_best aes_init improves] in Eimp.
      rewrite H1, H2 in Eimp. discriminate.
Qed.

(** Without early stopping the requested number of rounds is irrelevant. *)
Theorem C39_rounds_ignored : forall (N : Num) (M : Type) (m : M) (eval : M -> nat -> N) nvalid keys picks
    rounds_total patience objective,
  nvalid <= length keys -> (patience <= 0)%Z -> (1 <= rounds_total)%Z ->
  train (Ok m) eval nvalid keys picks rounds_total patience objective = Ok (Some m).
Proof.
  intros N M m eval nvalid keys picks n r obj Hk Hr Hn. unfold train.
  destruct (Z.ltb_spec 0 r) as [|_]; [lia|].
  destruct (Z.to_nat n) as [|fuel] eqn:Ef; [lia|]. cbn [train_loop bind].
  destruct (evaluate_ok eval m nvalid nvalid 0 keys []) as (rs & E & Hf & _); [lia|lia|intros k v []|].
  rewrite E. cbn [bind]. now apply train_loop_off.
Qed.

(** ** Concrete cases *)

(** Scores 3, 1, 2, 1, 5 with patience 3: best 1 first seen at iteration 1; the two
    trees up to it are kept although eight iterations were asked for. *)
Example C37_case :
  let sc := fun ts : list nat => @nofZ QNum (nth (length ts) [0; 3; 1; 2; 1; 5; 0; 0; 0]%Z 0%Z) in
  let next := fun ts : list nat => length ts in
  fit_with_validation (fun ts => Ok (next ts)) sc 8 3 "" true = Ok [0; 1] /\
  fit_with_validation (fun ts => Ok (next ts)) sc 8 5 "" true = Ok [0; 1; 2; 3; 4; 5; 6; 7] /\
  fit_with_validation (fun ts => Ok (next ts)) sc 8 3 "auc" true = Ok [0].
Proof. vm_compute. auto. Qed.

Example C63_case :
  let loss := fun ts : list nat => @nofZ QNum (10 - Z.of_nat (length ts)) in
  let next := fun ts : list nat => length ts in
  fit_with_validation (fun ts => Ok (next ts)) loss 9 2 "accuracy" true = Ok [0] /\
  fit_with_validation (fun ts => Ok (next ts)) loss 9 2 "l2" true = Ok [0; 1; 2; 3; 4; 5; 6; 7; 8].
Proof. vm_compute. auto. Qed.

(** Patience four with a best at tree 1 stops after two further trees; the history of
    a three-tree run has five entries; schedules leave the trees alone. *)
Example C38_case :
  let loss := fun ts : list nat => @nofZ QNum (nth (length ts) [0; 3; 1; 2; 1; 5; 0; 0; 0]%Z 0%Z) in
  let next := fun ts : list nat => length ts in
  let es r := @early_stopping_callback QNum _ (fun w => w) (fun s _ => s) r "training_loss" true in
  snd (fit_with_callbacks (@nofZ QNum 1) 31 (fun ts => Ok (next ts)) loss [es 4%Z] 8 (None, 0%Z, 0%Z))
    = Ok [0; 1; 2; 3] /\
  snd (fit_with_callbacks (@nofZ QNum 1) 31 (fun ts => Ok (next ts)) loss [es 1%Z] 8 (None, 0%Z, 0%Z))
    = Ok [0] /\
  map (fun p => length (snd p)) (fst (fit_with_callbacks (@nofZ QNum 1) 31 (fun ts => Ok (next ts)) loss
    [record_evaluation (fun w => w) (fun s _ => s)] 3 [])) = [5] /\
  snd (fit_with_callbacks (@nofZ QNum 1) 31 (fun ts => Ok (next ts)) loss
    [learning_rate_schedule (@nofZ QNum 0) 1; reset_parameter (fun _ => (None, Some 1%Z))] 3 tt)
    = Ok [0; 1; 2].
Proof. vm_compute. auto. Qed.

(** One validation set, patience 2: two rounds return the model, three do not.  With
    two sets a favourable map order lets one more round pass, never more than
    2 * patience. *)
Example C39_case :
  let first := fun (_ : Z) (rs : list (string * QNum)) => hd_error rs in
  let later := fun (i : Z) (rs : list (string * QNum)) => if (i =? 0)%Z then hd_error rs else hd_error (rev rs) in
  let eval := fun (_ : unit) (i : nat) => @nofZ QNum (5 - Z.of_nat i) in
  train (Ok tt) eval 1 ["a"%string] first 2 2 None = Ok (Some tt) /\
  train (Ok tt) eval 1 ["a"%string] first 3 2 None = Err (EOther 99) /\
  train (Ok tt) eval 2 ["a"; "b"]%string later 2 1 None = Ok (Some tt) /\
  train (Ok tt) eval 2 ["a"; "b"]%string later 3 1 None = Err (EOther 99) /\
  train (Ok tt) eval 2 ["a"; "b"]%string first 2 1 None = Err (EOther 99).
Proof. vm_compute. auto. Qed.

Print Assumptions C37_tracks.
Print Assumptions C37_update_answer.
Print Assumptions C37_minimum.
Print Assumptions C37_disabled.
Print Assumptions C37_fit.
Print Assumptions C37_fit_plain.
Print Assumptions C38_patience_one.
Print Assumptions C38_half_patience.
Print Assumptions C38_improving.
Print Assumptions C38_other_metric.
Print Assumptions C38_history_doubled.
Print Assumptions C39_never_returns.
Print Assumptions C39_short_runs.
Print Assumptions C39_rounds_ignored.
Print Assumptions C63_improving_run_cut.
Print Assumptions C64_no_effect.
