(** Proofs about early stopping and callbacks. *)
From Coq Require Import String List Arith ZArith Bool Lia.
From Verif Require Import Base.Num Base.GoRes Base.ListX Model.EarlyStop Spec.Order Spec.EarlyStop.
Import ListNotations.
Local Open Scope list_scope.

Lemma ensemble_length {T} (next : list T -> T) n : length (ensemble next n) = n.
Proof. induction n; simpl; auto. rewrite app_length. simpl. lia. Qed.

Lemma ensemble_prefix {T} (next : list T -> T) n m : m <= n -> firstn m (ensemble next n) = ensemble next m.
Proof.
  induction n as [|n IH]; intros H.
  - replace m with 0 by lia. reflexivity.
  - destruct (Nat.eq_dec m (S n)) as [->|Hne].
    + apply firstn_all2. rewrite ensemble_length. lia.
    + cbn [ensemble]. rewrite firstn_app, ensemble_length. replace (m - n) with 0 by lia.
      simpl. rewrite app_nil_r. apply IH. lia.
Qed.

Section ES.
  Context {N : Num} (laws : lt_laws N).

  Lemma better_irrefl mi (a : N) : better mi a a = false.
  Proof. destruct mi; apply (lt_irrefl N laws). Qed.
  Lemma better_trans mi (a b c : N) : better mi a b = true -> better mi b c = true -> better mi a c = true.
  Proof. destruct mi; intros H1 H2; eapply (lt_trans N laws); eauto. Qed.
  Lemma better_usable mi (a b : N) : better mi a b = true -> usable mi a.
  Proof.
    destruct mi; simpl; intros H; split.
    - now apply (lt_not_nan N laws) in H.
    - now apply (lt_inf N laws) in H.
    - now apply (lt_not_nan N laws) in H.
    - now apply (lt_inf N laws) in H.
  Qed.
  Lemma better_through mi (a b c : N) : nisnan b = false ->
    better mi a c = true -> better mi b c = false -> better mi a b = true.
  Proof.
    intros Hb H1 H2. destruct mi; simpl in *.
    - destruct (nlt a b) eqn:E; auto. pose proof (lt_not_nan N laws _ _ H1) as [Ha Hc].
      rewrite (lt_negtrans N laws a b c) in H1; auto.
    - destruct (nlt b a) eqn:E; auto. pose proof (lt_not_nan N laws _ _ H1) as [Hc Ha].
      rewrite (lt_negtrans N laws c b a) in H1; auto.
  Qed.

  Lemma improves_none mi (s : N) : improves mi None s = true <-> usable mi s.
  Proof.
    unfold improves, usable. destruct mi; simpl;
      rewrite andb_true_iff, !negb_true_iff; reflexivity.
  Qed.
  Lemma improves_some mi (b s : N) : improves mi (Some b) s = better mi s b.
  Proof. reflexivity. Qed.

  (** State after a history. *)
  Definition tracked (mi : bool) (h : list (Z * N)) (best : option N) (it k : Z) : Prop :=
    match best with
    | None => (forall i u, In (i, u) h -> ~ usable mi u) /\ it = 0%Z /\ k = Z.of_nat (length h)
    | Some s => exists pre post, best_entry mi h pre it s post /\ k = Z.of_nat (length post)
    end.

  Lemma tracked_step mi h best it k i s :
    tracked mi h best it k ->
    let '(best', it', k') :=
      if improves mi best s then (Some s, i, 0%Z) else (best, it, (k + 1)%Z) in
    tracked mi (h ++ [(i, s)]) best' it' k'.
  Proof.
    intros H. destruct best as [b|].
    - destruct H as (pre & post & (Hh & Hu & Hpre & Hpost) & Hk). rewrite improves_some.
      destruct (better mi s b) eqn:E.
      + exists h, []. split; [|reflexivity]. split; [reflexivity|]. split; [eapply better_usable; eauto|].
        split; [|easy]. intros j u Hin Huse. subst h.
        apply in_app_iff in Hin as [Hin|[Hin|Hin]].
        * eapply better_trans; eauto.
        * injection Hin as _ ->. exact E.
        * eapply better_through; [apply Huse|exact E|]. eauto.
      + exists pre, (post ++ [(i, s)]). split.
        * split; [subst h; now rewrite <- app_assoc|]. split; [exact Hu|]. split; [exact Hpre|].
          intros j u Hin. apply in_app_iff in Hin as [Hin|[Hin|[]]]; [eauto|]. now injection Hin as _ <-.
        * rewrite app_length. simpl. lia.
    - destruct H as (Hno & -> & ->). destruct (improves mi None s) eqn:E.
      + apply improves_none in E. exists h, []. split; [|reflexivity]. split; [reflexivity|].
        split; [exact E|]. split; [|easy]. intros j u Hin Hu. now apply Hno in Hin.
      + split; [|split; [reflexivity|rewrite app_length; simpl; lia]].
        intros j u Hin. apply in_app_iff in Hin as [Hin|[Hin|[]]]; [eauto|].
        injection Hin as _ <-. rewrite <- improves_none. congruence.
  Qed.

  (** * EarlyStopping *)
  Definition run (e : estop N) (h : list (Z * N)) : estop N :=
    fold_left (fun e p => fst (es_update e (fst p) (snd p))) h e.

  Lemma run_snoc e h i s : run e (h ++ [(i, s)]) = fst (es_update (run e h) i s).
  Proof. unfold run. now rewrite fold_left_app. Qed.

  Lemma es_new_enabled rounds metric : (0 < rounds)%Z ->
    es_new rounds metric = mkes rounds (@None N) 0 0 (metric_minimized metric) true.
  Proof. intros H. unfold es_new. destruct (Z.leb_spec rounds 0); [lia|reflexivity]. Qed.

  Lemma run_tracked rounds metric h : (0 < rounds)%Z ->
    let e := run (es_new rounds metric) h in
    s_rounds e = rounds /\ s_min e = metric_minimized metric /\ s_enabled e = true /\
    tracked (metric_minimized metric) h (s_best e) (s_iter e) (s_noimp e).
  Proof.
    intros Hr. induction h as [|[i s] h IH] using rev_ind.
    - cbn zeta. cbn [run fold_left]. rewrite es_new_enabled by exact Hr. cbn.
      repeat split; auto.
    - cbn zeta. rewrite run_snoc. cbn zeta in IH. destruct (run (es_new rounds metric) h) as [r b it k m en].
      cbn [s_rounds s_min s_enabled s_best s_iter s_noimp] in IH. destruct IH as (-> & -> & -> & IH).
      pose proof (tracked_step _ _ _ _ _ i s IH) as T. unfold es_update. cbn [s_enabled s_min s_best].
      destruct (improves (metric_minimized metric) b s);
        cbn [fst s_rounds s_min s_enabled s_best s_iter s_noimp]; auto.
  Qed.

  Lemma es_update_stop (e : estop N) i s : s_enabled e = true ->
    snd (es_update e i s) = es_should_stop (fst (es_update e i s)).
  Proof.
    intros He. unfold es_update. rewrite He. destruct (improves _ _ _); reflexivity.
  Qed.

  Lemma best_entry_unique mi (h pre pre' : list (Z * N)) it it' s s' post post' :
    best_entry mi h pre it s post -> best_entry mi h pre' it' s' post' ->
    pre = pre' /\ it = it' /\ s = s' /\ post = post'.
  Proof.
    intros (H1 & U1 & A1 & B1) (H2 & U2 & A2 & B2). rewrite H1 in H2. clear H1 h.
    assert (Hlt : forall (p p' : list (Z * N)) x x' q q', p ++ x :: q = p' ++ x' :: q' -> length p < length p' ->
              In x p' /\ In x' q).
    { induction p as [|a p IH]; intros p' x x' q q' E Hl; destruct p' as [|a' p']; simpl in *; try lia.
      - injection E as -> ->. split; [now left|]. apply in_app_iff. right. now left.
      - injection E as -> E. destruct (IH _ _ _ _ _ E ltac:(lia)). auto. }
    destruct (Nat.lt_trichotomy (length pre) (length pre')) as [Hl|[Hl|Hl]].
    - destruct (Hlt _ _ _ _ _ _ H2 Hl) as [Ha Hb]. specialize (A2 _ _ Ha U1). specialize (B1 _ _ Hb). congruence.
    - revert pre' Hl H2 A2. clear. induction pre as [|a pre IH]; intros [|a' pre'] Hl H2 A2; simpl in *; try lia.
      + injection H2 as -> -> ->. auto.
      + injection H2 as -> H2. destruct (IH pre' ltac:(lia) H2) as (-> & -> & -> & ->); auto.
        intros i u Hin. apply (A2 i u). now right.
    - destruct (Hlt _ _ _ _ _ _ (eq_sym H2) Hl) as [Ha Hb]. specialize (A1 _ _ Ha U2). specialize (B2 _ _ Hb). congruence.
  Qed.

  Lemma exhausted_iff rounds metric h : (0 < rounds)%Z ->
    es_should_stop (run (es_new rounds metric) h) = true <-> exhausted (metric_minimized metric) rounds h.
  Proof.
    intros Hr. pose proof (run_tracked rounds metric h Hr) as T. cbn zeta in T.
    destruct (run (es_new rounds metric) h) as [r b it k m en].
    cbn [s_rounds s_min s_enabled s_best s_iter s_noimp] in T. destruct T as (-> & -> & -> & T).
    unfold es_should_stop. cbn [s_enabled s_rounds s_noimp]. rewrite Z.leb_le.
    destruct b as [b|]; cbn [tracked] in T.
    - destruct T as (pre & post & HB & ->). split.
      + intros H. right. eauto 7.
      + intros [[Hno _]|(pre' & it' & s' & post' & HB' & H)].
        * exfalso. destruct HB as (-> & U & _). apply (Hno it b); [apply in_app_iff; right; now left|exact U].
        * destruct (best_entry_unique _ _ _ _ _ _ _ _ _ _ HB HB') as (_ & _ & _ & ->). exact H.
    - destruct T as (Hno & -> & ->). split.
      + intros H. left. auto.
      + intros [[_ H]|(pre' & it' & s' & post' & HB' & H)]; [exact H|].
        exfalso. destruct HB' as (-> & U & _). apply (Hno it' s'); [apply in_app_iff; right; now left|exact U].
  Qed.
End ES.

Section Fit.
  Context {N : Num} (laws : lt_laws N) {T : Type}.
  Variable next : list T -> T.
  Variable score : list T -> N.
  Let sc (i : nat) : N := score (ensemble next (S i)).
  Definition hist (n : nat) : list (Z * N) := map (fun i => (Z.of_nat i, sc i)) (seq 0 n).

  Lemma hist_S n : hist (S n) = hist n ++ [(Z.of_nat n, sc n)].
  Proof. unfold hist. now rewrite seq_S, map_app. Qed.

  Lemma fit_loop_off fuel : forall m, 
    fit_loop (fun ts => Ok (next ts)) score fuel (Z.of_nat m) None (ensemble next m) = Ok (ensemble next (m + fuel)).
  Proof.
    induction fuel as [|fuel IH]; intros m; cbn [fit_loop].
    - now rewrite Nat.add_0_r.
    - replace (Z.of_nat m + 1)%Z with (Z.of_nat (S m)) by lia.
      change (ensemble next m ++ [next (ensemble next m)]) with (ensemble next (S m)).
      rewrite IH. now replace (S m + fuel) with (m + S fuel) by lia.
  Qed.

  Lemma fit_loop_on rounds metric : (0 < rounds)%Z -> forall fuel m,
    let e := run (es_new rounds metric) (hist m) in
    s_enabled e = true ->
    exists j, m <= j <= m + fuel /\
      (forall i, m < i < j -> es_should_stop (run (es_new rounds metric) (hist i)) = false) /\
      ((j = m + fuel /\ (m < j -> es_should_stop (run (es_new rounds metric) (hist j)) = false) /\
        fit_loop (fun ts => Ok (next ts)) score fuel (Z.of_nat m) (Some e) (ensemble next m) = Ok (ensemble next j)) \/
       (m < j /\ es_should_stop (run (es_new rounds metric) (hist j)) = true /\
        fit_loop (fun ts => Ok (next ts)) score fuel (Z.of_nat m) (Some e) (ensemble next m) =
          let it := s_iter (run (es_new rounds metric) (hist j)) in
          Ok (if (it <? Z.of_nat j)%Z then firstn (Z.to_nat (it + 1)) (ensemble next j) else ensemble next j))).
  Proof.
    intros Hr. induction fuel as [|fuel IH]; intros m e He.
    - exists m. split; [lia|]. split; [lia|]. left. split; [lia|]. split; [lia|]. reflexivity.
    - cbn [fit_loop].
      change (ensemble next m ++ [next (ensemble next m)]) with (ensemble next (S m)).
      rewrite He. pose proof (es_update_stop e (Z.of_nat m) (score (ensemble next (S m))) He) as Hst.
      assert (Hrun : fst (es_update e (Z.of_nat m) (score (ensemble next (S m)))) = run (es_new rounds metric) (hist (S m)))
        by (rewrite hist_S, run_snoc; reflexivity).
      destruct (es_update e (Z.of_nat m) (score (ensemble next (S m)))) as [e' stop].
      cbn [fst snd] in Hst, Hrun. rewrite Hrun in *. destruct stop.
      + exists (S m). split; [lia|]. split; [lia|]. right. split; [lia|]. split; [now symmetry|].
        rewrite ensemble_length. reflexivity.
      + replace (Z.of_nat m + 1)%Z with (Z.of_nat (S m)) by lia.
        destruct (IH (S m)) as (j & Hj & Hpre & Hcase).
        { destruct (run_tracked laws rounds metric (hist (S m)) Hr) as (_ & _ & H & _). exact H. }
        exists j. split; [lia|]. split.
        * intros i Hi. destruct (Nat.eq_dec i (S m)) as [->|Hne]; [now symmetry|]. apply Hpre. lia.
        * destruct Hcase as [(H1 & H2 & H3)|(H1 & H2 & H3)].
          -- left. split; [lia|]. split; [|exact H3].
             intros _. destruct (Nat.eq_dec j (S m)) as [->|Hne]; [now symmetry|]. apply H2. lia.
          -- right. split; [lia|]. split; [exact H2|exact H3].
  Qed.
End Fit.

(** * Callbacks *)
Section Cb.
  Context {N : Num} {W T : Type}.
  Variable next : list T -> T.
  Variable loss : list T -> N.
  Variable lr : N.
  Variable leaves : Z.
  Let grow := fun ts : list T => Ok (next ts).
  Let sc (i : nat) : N := loss (ensemble next (S i)).
  Notation TL := "training_loss"%string.

  Definition only_tl (e : cenv N) : Prop := forall p, In p (c_eval e) -> fst p = TL.
  (** Callbacks that neither fail nor change the stop flag or the results, when the
      only result is the training loss. *)
  Definition harmless (cb : callback N W) : Prop :=
    forall e w, only_tl e ->
      exists e' w', cb e w = (e', w', Ok tt) /\ c_stop e' = c_stop e /\ c_eval e' = c_eval e.

  Lemma run_before_harmless cbs : Forall harmless cbs -> forall e w, only_tl e -> c_stop e = false ->
    exists e' w', run_before cbs e w = (e', w', Ok tt) /\ c_stop e' = false /\ c_eval e' = c_eval e.
  Proof.
    induction 1 as [|cb cbs Hc Hr IH]; intros e w Ht He; cbn [run_before].
    - exists e, w. auto.
    - destruct (Hc e w Ht) as (e' & w' & -> & Hs & Hv). rewrite Hs, He.
      destruct (IH e' w') as (e2 & w2 & -> & H2 & H3); [unfold only_tl; now rewrite Hv|congruence|].
      exists e2, w2. split; [reflexivity|]. split; congruence.
  Qed.
  Lemma run_after_harmless cbs : Forall harmless cbs -> forall e w, only_tl e -> c_stop e = false ->
    exists e' w', run_after cbs e w = (e', w', Ok tt) /\ c_stop e' = false /\ c_eval e' = c_eval e.
  Proof.
    induction 1 as [|cb cbs Hc Hr IH]; intros e w Ht He; cbn [run_after].
    - exists e, w. auto.
    - destruct (Hc e w Ht) as (e' & w' & -> & Hs & Hv).
      destruct (IH e' w') as (e2 & w2 & -> & H2 & H3); [unfold only_tl; now rewrite Hv|congruence|].
      exists e2, w2. split; [reflexivity|]. split; congruence.
  Qed.

  Lemma cb_loop_harmless cbs : Forall harmless cbs -> forall fuel m iter e w, only_tl e -> c_stop e = false ->
    exists w', cb_loop lr leaves grow loss cbs fuel iter e w (ensemble next m) = (w', Ok (ensemble next (m + fuel))).
  Proof.
    intros Hc. induction fuel as [|fuel IH]; intros m iter e w Ht He; cbn [cb_loop].
    - rewrite Nat.add_0_r. eauto.
    - rewrite He. destruct (run_before_harmless cbs Hc (mkcenv iter lr leaves (c_eval e) false) w Ht eq_refl)
        as (e2 & w2 & -> & H2 & _). rewrite H2. cbn [grow].
      change (ensemble next m ++ [next (ensemble next m)]) with (ensemble next (S m)).
      destruct (run_after_harmless cbs Hc (mkcenv iter lr leaves [(TL, loss (ensemble next (S m)))] false) w2)
        as (e4 & w4 & -> & H4 & H5); [intros p [<-|[]]; reflexivity|reflexivity|]. rewrite H4.
      replace (m + S fuel) with (S m + fuel) by lia. apply IH; [|exact H4].
      unfold only_tl. rewrite H5. intros p [<-|[]]; reflexivity.
  Qed.

  (** ** The early-stopping callback on its own *)
  Variable get : W -> es_state (N := N).
  Variable put : es_state (N := N) -> W -> W.
  Hypothesis get_put : forall s w, get (put s w) = s.

  Definition next_state (mi : bool) (iter : Z) (v : N) (st : es_state (N := N)) : es_state (N := N) :=
    let '(best, bi, k) := st in
    if improves mi best v then (Some v, iter, 0%Z) else (best, bi, (k + 1)%Z).
  Definition waits (st : es_state (N := N)) : Z := snd st.

  Lemma es_cb_step rounds mi iter lr0 lv v st w : get w = st ->
    early_stopping_callback get put rounds TL mi (mkcenv iter lr0 lv [(TL, v)] false) w =
    (mkcenv iter lr0 lv [(TL, v)] (rounds <=? waits (next_state mi iter v st))%Z,
     put (next_state mi iter v st) w, Ok tt).
  Proof.
    intros Hg. unfold early_stopping_callback, next_state, waits. cbn [lookup find fst c_eval].
    cbn. rewrite Hg. destruct st as [[best bi] k]. destruct (improves mi best v); reflexivity.
  Qed.

  (** One iteration after the first. *)
  Lemma es_cb_iteration rounds mi fuel iter e w m v st :
    c_eval e = [(TL, v)] -> c_stop e = false -> get w = st ->
    let cbs := [early_stopping_callback get put rounds TL mi] in
    let st1 := next_state mi iter v st in
    let st2 := next_state mi iter (sc m) st1 in
    exists w1 w2 e2, get w1 = st1 /\ get w2 = st2 /\ c_eval e2 = [(TL, sc m)] /\ c_stop e2 = false /\
    cb_loop lr leaves grow loss cbs (S fuel) iter e w (ensemble next m) =
      if (rounds <=? waits st1)%Z then (w1, Ok (ensemble next m))
      else if (rounds <=? waits st2)%Z then (w2, Ok (ensemble next (S m)))
      else cb_loop lr leaves grow loss cbs fuel (iter + 1) e2 w2 (ensemble next (S m)).
  Proof.
    intros Hv Hs Hg cbs st1 st2.
    exists (put st1 w), (put st2 (put st1 w)), (mkcenv iter lr leaves [(TL, sc m)] false).
    split; [apply get_put|]. split; [apply get_put|]. split; [reflexivity|]. split; [reflexivity|].
    cbn [cb_loop]. rewrite Hv, Hs. unfold cbs. cbn [run_before run_after].
    rewrite (es_cb_step rounds mi iter lr leaves v st w Hg). fold st1. cbn [c_stop].
    destruct (rounds <=? waits st1)%Z eqn:E1; cbn [c_stop]; [reflexivity|].
    cbn [grow].
    change (ensemble next m ++ [next (ensemble next m)]) with (ensemble next (S m)). fold (sc m).
    rewrite (es_cb_step rounds mi iter lr leaves (sc m) st1 (put st1 w) (get_put _ _)). fold st2. cbn [c_stop].
    destruct (rounds <=? waits st2)%Z eqn:E2; reflexivity.
  Qed.

  (** The first iteration: there are no results before it. *)
  Lemma es_cb_first rounds mi fuel w st :
    get w = st ->
    let cbs := [early_stopping_callback get put rounds TL mi] in
    let st1 := next_state mi 0 (sc 0) st in
    exists w1 e1, get w1 = st1 /\ c_eval e1 = [(TL, sc 0)] /\ c_stop e1 = false /\
    cb_loop lr leaves grow loss cbs (S fuel) 0 (mkcenv 0 lr leaves [] false) w [] =
      if (rounds <=? waits st1)%Z then (w1, Ok (ensemble next 1))
      else cb_loop lr leaves grow loss cbs fuel 1 e1 w1 (ensemble next 1).
  Proof.
    intros Hg cbs st1. exists (put st1 w), (mkcenv 0 lr leaves [(TL, sc 0)] false).
    split; [apply get_put|]. split; [reflexivity|]. split; [reflexivity|].
    cbn [cb_loop]. unfold cbs. cbn [run_before run_after].
    unfold early_stopping_callback at 1. cbn [c_eval lookup find option_map c_stop].
    cbn [grow]. change ([] ++ [next []]) with (ensemble next 1). fold (sc 0).
    rewrite (es_cb_step rounds mi 0 lr leaves (sc 0) st w Hg). fold st1. cbn [c_stop].
    destruct (rounds <=? waits st1)%Z eqn:E1; reflexivity.
  Qed.

  Lemma es_cb_zero rounds mi w :
    cb_loop lr leaves grow loss [early_stopping_callback get put rounds TL mi] 0 0 (mkcenv 0 lr leaves [] false) w [] = (w, Ok []).
  Proof. reflexivity. Qed.

  Section Phases.
    Hypothesis laws : lt_laws N.
    Variables (mi : bool) (r b : nat).
    Hypothesis Hr : 2 <= r.

    (** Not improving any more. *)
    Lemma es_cb_phase2 (Hno : forall i, b < i <= b + r / 2 -> better mi (sc i) (sc b) = false) :
      forall fuel q bi e w, 2 * q < r -> r / 2 - q <= fuel ->
      c_eval e = [(TL, sc (b + q))] -> c_stop e = false -> get w = (Some (sc b), bi, Z.of_nat (2 * q)) ->
      exists w', cb_loop lr leaves grow loss [early_stopping_callback get put (Z.of_nat r) TL mi]
        fuel (Z.of_nat (b + q + 1)) e w (ensemble next (b + q + 1)) = (w', Ok (ensemble next (b + 1 + r / 2))).
    Proof.
      pose proof (Nat.div_mod r 2 ltac:(lia)) as Hdm.
      pose proof (Nat.mod_upper_bound r 2 ltac:(lia)) as Hmu.
      induction fuel as [|fuel IH]; intros q bi e w Hq Hf Hv Hs Hg.
      - cbn [cb_loop]. exists w. replace (b + q + 1) with (b + 1 + r / 2) by lia. reflexivity.
      - destruct (es_cb_iteration (Z.of_nat r) mi fuel (Z.of_nat (b + q + 1)) e w (b + q + 1) _ _ Hv Hs Hg)
          as (w1 & w2 & e2 & Hw1 & Hw2 & He2 & Hs2 & ->).
        assert (H1 : better mi (sc (b + q)) (sc b) = false).
        { destruct q; [rewrite Nat.add_0_r; now apply better_irrefl|apply Hno; lia]. }
        unfold next_state at 1 in Hw1. rewrite improves_some, H1 in Hw1.
        unfold next_state at 2 in Hw2. rewrite improves_some, H1 in Hw2.
        assert (E1 : next_state mi (Z.of_nat (b + q + 1)) (sc (b + q)) (Some (sc b), bi, Z.of_nat (2 * q))
                     = (Some (sc b), bi, Z.of_nat (2 * q) + 1)%Z)
          by (unfold next_state; rewrite improves_some, H1; reflexivity).
        rewrite E1. cbn [waits snd].
        destruct (Z.leb_spec (Z.of_nat r) (Z.of_nat (2 * q) + 1)) as [Hle|Hlt].
        + exists w1. replace (b + q + 1) with (b + 1 + r / 2) by lia. reflexivity.
        + assert (H2 : better mi (sc (b + q + 1)) (sc b) = false) by (apply Hno; lia).
          unfold next_state in Hw2. rewrite improves_some, H2 in Hw2.
          assert (E2 : next_state mi (Z.of_nat (b + q + 1)) (sc (b + q + 1)) (Some (sc b), bi, (Z.of_nat (2 * q) + 1)%Z)
                     = (Some (sc b), bi, Z.of_nat (2 * q) + 1 + 1)%Z)
            by (unfold next_state; rewrite improves_some, H2; reflexivity).
          rewrite E2. cbn [waits snd].
          destruct (Z.leb_spec (Z.of_nat r) (Z.of_nat (2 * q) + 1 + 1)) as [Hle|Hlt2].
          * exists w2. replace (S (b + q + 1)) with (b + 1 + r / 2) by lia. reflexivity.
          * replace (Z.of_nat (b + q + 1) + 1)%Z with (Z.of_nat (b + S q + 1)) by lia.
            replace (S (b + q + 1)) with (b + S q + 1) by lia.
            apply (IH (S q) bi); try lia.
            -- replace (b + S q) with (b + q + 1) by lia. exact He2.
            -- exact Hs2.
            -- rewrite Hw2. f_equal. lia.
    Qed.

    (** Improving up to iteration [m <= b]. *)
    Lemma es_cb_phase1 (Hup : forall i, i < b -> better mi (sc (S i)) (sc i) = true)
      : forall d m fuel e w, d = b - m -> m <= b -> 
      c_eval e = [(TL, sc m)] -> c_stop e = false -> get w = (Some (sc m), Z.of_nat m, 0%Z) ->
      exists e' w', c_eval e' = [(TL, sc b)] /\ c_stop e' = false /\ get w' = (Some (sc b), Z.of_nat b, 0%Z) /\
      cb_loop lr leaves grow loss [early_stopping_callback get put (Z.of_nat r) TL mi]
        (d + fuel) (Z.of_nat (m + 1)) e w (ensemble next (m + 1)) =
      cb_loop lr leaves grow loss [early_stopping_callback get put (Z.of_nat r) TL mi]
        fuel (Z.of_nat (b + 1)) e' w' (ensemble next (b + 1)).
    Proof.
      induction d as [|d IH]; intros m fuel e w Hd Hm Hv Hs Hg.
      - assert (m = b) by lia. subst m. exists e, w. auto.
      - replace (S d + fuel) with (S (d + fuel)) by lia.
        destruct (es_cb_iteration (Z.of_nat r) mi (d + fuel) (Z.of_nat (m + 1)) e w (m + 1) _ _ Hv Hs Hg)
          as (w1 & w2 & e2 & Hw1 & Hw2 & He2 & Hs2 & ->).
        assert (E1 : next_state mi (Z.of_nat (m + 1)) (sc m) (Some (sc m), Z.of_nat m, 0%Z)
                     = (Some (sc m), Z.of_nat m, 1%Z))
          by (unfold next_state; rewrite improves_some, better_irrefl; auto).
        rewrite E1 in *. cbn [waits snd].
        destruct (Z.leb_spec (Z.of_nat r) 1) as [Hle|_]; [lia|].
        assert (E2 : next_state mi (Z.of_nat (m + 1)) (sc (m + 1)) (Some (sc m), Z.of_nat m, 1%Z)
                     = (Some (sc (m + 1)), Z.of_nat (m + 1), 0%Z)).
        { unfold next_state. rewrite improves_some. replace (m + 1) with (S m) by lia.
          rewrite Hup by lia. reflexivity. }
        rewrite E2 in *. cbn [waits snd].
        destruct (Z.leb_spec (Z.of_nat r) 0) as [Hle|_]; [lia|].
        replace (Z.of_nat (m + 1) + 1)%Z with (Z.of_nat (S m + 1)) by lia.
        change (S (m + 1)) with (S m + 1).
        apply IH; try lia; auto.
        + now replace (S m) with (m + 1) by lia.
        + replace (S m) with (m + 1) by lia. exact Hw2.
    Qed.
  End Phases.
End Cb.

(** * Recording *)
Section Record.
  Context {N : Num} {W T : Type}.
  Variable next : list T -> T.
  Variable loss : list T -> N.
  Variable lr : N.
  Variable leaves : Z.
  Variable get : W -> list (string * list N).
  Variable put : list (string * list N) -> W -> W.
  Hypothesis get_put : forall s w, get (put s w) = s.
  Let grow := fun ts : list T => Ok (next ts).
  Let sc (i : nat) : N := loss (ensemble next (S i)).
  Notation TL := "training_loss"%string.
  Definition twice (n : nat) : list N := concat (map (fun i => [sc i; sc i]) (seq 0 n)).

  Lemma twice_S n : twice (S n) = twice n ++ [sc n; sc n].
  Proof. unfold twice. rewrite seq_S, map_app, concat_app. reflexivity. Qed.

  Lemma record_loop : forall fuel m iter e w,
    c_stop e = false -> c_eval e = [(TL, sc m)] -> get w = [(TL, twice m ++ [sc m])] ->
    exists w', cb_loop lr leaves grow loss [record_evaluation get put] fuel iter e w (ensemble next (S m))
               = (w', Ok (ensemble next (S m + fuel))) /\
      get w' = [(TL, twice (m + fuel) ++ [sc (m + fuel)])].
  Proof.
    induction fuel as [|fuel IH]; intros m iter e w Hs Hv Hg; cbn [cb_loop].
    - rewrite !Nat.add_0_r. eauto.
    - rewrite Hv, Hs. cbn [run_before run_after record_evaluation c_stop c_eval fold_left fst snd].
      rewrite Hg. cbn [append_at]. rewrite String.eqb_refl. cbn [grow].
      change (ensemble next (S m) ++ [next (ensemble next (S m))]) with (ensemble next (S (S m))).
      fold (sc (S m)). rewrite get_put. cbn [append_at]. rewrite String.eqb_refl.
      replace (S m + S fuel) with (S (S m) + fuel) by lia. replace (m + S fuel) with (S m + fuel) by lia.
      apply IH; try reflexivity. rewrite get_put, twice_S, <- !app_assoc. reflexivity.
  Qed.
End Record.

(** * The training API *)
Section Train.
  Context {N : Num} (laws : lt_laws N) {M : Type}.
  Variable eval : M -> nat -> N.
  Variable m : M.
  Variable nvalid : nat.

  (** Every recorded score is the score of one of the validation sets. *)
  Definition from_eval (results : list (string * N)) : Prop :=
    forall k v, In (k, v) results -> exists i, i < nvalid /\ v = eval m i.

  Lemma set_key_in k v rs k' v' : In (k', v') (set_key (N := N) k v rs) -> v' = v \/ In (k', v') rs.
  Proof.
    induction rs as [|[a b] rs IH]; simpl.
    - intros [H|[]]. injection H as _ ->. auto.
    - destruct (String.eqb a k); simpl.
      + intros [H|H]; [injection H as _ ->; auto|auto].
      + intros [H|H]; [auto|]. destruct (IH H); auto.
  Qed.

  Lemma set_key_nonnil k v rs : set_key (N := N) k v rs <> [].
  Proof. destruct rs as [|[a b] rs]; simpl; [easy|]. now destruct (String.eqb a k). Qed.

  Lemma evaluate_ok : forall n i keys rs, i + n <= nvalid -> n <= length keys -> from_eval rs ->
    exists rs', evaluate (eval m) n i keys rs = Ok rs' /\ from_eval rs' /\ (0 < n \/ rs <> [] -> rs' <> []).
  Proof.
    induction n as [|n IH]; intros i keys rs Hi Hk Hf; cbn [evaluate].
    - exists rs. split; [reflexivity|]. split; [exact Hf|]. intros [H|H]; [lia|exact H].
    - destruct keys as [|key keys]; simpl in Hk; [lia|].
      destruct (IH (S i) keys (set_key key (eval m i) rs)) as (rs' & -> & H1 & H2); [lia|lia| |].
      + intros k v H. apply set_key_in in H as [->|H]; [exists i; split; [lia|reflexivity]|eauto].
      + exists rs'. split; [reflexivity|]. split; [exact H1|]. intros _. apply H2. right. apply set_key_nonnil.
  Qed.

  (** Number of validation sets whose score would still be an improvement. *)
  Definition open_sets (c : aes N) : nat :=
    length (filter (fun i => aes_improved c (eval m i)) (seq 0 nvalid)).

  Lemma aes_improved_some (c : aes N) (b s : N) : a_best c = Some b ->
    aes_improved c s = better (negb (a_higher c)) s b.
  Proof.
    intros H. unfold aes_improved. rewrite H. destruct (a_higher c); simpl.
    - apply (lt_add0 N laws).
    - apply (lt_sub0 N laws).
  Qed.

  Lemma filter_length_lt {A} (p q : A -> bool) l x :
    (forall a, In a l -> p a = true -> q a = true) -> In x l -> p x = false -> q x = true ->
    length (filter p l) < length (filter q l).
  Proof.
    intros Himp Hin Hp Hq.
    assert (Hle : forall l', (forall a, In a l' -> p a = true -> q a = true) ->
              length (filter p l') <= length (filter q l')).
    { induction l' as [|a l' IH]; intros H; simpl; [lia|].
      assert (length (filter p l') <= length (filter q l')) by (apply IH; intros; apply H; simpl; auto).
      destruct (p a) eqn:E; simpl.
      - rewrite (H a (or_introl eq_refl) E). simpl. lia.
      - destruct (q a); simpl; lia. }
    induction l as [|a l IH]; [easy|]. simpl. destruct Hin as [->|Hin].
    - rewrite Hp, Hq. simpl. specialize (Hle l (fun a H => Himp a (or_intror H))). lia.
    - assert (length (filter p l) < length (filter q l)) by (apply IH; auto; intros; apply Himp; simpl; auto).
      destruct (p a) eqn:E; simpl.
      + rewrite (Himp a (or_introl eq_refl) E). simpl. lia.
      + destruct (q a); simpl; lia.
  Qed.

  Lemma open_sets_decrease c i iter : i < nvalid -> aes_improved c (eval m i) = true ->
    open_sets (mkaes (a_rounds c) (Some (eval m i)) iter 0 (a_higher c)) < open_sets c.
  Proof.
    intros Hi Himp. set (c' := mkaes (a_rounds c) (Some (eval m i)) iter 0 (a_higher c)).
    assert (Hc' : forall s, aes_improved c' s = better (negb (a_higher c)) s (eval m i))
      by (intros s; apply (aes_improved_some c' (eval m i) s eq_refl)).
    apply (filter_length_lt _ _ _ i).
    - intros a Ha H. rewrite Hc' in H. destruct (a_best c) as [b|] eqn:Eb.
      + rewrite (aes_improved_some c b _ Eb) in Himp. rewrite (aes_improved_some c b _ Eb).
        eapply (better_trans laws); eauto.
      + unfold aes_improved in *. rewrite Eb in *. apply (better_usable laws) in H. now apply improves_none.
    - apply in_seq. lia.
    - rewrite Hc'. now apply (better_irrefl laws).
    - exact Himp.
  Qed.

  Lemma open_sets_le c : open_sets c <= nvalid.
  Proof.
    unfold open_sets. etransitivity; [apply filter_length_le|]. now rewrite seq_length.
  Qed.

  Variable keys : list string.
  Variable picks : Z -> list (string * N) -> option (string * N).
  Hypothesis Hkeys : nvalid <= length keys.
  Hypothesis Hvalid : 0 < nvalid.
  Hypothesis Hpick : forall i rs, rs <> [] -> exists p, picks i rs = Some p /\ In p rs.

  (** One evaluated iteration. *)
  Lemma aes_after_cases iter rs (c : aes N) : rs <> [] -> from_eval rs -> (0 < a_rounds c)%Z ->
    exists i, i < nvalid /\
      aes_after (picks iter) iter rs c =
        if aes_improved c (eval m i) then (mkaes (a_rounds c) (Some (eval m i)) iter 0 (a_higher c), false)
        else (mkaes (a_rounds c) (a_best c) (a_bestit c) (a_wait c + 1) (a_higher c),
              (a_rounds c <=? a_wait c + 1)%Z).
  Proof.
    intros Hne Hf Hr. destruct (Hpick iter rs Hne) as ([k v] & Hp & Hin).
    destruct (Hf k v Hin) as (i & Hi & ->). exists i. split; [exact Hi|].
    unfold aes_after. rewrite Hp. destruct (aes_improved c (eval m i)); reflexivity.
  Qed.

  Definition potential (c : aes N) : Z :=
    (Z.of_nat (open_sets c) * a_rounds c + (a_rounds c - a_wait c))%Z.

  Lemma train_loop_stops fit : forall fuel iter rs c,
    from_eval rs -> (0 <= a_wait c < a_rounds c)%Z -> (potential c <= Z.of_nat fuel)%Z ->
    train_loop fit eval nvalid keys picks fuel iter (Some m) rs (Some c) = Err (EOther 99).
  Proof.
    induction fuel as [|fuel IH]; intros iter rs c Hf Hw Hp.
    - exfalso. unfold potential in Hp. nia.
    - cbn [train_loop bind].
      destruct (evaluate_ok nvalid 0 keys rs) as (rs' & E & Hf' & Hne); [lia|exact Hkeys|exact Hf|].
      rewrite E. cbn [bind]. specialize (Hne (or_introl Hvalid)).
      destruct (aes_after_cases iter rs' c Hne Hf' ltac:(lia)) as (i & Hi & ->).
      destruct (aes_improved c (eval m i)) eqn:Eimp.
      + apply IH; [exact Hf'|cbn; lia|].
        pose proof (open_sets_decrease c i iter Hi Eimp) as Hd.
        unfold potential in *. cbn [a_rounds a_wait]. nia.
      + destruct (Z.leb_spec (a_rounds c) (a_wait c + 1)) as [Hle|Hgt]; [reflexivity|].
        apply IH; [exact Hf'|cbn; lia|]. unfold potential in *. cbn [a_rounds a_wait].
        replace (open_sets (mkaes (a_rounds c) (a_best c) (a_bestit c) (a_wait c + 1) (a_higher c)))
          with (open_sets c) by reflexivity. lia.
  Qed.

  Lemma train_loop_quiet fit : forall fuel iter rs c,
    from_eval rs -> (0 <= a_wait c)%Z -> (a_wait c + Z.of_nat fuel < a_rounds c)%Z ->
    train_loop fit eval nvalid keys picks fuel iter (Some m) rs (Some c) = Ok (Some m).
  Proof.
    induction fuel as [|fuel IH]; intros iter rs c Hf Hw Hp; [reflexivity|].
    cbn [train_loop bind].
    destruct (evaluate_ok nvalid 0 keys rs) as (rs' & E & Hf' & Hne); [lia|exact Hkeys|exact Hf|].
    rewrite E. cbn [bind]. specialize (Hne (or_introl Hvalid)).
    destruct (aes_after_cases iter rs' c Hne Hf' ltac:(lia)) as (i & Hi & ->).
    destruct (aes_improved c (eval m i)) eqn:Eimp.
    - apply IH; [exact Hf'|cbn; lia|cbn; lia].
    - destruct (Z.leb_spec (a_rounds c) (a_wait c + 1)) as [Hle|Hgt]; [lia|].
      apply IH; [exact Hf'|cbn; lia|cbn; lia].
  Qed.
End Train.

Lemma train_loop_off {N : Num} {M : Type} (eval : M -> nat -> N) (m : M) nvalid keys picks fit :
  nvalid <= length keys -> forall fuel iter rs,
  from_eval eval m nvalid rs ->
  train_loop fit eval nvalid keys picks fuel iter (Some m) rs None = Ok (Some m).
Proof.
  intros Hkeys. induction fuel as [|fuel IH]; intros iter rs Hf; [reflexivity|].
  cbn [train_loop bind].
  destruct (evaluate_ok eval m nvalid nvalid 0 keys rs) as (rs' & E & Hf' & Hne); [lia|exact Hkeys|exact Hf|].
  rewrite E. cbn [bind]. now apply IH.
Qed.
