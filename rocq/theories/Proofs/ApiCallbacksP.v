From Coq Require Import String Ascii List Arith ZArith Bool Lia Permutation.
From Verif Require Import Base.Num Base.GoRes Base.GoMap Base.Mat Base.ListX
  Model.EarlyStop Model.LgbTree Model.LgbEstimator Model.LgbText Model.LgbBooster Model.LgbApi Model.ApiCallbacks Spec.ApiCallbacks.
Import ListNotations.
Local Open Scope string_scope.
Local Open Scope list_scope.

Section Calls.
  Context {N : Num} {W : Type}.
  Variable order : nat -> @smap (list N) -> list (string * list N).
  Notation cback := (cback N W).
  Notation world := (world N W).
  Notation call := (@call N W order).
  Notation calls := (@calls N W order).

  Lemma cback_ind' (P : cback -> Prop) : (forall p l, P (CPrint p l)) -> (forall a, P (CEarly a)) -> (forall r, P (CRecord r)) ->
    (forall s n, P (CReset s n)) -> (forall u, P (CUser u)) -> (forall l, Forall P l -> P (CList l)) -> forall c, P c.
  Proof.
    intros H1 H2 H3 H4 H5 H6. fix IH 1. intros [p l|a|r|s n|l|u]; [apply H1|apply H2|apply H3|apply H4| |apply H5].
    apply H6. induction l as [|c l IHl]; constructor; [apply IH|exact IHl].
  Qed.
  Lemma call_list ph l w : call ph (CList l) w = let '(l, w, a) := calls ph l w in (CList l, w, a).
  Proof.
    cbn [ApiCallbacks.call]. match goal with |- match ?x with _ => _ end = _ => match x with ?f l w => assert (E : forall l w, f l w = calls ph l w) end end.
    - clear. induction l as [|c l IH]; intros w; [reflexivity|]. cbn [ApiCallbacks.calls]. destruct (call ph c w) as [[c' w'] [| |e|]]; try reflexivity.
      now rewrite IH.
    - now rewrite E.
  Qed.
  Lemma calls_app ph l1 : forall l2 w, calls ph (l1 ++ l2) w =
    match calls ph l1 w with
    | (l1', w, Fine) => let '(l2, w, a) := calls ph l2 w in (l1' ++ l2, w, a)
    | (l1', w, a) => (l1' ++ l2, w, a)
    end.
  Proof.
    induction l1 as [|c l1 IH]; intros l2 w; cbn [app ApiCallbacks.calls].
    - now destruct (calls ph l2 w) as [[l2' w'] a].
    - destruct (call ph c w) as [[c' w'] [| |e|]]; try reflexivity. rewrite IH. destruct (calls ph l1 w') as [[l1' w1] [| |e|]]; try reflexivity.
      now destruct (calls ph l2 w1) as [[l2' w2] a].
  Qed.
  Lemma call_flat ph c : forall w, let '(c', w', a) := call ph c w in calls ph (flat c) w = (flat c', w', a).
  Proof.
    induction c as [p l|a|r|s n|u|l IH] using cback_ind'; intros w.
    1-5: cbn [flat]; cbn [ApiCallbacks.calls]; destruct (call ph _ w) as [[c' w'] a'] eqn:E;
      assert (F : flat c' = [c']) by
        (cbn [ApiCallbacks.call] in E; unfold print_call, early_call, early_after, record_call, reset_call in E;
         repeat match type of E with
         | context [match ?x with _ => _ end] => destruct x
         | (if ?x then _ else _) = _ => destruct x
         end; injection E as <- _ _; reflexivity);
      rewrite F; destruct a'; reflexivity.
    rewrite call_list. cbn [flat].
    assert (G : let '(l', w', a) := calls ph l w in calls ph (flat_map flat l) w = (flat_map flat l', w', a)).
    { revert w. induction IH as [|c l Hc _ IHl]; intros w; [reflexivity|]. cbn [flat_map]. rewrite calls_app. cbn [ApiCallbacks.calls]. specialize (Hc w).
      destruct (call ph c w) as [[c' w'] a]. rewrite Hc. destruct a; try reflexivity. specialize (IHl w'). destruct (calls ph l w') as [[l' w''] a]. rewrite IHl. reflexivity. }
    destruct (calls ph l w) as [[l' w'] a]. exact G.
  Qed.
  Lemma calls_flat ph l : forall w, let '(l', w', a) := calls ph l w in calls ph (flat_map flat l) w = (flat_map flat l', w', a).
  Proof.
    induction l as [|c l IHl]; intros w; [reflexivity|]. cbn [flat_map]. rewrite calls_app. cbn [ApiCallbacks.calls]. pose proof (call_flat ph c w) as Hc.
    destruct (call ph c w) as [[c' w'] a]. rewrite Hc. destruct a; try reflexivity. specialize (IHl w'). destruct (calls ph l w') as [[l' w''] a]. rewrite IHl. reflexivity.
  Qed.

  (** Quiet callbacks without lists, prepared by Init *)
  Definition good (c : cback) : Prop := match c with CPrint p _ => (0 < p)%Z | CRecord _ | CReset _ _ => True | _ => False end.
  Definition mild (c : cback) : Prop := match c with CPrint _ _ | CRecord _ | CReset _ _ => True | _ => False end.
  Definition writes (c : cback) : bool := match c with CReset _ _ => true | _ => false end.
  (** What they leave alone *)
  Definition core (w w' : world) : Prop :=
    w_user w' = w_user w /\ w_heap w' = w_heap w /\ w_booster w' = w_booster w
    /\ v_iter (w_env w') = v_iter (w_env w) /\ v_results (w_env w') = v_results (w_env w) /\ v_best (w_env w') = v_best (w_env w)
    /\ v_score (w_env w') = v_score (w_env w) /\ v_stop (w_env w') = v_stop (w_env w) /\ (v_params (w_env w') = None <-> v_params (w_env w) = None).
  Lemma core_refl w : core w w.
  Proof. repeat split; auto. Qed.
  Lemma core_trans w1 w2 w3 : core w1 w2 -> core w2 w3 -> core w1 w3.
  Proof. unfold core. intros (?&?&?&?&?&?&?&?&?) (?&?&?&?&?&?&?&?&?). repeat split; try congruence; tauto. Qed.

  Lemma call_good ph c w : mild c -> (ph <> PInit -> good c) -> (writes c = true -> v_params (w_env w) <> None) ->
    exists c' w', call ph c w = (c', w', Fine) /\ good c' /\ writes c' = writes c /\ core w w' /\ (writes c = false -> w_env w' = w_env w).
  Proof.
    intros M G P. destruct c as [p l|a|r|s n|l|u]; try contradiction; cbn [ApiCallbacks.call].
    - destruct ph; cbn [print_call].
      + eexists _, _. split; [reflexivity|]. split; [|split; [reflexivity|split; [apply core_refl|reflexivity]]]. cbn. destruct (Z.leb_spec p 0); lia.
      + eexists _, _. split; [reflexivity|]. split; [apply G; discriminate|split; [reflexivity|split; [apply core_refl|reflexivity]]].
      + assert (Gp : (0 < p)%Z) by (apply G; discriminate). destruct (Z.eqb_spec p 0); [lia|]. destruct (negb _); [|destruct (lasts _)];
        (eexists _, _; split; [reflexivity|]; split; [exact Gp|split; [reflexivity|split; [repeat split; auto|reflexivity]]]).
      + assert (Gp : (0 < p)%Z) by (apply G; discriminate). destruct (_ && _);
        (eexists _, _; split; [reflexivity|]; split; [exact Gp|split; [reflexivity|split; [repeat split; auto|reflexivity]]]).
    - destruct ph; (eexists _, _; split; [reflexivity|]; split; [exact I|split; [reflexivity|split; [repeat split; auto|reflexivity]]]).
    - destruct ph; cbn [reset_call];
        try (eexists _, _; split; [reflexivity|]; split; [exact I|split; [reflexivity|split; [apply core_refl|reflexivity]]]).
      destruct (_ =? _)%Z.
      2: eexists _, _; split; [reflexivity|]; split; [exact I|split; [reflexivity|split; [apply core_refl|reflexivity]]].
      specialize (P eq_refl). destruct (v_params (w_env w)) as [q|] eqn:E; [|contradiction].
      eexists _, _. split; [reflexivity|]. split; [exact I|split; [reflexivity|split; [|discriminate]]].
      repeat split; cbn; try congruence; intros; discriminate.
  Qed.
  Lemma calls_good ph l : forall w, Forall mild l -> (ph <> PInit -> Forall good l) -> (existsb writes l = true -> v_params (w_env w) <> None) ->
    exists l' w', calls ph l w = (l', w', Fine) /\ Forall good l' /\ existsb writes l' = existsb writes l /\ core w w' /\ (existsb writes l = false -> w_env w' = w_env w).
  Proof.
    induction l as [|c l IH]; intros w M G P; cbn [ApiCallbacks.calls].
    - exists [], w. split; [reflexivity|]. split; [constructor|]. split; [reflexivity|]. split; [apply core_refl|reflexivity].
    - inversion M; subst. cbn [existsb] in P. destruct (call_good ph c w) as (c' & w1 & E & G1 & W1 & C1 & V1); auto.
      { intros Hp. specialize (G Hp). now inversion G. }
      { intros Hw. apply P. now rewrite Hw. }
      rewrite E. destruct (IH w1) as (l' & w2 & E2 & G2 & W2 & C2 & V2); auto.
      { intros Hp. specialize (G Hp). now inversion G. }
      { intros Hw K. apply C1 in K. revert K. apply P. rewrite Hw. apply orb_true_r. }
      rewrite E2. exists (c' :: l'), w2. split; [reflexivity|]. split; [now constructor|]. cbn [existsb]. split; [congruence|]. split; [eapply core_trans; eauto|].
      intros K. apply orb_false_elim in K as [K1 K2]. rewrite V2, V1; auto.
  Qed.
  Lemma good_mild l : Forall good l -> Forall mild l.
  Proof. apply Forall_impl. now intros []. Qed.
End Calls.

Section Loop.
  Context {N : Num} {W : Type}.
  Variable trainer : settings N * (N * N) -> matrix N -> matrix N -> option (res (gmodel N)).
  Variables toint32 roundint : N -> Z.
  Variable zthr : N.
  Variable fuel : nat.
  Variable order : nat -> @smap (list N) -> list (string * list N).
  Notation cback := (cback N W).
  Notation world := (world N W).
  Notation calls := (@calls N W order).
  Notation loop := (@loop N W trainer toint32 roundint zthr fuel order).
  Notation rounds := (@rounds N trainer toint32 roundint zthr fuel).
  Notation evaluate_both := (@evaluate_both N toint32 roundint zthr fuel).
  Notation evaluate_sets := (@evaluate_sets N toint32 roundint zthr fuel).
  Notation train_with := (@train_with N W trainer toint32 roundint zthr fuel order).
  Notation train_api := (@train_api N trainer toint32 roundint zthr fuel).

  Lemma both_sets obj h sets : forall b names, evaluate_both obj h b (b_evals b) sets names =
    match evaluate_sets obj h b sets names with
    | Some (Ok b) => Some (Ok (b, b_evals b)) | Some (Err e) => Some (Err e) | Some Panic => Some Panic | None => None
    end.
  Proof.
    induction sets as [|ds sets IH]; intros b names; cbn [ApiCallbacks.evaluate_both LgbApi.evaluate_sets]; [reflexivity|].
    destruct (evaluate_set _ _ _ _ _ _ _ _) as [[sc|e|]|]; try reflexivity. destruct names as [|name names]; [reflexivity|].
    rewrite <- IH. reflexivity.
  Qed.
  Lemma train_one_evals s ds h (b : booster N) h' b' : train_one trainer s ds (h, b) = Some (Ok (h', b')) -> b_evals b' = b_evals b.
  Proof.
    unfold train_one. destruct (b_model b); [intros E; now injection E as <- <-|]. destruct (d_label ds); [|discriminate].
    destruct (trainer _ _ _) as [[g|e|]|]; try discriminate. destruct (d_names ds); cbn [set_names fst snd b_model]; intros E; injection E as <- <-; reflexivity.
  Qed.

  Definition flat_result (r : option (list cback * world * res unit)) :=
    match r with Some (l, w, a) => Some (flat_map flat l, w, a) | None => None end.
  Lemma loop_flat s ds sets names k : forall iter l w,
    loop s ds sets names k iter (flat_map flat l) w = flat_result (loop s ds sets names k iter l w).
  Proof.
    induction k as [|k IH]; intros iter l w; cbn [ApiCallbacks.loop]; [reflexivity|].
    pose proof (calls_flat order PBefore l (at_iter iter w)) as H. destruct (calls PBefore l (at_iter iter w)) as [[l1 w1] a]. rewrite H.
    destruct a; try reflexivity.
    1: generalize w1 as w2. 2: generalize (with_booster (set_best (v_best (w_env w1)) (w_booster w1)) w1) as w2.
    all: intros w2; destruct (v_stop (w_env w2)); [reflexivity|];
      destruct (train_one _ _ _ _) as [[[h b]|e|]|]; try reflexivity;
      destruct (ApiCallbacks.evaluate_both _ _ _ _ _ _ _ _ _ _) as [[[b' m]|e|]|]; try reflexivity;
      pose proof (calls_flat order PAfter l1 (trained h b' m w2)) as H'; destruct (calls PAfter l1 (trained h b' m w2)) as [[l2 w3] a']; rewrite H';
      destruct a'; try reflexivity; apply IH.
  Qed.
  Lemma train_flat u h p ds num sets names cs verbose r :
    train_with u h p ds num sets names (flat_map flat cs) verbose r = flat_result (train_with u h p ds num sets names cs verbose r).
  Proof.
    unfold ApiCallbacks.train_with.
    assert (E : all_callbacks (flat_map flat cs) verbose r = flat_map flat (all_callbacks cs verbose r)).
    { unfold all_callbacks. rewrite !flat_map_app. f_equal. f_equal; [now destruct verbose|now destruct (0 <? r)%Z]. }
    rewrite E. pose proof (calls_flat order PInit (all_callbacks cs verbose r) (start u h p)) as H.
    destruct (calls PInit (all_callbacks cs verbose r) (start u h p)) as [[l1 w1] a]. rewrite H. destruct a; try reflexivity.
    rewrite loop_flat. destruct (ApiCallbacks.loop _ _ _ _ _ _ _ _ _ _ _ _ _ _) as [[[l2 w2] [[]|e|]]|]; cbn [flat_result]; try reflexivity.
    pose proof (calls_flat order PFinal l2 w2) as H'. destruct (calls PFinal l2 w2) as [[l3 w3] a]. rewrite H'. now destruct a.
  Qed.

  (** The world between two rounds *)
  Definition calm (w : world) : Prop := v_stop (w_env w) = false /\ v_results (w_env w) = b_evals (w_booster w).
  (** One round with quiet callbacks *)
  Lemma loop_good (I : Z -> list cback -> world -> Prop) s ds sets names
    (HI : forall iter l w l1 w1 h b l2 w2, I iter l w -> Forall good l -> calls PBefore l (at_iter iter w) = (l1, w1, Fine) ->
       Forall good l1 -> v_iter (w_env w1) = iter -> calls PAfter l1 (trained h b (b_evals b) w1) = (l2, w2, Fine) -> w_booster w2 = b ->
       v_results (w_env w2) = b_evals b -> evaluate_sets (s_obj (fst s)) h (snd (match train_one trainer s ds (w_heap w, w_booster w) with Some (Ok x) => x | _ => (w_heap w, w_booster w) end)) sets names = Some (Ok b) ->
       I (iter + 1)%Z l2 (with_booster (with_cur (iter + 1) b) w2)) k :
    forall iter l w, Forall good l -> calm w -> I iter l w -> (existsb writes l = true -> v_params (w_env w) <> None) ->
    match rounds s ds sets names k iter (w_heap w, w_booster w) with
    | Some (Ok (h, b)) => exists l' w', loop s ds sets names k iter l w = Some (l', w', Ok tt) /\ w_heap w' = h /\ w_booster w' = b /\ Forall good l'
        /\ calm w' /\ I (iter + Z.of_nat k)%Z l' w' /\ existsb writes l' = existsb writes l /\ (v_params (w_env w') = None <-> v_params (w_env w) = None)
        /\ (k <> 0 -> v_iter (w_env w') = (iter + Z.of_nat k - 1)%Z) /\ (k = 0 -> w' = w)
    | Some (Err e) => exists l' w', loop s ds sets names k iter l w = Some (l', w', Err e)
    | Some Panic => exists l' w', loop s ds sets names k iter l w = Some (l', w', Panic)
    | None => loop s ds sets names k iter l w = None
    end.
  Proof.
    induction k as [|k IH]; intros iter l w G C HIw P; cbn [LgbApi.rounds ApiCallbacks.loop].
    { exists l, w. repeat split; auto; try apply C; try tauto. now rewrite Z.add_0_r. }
    destruct (calls_good order PBefore l (at_iter iter w)) as (l1 & w1 & E1 & G1 & W1 & C1 & V1); [now apply good_mild|auto|exact P|].
    rewrite E1. destruct C1 as (U1 & H1 & B1 & I1 & R1 & Be1 & Sc1 & St1 & P1). cbn [at_iter with_env w_heap w_booster w_env v_iter v_results v_stop v_params v_best v_score w_user] in *.
    destruct C as [C1 C2]. rewrite St1, C1. rewrite H1, B1.
    destruct (train_one trainer s ds (w_heap w, w_booster w)) as [[[h b]|e|]|] eqn:ET; try (now eexists _, _); try reflexivity.
    assert (EE : v_results (w_env w1) = b_evals b) by (rewrite R1, C2; symmetry; exact (train_one_evals _ _ _ _ _ _ ET)).
    rewrite EE, both_sets. destruct (LgbApi.evaluate_sets _ _ _ _ _ _ _ _ _) as [[b'|e|]|] eqn:EV; try (now eexists _, _); try reflexivity.
    destruct (calls_good order PAfter l1 (trained h b' (b_evals b') w1)) as (l2 & w2 & E2 & G2 & W2 & C3 & V2); [now apply good_mild|auto|cbn; rewrite W1, P1; exact P|].
    rewrite E2. destruct C3 as (U2 & H2 & B2 & I2 & R2 & Be2 & Sc2 & St2 & P2). cbn [trained w_heap w_booster w_env v_iter v_results v_stop v_params v_best v_score w_user] in *.
    specialize (IH (iter + 1)%Z l2 (with_booster (with_cur (iter + 1) (w_booster w2)) w2)). cbn [with_booster w_heap w_booster w_env] in IH. rewrite B2 in IH.
    rewrite H2 in IH. rewrite B2.
    specialize (IH G2). assert (K : calm (with_booster (with_cur (iter + 1) b') w2)) by (split; cbn; [congruence|exact R2]).
    assert (K2 : I (iter + 1)%Z l2 (with_booster (with_cur (iter + 1) b') w2)).
    { apply (HI iter l w l1 w1 h b' l2 w2); auto. rewrite ET. exact EV. }
    assert (K3 : existsb writes l2 = true -> v_params (w_env w2) <> None) by (rewrite W2, W1, P2, P1; exact P).
    specialize (IH K K2 K3).
    destruct (rounds s ds sets names k (iter + 1)%Z (h, with_cur (iter + 1) b')) as [[[hh bb]|e|]|]; try exact IH.
    destruct IH as (l' & w' & L1 & L2 & L3 & L4 & L5 & L6 & L7 & L8 & L9 & L10). exists l', w'. split; [exact L1|]. split; [exact L2|]. split; [exact L3|]. split; [exact L4|]. split; [exact L5|].
    split; [replace (iter + Z.of_nat (S k))%Z with (iter + 1 + Z.of_nat k)%Z by lia; exact L6|]. split; [congruence|]. split; [rewrite L8, P2, P1; reflexivity|]. split; [|discriminate].
    intros _. destruct k as [|k].
    - rewrite (L10 eq_refl). cbn [with_booster w_env]. rewrite I2, I1. lia.
    - rewrite L9 by discriminate. lia.
  Qed.
End Loop.
