From Coq Require Import String Ascii List Arith ZArith Bool Lia Permutation.
From Verif Require Import Base.Num Base.GoRes Base.GoMap Base.Mat Base.ListX
  Model.EarlyStop Model.LgbTree Model.LgbEstimator Model.LgbText Model.LgbBooster Model.LgbApi Model.ApiCallbacks Spec.ApiCallbacks
  Proofs.ApiCallbacksP Proofs.ApiCallbacksTrainP.
Import ListNotations.
Local Open Scope string_scope.
Local Open Scope list_scope.

Section Stop.
  Context {N : Num} {W : Type}.
  Variable trainer : settings N * (N * N) -> matrix N -> matrix N -> option (res (gmodel N)).
  Variables toint32 roundint : N -> Z.
  Variable zthr : N.
  Variable fuel : nat.
  Variable order : nat -> @smap (list N) -> list (string * list N).
  Notation cback := (cback N W).
  Notation world := (world N W).
  Notation call := (@call N W order).
  Notation calls := (@calls N W order).
  Notation loop := (@loop N W trainer toint32 roundint zthr fuel order).
  Notation rounds := (@rounds N trainer toint32 roundint zthr fuel).
  Notation evaluate_sets := (@evaluate_sets N toint32 roundint zthr fuel).
  Notation train_with := (@train_with N W trainer toint32 roundint zthr fuel order).
  Notation train_api := (@train_api N trainer toint32 roundint zthr fuel).

  (** ** Setting ShouldStop *)
  Section At.
  Variable j : Z.
  Definition stops (P : cback -> Prop) (l : list cback) : Prop := exists l1 l2, l = l1 ++ CUser (stop_after j) :: l2 /\ Forall P l1 /\ Forall P l2.
  Definition core2 (st : bool) (w w' : world) : Prop :=
    w_heap w' = w_heap w /\ w_booster w' = w_booster w /\ v_iter (w_env w') = v_iter (w_env w) /\ v_results (w_env w') = v_results (w_env w)
    /\ (v_params (w_env w') = None <-> v_params (w_env w) = None) /\ v_stop (w_env w') = st.
  Definition is_after (ph : phase) : bool := match ph with PAfter => true | _ => false end.
  Lemma calls_stop ph l w : stops mild l -> (ph <> PInit -> stops good l) -> (existsb writes l = true -> v_params (w_env w) <> None) ->
    exists l' w', calls ph l w = (l', w', Fine) /\ stops good l' /\ existsb writes l' = existsb writes l
      /\ core2 (v_stop (w_env w) || (is_after ph && (v_iter (w_env w) =? j)%Z)) w w'.
  Proof.
    intros S G P. assert (X : exists l1 l2, l = l1 ++ CUser (stop_after j) :: l2 /\ Forall mild l1 /\ Forall mild l2 /\ (ph <> PInit -> Forall good l1 /\ Forall good l2)).
    { destruct ph; try (destruct (G ltac:(discriminate)) as (l1 & l2 & -> & G1 & G2); exists l1, l2; repeat split; auto using good_mild).
      destruct S as (l1 & l2 & -> & G1 & G2). exists l1, l2. repeat split; auto; congruence. }
    destruct X as (l1 & l2 & -> & M1 & M2 & Gg). rewrite existsb_app in P. cbn [existsb writes orb] in P.
    destruct (calls_good order ph l1 w M1) as (l1' & w1 & E1 & G1 & W1 & C1 & _); [intros K; apply (Gg K)|intros K; apply P; rewrite K; reflexivity|].
    rewrite calls_app, E1. cbn [ApiCallbacks.calls ApiCallbacks.call].
    set (w2 := fst (stop_after j ph w1)). assert (E2 : stop_after j ph w1 = (w2, Fine)).
    { unfold w2, stop_after. destruct ph; try reflexivity. destruct (_ =? _)%Z; reflexivity. }
    rewrite E2. assert (C2 : core2 (v_stop (w_env w1) || (is_after ph && (v_iter (w_env w1) =? j)%Z)) w1 w2).
    { unfold w2, stop_after. destruct ph; cbn [is_after andb fst]; [| |destruct (_ =? _)%Z; cbn [fst]|]; rewrite ?orb_false_r, ?orb_true_r; repeat split; auto. }
    destruct C1 as (_ & H1 & B1 & I1 & R1 & _ & _ & S1 & P1). destruct C2 as (H2 & B2 & I2 & R2 & P2 & S2).
    destruct (calls_good order ph l2 w2 M2) as (l2' & w3 & E3 & G3 & W3 & C3 & _); [intros K; apply (Gg K)|intros K K'; rewrite P2, P1 in K'; revert K'; apply P; rewrite K; apply orb_true_r|].
    rewrite E3. destruct C3 as (_ & H3 & B3 & I3 & R3 & _ & _ & S3 & P3). eexists _, w3. split; [reflexivity|]. split; [exists l1', l2'; auto|].
    split; [rewrite !existsb_app; cbn [existsb writes orb]; congruence|]. unfold core2. rewrite S3, S2, S1, I1. repeat split; try congruence; tauto.
  Qed.
  Lemma stops_mild l : stops good l -> stops mild l.
  Proof. intros (l1 & l2 & -> & G1 & G2). exists l1, l2. auto using good_mild. Qed.
  Lemma loop_stopped s ds sets names k iter l w : stops good l -> v_stop (w_env w) = true -> (existsb writes l = true -> v_params (w_env w) <> None) ->
    exists l' w', loop s ds sets names k iter l w = Some (l', w', Ok tt) /\ stops good l' /\ existsb writes l' = existsb writes l
      /\ w_heap w' = w_heap w /\ w_booster w' = w_booster w /\ (v_params (w_env w') = None <-> v_params (w_env w) = None).
  Proof.
    intros S St P. destruct k as [|k]; cbn [ApiCallbacks.loop]; [exists l, w; repeat split; auto|].
    destruct (calls_stop PBefore l (at_iter iter w)) as (l1 & w1 & E1 & S1 & W1 & (H1 & B1 & I1 & R1 & P1 & St1)); [now apply stops_mild|auto|exact P|].
    rewrite E1, St1. cbn [at_iter with_env w_env v_stop]. rewrite St. cbn [orb]. exists l1, w1. repeat split; auto; apply P1.
  Qed.
  Lemma loop_stop s ds sets names k : forall iter l w, stops good l -> calm w -> (iter <= j < iter + Z.of_nat k)%Z -> (existsb writes l = true -> v_params (w_env w) <> None) ->
    match rounds s ds sets names (S (Z.to_nat (j - iter))) iter (w_heap w, w_booster w) with
    | Some (Ok (h, b)) => exists l' w', loop s ds sets names k iter l w = Some (l', w', Ok tt) /\ w_heap w' = h /\ w_booster w' = b /\ stops good l'
        /\ existsb writes l' = existsb writes l /\ (v_params (w_env w') = None <-> v_params (w_env w) = None)
    | Some (Err e) => exists l' w', loop s ds sets names k iter l w = Some (l', w', Err e)
    | Some Panic => exists l' w', loop s ds sets names k iter l w = Some (l', w', Panic)
    | None => loop s ds sets names k iter l w = None
    end.
  Proof.
    induction k as [|k IH]; intros iter l w So C Hj P; [lia|]. cbn [LgbApi.rounds ApiCallbacks.loop].
    destruct (calls_stop PBefore l (at_iter iter w)) as (l1 & w1 & E1 & S1 & W1 & (H1 & B1 & I1 & R1 & P1 & St1)); [now apply stops_mild|auto|exact P|].
    rewrite E1, St1. cbn [at_iter with_env w_heap w_booster w_env v_iter v_results v_stop v_params] in *. destruct C as [C1 C2]. rewrite C1. cbn [orb is_after andb]. rewrite H1, B1.
    destruct (train_one trainer s ds (w_heap w, w_booster w)) as [[[h b]|e|]|] eqn:ET; try (now eexists _, _); try reflexivity.
    assert (EE : v_results (w_env w1) = b_evals b) by (rewrite R1, C2; symmetry; exact (train_one_evals _ _ _ _ _ _ _ ET)).
    rewrite EE, both_sets. destruct (LgbApi.evaluate_sets _ _ _ _ _ _ _ _ _) as [[b'|e|]|] eqn:EV; try (now eexists _, _); try reflexivity.
    destruct (calls_stop PAfter l1 (trained h b' (b_evals b') w1)) as (l2 & w2 & E2 & S2 & W2 & (H2 & B2 & I2 & R2 & P2 & St2)); [now apply stops_mild|auto|cbn; rewrite W1, P1; exact P|].
    rewrite E2. cbn [trained w_heap w_booster w_env v_iter v_results v_stop v_params] in *. rewrite B2. rewrite I1, St1, C1 in St2. cbn [orb is_after andb] in St2.
    destruct (Z.eqb_spec iter j) as [->|Hne].
    - rewrite Z.sub_diag. cbn [Z.to_nat LgbApi.rounds].
      destruct (loop_stopped s ds sets names k (j + 1) l2 (with_booster (with_cur (j + 1) b') w2)) as (l' & w' & L1 & L2 & L3 & L4 & L5 & L6); [exact S2|exact St2|cbn; rewrite W2, W1, P2, P1; exact P|].
      exists l', w'. split; [exact L1|]. split; [rewrite L4; exact H2|]. split; [exact L5|]. split; [exact L2|]. split; [congruence|]. rewrite L6. cbn [with_booster w_env]. rewrite P2, P1. reflexivity.
    - specialize (IH (iter + 1)%Z l2 (with_booster (with_cur (iter + 1) b') w2) S2). cbn [with_booster w_heap w_booster w_env] in IH. rewrite H2 in IH.
      assert (K : calm (with_booster (with_cur (iter + 1) b') w2)) by (split; [exact St2|exact R2]).
      assert (K3 : existsb writes l2 = true -> v_params (w_env w2) <> None) by (rewrite W2, W1, P2, P1; exact P).
      specialize (IH K ltac:(lia) K3). replace (Z.to_nat (j - iter)) with (S (Z.to_nat (j - (iter + 1)))) by lia.
      destruct (rounds s ds sets names (S (Z.to_nat (j - (iter + 1)))) (iter + 1) (h, with_cur (iter + 1) b')) as [[[hh bb]|e|]|]; try exact IH.
      destruct IH as (l' & w' & L1 & L2 & L3 & L4 & L5 & L6). exists l', w'. repeat (split; [first [exact L1|exact L2|exact L3|exact L4|congruence]|]). rewrite L6, P2, P1. reflexivity.
  Qed.
  Lemma train_stop u h p ds num sets names l1 l2 verbose r : Forall mild l1 -> Forall mild l2 -> (existsb writes (l1 ++ l2) = true -> p <> None) -> (r <= 0)%Z -> (0 <= j < num)%Z ->
    match train_api h (entries p) ds (j + 1) sets names None with
    | Some (Ok (h', b)) => exists l w, train_with u h p ds num sets names (l1 ++ CUser (stop_after j) :: l2) verbose r = Some (l, w, Ok tt) /\ w_heap w = h' /\ w_booster w = b
    | Some (Err e) => exists l w, train_with u h p ds num sets names (l1 ++ CUser (stop_after j) :: l2) verbose r = Some (l, w, Err e)
    | Some Panic => exists l w, train_with u h p ds num sets names (l1 ++ CUser (stop_after j) :: l2) verbose r = Some (l, w, Panic)
    | None => train_with u h p ds num sets names (l1 ++ CUser (stop_after j) :: l2) verbose r = None
    end.
  Proof.
    intros M1 M2 P Hr Hj. unfold LgbApi.train_api, ApiCallbacks.train_with. fold (all_names sets names).
    set (l0 := all_callbacks (l1 ++ CUser (stop_after j) :: l2) verbose r).
    assert (S0 : stops mild l0).
    { unfold l0, all_callbacks. rewrite <- app_assoc. cbn [app]. eexists l1, _. split; [reflexivity|]. split; [exact M1|]. apply Forall_app. split; [exact M2|].
      apply Forall_app. split; [destruct verbose; repeat constructor|]. destruct (Z.ltb_spec 0 r); [lia|constructor]. }
    assert (W0 : existsb writes l0 = existsb writes (l1 ++ l2)).
    { unfold l0, all_callbacks. rewrite !existsb_app. cbn [existsb writes orb]. replace (existsb writes (match verbose with Some f => [new_print f] | None => [] end)) with false by now destruct verbose.
      destruct (Z.ltb_spec 0 r); [lia|]. cbn. now rewrite !orb_false_r. }
    destruct (calls_stop PInit l0 (start u h p) S0) as (i1 & w1 & E1 & S1 & W1 & (H1 & B1 & I1 & R1 & P1 & St1)); [congruence|rewrite W0; exact P|].
    rewrite E1. cbn [start w_heap w_booster w_env v_iter v_results v_stop v_params] in *.
    pose proof (loop_stop (parse_params (entries p)) ds sets (all_names sets names) (Z.to_nat num) 0 i1 w1 S1) as L. rewrite H1, B1 in L.
    specialize (L ltac:(split; [exact St1|now rewrite R1, B1]) ltac:(lia)). rewrite W1, W0, P1 in L. specialize (L P). rewrite Z.sub_0_r in L. replace (S (Z.to_nat j)) with (Z.to_nat (j + 1)) in L by lia.
    destruct (rounds (parse_params (entries p)) ds sets (all_names sets names) (Z.to_nat (j + 1)) 0 (h, new_booster)) as [[[h' b]|e|]|].
    - destruct L as (l' & w' & L1 & L2 & L3 & L4 & L5 & L6). rewrite L1.
      destruct (calls_stop PFinal l' w') as (l3 & w3 & E3 & S3 & W3 & (H3 & B3 & _)); [now apply stops_mild|auto|rewrite L5, L6, P1; exact P|].
      rewrite E3, B3, L3. eexists _, _. split; [reflexivity|]. destruct (b_best b =? 0)%Z; cbn; split; congruence.
    - destruct L as (l' & w' & ->). now eexists _, _.
    - destruct L as (l' & w' & ->). now eexists _, _.
    - now rewrite L.
  Qed.
  End At.

  (** ** ErrEarlyStop before a round *)
  Definition still (c : cback) : Prop := match c with CPrint _ _ | CEarly _ => True | _ => False end.
  Definition pair (u : phase -> world -> world * answer) (l l' : list cback) : Prop :=
    exists l1 l2, l = l1 ++ CUser u :: l2 /\ l' = l1 ++ CUser (patient u) :: l2 /\ Forall still l2.
  Lemma still_call ph c w c' w' a : still c -> call ph c w = (c', w', a) -> still c'.
  Proof.
    intros S E. destruct c as [p l|a0|r|s n|l|u0]; try contradiction; cbn [ApiCallbacks.call] in E; unfold print_call, early_call, early_after in E;
    repeat match type of E with context [match ?x with _ => _ end] => destruct x end; injection E as <- _ _; exact I.
  Qed.
  Lemma still_calls ph l : forall w l' w' a, Forall still l -> calls ph l w = (l', w', a) -> Forall still l'.
  Proof.
    induction l as [|c l IH]; intros w l' w' a S; cbn [ApiCallbacks.calls]; [intros E; injection E as <- _ _; constructor|]. inversion S; subst.
    destruct (call ph c w) as [[c1 w1] a1] eqn:E1. pose proof (still_call _ _ _ _ _ _ H1 E1). destruct a1; try (intros E; injection E as <- _ _; now constructor).
    destruct (calls ph l w1) as [[l2 w2] a2] eqn:E2. intros E. injection E as <- _ _. constructor; eauto.
  Qed.
  Lemma still_before l : forall w, Forall still l -> calls PBefore l w = (l, w, Fine).
  Proof.
    induction l as [|c l IH]; intros w S; [reflexivity|]. inversion S; subst. cbn [ApiCallbacks.calls].
    destruct c; try contradiction; cbn [ApiCallbacks.call print_call early_call]; rewrite IH by assumption; reflexivity.
  Qed.
  Lemma pair_calls u ph l l' w : ph <> PBefore -> pair u l l' ->
    exists m m' w' a, calls ph l w = (m, w', a) /\ calls ph l' w = (m', w', a) /\ pair u m m'.
  Proof.
    intros Hp (l1 & l2 & -> & -> & S). rewrite !calls_app. destruct (calls ph l1 w) as [[l1' w1] a] eqn:E1.
    destruct a; try (exists (l1' ++ CUser u :: l2), (l1' ++ CUser (patient u) :: l2), w1; eexists; split; [reflexivity|]; split; [reflexivity|]; exists l1', l2; auto).
    cbn [ApiCallbacks.calls ApiCallbacks.call]. assert (E : patient u ph w1 = u ph w1) by (unfold patient; destruct ph; try reflexivity; contradiction).
    rewrite E. destruct (u ph w1) as [w2 a2]. destruct a2; try (eexists _, _, w2, _; split; [reflexivity|]; split; [reflexivity|]; exists l1', l2; auto).
    destruct (calls ph l2 w2) as [[l2' w3] a3] eqn:E3. eexists _, _, w3, a3. split; [reflexivity|]. split; [reflexivity|]. exists l1', l2'. repeat split; auto. exact (still_calls _ _ _ _ _ _ S E3).
  Qed.
  Lemma pair_before u l l' w : pair u l l' -> exists m m' w1 a, calls PBefore l w = (m, w1, a) /\ pair u m m'
    /\ (calls PBefore l' w = (m', w1, a) \/ a = Early /\ calls PBefore l' w = (m', with_booster (set_best (v_best (w_env w1)) (w_booster w1)) w1, Fine)).
  Proof.
    intros (l1 & l2 & -> & -> & S). rewrite !calls_app. destruct (calls PBefore l1 w) as [[l1' w1] a] eqn:E1.
    destruct a; try (exists (l1' ++ CUser u :: l2), (l1' ++ CUser (patient u) :: l2), w1; eexists; split; [reflexivity|]; split; [exists l1', l2; auto|now left]).
    cbn [ApiCallbacks.calls ApiCallbacks.call patient]. destruct (u PBefore w1) as [w2 a2] eqn:Eu.
    destruct a2; rewrite ?still_before by exact S; (exists (l1' ++ CUser u :: l2), (l1' ++ CUser (patient u) :: l2), w2; eexists; split; [reflexivity|]; split; [exists l1', l2; now auto|]).
    - left. reflexivity.
    - right. split; reflexivity.
    - left. reflexivity.
    - left. reflexivity.
  Qed.
  Definition same_result u (r r' : option (list cback * world * res unit)) : Prop :=
    match r, r' with Some (l, w, a), Some (l', w', a') => pair u l l' /\ w' = w /\ a' = a | None, None => True | _, _ => False end.
  Lemma loop_patient u s ds sets names k : forall iter l l' w, pair u l l' -> same_result u (loop s ds sets names k iter l w) (loop s ds sets names k iter l' w).
  Proof.
    induction k as [|k IH]; intros iter l l' w R; cbn [ApiCallbacks.loop]; [now split|].
    destruct (pair_before u l l' (at_iter iter w) R) as (m & m' & w1 & a & E1 & R1 & E2). rewrite E1.
    assert (X : forall w2, same_result u
      (if v_stop (w_env w2) then Some (m, w2, Ok tt) else
       match train_one trainer s ds (w_heap w2, w_booster w2) with
       | Some (Ok (h, b)) =>
           match evaluate_both toint32 roundint zthr fuel (s_obj (fst s)) h b (v_results (w_env w2)) sets names with
           | Some (Ok (b, mm)) =>
               let '(cs, w, a) := calls PAfter m (trained h b mm w2) in
               match a with
               | Fine => loop s ds sets names k (iter + 1) cs (with_booster (with_cur (iter + 1) (w_booster w)) w)
               | Early => Some (cs, w, Err err_early) | Fails e => Some (cs, w, Err e) | Panics => Some (cs, w, Panic)
               end
           | Some (Err e) => Some (m, w2, Err e) | Some Panic => Some (m, w2, Panic) | None => None
           end
       | Some (Err e) => Some (m, w2, Err (EWrapped e)) | Some Panic => Some (m, w2, Panic) | None => None
       end)
      (if v_stop (w_env w2) then Some (m', w2, Ok tt) else
       match train_one trainer s ds (w_heap w2, w_booster w2) with
       | Some (Ok (h, b)) =>
           match evaluate_both toint32 roundint zthr fuel (s_obj (fst s)) h b (v_results (w_env w2)) sets names with
           | Some (Ok (b, mm)) =>
               let '(cs, w, a) := calls PAfter m' (trained h b mm w2) in
               match a with
               | Fine => loop s ds sets names k (iter + 1) cs (with_booster (with_cur (iter + 1) (w_booster w)) w)
               | Early => Some (cs, w, Err err_early) | Fails e => Some (cs, w, Err e) | Panics => Some (cs, w, Panic)
               end
           | Some (Err e) => Some (m', w2, Err e) | Some Panic => Some (m', w2, Panic) | None => None
           end
       | Some (Err e) => Some (m', w2, Err (EWrapped e)) | Some Panic => Some (m', w2, Panic) | None => None
       end)).
    { intros w2. destruct (v_stop (w_env w2)); [now split|]. destruct (train_one trainer s ds (w_heap w2, w_booster w2)) as [[[h b]|e|]|]; try (now split).
      destruct (ApiCallbacks.evaluate_both _ _ _ _ _ _ _ _ _ _) as [[[b' mm]|e|]|]; try (now split).
      destruct (pair_calls u PAfter m m' (trained h b' mm w2) ltac:(discriminate) R1) as (q & q' & w3 & a3 & Q1 & Q2 & Q3). rewrite Q1, Q2.
      destruct a3; try (now split). now apply IH. }
    destruct E2 as [E2|[-> E2]]; rewrite E2.
    - destruct a; try (now split); apply X.
    - apply X.
  Qed.
  Lemma train_patient u0 h p ds num sets names l u verbose r :
    same_result u (train_with u0 h p ds num sets names (l ++ [CUser u]) verbose r) (train_with u0 h p ds num sets names (l ++ [CUser (patient u)]) verbose r).
  Proof.
    unfold ApiCallbacks.train_with.
    assert (R : pair u (all_callbacks (l ++ [CUser u]) verbose r) (all_callbacks (l ++ [CUser (patient u)]) verbose r)).
    { unfold all_callbacks. rewrite <- !app_assoc. cbn [app]. eexists l, _. split; [reflexivity|]. split; [reflexivity|]. apply Forall_app. split; [destruct verbose; repeat constructor|destruct (0 <? r)%Z; repeat constructor]. }
    destruct (pair_calls u PInit _ _ (start u0 h p) ltac:(discriminate) R) as (m & m' & w1 & a & E1 & E2 & R1). rewrite E1, E2. destruct a; try (now split).
    pose proof (loop_patient u (parse_params (entries p)) ds sets (all_names sets names) (Z.to_nat num) 0 m m' w1 R1) as L.
    destruct (loop (parse_params (entries p)) ds sets (all_names sets names) (Z.to_nat num) 0 m w1) as [[[q w2] a]|],
             (loop (parse_params (entries p)) ds sets (all_names sets names) (Z.to_nat num) 0 m' w1) as [[[q' w2'] a']|]; try contradiction; [|exact I].
    destruct L as (R2 & -> & ->). destruct a; try (now split).
    destruct (pair_calls u PFinal _ _ w2 ltac:(discriminate) R2) as (n & n' & w3 & a3 & E3 & E4 & R3). rewrite E3, E4. destruct a3; now split.
  Qed.

  (** ** What is printed *)
  Definition last_multiple (q i : Z) : Z := if (i =? 0)%Z then (-1)%Z else (q * ((i - 1) / q))%Z.
  Definition print_inv q (iter : Z) (l : list cback) (w : world) : Prop :=
    (0 <= iter)%Z /\ l = [CPrint q (last_multiple q iter)] /\ map (@l_no N) (w_lines w) = every q iter.
  Lemma every_next q i : (0 <= i)%Z -> every q (i + 1) = every q i ++ (if (i mod q =? 0)%Z then [(i + 1)%Z] else []).
  Proof.
    intros Hi. unfold every. replace (Z.to_nat (i + 1)) with (S (Z.to_nat i)) by lia. rewrite seq_S, filter_app, map_app. f_equal. cbn [filter Nat.add]. rewrite Z2Nat.id by lia.
    destruct (_ =? _)%Z; cbn; [now rewrite Z2Nat.id by lia|reflexivity].
  Qed.
  Lemma lasts_some (m : @smap (list N)) k l v rest : m = (k, l ++ [v]) :: rest -> lasts m <> [].
  Proof. intros ->. unfold lasts. cbn [flat_map fst snd]. destruct (l ++ [v]) eqn:E; [now destruct l|discriminate]. Qed.
  Lemma print_step q s ds sets names : (0 < q)%Z -> sets <> [] -> step trainer toint32 roundint zthr fuel order (print_inv q) s ds sets names.
  Proof.
    intros Hq Hs iter l w l1 w1 h b l2 w2 (Hi & -> & HL) G E1 G1 Ei E2 Eb Er EV. apply evaluate_keys in EV as (_ & _ & _ & _ & _ & _ & K). destruct (K Hs) as (k & lv & v & rest & Hb).
    cbn [ApiCallbacks.calls ApiCallbacks.call print_call] in E1. injection E1 as <- <-. cbn [ApiCallbacks.calls ApiCallbacks.call print_call trained w_env at_iter with_env v_iter v_results] in E2.
    destruct (Z.eqb_spec q 0); [lia|]. rewrite Z.rem_mod_nonneg in E2 by lia.
    split; [lia|]. rewrite every_next by exact Hi. destruct (Z.eqb_spec (iter mod q) 0) as [Hm|Hm]; cbn [negb] in E2.
    - destruct (lasts (b_evals b)) as [|x xs] eqn:EL; [now apply (lasts_some _ _ _ _ _ Hb) in EL|]. injection E2 as <- <-. split.
      + do 2 f_equal. unfold last_multiple. destruct (Z.eqb_spec (iter + 1) 0); [lia|]. replace (iter + 1 - 1)%Z with iter by lia. pose proof (Z.div_mod iter q). lia.
      + cbn [with_booster print w_lines]. rewrite map_app. cbn. now rewrite HL.
    - injection E2 as <- <-. split; [|cbn; rewrite HL, app_nil_r; reflexivity]. do 2 f_equal. unfold last_multiple. destruct (Z.eqb_spec iter 0) as [->|Hne]; [rewrite Z.mod_0_l in Hm by lia; lia|].
      destruct (Z.eqb_spec (iter + 1) 0); [lia|]. f_equal. pose proof (Z.div_mod iter q ltac:(lia)). pose proof (Z.mod_pos_bound iter q Hq).
      replace (iter + 1 - 1)%Z with iter by lia. assert (X : (iter / q = (iter - 1) / q)%Z) by (apply (Z.div_unique _ _ _ (iter mod q - 1)); lia). now rewrite X.
  Qed.
  Lemma train_print u h p ds num sets names freq r : (r <= 0)%Z -> sets <> [] -> (1 <= num)%Z -> forall h' b, train_api h (entries p) ds num sets names None = Some (Ok (h', b)) ->
    let q := if (freq <=? 0)%Z then 1%Z else freq in
    exists l w, train_with u h p ds num sets names [] (Some freq) r = Some (l, w, Ok tt) /\ w_heap w = h' /\ w_booster w = b
      /\ map (@l_no N) (firstn (List.length (every q num)) (w_lines w)) = every q num
      /\ skipn (List.length (every q num)) (w_lines w) = (if (2 <=? (num - 1) mod q)%Z then [mkline (num - 1) (lasts (b_evals b))] else []).
  Proof.
    intros Hr Hs Hn h' b E q. assert (Hq : (0 < q)%Z) by (unfold q; destruct (Z.leb_spec freq 0); lia).
    destruct (train_good trainer toint32 roundint zthr fuel order (print_inv q) u h p ds num sets names [] (Some freq) r) as (i1 & w1 & Ei & Ci & Vi & T); [now apply print_step|constructor|exact Hr|discriminate|].
    unfold all_callbacks in Ei. destruct (Z.ltb_spec 0 r); [lia|]. cbn [app] in Ei. cbn [ApiCallbacks.calls ApiCallbacks.call print_call new_print] in Ei. fold q in Ei. injection Ei as <- <-.
    specialize (T ltac:(split; [lia|split; reflexivity])). rewrite E in T. destruct T as (l' & w2 & l3 & w5 & E5 & (Hd & -> & HL) & E6 & G5 & C5 & _ & Hh & Hb & HR & HI).
    specialize (HI Hn). unfold done in *. rewrite Z2Nat.id in * by lia. eexists _, _. split; [exact E5|]. split; [exact Hh|]. split; [exact Hb|].
    assert (Len : List.length (w_lines w2) = List.length (every q num)) by (rewrite <- HL, map_length; reflexivity).
    cbn [ApiCallbacks.calls ApiCallbacks.call print_call] in E6. injection E6 as <- E6.
    assert (F : w_lines (finish w5) = w_lines w5) by (unfold finish; destruct (_ =? _)%Z; reflexivity). rewrite F, <- E6.
    rewrite HI. unfold last_multiple. destruct (Z.eqb_spec num 0); [lia|]. pose proof (Z.div_mod (num - 1) q ltac:(lia)) as DM. pose proof (Z.mod_pos_bound (num - 1) q Hq) as MB.
    assert (Q0 : (0 <= (num - 1) / q)%Z) by (apply Z.div_pos; lia).
    destruct (Z.leb_spec 2 ((num - 1) mod q)) as [H2|H2].
    - destruct (Z.ltb_spec (q * ((num - 1) / q)) (num - 1 - 1)); [|lia]. destruct (Z.ltb_spec 0 (num - 1)); [|lia]. cbn [andb print w_lines].
      rewrite firstn_app, skipn_app, Len, Nat.sub_diag. rewrite <- Len, firstn_all, skipn_all. cbn. rewrite app_nil_r. split; [exact HL|]. do 3 f_equal.
      rewrite HR. destruct C5 as (_ & _ & B5 & _). rewrite <- B5, <- Hb. unfold finish. destruct (_ =? _)%Z; reflexivity.
    - destruct (Z.ltb_spec (q * ((num - 1) / q)) (num - 1 - 1)); [lia|]. cbn [andb]. rewrite <- Len, firstn_all, skipn_all. split; [exact HL|reflexivity].
  Qed.
End Stop.
