From Coq Require Import String List Arith ZArith Bool Lia.
From Verif Require Import Base.Num Base.GoRes Base.GoMap Base.Mat Base.ListX
  Model.Metrics Model.LgbHist Model.LgbTree Model.LgbTrain Model.LgbEstimator Model.LgbText Model.LgbBooster Model.LgbApi Spec.LgbApi Proofs.LgbApiP Proofs.LgbArrayP Proofs.LgbEstimatorRP.
Import ListNotations.
Local Open Scope string_scope.
Local Open Scope list_scope.
Local Open Scope num_scope.
Local Open Scope nat_scope.

Lemma Forall2_weaken {A B} (P Q : A -> B -> Prop) l l' : (forall a b, P a b -> Q a b) -> Forall2 P l l' -> Forall2 Q l l'.
Proof. intros H. induction 1; constructor; auto. Qed.

Section Train.
  Context {N : Num}.
  Variable trainer : settings N * (N * N) -> matrix N -> matrix N -> option (res (gmodel N)).
  Variables toint32 roundint : N -> Z.
  Variable zthr : N.
  Variable fuel : nat.
  Notation predicts := (predict_model roundint fuel).
  Notation evaluate := (evaluate_set toint32 roundint zthr fuel).
  Notation evaluates := (evaluate_sets toint32 roundint zthr fuel).
  Notation rounds := (rounds trainer toint32 roundint zthr fuel).
  Notation train_api := (train_api trainer toint32 roundint zthr fuel).

  Definition core (b : booster N) := (b_model b, b_pred b, b_leaves b, b_best b, b_names b).
  Lemma core_eval obj h (b b' : booster N) ds : core b = core b' -> evaluate obj h b ds = evaluate obj h b' ds.
  Proof. unfold core. intros [= E1 E2 E3 _ _]. unfold evaluate_set, predict, with_options, ask. now rewrite E1, E2, E3. Qed.
  Lemma core_add d mt v (b : booster N) : core (add_eval d mt v b) = core b.
  Proof. reflexivity. Qed.
  Lemma evals_add key d mt v (b : booster N) : evals_of key (add_eval d mt v b) = evals_of key b ++ if String.eqb (eval_key d mt) key then [v] else [].
  Proof.
    unfold evals_of at 1. unfold add_eval. cbn [b_evals]. rewrite sget_put. rewrite (String.eqb_sym key). destruct (String.eqb_spec (eval_key d mt) key) as [->|]; [reflexivity|].
    now rewrite app_nil_r.
  Qed.
  Lemma evaluates_inv obj h sets : forall names (b b' : booster N), evaluates obj h b sets names = Some (Ok b') ->
    List.length sets <= List.length names /\ core b' = core b /\ b_cur b' = b_cur b
    /\ exists scores, Forall2 (fun ds sc => evaluate obj h b ds = Some (Ok sc)) sets scores
         /\ forall key, evals_of key b' = evals_of key b ++ under key (metric_name obj) names scores.
  Proof.
    induction sets as [|ds sets IH]; intros names b b'; cbn [evaluate_sets].
    - intros [= <-]. split; [cbn; lia|]. split; [reflexivity|]. split; [reflexivity|]. exists []. split; [constructor|]. intros key. unfold under.
      destruct names; cbn; now rewrite app_nil_r.
    - destruct (evaluate obj h b ds) as [[sc|e|]|] eqn:E; try discriminate. destruct names as [|name names]; [discriminate|]. intros H.
      destruct (IH _ _ _ H) as (L & C1 & C2 & scores & HF & HE). rewrite core_add in C1. split; [cbn; lia|]. split; [exact C1|]. split; [exact C2|].
      exists (sc :: scores). split.
      + constructor; [exact E|]. eapply Forall2_weaken; [|exact HF]. cbn. intros ds' sc' K. rewrite <- K. now apply core_eval.
      + intros key. rewrite HE, evals_add, <- app_assoc. f_equal. unfold under. cbn [combine filter fst]. destruct (String.eqb (eval_key name (metric_name obj)) key); reflexivity.
  Qed.
  Lemma evaluates_ok obj h sets : forall names (b : booster N) scores, List.length sets <= List.length names -> Forall2 (fun ds sc => evaluate obj h b ds = Some (Ok sc)) sets scores ->
    exists b', evaluates obj h b sets names = Some (Ok b').
  Proof.
    induction sets as [|ds sets IH]; intros names b scores L HF; cbn [evaluate_sets]; [eauto|]. inversion HF as [|? sc ? scs E HF']; subst. rewrite E.
    destruct names as [|name names]; [cbn in L; lia|]. apply (IH names _ scs); [cbn in L; lia|].
    eapply Forall2_weaken; [|exact HF']. cbn. intros ds' sc' K. rewrite <- K. now apply core_eval.
  Qed.
  Lemma Forall2_fun {A B} (f : A -> option (res B)) l : forall s s', Forall2 (fun a b => f a = Some (Ok b)) l s -> Forall2 (fun a b => f a = Some (Ok b)) l s' -> s = s'.
  Proof.
    intros s s' H. revert s'. induction H as [|a b l s E _ IH]; intros s' H'; inversion H' as [|? b' ? ? E']; subst; [reflexivity|].
    rewrite E in E'. injection E' as <-. f_equal. now apply IH.
  Qed.
  Lemma rounds_trained s ds sets names scores : forall k iter h (b : booster N), b_model b <> None -> List.length sets <= List.length names ->
    Forall2 (fun d sc => evaluate (s_obj (fst s)) h b d = Some (Ok sc)) sets scores ->
    exists b', rounds s ds sets names k iter (h, b) = Some (Ok (h, b')) /\ core b' = core b
      /\ b_cur b' = (if Nat.eqb k 0 then b_cur b else iter + Z.of_nat k)%Z
      /\ forall key, evals_of key b' = evals_of key b ++ concat (repeat (under key (metric_name (s_obj (fst s))) names scores) k).
  Proof.
    induction k as [|k IH]; intros iter h b Hm L HF; cbn [LgbApi.rounds].
    - exists b. split; [reflexivity|]. split; [reflexivity|]. split; [reflexivity|]. intros key. cbn. now rewrite app_nil_r.
    - unfold train_one. destruct (b_model b) as [a|] eqn:Em; [|easy].
      destruct (evaluates_ok _ _ _ names b scores L HF) as [b1 E1]. rewrite E1. destruct (evaluates_inv _ _ _ _ _ _ E1) as (_ & C1 & C2 & scs & HF1 & HE1).
      rewrite (Forall2_fun _ _ _ _ HF1 HF) in *. set (b2 := with_cur (iter + 1) b1).
      assert (C : core b2 = core b) by exact C1.
      destruct (IH (iter + 1)%Z h b2) as (b' & E2 & D1 & D2 & D3).
      + unfold core in C1. injection C1 as C0 _ _ _ _. change (b_model b1 <> None). rewrite C0, Em. discriminate.
      + exact L.
      + eapply Forall2_weaken; [|exact HF]. cbn. intros d sc K. rewrite <- K. now apply core_eval.
      + exists b'. split; [exact E2|]. split; [now rewrite D1|]. split.
        * rewrite D2. cbn [Nat.eqb]. unfold b2. cbn [with_cur b_cur]. destruct (Nat.eqb_spec k 0); lia.
        * intros key. rewrite D3. change (evals_of key b2) with (evals_of key b1). rewrite HE1, <- app_assoc. reflexivity.
  Qed.
  (** The booster after the first round, before evaluation *)
  Definition first_booster (h : heap N) (ds : dataset N) (m : gmodel N) : booster N :=
    mkb (Some (List.length h)) (Some (List.length h)) None 0 (m_niter m) 0 [] (d_names ds) [].
  Lemma upd_last {A} (f : A -> A) (l : list A) a : upd (List.length l) f (l ++ [a]) = l ++ [f a].
  Proof. induction l as [|x l IH]; [reflexivity|]. cbn. now rewrite IH. Qed.
  Lemma train_first s ds h y m : d_label ds = Some y -> trainer s (d_data ds) y = Some (Ok m) ->
    train_one trainer s ds (h, new_booster) = Some (Ok (h ++ [(m, d_names ds)], first_booster h ds m)).
  Proof.
    intros Hy Hm. unfold train_one, new_booster. cbn [b_model b_leaves b_num b_cur b_best b_evals b_names b_imp]. rewrite Hy, Hm.
    unfold first_booster. destruct (d_names ds) as [|nm names] eqn:En; cbn [fst snd set_names b_model b_pred b_leaves b_num b_best b_evals b_imp b_names]; [reflexivity|].
    rewrite upd_last. reflexivity.
  Qed.
  Definition default_names (sets : list (option (dataset N))) (names : list string) : list string :=
    match names with [] => map (fun i => append "valid_" (show_int (Z.of_nat i))) (seq 0 (List.length sets)) | _ => names end.
  Lemma train_inv p ds num sets names init h h' (b' : booster N) : (1 <= num)%Z -> train_api h p ds num sets names init = Some (Ok (h', b')) ->
    exists y m scores, d_label ds = Some y /\ trainer (parse_params p) (d_data ds) y = Some (Ok m) /\ h' = h ++ [(m, d_names ds)]
      /\ List.length sets <= List.length (default_names sets names)
      /\ Forall2 (fun d sc => evaluate (s_obj (fst (parse_params p))) h' (first_booster h ds m) d = Some (Ok sc)) sets scores.
  Proof.
    intros Hn. unfold LgbApi.train_api. fold (default_names sets names). destruct (Z.to_nat num) as [|k] eqn:Ek; [lia|]. cbn [LgbApi.rounds].
    destruct (d_label ds) as [y|] eqn:Ey.
    2:{ unfold train_one, new_booster. cbn [b_model]. rewrite Ey. discriminate. }
    destruct (trainer (parse_params p) (d_data ds) y) as [[m|e|]|] eqn:Em.
    2-4: unfold train_one, new_booster; cbn [b_model]; rewrite Ey, Em; discriminate.
    rewrite (train_first _ _ _ _ _ Ey Em). destruct (evaluates _ _ _ _ _) as [[b1|e|]|] eqn:E1; try discriminate.
    destruct (evaluates_inv _ _ _ _ _ _ E1) as (L & C1 & C2 & scores & HF & HE). intros H. exists y, m, scores. split; [reflexivity|]. split; [exact Em|].
    assert (Hm : b_model (with_cur (0 + 1) b1) <> None) by (unfold core in C1; injection C1 as C1 _ _ _ _; cbn [with_cur b_model]; rewrite C1; discriminate).
    assert (HF' : Forall2 (fun d sc => evaluate (s_obj (fst (parse_params p))) (h ++ [(m, d_names ds)]) (with_cur (0 + 1) b1) d = Some (Ok sc)) sets scores).
    { eapply Forall2_weaken; [|exact HF]. cbn beta. intros d sc K. rewrite <- K. apply core_eval. exact C1. }
    destruct (rounds_trained (parse_params p) ds sets (default_names sets names) scores k (0 + 1) (h ++ [(m, d_names ds)]) (with_cur (0 + 1) b1) Hm L HF') as (b2 & E2 & _).
    rewrite E2 in H. injection H as <- _. split; [reflexivity|]. split; [exact L|exact HF].
  Qed.
  Lemma train_ok p ds num sets names init h y m scores : (1 <= num)%Z -> d_label ds = Some y -> trainer (parse_params p) (d_data ds) y = Some (Ok m) ->
    List.length sets <= List.length (default_names sets names) ->
    Forall2 (fun d sc => evaluate (s_obj (fst (parse_params p))) (h ++ [(m, d_names ds)]) (first_booster h ds m) d = Some (Ok sc)) sets scores ->
    exists b', train_api h p ds num sets names init = Some (Ok (h ++ [(m, d_names ds)], b'))
      /\ b_model b' = Some (List.length h) /\ b_pred b' = Some (List.length h) /\ b_leaves b' = None /\ b_names b' = d_names ds
      /\ b_cur b' = num /\ b_best b' = num
      /\ forall key, evals_of key b' = concat (repeat (under key (metric_name (s_obj (fst (parse_params p)))) (default_names sets names) scores) (Z.to_nat num)).
  Proof.
    intros Hn Hy Hm L HF. unfold LgbApi.train_api. fold (default_names sets names). destruct (Z.to_nat num) as [|k] eqn:Ek; [lia|]. cbn [LgbApi.rounds].
    rewrite (train_first _ _ _ _ _ Hy Hm). destruct (evaluates_ok _ _ _ _ _ _ L HF) as [b1 E1]. rewrite E1.
    destruct (evaluates_inv _ _ _ _ _ _ E1) as (_ & C1 & C2 & scs & HF1 & HE1). rewrite (Forall2_fun _ _ _ _ HF1 HF) in *.
    assert (Hm1 : b_model (with_cur (0 + 1) b1) <> None) by (unfold core in C1; injection C1 as C1 _ _ _ _; cbn [with_cur b_model]; rewrite C1; discriminate).
    assert (HF' : Forall2 (fun d sc => evaluate (s_obj (fst (parse_params p))) (h ++ [(m, d_names ds)]) (with_cur (0 + 1) b1) d = Some (Ok sc)) sets scores).
    { eapply Forall2_weaken; [|exact HF]. cbn beta. intros d sc K. rewrite <- K. apply core_eval. exact C1. }
    destruct (rounds_trained (parse_params p) ds sets (default_names sets names) scores k (0 + 1) (h ++ [(m, d_names ds)]) (with_cur (0 + 1) b1) Hm1 L HF') as (b2 & E2 & D1 & D2 & D3).
    rewrite E2. assert (D : core b2 = core (first_booster h ds m)) by (rewrite D1; exact C1). unfold core, first_booster in D. cbn [b_model b_pred b_leaves b_best b_names] in D.
    injection D as G1 G2 G3 G4 G5. rewrite G4. cbn [Z.eqb]. eexists. split; [reflexivity|]. cbn [set_best b_model b_pred b_leaves b_names b_cur b_best].
    assert (Hcur : b_cur b2 = num).
    { rewrite D2. destruct (Nat.eqb_spec k 0) as [->|]; [cbn; lia|]. lia. }
    do 6 (split; [assumption|]). intros key. transitivity (evals_of key b2); [reflexivity|].
    rewrite D3. change (evals_of key (with_cur (0 + 1) b1)) with (evals_of key b1). rewrite HE1. reflexivity.
  Qed.
  Lemma train_none p ds num sets names init h : (num <= 0)%Z -> train_api h p ds num sets names init = Some (Ok (h, new_booster)).
  Proof. intros Hn. unfold LgbApi.train_api. replace (Z.to_nat num) with 0 by lia. reflexivity. Qed.

  (** ** Scores *)
  Lemma correct_rounded (t p : N) : correct t p = (t =? rounded p)%num.
  Proof. unfold correct, rounded. change (nlit 1 2) with (nhalf (N := N)). now destruct (nhalf <? p)%num. Qed.
  Lemma evaluate_scored obj h ds0 m d sc : evaluate obj (h ++ [(m, d_names ds0)]) (first_booster h ds0 m) d = Some (Ok sc) -> scored predicts obj m d sc.
  Proof.
    unfold evaluate_set, first_booster, scored. cbn [b_model]. destruct d as [ds|]; [|now intros [= <-]].
    unfold predict, with_options, ask. cbn [b_leaves b_pred deref]. rewrite nth_error_app2, Nat.sub_diag by lia. cbn [nth_error fst].
    destruct (predicts m (d_data ds)) as [[P|e|]|]; try discriminate; [|intros [= <-]; right; eauto].
    intros H. injection H as H. left. exists P. split; [reflexivity|]. unfold measured, metric_of in *.
    assert (R : forall f : option (list N) -> option (list N) -> res N, (forall l, f None l = Panic) ->
      (let* t := match d_label ds with None => Ok None | Some m => vec_of m end in let* p := vec_of P in or_zero (f t p)) = Ok sc ->
      exists t, d_label ds = Some t /\ reported (f (Some (labels t)) (Some (labels P))) sc).
    { intros f Hf. destruct (d_label ds) as [t|].
      - unfold vec_of. destruct (_ || _); cbn [bind]; [discriminate|]. destruct (_ || _); cbn [bind]; [discriminate|]. intros K. exists t. split; [reflexivity|].
        change (first_column t) with (labels t) in K. change (first_column P) with (labels P) in K. unfold reported, or_zero in *.
        destruct (f (Some (labels t)) (Some (labels P))) as [v|e|]; [left; exact K|right; split; [eauto|now injection K as <-]|discriminate].
      - cbn [bind]. unfold vec_of. destruct (_ || _); cbn [bind]; [discriminate|]. rewrite Hf. discriminate. }
    destruct (existsb (String.eqb obj) ["regression"; _; _; _; _]); [apply R; [reflexivity|exact H]|].
    destruct (existsb (String.eqb obj) ["regression_l1"; _; _; _]); [apply R; [reflexivity|exact H]|].
    destruct (existsb (String.eqb obj) ["binary"; _; _; _; _]); [|now injection H as <-].
    unfold accuracy_of in H. destruct (d_label ds) as [t|]; [|now injection H as <-]. destruct (_ && _); [discriminate|]. injection H as <-.
    unfold hits. change (first_column t) with (labels t). change (first_column P) with (labels P).
    rewrite (filter_ext (fun tp : N * N => (fst tp =? rounded (snd tp))%num) (fun tp => correct (fst tp) (snd tp))); [reflexivity|]. intros [a b]. cbn. now rewrite correct_rounded.
  Qed.
  Lemma scores_scored obj h ds0 m sets scores : Forall2 (fun d sc => evaluate obj (h ++ [(m, d_names ds0)]) (first_booster h ds0 m) d = Some (Ok sc)) sets scores ->
    Forall2 (scored predicts obj m) sets scores.
  Proof. intros H. eapply Forall2_weaken; [|exact H]. intros d sc. apply evaluate_scored. Qed.

  (** ** Unused inputs *)
  Lemma evaluate_same obj h (b : booster N) d d' : same_input d d' -> evaluate obj h b (Some d) = evaluate obj h b (Some d').
  Proof. intros [E1 E2]. unfold evaluate_set. now rewrite E1, E2. Qed.
  Definition same_set (a b : option (dataset N)) : Prop := match a, b with Some a, Some b => same_input a b | None, None => True | _, _ => False end.
  Lemma evaluates_same obj h sets sets' : Forall2 same_set sets sets' -> forall names (b : booster N), evaluates obj h b sets names = evaluates obj h b sets' names.
  Proof.
    induction 1 as [|d d' sets sets' Hd _ IH]; intros names b; cbn [evaluate_sets]; [reflexivity|].
    assert (E : evaluate obj h b d = evaluate obj h b d') by (destruct d, d'; cbn in Hd; try easy; now apply evaluate_same). rewrite E.
    destruct (evaluate obj h b d') as [[sc|e|]|]; auto. destruct names; auto.
  Qed.
  Lemma rounds_same s ds ds' sets sets' names : same_input ds ds' -> d_names ds = d_names ds' -> Forall2 same_set sets sets' ->
    forall k iter st, rounds s ds sets names k iter st = rounds s ds' sets' names k iter st.
  Proof.
    intros [E1 E2] E3 HF. induction k as [|k IH]; intros iter [h b]; cbn [LgbApi.rounds]; [reflexivity|].
    assert (E : train_one trainer s ds (h, b) = train_one trainer s ds' (h, b)) by (unfold train_one; now rewrite E1, E2, E3). rewrite E.
    destruct (train_one trainer s ds' (h, b)) as [[[h1 b1]|e|]|]; auto. rewrite (evaluates_same _ _ _ _ HF). destruct (evaluates _ h1 b1 sets' names) as [[b2|e|]|]; auto.
  Qed.
  Lemma train_same h p ds ds' num sets sets' names init init' : same_input ds ds' -> d_names ds = d_names ds' -> Forall2 same_set sets sets' ->
    train_api h p ds num sets names init = train_api h p ds' num sets' names init'.
  Proof.
    intros H1 H2 H3. unfold LgbApi.train_api. rewrite <- (Forall2_len _ _ _ H3). now rewrite (rounds_same _ _ _ _ _ _ H1 H2 H3).
  Qed.

  (** ** Parameters *)
  Lemma parse_typed (p q : params N) : (forall k, typed k (sget k p) = typed k (sget k q)) -> parse_params p = parse_params q.
  Proof.
    intros H.
    assert (HI : forall d k, existsb (String.eqb k) ["num_iterations"; "num_leaves"; "max_depth"; "min_data_in_leaf"; "max_bin"; "min_data_in_bin"; "random_state"; "seed"; "verbosity"; "num_class"] = true ->
        int_of d k p = int_of d k q).
    { intros d k K. specialize (H k). unfold int_of, typed in *. destruct (sget k p) as [[]|], (sget k q) as [[]|]; rewrite ?K in H; try congruence;
        repeat match type of H with context [if ?b then _ else _] => destruct b end; congruence. }
    assert (HN : forall d k, existsb (String.eqb k) ["learning_rate"; "lambda_l2"; "lambda_l1"; "min_gain_to_split"; "bagging_fraction"; "feature_fraction"; "top_rate"; "other_rate"] = true ->
        num_of d k p = num_of d k q).
    { intros d k K. specialize (H k). unfold num_of, typed in *. destruct (sget k p) as [[]|], (sget k q) as [[]|]; rewrite ?K in H; try congruence;
        repeat match type of H with context [if ?b then _ else _] => destruct b end; congruence. }
    assert (HS : forall d k, existsb (String.eqb k) ["objective"; "boosting_type"] = true -> str_of d k p = str_of d k q).
    { intros d k K. specialize (H k). unfold str_of, typed in *. destruct (sget k p) as [[]|], (sget k q) as [[]|]; rewrite ?K in H; try congruence;
        repeat match type of H with context [if ?b then _ else _] => destruct b end; congruence. }
    assert (HB : forall d k, existsb (String.eqb k) ["deterministic"] = true -> bool_of d k p = bool_of d k q).
    { intros d k K. specialize (H k). unfold bool_of, typed in *. destruct (sget k p) as [[]|], (sget k q) as [[]|]; rewrite ?K in H; try congruence;
        repeat match type of H with context [if ?b then _ else _] => destruct b end; congruence. }
    assert (HL : forall d k, existsb (String.eqb k) ["categorical_feature"] = true -> ints_of d k p = ints_of d k q).
    { intros d k K. specialize (H k). unfold ints_of, typed in *. destruct (sget k p) as [[]|], (sget k q) as [[]|]; rewrite ?K in H; try congruence;
        repeat match type of H with context [if ?b then _ else _] => destruct b end; congruence. }
    unfold parse_params.
    rewrite (HI 100%Z "num_iterations"), (HI 31%Z "num_leaves"), (HI (-1)%Z "max_depth"), (HI 20%Z "min_data_in_leaf"), (HI 255%Z "max_bin"), (HI 3%Z "min_data_in_bin"),
      (HI 0%Z "num_class"), (HI 0%Z "random_state"), (HI _ "seed"), (HI 1%Z "verbosity") by reflexivity.
    rewrite (HN (nlit 1 10) "learning_rate"), (HN n0 "lambda_l2"), (HN n0 "lambda_l1"), (HN (nlit 1 10000000) "min_gain_to_split"), (HN n1 "bagging_fraction"), (HN n1 "feature_fraction"),
      (HN n0 "top_rate"), (HN n0 "other_rate") by reflexivity.
    rewrite (HS "regression" "objective"), (HS "" "boosting_type") by reflexivity. rewrite (HB false "deterministic") by reflexivity. rewrite (HL [] "categorical_feature") by reflexivity.
    reflexivity.
  Qed.
End Train.

(** ** The trainer of the package *)
Section Trees.
  Context {N : Num}.
  Variables toint roundint toint32 : N -> Z.
  Variable pow : N -> N -> N.
  Variables floori ceili : N -> Z.
  Variables (sortf : list N -> list N) (sortr : list (N * bin N) -> list (N * bin N)).
  Variable sampled : N -> N -> Z -> Z -> bool -> nat -> nat -> nat -> list nat.
  Variable zthr : N.
  Variable fuel : nat.
  (** Trainer.Fit reads the first column of the labels *)
  Definition real_trainer (s : settings N * (N * N)) (X y : matrix N) : option (res (gmodel N)) :=
    train toint pow floori ceili sortf sortr sampled fuel (fst s) None None X (labels y).
  Lemma real_trees p X y m : real_trainer (parse_params p) X y = Some (Ok m) ->
    Z.of_nat (List.length (m_trees m)) = Z.max 0 (match sget "num_iterations" p with Some (VInt k) => if (k =? 0)%Z then 100 else k | _ => 100 end)%Z.
  Proof.
    intros H. unfold real_trainer in H. destruct (LgbEstimatorRP.train_inv _ _ _ _ _ _ _ _ _ _ _ _ _ _ H) as (o & i & ts & preds & _ & _ & E & ->).
    cbn [get_model m_trees]. rewrite (fit_count _ _ _ _ _ _ _ _ _ _ _ _ _ _ _ E). unfold bags_for. rewrite map_length, seq_length.
    cbn [new_trainer s_iters parse_params fst]. unfold int_of, or_int. destruct (sget "num_iterations" p) as [[]|]; cbn; try reflexivity.
    destruct (Z.eqb_spec z 0); [reflexivity|]. lia.
  Qed.
End Trees.
