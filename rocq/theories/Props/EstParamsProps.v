(** C133: parameters of LogisticRegression, LinearRegression and Pipeline. *)
From Coq Require Import String List Bool ZArith Permutation Lia.
From Verif Require Import Base.GoMap Model.EstParams Spec.EstParams Proofs.EstParamsP.
Import ListNotations.
Local Open Scope string_scope.
Local Open Scope list_scope.

(** LogisticRegression: if all entries are known and of the right type, SetParams succeeds in every iteration order and GetParams then
    reports these values and the old ones of all others; the seed follows random_state. *)
Theorem C133_logistic_set : forall F (m : logistic F) (params l : smap (pval F)), visits params l ->
  (forall e, In e params -> accepted logistic_types e) ->
  exists m', logistic_set l m = (m', Done)
    /\ (forall k, sget k (logistic_get m') = match sget k params with Some v => Some v | None => sget k (logistic_get m) end)
    /\ (lseed m' = match sget "random_state" params with Some (VInt64 z) => z | _ => lseed m end).
Proof.
  intros F m params l V A. destruct (logistic_set_ok l m (visits_nodup _ _ V)) as (m' & E & P & S).
  { intros e He. apply A. destruct V as [V _]. eapply Permutation_in; [apply Permutation_sym, V | exact He]. }
  exists m'. split; [exact E|]. split.
  - intros k. rewrite !logistic_get_sget, P, (visits_get _ _ k V). destruct (sget k params) as [v|] eqn:Q.
    + apply sget_some_in in Q. specialize (A _ Q). unfold accepted in A. cbn [fst snd] in A. now rewrite A.
    + reflexivity.
  - rewrite S. unfold seed_after. now rewrite (visits_get _ _ _ V).
Qed.

(** So the parameters of one model can be given to another. *)
Theorem C133_logistic_copy : forall F (a b : logistic F) l, well_typed logistic_types (lparams a) -> visits (logistic_get a) l ->
  exists b', logistic_set l b = (b', Done) /\ logistic_get b' = logistic_get a.
Proof.
  intros F a b l W V. destruct (C133_logistic_set F b (logistic_get a) l V) as (b' & E & P & _).
  { intros e. now apply logistic_get_accepted. }
  exists b'. split; auto. unfold logistic_get at 1. apply map_ext_in. intros k Hk. f_equal.
  specialize (P k). rewrite !logistic_get_sget in P. destruct (sget k logistic_types) as [t|] eqn:Q; [congruence|].
  apply sget_none in Q. contradiction.
Qed.

(** With any unknown or wrongly typed entry SetParams fails or panics in every order; then each parameter is the old one or the given one,
    and still of its type. *)
Theorem C133_logistic_fails : forall F (m : logistic F) (params l : smap (pval F)), visits params l ->
  (exists e, In e params /\ ~ accepted logistic_types e) ->
  snd (logistic_set l m) <> Done
  /\ (forall k, lparams (fst (logistic_set l m)) k = lparams m k \/ sget k params = Some (lparams (fst (logistic_set l m)) k))
  /\ (well_typed logistic_types (lparams m) -> well_typed logistic_types (lparams (fst (logistic_set l m)))).
Proof.
  intros F m params l V (e & He & Ne). pose proof (visits_nodup _ _ V) as N. split; [|split].
  - apply logistic_set_bad; auto. exists e. split; auto. destruct V as [V _]. eapply Permutation_in; eauto.
  - intros k. rewrite <- (visits_get _ _ k V). now apply logistic_set_each.
  - apply logistic_set_typed.
Qed.
(** Which ones depends on the order. *)
Theorem C133_order_refuted : exists (m : logistic nat) params l l', visits params l /\ visits params l' /\
  lparams (fst (logistic_set l m)) "C" = VFloat 2 /\ lparams (fst (logistic_set l' m)) "C" = VFloat 1
  /\ snd (logistic_set l m) = Unknown "penality" /\ snd (logistic_set l' m) = Unknown "penality".
Proof.
  exists (mklog (fun _ => VFloat 1) 0), [("C", VFloat 2); ("penality", VStr "l1")], [("C", VFloat 2); ("penality", VStr "l1")], [("penality", VStr "l1"); ("C", VFloat 2)].
  assert (N : NoDup (skeys [("C", VFloat 2); ("penality", VStr "l1")])) by (repeat constructor; cbn; intuition discriminate).
  repeat split; auto. apply perm_swap.
Qed.

(** LinearRegression: SetParams takes exactly the entries of the five parameters that have the right type and ignores everything else. *)
Theorem C133_linear_set : forall F (f : fields F) params k,
  linear_set params f k = match sget k linear_types, sget k params with
                          | Some t, Some v => if same_type t (type_of v) then v else f k
                          | _, _ => f k end.
Proof. intros. apply linear_fold, linear_nodup. Qed.
Theorem C133_linear_copy : forall F (a b : fields F) fitted ty ver k, well_typed linear_types a -> In k (skeys linear_types) ->
  linear_set (linear_get fitted ty ver a) b k = a k.
Proof.
  intros F a b fitted ty ver k W H. rewrite C133_linear_set. destruct (sget k linear_types) as [t|] eqn:E; [|apply sget_none in E; contradiction].
  unfold linear_get. rewrite sget_app, sget_map_keys, keys_in, E. rewrite (proj2 (same_type_eq _ _)); auto. symmetry. now apply W.
Qed.

(** StandardScaler: SetParams stores every entry, whatever it is, in a map of the embedded BaseEstimator that only
    BaseEstimator.GetParams reads; the options and what GetParams reports stay. *)
Theorem C133_scaler_set : forall F (s : scaler F) params l k, visits params l ->
  scaler_get (scaler_set l s) = scaler_get s
  /\ sget k (base_get (scaler_set l s)) = match sget k params with Some v => Some v | None => sget k (base_get s) end.
Proof.
  intros F s params l k V. split; [reflexivity|]. rewrite <- (visits_get _ _ k V). apply puts_get. eapply visits_nodup; eauto.
Qed.
(** Users would expect the option to be off. *)
Theorem C133_scaler_refuted : exists s : scaler nat, sget "with_mean" (scaler_get (scaler_set [("with_mean", VBool false)] s)) = Some (VBool true).
Proof. exists (mksc true true []). reflexivity. Qed.

(** Pipeline: if no name contains two underscores in a row or ends in one, and the names differ, GetParams reports under name__key
    the parameter key of that step, for the steps with GetParams() - not for those with GetParams(deep), as LinearRegression -
    and its own three. *)
Theorem C133_pipeline_get : forall F sv (p : pipeline F) a b name g, psteps p = a ++ (name, g) :: b ->
  (forall s, In s (psteps p) -> ambiguous (fst s) = false) -> NoDup (map fst (psteps p)) ->
  match g with GetNow l => NoDup (skeys l) | _ => True end ->
  forall k, sget (nested name k) (pipeline_get sv p) = match g with GetNow l => sget k l | _ => None end.
Proof.
  intros F sv p a b name g E A N Ng k. unfold pipeline_get.
  match goal with |- sget _ (fold_left _ _ ?m) = _ => change (sget (nested name k) (fold_left put_step (psteps p) m) = match g with GetNow l => sget k l | _ => None end);
    assert (Z : sget (nested name k) m = None) end.
  { rewrite !sget_put. pose proof (nested_has2 name k) as H.
    destruct (String.eqb_spec (nested name k) "verbose") as [X|_]; [rewrite X in H; discriminate|].
    destruct (String.eqb_spec (nested name k) "memory") as [X|_]; [rewrite X in H; discriminate|].
    destruct (String.eqb_spec (nested name k) "steps") as [X|_]; [rewrite X in H; discriminate|]. reflexivity. }
  rewrite E in *. rewrite map_app in N. cbn [map fst] in N. pose proof (NoDup_remove_2 _ _ _ N) as Nn. rewrite in_app_iff in Nn.
  assert (An : ambiguous name = false) by (apply (A (name, g)), in_elt).
  rewrite fold_left_app. cbn [fold_left].
  rewrite put_others; auto.
  2:{ intros s Hs. split; [apply A; apply in_app_iff; right; now right|]. intros <-. apply Nn. right. now apply in_map. }
  assert (Q : forall m, sget (nested name k) (put_step m (name, g)) = match g with GetNow l => match sget k l with Some v => Some v | None => sget (nested name k) m end | _ => sget (nested name k) m end).
  { intros m. unfold put_step. cbn [snd fst]. destruct g as [l|l|]; auto. now apply put_entries_get. }
  rewrite Q. rewrite put_others; auto.
  2:{ intros s Hs. split; [apply A; apply in_app_iff; now left|]. intros <-. apply Nn. left. now apply in_map. }
  rewrite Z. destruct g as [l|l|]; auto. now destruct (sget k l).
Qed.
Theorem C133_pipeline_own : forall F sv (p : pipeline F),
  sget "verbose" (pipeline_get sv p) = Some (VBool (pverbose p)) /\ sget "memory" (pipeline_get sv p) = Some (VStr (pmemory p))
  /\ sget "steps" (pipeline_get sv p) = Some (sv (psteps p)).
Proof.
  intros F sv p. unfold pipeline_get. repeat split.
  - refine (eq_trans (put_none (psteps p) _ "verbose" eq_refl) _). reflexivity.
  - refine (eq_trans (put_none (psteps p) _ "memory" eq_refl) _). reflexivity.
  - refine (eq_trans (put_none (psteps p) _ "steps" eq_refl) _). reflexivity.
Qed.
(** SetParams sets verbose, if it is a bool, and nothing else. *)
Theorem C133_pipeline_set : forall F sv params (p : pipeline F),
  sget "verbose" (pipeline_get sv (pipeline_set params p)) = Some (VBool (match sget "verbose" params with Some (VBool b) => b | _ => pverbose p end))
  /\ psteps (pipeline_set params p) = psteps p /\ pmemory (pipeline_set params p) = pmemory p.
Proof.
  intros F sv params p. rewrite (proj1 (C133_pipeline_own F sv _)). unfold pipeline_set. destruct (sget "verbose" params) as [[]|]; auto.
Qed.
(** Users would expect name__key to set the parameter of the step: the call reports success and the parameter stays. *)
Theorem C133_nested_refuted : exists (p : pipeline nat), forall sv,
  sget "clf__C" (pipeline_get sv p) = Some (VFloat 1) /\ sget "clf__C" (pipeline_get sv (pipeline_set [("clf__C", VFloat 2)] p)) = Some (VFloat 1).
Proof. exists (mkpipe [("scale", NoGet); ("clf", GetNow [("C", VFloat 1)])] "" false). intros sv. split; reflexivity. Qed.
(** Without the condition on names a parameter can be hidden by that of another step. *)
Theorem C133_names_refuted : exists (p : pipeline nat), forall sv, psteps p = [("a", GetNow [("b__c", VInt 1)]); ("a__b", GetNow [("c", VInt 2)])]
  /\ sget "a__b__c" (pipeline_get sv p) = Some (VInt 2).
Proof. exists (mkpipe [("a", GetNow [("b__c", VInt 1)]); ("a__b", GetNow [("c", VInt 2)])] "" false). intros sv. split; reflexivity. Qed.

(** ** Examples *)
Definition ex_log : logistic nat :=
  mklog (fun k => match sget k logistic_types with Some TStr => VStr "s" | Some TFloat => VFloat 1 | Some TBool => VBool true | Some TInt => VInt 100 | _ => VInt64 (-1) end) 17.
Example C133_ex_typed : well_typed logistic_types (lparams ex_log).
Proof. intros k t E. unfold ex_log. cbn [lparams]. rewrite E. destruct t; auto. apply sget_some_in in E. cbn in E. intuition discriminate. Qed.
Example C133_ex_set : let r := logistic_set [("random_state", VInt64 42); ("max_iter", VInt 7)] ex_log in
  snd r = Done /\ lseed (fst r) = 42%Z /\ sget "max_iter" (logistic_get (fst r)) = Some (VInt 7) /\ sget "C" (logistic_get (fst r)) = Some (VFloat 1).
Proof. repeat split. Qed.
(** An int for random_state panics. *)
Example C133_ex_panic : snd (logistic_set [("random_state", VInt 42)] ex_log) = Panics.
Proof. reflexivity. Qed.
Example C133_ex_linear : let f := linear_set [("fit_intercept", VBool false); ("n_jobs", VFloat 3); ("fitted", VBool true)] (fun _ => @VOther nat 0) in
  f "fit_intercept" = VBool false /\ f "n_jobs" = VOther 0 /\ f "fitted" = VOther 0.
Proof. repeat split. Qed.
Example C133_ex_pipeline : forall sv, let p := mkpipe [("scale", GetDeep [("copy", VBool true)]); ("my_tree", GetNow [("max_depth", VInt 3); ("criterion", @VStr nat "gini")])] "" true in
  sget "my_tree__max_depth" (pipeline_get sv p) = Some (VInt 3) /\ sget "scale__copy" (pipeline_get sv p) = None /\ ambiguous "my_tree" = false.
Proof. intros sv. repeat split. Qed.

Print Assumptions C133_logistic_set.
Print Assumptions C133_logistic_copy.
Print Assumptions C133_logistic_fails.
Print Assumptions C133_order_refuted.
Print Assumptions C133_linear_set.
Print Assumptions C133_linear_copy.
Print Assumptions C133_scaler_set.
Print Assumptions C133_scaler_refuted.
Print Assumptions C133_pipeline_get.
Print Assumptions C133_pipeline_own.
Print Assumptions C133_pipeline_set.
Print Assumptions C133_nested_refuted.
Print Assumptions C133_names_refuted.
