(** C60 and C102: parameter dictionaries. *)
From Coq Require Import String List Bool ZArith Permutation Lia.
From Verif Require Import Base.Num Base.GoRes Base.GoMap Model.ParamMap Spec.ParamMap Proofs.ParamMapP Proofs.ParamSetP.
Import ListNotations.
Local Open Scope string_scope.
Local Open Scope list_scope.

Section Props.
Context {N : Num}.
Notation dict := (list (string * pval N)).
Notation pm := (@new_mapper N).

(** *** C60 *)

(** The result of MapPythonToGo is the same for all iteration orders exactly when no two entries
    give one parameter different values. *)
Theorem C60_order (d : dict) : NoDup (skeys d) ->
  (forall l1 l2, visits d l1 -> visits d l2 -> same_map (map_py_to_go pm l1) (map_py_to_go pm l2)) <-> consistent d.
Proof. exact (order_iff d). Qed.

(** For every iteration order, the result holds exactly the parameters the dictionary gives, each
    with one of the values given for it. *)
Theorem C60_values (d l : dict) p : visits d l ->
  match sget p (map_py_to_go pm l) with
  | Some v => gives d p v
  | None => forall v, ~ gives d p v
  end.
Proof.
  intros [P _]. rewrite map_py_get. destruct (lastp p l None) as [v|] eqn:E.
  - apply lastp_gives in E as [E|E]; [discriminate |]. exact (gives_perm l d p v (Permutation_sym P) E).
  - intros v H. apply (lastp_present p l None v); auto. exact (gives_perm d l p v P H).
Qed.

(** A dictionary of Go names survives the way to Python names and back, for all orders. *)
Theorem C60_round_trip (d l l' : dict) : visits d l -> incl (skeys d) fields ->
  visits (map_go_to_py pm l) l' -> same_map (map_py_to_go pm l') d.
Proof. exact (round_trip d l l'). Qed.

(** A dictionary of documented names other than min_split_gain survives the way to Go names and back. *)
Theorem C60_documented (d l l' : dict) : visits d l -> incl (skeys d) documented -> ~ In "min_split_gain" (skeys d) ->
  visits (map_py_to_go pm l) l' -> same_map (map_go_to_py pm l') d.
Proof. exact (canonical_trip d l l'). Qed.

(** ApplyDefaults keeps what is given and adds the defaults of the names that are not. *)
Theorem C60_defaults (d l defs : dict) k v : visits d l -> visits (defaults pm) defs ->
  (In (k, v) (apply_defaults l defs) <-> In (k, v) d \/ ~ In k (skeys d) /\ In (k, v) (@default_entries N)).
Proof.
  intros V Vd. rewrite (apply_in d l defs) by auto.
  rewrite (in_iff_get (@default_entries N)) by apply default_entries_nodup. tauto.
Qed.

(** Mapping after applying the defaults gives each given parameter its value and each other
    parameter its default, if no parameter that has a default is given under another name. *)
Theorem C60_defaults_mapped (d l defs l' : dict) : visits d l -> visits (defaults pm) defs ->
  visits (apply_defaults l defs) l' -> consistent d ->
  (forall k k', In k (skeys d) -> In k' (skeys (@default_entries N)) -> parameter k = parameter k' -> k = k') ->
  (forall k v, In (k, v) d -> sget (parameter k) (map_py_to_go pm l') = Some v) /\
  (forall k v, In (k, v) (@default_entries N) -> (forall w, ~ gives d (parameter k) w) ->
     sget (parameter k) (map_py_to_go pm l') = Some v).
Proof. exact (defaults_mapped d l defs l'). Qed.

(** Otherwise there is an order in which the default replaces the given value. *)
Theorem C60_alias_overridden (d l defs : dict) k : visits d l -> visits (defaults pm) defs ->
  forall k' dv, In (k', dv) (@default_entries N) -> parameter k' = parameter k -> ~ In k' (skeys d) ->
  exists l', visits (apply_defaults l defs) l' /\ sget (parameter k) (map_py_to_go pm l') = Some dv.
Proof. exact (alias_default d l defs k). Qed.

(** GetDefault answers for every name of a parameter with the default of its documented name, and
    has no answer for names that are not listed. *)
Theorem C60_get_default g n : In g parameters -> In n (fst (snd g) :: snd (snd g)) ->
  get_default pm n = sget (fst (snd g)) (@default_entries N).
Proof.
  intros Hg Hn. pose proof (proj1 (Forall_forall _ _) (default_names (N := N)) _ Hg) as H. exact (proj1 (Forall_forall _ _) H _ Hn).
Qed.
Theorem C60_get_default_unlisted k : parameter k = k -> ~ In k fields -> get_default pm k = None.
Proof. exact (default_unlisted k). Qed.

(** Two names of the number of trees: the last one visited counts. *)
Theorem C60_order_refuted : exists (d l1 l2 : dict), visits d l1 /\ visits d l2 /\
  sget "NumIterations" (map_py_to_go pm l1) = Some (PInt 50) /\ sget "NumIterations" (map_py_to_go pm l2) = Some (PInt 500).
Proof.
  exists [("n_estimators", PInt 50); ("num_trees", PInt 500)], [("num_trees", PInt 500); ("n_estimators", PInt 50)],
    [("n_estimators", PInt 50); ("num_trees", PInt 500)].
  split; [| split; [| split; reflexivity]].
  - split; [apply perm_swap | now apply nodupb_ok].
  - split; [apply Permutation_refl | now apply nodupb_ok].
Qed.

(** An explicit num_iterations can be replaced by the default for n_estimators. *)
Theorem C60_defaults_refuted : exists (l defs l' : dict), visits [("num_iterations", PInt 500)] l /\
  visits (defaults pm) defs /\ visits (apply_defaults l defs) l' /\
  sget "NumIterations" (map_py_to_go pm l') = Some (PInt 100).
Proof.
  set (d := [("num_iterations", PInt 500)] : dict).
  assert (V : visits d d) by (apply visits_refl; now apply nodupb_ok).
  assert (Vd : visits (defaults pm) (defaults pm)) by (apply visits_refl, defaults_nodup).
  destruct (C60_alias_overridden d d (defaults pm) "num_iterations" V Vd "n_estimators" (PInt 100)) as [l' [V' G]].
  - now left.
  - reflexivity.
  - intros [H|[]]. discriminate H.
  - exists d, (defaults pm), l'. auto.
Qed.

(** The documented min_split_gain comes back as min_gain_to_split. *)
Theorem C60_documented_refuted : exists (d : dict) l', incl (skeys d) documented /\
  visits (map_py_to_go pm d) l' /\ ~ same_map (map_go_to_py pm l') d /\
  sget "min_gain_to_split" (map_go_to_py pm l') = sget "min_split_gain" d.
Proof.
  exists [("min_split_gain", PInt 7)], [("MinGainToSplit", PInt 7)]. split; [| split; [| split]].
  - intros k [<-|[]]. apply existsb_in. reflexivity.
  - apply visits_refl. now apply nodupb_ok.
  - intros H. specialize (H "min_split_gain"). vm_compute in H. discriminate H.
  - reflexivity.
Qed.

(** A Go field without a Python name does not come back. *)
Theorem C60_field_refuted : exists (d l' : dict), visits (map_go_to_py pm d) l' /\ ~ same_map (map_py_to_go pm l') d /\
  l' = [("huber_alpha", PInt 1)] /\ d = [("HuberAlpha", PInt 1)].
Proof.
  exists [("HuberAlpha", PInt 1)], [("huber_alpha", PInt 1)]. split; [| split; [| split; reflexivity]].
  - change (visits ([("huber_alpha", PInt 1)] : dict) [("huber_alpha", PInt 1)]). apply visits_refl. now apply nodupb_ok.
  - intros H. specialize (H "HuberAlpha"). vm_compute in H. discriminate H.
Qed.

(** Names of different parameters: the conditions of the theorems hold and the values arrive. *)
Example C60_example :
  let d := [("eta", PStr "a"); ("num_leaf", PInt 7); ("my_own", PBool true)] : dict in
  consistent d /\ sget "LearningRate" (map_py_to_go pm d) = Some (PStr "a") /\
  sget "NumLeaves" (map_py_to_go pm d) = Some (PInt 7) /\ sget "my_own" (map_py_to_go pm d) = Some (PBool true).
Proof.
  split; [| repeat split; reflexivity].
  intros p v v' [k [E H]] [k' [E' H']].
  destruct H as [H|[H|[H|[]]]], H' as [H'|[H'|[H'|[]]]]; injection H as <- <-; injection H' as <- <-; try reflexivity;
    exfalso; vm_compute in E, E'; congruence.
Qed.

(** *** C102 *)

(** GetParams of the regressor gives every setting under its documented name, and nothing else. *)
Theorem C102_get ord (h : hyper N) : ranges ord -> same_map (reg_get_params ord h) (settings h).
Proof. exact (get_settings ord h). Qed.

(** SetParams always succeeds; a setting the dictionary gives, under any of its names, is stored if
    the value has the type of the setting, and every other setting keeps its value. *)
Theorem C102_set ord h (d l : dict) : ranges ord -> visits d l -> consistent d ->
  exists h', reg_set_params ord h l = Ok h' /\
  (forall n old, In (n, old) (settings h) ->
     (forall v, gives d (parameter n) v -> In (n, store (parameter n) old v) (settings h')) /\
     ((forall v, ~ gives d (parameter n) v) -> In (n, old) (settings h'))).
Proof. exact (set_settings ord h d l). Qed.

(** Setting a regressor to the parameters of another makes all twenty settings equal, except that
    the name of the objective becomes canonical. *)
Theorem C102_copy ord ord' (h h' : hyper N) l : ranges ord -> ranges ord' -> visits (reg_get_params ord h) l ->
  reg_set_params ord' h' l = Ok (with_objective h (canonical_objective (h_objective h))).
Proof. exact (round ord ord' h h' l). Qed.

(** The canonical name of an objective is canonical. *)
Theorem C102_objective o : canonical_objective (canonical_objective o) = canonical_objective o.
Proof. exact (objective_idem o). Qed.

(** ValidateObjective knows exactly the listed names, in any capitalisation. *)
Theorem C102_objective_names o c : validate_objective o = Ok c <-> exists ns n, In (c, ns) objective_names /\ In n ns /\ capitalised o n.
Proof. exact (objective_listed o c). Qed.
Example C102_objective_names_example : capitalised "MAE" "mae" /\ validate_objective "MAE" = Ok "regression_l1" /\ validate_objective "rmse" = Err (EOther 1).
Proof. cbn. repeat split; right; split; try reflexivity; lia. Qed.

(** ValidateBoostingType accepts exactly four names, in any capitalisation. *)
Theorem C102_boosting_names b c : validate_boosting b = Ok c <-> In c ["gbdt"; "dart"; "goss"; "rf"] /\ capitalised b c.
Proof. exact (boosting_listed b c). Qed.
Example C102_boosting_names_example : capitalised "GOSS" "goss" /\ validate_boosting "GOSS" = Ok "goss" /\ validate_boosting "gbtree" = Err (EOther 2).
Proof. cbn. repeat split; right; split; try reflexivity; lia. Qed.

(** The same for the classifier copies thirteen of the seventeen parameters that GetParams returns. *)
Theorem C102_classifier (h h' : hyper N) l : visits (cls_get_params h) l -> cls_set_params h' l = Ok (cls_mix h h').
Proof. exact (cls_round h h' l). Qed.

(** A classifier made quiet and given to another: the other is not quiet, and there is no error. *)
Theorem C102_classifier_refuted : exists (h h' r : hyper N) l, visits (cls_get_params h) l /\
  cls_set_params h' l = Ok r /\ sget "verbosity" (cls_get_params h) = Some (PInt 0) /\
  sget "verbosity" (cls_get_params r) = Some (PInt (-1)).
Proof.
  exists (with_verbosity new_hyper 0), new_hyper, (cls_mix (with_verbosity new_hyper 0) new_hyper),
    (cls_get_params (with_verbosity new_hyper 0)).
  assert (V : visits (cls_get_params (@with_verbosity N new_hyper 0)) (cls_get_params (with_verbosity new_hyper 0))).
  { apply visits_refl. now apply nodupb_ok. }
  split; [exact V |]. split; [now apply C102_classifier | split; reflexivity].
Qed.

(** A learning rate given as an integer is dropped without an error, and the quantile level cannot
    be set at all. *)
Theorem C102_types_refuted ord (h : hyper N) : ranges ord ->
  reg_set_params ord h [("learning_rate", PInt 1)] = Ok h /\
  forall x, reg_set_params ord h [("alpha", PFloat x)] = Ok h.
Proof.
  intros Ho.
  assert (O : forall k v, ord [(k, v)] = [(k, v)]).
  { intros k v. assert (Nd : NoDup (skeys ([(k, v)] : dict))) by (constructor; [intros [] | constructor]).
    destruct (Ho [(k, v)] Nd) as [P _]. now apply Permutation_length_1_inv in P. }
  split.
  - unfold reg_set_params. change (map_py_to_go pm [("learning_rate", PInt 1)]) with ([("LearningRate", PInt 1)] : dict).
    rewrite O. now destruct h.
  - intros x. unfold reg_set_params. change (map_py_to_go pm [("alpha", PFloat x)]) with ([("alpha", PFloat x)] : dict).
    rewrite O. reflexivity.
Qed.

(** A new regressor has the documented defaults except for its seed and its metric. *)
Theorem C102_constructor n v : In (n, v) (settings (@new_hyper N)) ->
  (get_default pm n = Some v <-> n <> "random_state" /\ n <> "metric").
Proof.
  unfold settings. cbn [In].
  intros H. repeat (destruct H as [H|H]; [injection H as <- <- |]); try destruct H;
    (split; [intros E; split; intros F; try discriminate F; vm_compute in E; discriminate E
           | intros [A B]; try (exfalso; congruence); vm_compute; reflexivity]).
Qed.

(** Copying, worked: the settings of a changed regressor, with an alias of the objective. *)
Example C102_example :
  let h := with_objective (with_leaves (@new_hyper N) 63) "MSE" in
  ranges (fun m : dict => m) /\
  reg_set_params (fun m => m) new_hyper (reg_get_params (fun m => m) h) = Ok (with_objective h "regression") /\
  canonical_objective "MSE" = "regression" /\ canonical_objective "my_loss" = "my_loss".
Proof.
  split; [| repeat split; reflexivity]. intros m Hm. now apply visits_refl.
Qed.
End Props.

Print Assumptions C60_order.
Print Assumptions C60_values.
Print Assumptions C60_round_trip.
Print Assumptions C60_documented.
Print Assumptions C60_defaults.
Print Assumptions C60_defaults_mapped.
Print Assumptions C60_alias_overridden.
Print Assumptions C60_get_default.
Print Assumptions C60_get_default_unlisted.
Print Assumptions C60_order_refuted.
Print Assumptions C60_defaults_refuted.
Print Assumptions C60_documented_refuted.
Print Assumptions C60_field_refuted.
Print Assumptions C102_get.
Print Assumptions C102_set.
Print Assumptions C102_copy.
Print Assumptions C102_objective.
Print Assumptions C102_objective_names.
Print Assumptions C102_boosting_names.
Print Assumptions C102_classifier.
Print Assumptions C102_classifier_refuted.
Print Assumptions C102_types_refuted.
Print Assumptions C102_constructor.
