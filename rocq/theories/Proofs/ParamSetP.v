From Coq Require Import String Ascii List Bool ZArith Permutation Lia.
From Verif Require Import Base.Num Base.GoRes Base.GoMap Model.ParamMap Spec.ParamMap Proofs.ParamMapP.
Import ListNotations.
Local Open Scope string_scope.
Local Open Scope list_scope.

Section S.
Context {N : Num}.
Notation dict := (list (string * pval N)).
Notation pm := (@new_mapper N).

Definition as_objective (v : pval N) (old : string) : string :=
  match v with PStr s => canonical_objective s | _ => old end.

Ltac switch k :=
  unfold reg_switch, cls_switch; repeat match goal with |- context [(k =? ?s)%string] => destruct (String.eqb_spec k s) as [?E|?E]; [subst k |] end;
  try reflexivity; try (exfalso; congruence).
Ltac field h k v := intros h k v; switch k; destruct v; try reflexivity; destruct h; reflexivity.

Lemma sw_h_leaves (h : hyper N) k v : h_leaves (reg_switch h k v) = if (k =? "NumLeaves")%string then as_int v (h_leaves h) else h_leaves h.
Proof. revert h k v. field h k v. Qed.
Lemma sw_h_depth (h : hyper N) k v : h_depth (reg_switch h k v) = if (k =? "MaxDepth")%string then as_int v (h_depth h) else h_depth h.
Proof. revert h k v. field h k v. Qed.
Lemma sw_h_iters (h : hyper N) k v : h_iters (reg_switch h k v) = if (k =? "NumIterations")%string then as_int v (h_iters h) else h_iters h.
Proof. revert h k v. field h k v. Qed.
Lemma sw_h_lr (h : hyper N) k v : h_lr (reg_switch h k v) = if (k =? "LearningRate")%string then as_float v (h_lr h) else h_lr h.
Proof. revert h k v. field h k v. Qed.
Lemma sw_h_child_samples (h : hyper N) k v : h_child_samples (reg_switch h k v) = if (k =? "MinDataInLeaf")%string then as_int v (h_child_samples h) else h_child_samples h.
Proof. revert h k v. field h k v. Qed.
Lemma sw_h_child_weight (h : hyper N) k v : h_child_weight (reg_switch h k v) = if (k =? "MinSumHessianInLeaf")%string then as_float v (h_child_weight h) else h_child_weight h.
Proof. revert h k v. field h k v. Qed.
Lemma sw_h_subsample (h : hyper N) k v : h_subsample (reg_switch h k v) = if (k =? "BaggingFraction")%string then as_float v (h_subsample h) else h_subsample h.
Proof. revert h k v. field h k v. Qed.
Lemma sw_h_subsample_freq (h : hyper N) k v : h_subsample_freq (reg_switch h k v) = if (k =? "BaggingFreq")%string then as_int v (h_subsample_freq h) else h_subsample_freq h.
Proof. revert h k v. field h k v. Qed.
Lemma sw_h_colsample (h : hyper N) k v : h_colsample (reg_switch h k v) = if (k =? "FeatureFraction")%string then as_float v (h_colsample h) else h_colsample h.
Proof. revert h k v. field h k v. Qed.
Lemma sw_h_alpha (h : hyper N) k v : h_alpha (reg_switch h k v) = if (k =? "Alpha")%string then as_float v (h_alpha h) else h_alpha h.
Proof. revert h k v. field h k v. Qed.
Lemma sw_h_lambda (h : hyper N) k v : h_lambda (reg_switch h k v) = if (k =? "Lambda")%string then as_float v (h_lambda h) else h_lambda h.
Proof. revert h k v. field h k v. Qed.
Lemma sw_h_seed (h : hyper N) k v : h_seed (reg_switch h k v) = if (k =? "Seed")%string then as_int v (h_seed h) else h_seed h.
Proof. revert h k v. field h k v. Qed.
Lemma sw_h_objective (h : hyper N) k v : h_objective (reg_switch h k v) = if (k =? "Objective")%string then as_objective v (h_objective h) else h_objective h.
Proof. revert h k v. field h k v. Qed.
Lemma sw_h_metric (h : hyper N) k v : h_metric (reg_switch h k v) = if (k =? "Metric")%string then as_str v (h_metric h) else h_metric h.
Proof. revert h k v. field h k v. Qed.
Lemma sw_h_threads (h : hyper N) k v : h_threads (reg_switch h k v) = if (k =? "NumThreads")%string then as_int v (h_threads h) else h_threads h.
Proof. revert h k v. field h k v. Qed.
Lemma sw_h_deterministic (h : hyper N) k v : h_deterministic (reg_switch h k v) = if (k =? "Deterministic")%string then as_bool v (h_deterministic h) else h_deterministic h.
Proof. revert h k v. field h k v. Qed.
Lemma sw_h_verbosity (h : hyper N) k v : h_verbosity (reg_switch h k v) = if (k =? "Verbosity")%string then as_int v (h_verbosity h) else h_verbosity h.
Proof. revert h k v. field h k v. Qed.
Lemma sw_h_early (h : hyper N) k v : h_early (reg_switch h k v) = if (k =? "EarlyStopping")%string then as_int v (h_early h) else h_early h.
Proof. revert h k v. field h k v. Qed.
Lemma sw_h_boosting (h : hyper N) k v : h_boosting (reg_switch h k v) = if (k =? "Boosting")%string then as_str v (h_boosting h) else h_boosting h.
Proof. revert h k v. field h k v. Qed.
Lemma sw_h_importance (h : hyper N) k v : h_importance (reg_switch h k v) = if (k =? "ImportanceType")%string then as_str v (h_importance h) else h_importance h.
Proof. revert h k v. field h k v. Qed.

Definition after (m : dict) (h : hyper N) : hyper N :=
  let look := fun (B : Type) (key : string) (set : pval N -> B -> B) (old : B) =>
    match sget key m with Some v => set v old | None => old end in
  mkhyper (look _ "NumLeaves" as_int (h_leaves h))
    (look _ "MaxDepth" as_int (h_depth h))
    (look _ "LearningRate" as_float (h_lr h))
    (look _ "NumIterations" as_int (h_iters h))
    (look _ "MinDataInLeaf" as_int (h_child_samples h))
    (look _ "MinSumHessianInLeaf" as_float (h_child_weight h))
    (look _ "BaggingFraction" as_float (h_subsample h))
    (look _ "BaggingFreq" as_int (h_subsample_freq h))
    (look _ "FeatureFraction" as_float (h_colsample h))
    (look _ "Alpha" as_float (h_alpha h))
    (look _ "Lambda" as_float (h_lambda h))
    (look _ "Seed" as_int (h_seed h))
    (look _ "Objective" as_objective (h_objective h))
    (look _ "Metric" as_str (h_metric h))
    (look _ "NumThreads" as_int (h_threads h))
    (look _ "Deterministic" as_bool (h_deterministic h))
    (look _ "Verbosity" as_int (h_verbosity h))
    (look _ "EarlyStopping" as_int (h_early h))
    (look _ "Boosting" as_str (h_boosting h))
    (look _ "ImportanceType" as_str (h_importance h)).

Lemma reg_fold (m : dict) h : NoDup (skeys m) -> fold_left (fun h e => reg_switch h (fst e) (snd e)) m h = after m h.
Proof.
  intros Hn. unfold after.
  rewrite <- (fold_field (@reg_switch N) h_leaves as_int "NumLeaves" m sw_h_leaves Hn h).
  rewrite <- (fold_field (@reg_switch N) h_depth as_int "MaxDepth" m sw_h_depth Hn h).
  rewrite <- (fold_field (@reg_switch N) h_lr as_float "LearningRate" m sw_h_lr Hn h).
  rewrite <- (fold_field (@reg_switch N) h_iters as_int "NumIterations" m sw_h_iters Hn h).
  rewrite <- (fold_field (@reg_switch N) h_child_samples as_int "MinDataInLeaf" m sw_h_child_samples Hn h).
  rewrite <- (fold_field (@reg_switch N) h_child_weight as_float "MinSumHessianInLeaf" m sw_h_child_weight Hn h).
  rewrite <- (fold_field (@reg_switch N) h_subsample as_float "BaggingFraction" m sw_h_subsample Hn h).
  rewrite <- (fold_field (@reg_switch N) h_subsample_freq as_int "BaggingFreq" m sw_h_subsample_freq Hn h).
  rewrite <- (fold_field (@reg_switch N) h_colsample as_float "FeatureFraction" m sw_h_colsample Hn h).
  rewrite <- (fold_field (@reg_switch N) h_alpha as_float "Alpha" m sw_h_alpha Hn h).
  rewrite <- (fold_field (@reg_switch N) h_lambda as_float "Lambda" m sw_h_lambda Hn h).
  rewrite <- (fold_field (@reg_switch N) h_seed as_int "Seed" m sw_h_seed Hn h).
  rewrite <- (fold_field (@reg_switch N) h_objective as_objective "Objective" m sw_h_objective Hn h).
  rewrite <- (fold_field (@reg_switch N) h_metric as_str "Metric" m sw_h_metric Hn h).
  rewrite <- (fold_field (@reg_switch N) h_threads as_int "NumThreads" m sw_h_threads Hn h).
  rewrite <- (fold_field (@reg_switch N) h_deterministic as_bool "Deterministic" m sw_h_deterministic Hn h).
  rewrite <- (fold_field (@reg_switch N) h_verbosity as_int "Verbosity" m sw_h_verbosity Hn h).
  rewrite <- (fold_field (@reg_switch N) h_early as_int "EarlyStopping" m sw_h_early Hn h).
  rewrite <- (fold_field (@reg_switch N) h_boosting as_str "Boosting" m sw_h_boosting Hn h).
  rewrite <- (fold_field (@reg_switch N) h_importance as_str "ImportanceType" m sw_h_importance Hn h).
  now destruct (fold_left _ m h).
Qed.

Ltac params := repeat match goal with |- context [parameter ?s] => let r := eval vm_compute in (parameter s) in change (parameter s) with r end.

Lemma settings_after (m : dict) h : settings (after m h) =
  map (fun e => (fst e, match sget (parameter (fst e)) m with Some v => store (parameter (fst e)) (snd e) v | None => snd e end)) (settings h).
Proof.
  unfold settings, after. cbn [map fst snd h_leaves h_depth h_lr h_iters h_child_samples h_child_weight h_subsample h_subsample_freq
    h_colsample h_alpha h_lambda h_seed h_objective h_metric h_threads h_deterministic h_verbosity h_early h_boosting h_importance].
  params.
  repeat (apply f_equal2; [apply f_equal; match goal with |- context [sget ?k m] => destruct (sget k m) as [v|] end; [destruct v; reflexivity | reflexivity] |]).
  reflexivity.
Qed.

Lemma settings_inj (h h' : hyper N) : settings h = settings h' -> h = h'.
Proof. destruct h, h'. cbn. intros E. inversion E. subst. reflexivity. Qed.

Lemma settings_nodup (h : hyper N) : NoDup (skeys (settings h)).
Proof. apply nodupb_ok. reflexivity. Qed.

Lemma go_params_nodup (h : hyper N) : NoDup (skeys (reg_go_params h)).
Proof. apply nodupb_ok. reflexivity. Qed.

(** The Go map read through the documented names. *)
Lemma go_params_settings (h : hyper N) k : sget k (map (fun e => (py_key pm (fst e), snd e)) (reg_go_params h)) = sget k (settings h).
Proof.
  assert (E : map (fun e => (py_key pm (fst e), snd e)) (reg_go_params h) =
    [("num_leaves", PInt (h_leaves h)); ("max_depth", PInt (h_depth h)); ("learning_rate", PFloat (h_lr h)); ("n_estimators", PInt (h_iters h));
     ("min_child_samples", PInt (h_child_samples h));
   ("min_child_weight", PFloat (h_child_weight h)); ("subsample", PFloat (h_subsample h));
   ("subsample_freq", PInt (h_subsample_freq h)); ("colsample_bytree", PFloat (h_colsample h));
   ("reg_alpha", PFloat (h_alpha h)); ("reg_lambda", PFloat (h_lambda h)); ("random_state", PInt (h_seed h));
   ("objective", PStr (h_objective h)); ("metric", PStr (h_metric h)); ("n_jobs", PInt (h_threads h));
   ("deterministic", PBool (h_deterministic h)); ("verbosity", PInt (h_verbosity h));
   ("early_stopping_rounds", PInt (h_early h)); ("boosting_type", PStr (h_boosting h));
   ("importance_type", PStr (h_importance h))]) by (vm_compute; reflexivity).
  rewrite E. apply (@visits_get (pval N)). split; [| apply settings_nodup].
  unfold settings. do 2 apply perm_skip. apply perm_swap.
Qed.

Lemma get_settings ord (h : hyper N) : ranges ord -> same_map (reg_get_params ord h) (settings h).
Proof.
  intros Ho q. unfold reg_get_params. specialize (Ho _ (go_params_nodup h)). set (l := ord (reg_go_params h)) in *.
  pose proof (visits_nodup _ _ Ho) as Nl. unfold map_go_to_py. fold (putall (py_key pm) l []).
  assert (K : forall k, In k (skeys l) -> In k (skeys (reg_go_params h))).
  { intros k Hk. destruct Ho as [P _]. eapply Permutation_in; [apply Permutation_map, Permutation_sym, P | exact Hk]. }
  assert (Hf : forall k, In k (skeys l) -> In k fields).
  { intros k Hk. apply K in Hk. assert (A : forallb (fun k => existsb (String.eqb k) fields) (skeys (reg_go_params h)) = true)
      by (vm_compute; reflexivity). rewrite forallb_forall in A. apply existsb_in. now apply A. }
  assert (Hi : forall k k', In k (skeys l) -> In k' (skeys l) -> py_key pm k = py_key pm k' -> k = k').
  { intros a b Ha Hb E. rewrite <- (parameter_py_key (N := N) a), <- (parameter_py_key (N := N) b), E; auto. }
  rewrite <- go_params_settings.
  assert (Nm : NoDup (skeys (map (fun e => (py_key pm (fst e), snd e)) (reg_go_params h)))).
  { apply nodupb_ok. vm_compute. reflexivity. }
  destruct (sget q (map (fun e => (py_key pm (fst e), snd e)) (reg_go_params h))) as [v|] eqn:E.
  - apply sget_some_in in E. apply in_map_iff in E as [[k w] [E Hk]]. cbn [fst snd] in E. assert (w = v) by congruence. assert (q = py_key pm k) by congruence. subst.
    assert (HI : In (k, v) l) by (eapply Permutation_in; [apply Ho | exact Hk]).
    etransitivity; [exact (putall_inj (py_key pm) l Nl Hi [] k (in_map fst _ _ HI)) | now apply sget_in].
  - destruct (sget q (putall (py_key pm) l [])) as [v|] eqn:E'; auto. exfalso.
    apply putall_keys in E' as [E'|[k [Ek Hk]]]; [discriminate |].
    apply sget_none in E. apply E. apply in_map_iff. exists (q, v). split; auto. apply in_map_iff. exists (k, v).
    subst q. split; [reflexivity |]. exact (Permutation_in _ (Permutation_sym (proj1 Ho)) Hk).
Qed.

Lemma set_settings ord h (d l : dict) : ranges ord -> visits d l -> consistent d ->
  exists h', reg_set_params ord h l = Ok h' /\
  (forall n old, In (n, old) (settings h) ->
     (forall v, gives d (parameter n) v -> In (n, store (parameter n) old v) (settings h')) /\
     ((forall v, ~ gives d (parameter n) v) -> In (n, old) (settings h'))).
Proof.
  intros Ho V C. specialize (Ho _ (map_nodup l)). eexists. split; [reflexivity |].
  rewrite reg_fold by now apply visits_nodup in Ho. intros n old Hn. rewrite settings_after.
  set (m := ord (map_py_to_go pm l)) in *.
  assert (L : forall p, sget p m = lastp p d None).
  { intros p. rewrite (visits_get _ _ p Ho), map_py_get. apply lastp_perm; auto. apply V. }
  split.
  - intros v Hv. apply in_map_iff. exists (n, old). split; auto. cbn [fst snd].
    now rewrite L, (lastp_consistent _ _ _ C Hv).
  - intros Hv. apply in_map_iff. exists (n, old). split; auto. cbn [fst snd].
    now rewrite L, lastp_absent.
Qed.

Lemma get_params_nodup ord (h : hyper N) : NoDup (skeys (reg_get_params ord h)).
Proof. apply (putall_nodup (py_key pm) (ord (reg_go_params h)) []). constructor. Qed.

Lemma round ord ord' (h h' : hyper N) l : ranges ord -> ranges ord' -> visits (reg_get_params ord h) l ->
  reg_set_params ord' h' l = Ok (with_objective h (canonical_objective (h_objective h))).
Proof.
  intros Ho Ho' V.
  assert (C : consistent (reg_get_params ord h)).
  { intros p v v' [a [Ea Ha]] [b [Eb Hb]]. apply sget_in in Ha, Hb; try apply get_params_nodup.
    rewrite (get_settings ord h Ho) in Ha, Hb.
    assert (a = b); [| subst b; congruence].
    apply sget_some_in in Ha, Hb. apply (in_map fst) in Ha, Hb. cbn in Ha, Hb.
    assert (A : forallb (fun k => forallb (fun k' => negb (parameter k =? parameter k')%string || (k =? k')%string)
        (skeys (settings h))) (skeys (settings h)) = true) by (vm_compute; reflexivity).
    rewrite forallb_forall in A. specialize (A _ Ha). rewrite forallb_forall in A. specialize (A _ Hb).
    rewrite Ea, Eb, String.eqb_refl in A. now apply String.eqb_eq. }
  specialize (Ho' _ (map_nodup l)). unfold reg_set_params. f_equal.
  rewrite reg_fold by now apply visits_nodup in Ho'. apply settings_inj. rewrite settings_after.
  set (m := ord' (map_py_to_go pm l)) in *.
  assert (L : forall n v, In (n, v) (settings h) -> sget (parameter n) m = Some v).
  { intros n v Hn. rewrite (visits_get _ _ _ Ho'), map_py_get, (lastp_perm _ _ _ (proj1 V) C).
    apply lastp_consistent; auto. exists n. split; auto. apply sget_some_in. rewrite (get_settings ord h Ho).
    apply sget_in; auto. apply settings_nodup. }
  assert (F : Forall (fun e => sget (parameter (fst e)) m = Some (snd e)) (settings h)).
  { apply Forall_forall. intros [n v] Hn. now apply L. }
  clearbody m. clear - F. unfold settings in F. repeat (apply Forall_cons_iff in F as [?E F]). cbn [fst snd] in *.
  unfold settings at 1. cbn [map fst snd].
  repeat match goal with E : sget _ m = Some _ |- _ => rewrite E; clear E end.
  destruct h. reflexivity.
Qed.

Lemma objective_idem o : canonical_objective (canonical_objective o) = canonical_objective o.
Proof.
  assert (B : canonical_objective o = match sget (to_lower o) objective_map with Some c => c | None => o end).
  { unfold canonical_objective, validate_objective. now destruct (sget (to_lower o) objective_map). }
  destruct (sget (to_lower o) objective_map) as [c|] eqn:E; rewrite B.
  - apply sget_some_in in E.
    assert (A : forallb (fun e => (canonical_objective (snd e) =? snd e)%string) objective_map = true) by (vm_compute; reflexivity).
    rewrite forallb_forall in A. now apply String.eqb_eq, (A _ E).
  - exact B.
Qed.

Lemma lower_char_spec a b : b = lower_char a <->
  (a = b /\ (nat_of_ascii b < 65 \/ 90 < nat_of_ascii b)%nat) \/ (65 <= nat_of_ascii a <= 90 /\ nat_of_ascii b = nat_of_ascii a + 32)%nat.
Proof.
  unfold lower_char, is_upper. destruct (Nat.leb_spec 65 (nat_of_ascii a)) as [A|A], (Nat.leb_spec (nat_of_ascii a) 90) as [B|B]; cbn [andb].
  2-4: split; [intros ->; left; split; [reflexivity|lia] | intros [[-> _]|[H _]]; [reflexivity|lia]].
  split.
  - intros ->. right. split; [lia|]. apply nat_ascii_embedding. lia.
  - intros [[-> H]|[_ H]]; [lia|]. rewrite <- H. symmetry. apply ascii_nat_embedding.
Qed.
Lemma capitalised_spec s t : capitalised s t <-> t = to_lower s.
Proof.
  revert t. induction s as [|a s IH]; intros [|b t]; cbn [capitalised to_lower]; try (split; [easy|discriminate]); [tauto|].
  rewrite IH, <- lower_char_spec. split; [intros [-> ->]; reflexivity | intros E; injection E as -> ->; auto].
Qed.
Definition objective_pairs : list (string * string) := flat_map (fun e => map (fun n => (n, fst e)) (snd e)) objective_names.
Lemma objective_pairs_map : objective_pairs = objective_map.
Proof. reflexivity. Qed.
Lemma objective_listed o c : validate_objective o = Ok c <-> exists ns n, In (c, ns) objective_names /\ In n ns /\ capitalised o n.
Proof.
  assert (E : validate_objective o = Ok c <-> In (to_lower o, c) objective_map).
  { unfold validate_objective. assert (Hn : NoDup (skeys objective_map)) by (apply nodupb_ok; reflexivity).
    split.
    - destruct (sget (to_lower o) objective_map) as [c'|] eqn:E; [|discriminate]. intros H. injection H as ->. now apply sget_some_in.
    - intros H. now rewrite (sget_in _ _ _ Hn H). }
  rewrite E, <- objective_pairs_map. unfold objective_pairs. rewrite in_flat_map. split.
  - intros [[c' ns] [Hin H]]. apply in_map_iff in H. destruct H as [n [H Hn]]. injection H as -> ->. exists ns, (to_lower o).
    repeat split; auto. now apply capitalised_spec.
  - intros [ns [n [Hin [Hn Hc]]]]. apply capitalised_spec in Hc. subst. exists (c, ns). split; auto. apply in_map_iff. now exists (to_lower o).
Qed.

Lemma boosting_listed b c : validate_boosting b = Ok c <-> In c ["gbdt"; "dart"; "goss"; "rf"] /\ capitalised b c.
Proof.
  rewrite capitalised_spec. unfold validate_boosting. destruct (existsb (String.eqb (to_lower b)) ["gbdt"; "dart"; "goss"; "rf"]) eqn:E.
  - apply existsb_exists in E. destruct E as [x [Hx E]]. apply String.eqb_eq in E. rewrite E in *. split.
    + intros H. injection H as <-. auto.
    + intros [_ ->]. reflexivity.
  - split; [discriminate|]. intros [Hc ->]. exfalso. rewrite <- Bool.not_true_iff_false in E. apply E. apply existsb_exists. exists (to_lower b). split; auto. apply String.eqb_refl.
Qed.

(** *** The classifier. *)
Lemma fold_field2 {A B} (step : A -> string -> pval N -> A) (proj : A -> B) (set : pval N -> B -> B) (is : string -> bool) (b : B) l :
  (forall a k v, proj (step a k v) = if is k then set v (proj a) else proj a) ->
  (forall k v o, In (k, v) l -> is k = true -> set v o = b) -> (exists k v, In (k, v) l /\ is k = true) ->
  forall a, proj (fold_left (fun a e => step a (fst e) (snd e)) l a) = b.
Proof.
  intros Hs Hb He. assert (G : forall l a, (forall k v o, In (k, v) l -> is k = true -> set v o = b) ->
    (exists k v, In (k, v) l /\ is k = true) \/ proj a = b -> proj (fold_left (fun a e => step a (fst e) (snd e)) l a) = b).
  { clear l Hb He. induction l as [|[k v] l IH]; intros a Hb He; cbn [fold_left fst snd].
    - destruct He as [[k [v [[] _]]]|]; auto.
    - apply IH; [intros k' v' o Hi; apply Hb; now right |]. rewrite Hs.
      destruct (is k) eqn:Ek; [right; apply (Hb k); [now left | auto] |].
      destruct He as [[k' [v' [[E|Hi] Hk]]]|He]; [inversion E; subst; congruence | left; now exists k', v' | now right]. }
  intros a. apply G; auto.
Qed.

Lemma fold_kept {A B} (step : A -> string -> pval N -> A) (proj : A -> B) l :
  (forall a k v, proj (step a k v) = proj a) -> forall a, proj (fold_left (fun a e => step a (fst e) (snd e)) l a) = proj a.
Proof. intros Hs. induction l as [|[k v] l IH]; intros a; cbn [fold_left fst snd]; auto. now rewrite IH. Qed.

Ltac one_of V :=
  intros k v o Hi Hk; apply (Permutation_in _ (Permutation_sym (proj1 V))) in Hi; unfold cls_get_params in Hi;
  repeat (destruct Hi as [Hi|Hi]; [injection Hi as <- <-; try reflexivity; discriminate Hk |]); destruct Hi.
Ltac cls_step := intros h0 k v; cbv beta; switch k; destruct v; try reflexivity; destruct h0; reflexivity.

Lemma cls_round (h h' : hyper N) l : visits (cls_get_params h) l -> cls_set_params h' l = Ok (cls_mix h h').
Proof.
  intros V. unfold cls_set_params. f_equal. set (r := fold_left _ l h').
  assert (E_h_leaves : h_leaves r = h_leaves h).
  { apply (fold_field2 (@cls_switch N) h_leaves as_int (fun k => (k =? "num_leaves")%string || (k =? "n_leaves")%string)); [cls_step | one_of V |].
    exists "num_leaves", (PInt (h_leaves h)). split; [apply (Permutation_in _ (proj1 V)); unfold cls_get_params; cbn [In]; auto 30 | reflexivity]. }
  assert (E_h_depth : h_depth r = h_depth h).
  { apply (fold_field2 (@cls_switch N) h_depth as_int (fun k => (k =? "max_depth")%string)); [cls_step | one_of V |].
    exists "max_depth", (PInt (h_depth h)). split; [apply (Permutation_in _ (proj1 V)); unfold cls_get_params; cbn [In]; auto 30 | reflexivity]. }
  assert (E_h_lr : h_lr r = h_lr h).
  { apply (fold_field2 (@cls_switch N) h_lr as_float (fun k => (k =? "learning_rate")%string)); [cls_step | one_of V |].
    exists "learning_rate", (PFloat (h_lr h)). split; [apply (Permutation_in _ (proj1 V)); unfold cls_get_params; cbn [In]; auto 30 | reflexivity]. }
  assert (E_h_iters : h_iters r = h_iters h).
  { apply (fold_field2 (@cls_switch N) h_iters as_int (fun k => (k =? "n_estimators")%string || (k =? "num_iterations")%string)); [cls_step | one_of V |].
    exists "n_estimators", (PInt (h_iters h)). split; [apply (Permutation_in _ (proj1 V)); unfold cls_get_params; cbn [In]; auto 30 | reflexivity]. }
  assert (E_h_child_samples : h_child_samples r = h_child_samples h).
  { apply (fold_field2 (@cls_switch N) h_child_samples as_int (fun k => (k =? "min_child_samples")%string)); [cls_step | one_of V |].
    exists "min_child_samples", (PInt (h_child_samples h)). split; [apply (Permutation_in _ (proj1 V)); unfold cls_get_params; cbn [In]; auto 30 | reflexivity]. }
  assert (E_h_child_weight : h_child_weight r = h_child_weight h).
  { apply (fold_field2 (@cls_switch N) h_child_weight as_float (fun k => (k =? "min_child_weight")%string)); [cls_step | one_of V |].
    exists "min_child_weight", (PFloat (h_child_weight h)). split; [apply (Permutation_in _ (proj1 V)); unfold cls_get_params; cbn [In]; auto 30 | reflexivity]. }
  assert (E_h_subsample : h_subsample r = h_subsample h).
  { apply (fold_field2 (@cls_switch N) h_subsample as_float (fun k => (k =? "subsample")%string)); [cls_step | one_of V |].
    exists "subsample", (PFloat (h_subsample h)). split; [apply (Permutation_in _ (proj1 V)); unfold cls_get_params; cbn [In]; auto 30 | reflexivity]. }
  assert (E_h_colsample : h_colsample r = h_colsample h).
  { apply (fold_field2 (@cls_switch N) h_colsample as_float (fun k => (k =? "colsample_bytree")%string)); [cls_step | one_of V |].
    exists "colsample_bytree", (PFloat (h_colsample h)). split; [apply (Permutation_in _ (proj1 V)); unfold cls_get_params; cbn [In]; auto 30 | reflexivity]. }
  assert (E_h_alpha : h_alpha r = h_alpha h).
  { apply (fold_field2 (@cls_switch N) h_alpha as_float (fun k => (k =? "reg_alpha")%string)); [cls_step | one_of V |].
    exists "reg_alpha", (PFloat (h_alpha h)). split; [apply (Permutation_in _ (proj1 V)); unfold cls_get_params; cbn [In]; auto 30 | reflexivity]. }
  assert (E_h_lambda : h_lambda r = h_lambda h).
  { apply (fold_field2 (@cls_switch N) h_lambda as_float (fun k => (k =? "reg_lambda")%string)); [cls_step | one_of V |].
    exists "reg_lambda", (PFloat (h_lambda h)). split; [apply (Permutation_in _ (proj1 V)); unfold cls_get_params; cbn [In]; auto 30 | reflexivity]. }
  assert (E_h_seed : h_seed r = h_seed h).
  { apply (fold_field2 (@cls_switch N) h_seed as_int (fun k => (k =? "random_state")%string)); [cls_step | one_of V |].
    exists "random_state", (PInt (h_seed h)). split; [apply (Permutation_in _ (proj1 V)); unfold cls_get_params; cbn [In]; auto 30 | reflexivity]. }
  assert (E_h_threads : h_threads r = h_threads h).
  { apply (fold_field2 (@cls_switch N) h_threads as_int (fun k => (k =? "n_jobs")%string)); [cls_step | one_of V |].
    exists "n_jobs", (PInt (h_threads h)). split; [apply (Permutation_in _ (proj1 V)); unfold cls_get_params; cbn [In]; auto 30 | reflexivity]. }
  assert (E_h_deterministic : h_deterministic r = h_deterministic h).
  { apply (fold_field2 (@cls_switch N) h_deterministic as_bool (fun k => (k =? "deterministic")%string)); [cls_step | one_of V |].
    exists "deterministic", (PBool (h_deterministic h)). split; [apply (Permutation_in _ (proj1 V)); unfold cls_get_params; cbn [In]; auto 30 | reflexivity]. }
  assert (E_h_subsample_freq : h_subsample_freq r = h_subsample_freq h') by (apply (fold_kept (@cls_switch N) h_subsample_freq); cls_step).
  assert (E_h_objective : h_objective r = h_objective h') by (apply (fold_kept (@cls_switch N) h_objective); cls_step).
  assert (E_h_metric : h_metric r = h_metric h') by (apply (fold_kept (@cls_switch N) h_metric); cls_step).
  assert (E_h_verbosity : h_verbosity r = h_verbosity h') by (apply (fold_kept (@cls_switch N) h_verbosity); cls_step).
  assert (E_h_early : h_early r = h_early h') by (apply (fold_kept (@cls_switch N) h_early); cls_step).
  assert (E_h_boosting : h_boosting r = h_boosting h') by (apply (fold_kept (@cls_switch N) h_boosting); cls_step).
  assert (E_h_importance : h_importance r = h_importance h') by (apply (fold_kept (@cls_switch N) h_importance); cls_step).
  clearbody r. unfold cls_mix. destruct r. cbn in *. subst. reflexivity.
Qed.
End S.
