(** C118 to C120: datasets, Train and QuickTrain of the lightgbm api package. *)
From Coq Require Import String List Arith ZArith Bool Lia Reals Lra QArith.
From Verif Require Import Base.Num Base.GoRes Base.GoMap Base.Mat Base.ListX Base.RTac Spec.Order
  Model.Metrics Model.LgbHist Model.LgbTree Model.LgbTrain Model.LgbEstimator Model.LgbText Model.LgbBooster Model.LgbApi Spec.LgbApi
  Proofs.OrderP Proofs.LgbApiP Proofs.LgbApiTrainP.
Import ListNotations.
Local Close Scope Q_scope.
Local Open Scope string_scope.
Local Open Scope list_scope.

(** * C118 Datasets *)
Section C118.
  Context {N : Num}.
  Local Open Scope num_scope.
  (** A field that was set successfully is what GetField returns, and no other field changes. *)
  Theorem C118_set_get name v (ds ds' : dataset N) : ~ In name ["data"; "n_samples"; "n_features"] -> set_field name v ds = (ds', Ok tt) ->
    (get_field name ds' = Ok (Some (match v with VVec (Some l) => if String.eqb name "label" then VMat (mkmat 1 (map (fun x => [x]) l)) else v | _ => v end)))
    /\ forall other, other <> name -> get_field other ds' = get_field other ds.
  Proof.
    intros Hn H. split.
    - rewrite (get_set_same _ _ _ _ Hn H). unfold stored. destruct (String.eqb name "label"), v as [| [l|] | | | | | | |]; reflexivity.
    - intros other Ho. rewrite <- (get_set_other name other v ds) by (left; congruence). now rewrite H.
  Qed.
  (** Setting the data or one of the counts succeeds and changes nothing that can be read. *)
  Theorem C118_read_only name v (ds : dataset N) : In name ["data"; "n_samples"; "n_features"] ->
    snd (set_field name v ds) = Ok tt /\ forall other, get_field other (fst (set_field name v ds)) = get_field other ds.
  Proof.
    intros Hn. split; [|intros other; apply get_set_other; now right]. destruct Hn as [<-|[<-|[<-|[]]]]; reflexivity.
  Qed.
  (** A label with a wrong number of rows is reported as an error and is the label of the dataset afterwards. *)
  Theorem C118_bad_label (l : matrix N) (ds : dataset N) : nrows l <> d_n ds ->
    exists ds', set_field "label" (VMat l) ds = (ds', Err (EDimension (d_n ds) (nrows l))) /\ get_field "label" ds' = Ok (Some (VMat l))
      /\ forall other, other <> "label" -> get_field other ds' = get_field other ds.
  Proof.
    intros Hl. unfold set_field. cbn [String.eqb Ascii.eqb Bool.eqb]. unfold validate_label. cbn [with_label d_label d_n].
    destruct (Nat.eqb_spec (nrows l) (d_n ds)) as [E|E]; [contradiction|]. cbn [negb]. eexists. split; [reflexivity|]. split; [reflexivity|].
    intros other Ho. unfold get_field. cbn. destruct (String.eqb_spec other "label"); [contradiction|reflexivity].
  Qed.
  (** A subset succeeds exactly for a non-empty list of existing rows (otherwise it is an error, not a panic); rows, labels and
      weights are those at the given positions, in the given order, repeated if a position is. *)
  Theorem C118_subset idx (ds : dataset N) : complete ds ->
    ((exists s, subset idx ds = Ok s) <-> idx <> [] /\ Forall (fun i => (0 <= i < Z.of_nat (d_n ds))%Z) idx)
    /\ ((exists s, subset idx ds = Ok s) \/ exists e, subset idx ds = Err e)
    /\ forall s, subset idx ds = Ok s ->
         complete s /\ d_n s = List.length idx /\ d_f s = d_f ds /\ rows_at idx (mrows (d_data ds)) (mrows (d_data s))
         /\ (forall l, d_label ds = Some l -> exists l', d_label s = Some l' /\ mcols l' = mcols l /\ rows_at idx (mrows l) (mrows l'))
         /\ (d_label ds = None -> d_label s = None)
         /\ (forall w, d_weight ds = Some w -> exists w', d_weight s = Some w' /\ rows_at idx w w')
         /\ (d_weight ds = None -> d_weight s = None)
         /\ d_names s = d_names ds /\ d_cats s = d_cats ds /\ d_params s = d_params ds.
  Proof.
    intros Hc.
    assert (D : {idx <> [] /\ Forall (fun i => (0 <= i < Z.of_nat (d_n ds))%Z) idx} + {~ (idx <> [] /\ Forall (fun i => (0 <= i < Z.of_nat (d_n ds))%Z) idx)}).
    { assert (F : {Forall (fun i => (0 <= i < Z.of_nat (d_n ds))%Z) idx} + {~ Forall (fun i => (0 <= i < Z.of_nat (d_n ds))%Z) idx}).
      { apply Forall_dec. intros i. destruct (Z_le_dec 0 i), (Z_lt_dec i (Z.of_nat (d_n ds))); [left; lia|right; lia..]. }
      destruct F as [F|F]; [|right; tauto]. destruct idx; [right; tauto|left; split; [discriminate|exact F]]. }
    split; [|split].
    - split; [|intros [H1 H2]; exact (subset_ok _ _ Hc H1 H2)]. intros [s Hs]. destruct D as [D|D]; [exact D|]. destruct (subset_err _ _ Hc D) as [e He]. congruence.
    - destruct D as [[D1 D2]|D]; [left; exact (subset_ok _ _ Hc D1 D2)|right; exact (subset_err _ _ Hc D)].
    - intros s Hs. split; [exact (subset_complete _ _ _ Hc Hs)|]. destruct (subset_inv _ _ _ Hc Hs) as (S1 & S2 & S3 & S4 & S5 & S6 & S7 & S8 & S9 & S10 & _).
      split; [exact S4|]. split; [exact S5|]. split; [exact S2|]. split; [intros l E; now rewrite E in S6|]. split; [intros E; now rewrite E in S6|].
      split; [intros w E; now rewrite E in S7|]. split; [intros E; now rewrite E in S7|]. auto.
  Qed.
  (** A subset of a subset is the subset at the composed positions. *)
  Theorem C118_subset_subset idx idx' js (ds s s' : dataset N) : complete ds -> subset idx ds = Ok s -> subset idx' s = Ok s' -> rows_at idx' idx js ->
    subset js ds = Ok s'.
  Proof. exact (subset_subset idx idx' js ds s s'). Qed.
  (** NewDataset makes complete datasets, given weights for all rows. *)
  Theorem C118_new_complete (X : matrix N) (label : option (matrix N)) opts ds : (forall y, label = Some y -> (0 < mcols y)%nat) ->
    (forall w, d_weight ds = Some w -> List.length w = nrows X) -> new_dataset (Some X) label opts = Ok ds -> complete ds.
  Proof.
    intros Hy Hw H. destruct (new_dataset_inv _ _ _ _ H) as (E1 & E2 & E3 & E4 & E5 & E6 & E7).
    split; [rewrite E3, E5; reflexivity|]. split; [lia|]. split; [|rewrite E5; exact Hw]. intros l Hl. rewrite E4 in Hl.  rewrite Hl in E7; destruct E7 as [E7 _].
    split; [rewrite E5; exact E7|now apply (Hy l)].
  Qed.
  (** The validation sets are the datasets that are not nil, in order; each is named by its parameter "name" if that is a string
      and else by its position in the argument list. *)
  Theorem C118_valid_sets (l : list (option (dataset N))) : (forall ds, In (Some ds) l -> d_valid ds = true) ->
    exists sets names, valid_sets 0 l = Ok (sets, names) /\ sets = map fst (named_sets l) /\ names = map snd (named_sets l).
  Proof.
    intros H. destruct (valid_sets_ok l 0 H) as (sets & names & E). exists sets, names. split; [exact E|].
    destruct (valid_sets_from _ _ _ _ E) as [E1 E2]. fold (named_sets l) in E2. rewrite <- E2. clear -E1.
    revert names E1. induction sets as [|s sets IH]; intros [|n names] E1; cbn in *; try discriminate; [auto|]. injection E1 as E1.
    destruct (IH _ E1) as [I1 I2]. now rewrite <- I1, <- I2.
  Qed.
End C118.
Print Assumptions C118_subset.
Print Assumptions C118_subset_subset.

(** ** Examples *)
Definition ex_data : matrix QNum := @mkmat QNum 2 [[1; 2]; [3; 4]; [5; 6]]%Q.
Definition ex_label : matrix QNum := @mkmat QNum 1 [[0]; [1]; [1]]%Q.
Definition ex_ds : dataset QNum := @mkds QNum ex_data (Some ex_label) (Some [10; 20; 30]%Q) ["a"; "b"] [] [] 3 2 false 0 true.
Example C118_ex_new : @new_dataset QNum (Some ex_data) (Some ex_label) [@WithFeatureNames QNum ["a"; "b"]; @WithWeight QNum (Some [10; 20; 30]%Q)] = Ok ex_ds.
Proof. vm_compute. reflexivity. Qed.
Example C118_ex_complete : complete ex_ds.
Proof. split; [reflexivity|]. split; [cbn; lia|]. split; [intros l [= <-]; cbn; lia|intros w [= <-]; reflexivity]. Qed.
Definition subset_summary (r : res (dataset QNum)) : option (list (list Q) * option (list (list Q)) * option (list Q)) :=
  match r with Ok s => Some (mrows (d_data s), option_map mrows (d_label s), d_weight s) | _ => None end.
Example C118_ex_subset : subset_summary (subset [2; 0; 2]%Z ex_ds) = Some ([[5; 6]; [1; 2]; [5; 6]]%Q, Some [[1]; [0]; [1]]%Q, Some [30; 10; 30]%Q).
Proof. vm_compute. reflexivity. Qed.
Example C118_ex_outside : subset [0; 3]%Z ex_ds = Err (EOther 1) /\ subset [] ex_ds = Err EValue.
Proof. split; reflexivity. Qed.
Example C118_ex_fields :
  @get_field QNum "weight" (fst (@set_field QNum "weight" (@VVec QNum (Some [7]%Q)) ex_ds)) = Ok (Some (@VVec QNum (Some [7]%Q)))
  /\ @get_field QNum "n_samples" (fst (@set_field QNum "n_samples" (VInt 5) ex_ds)) = Ok (Some (VInt 3))
  /\ snd (@set_field QNum "label" (VInt 5) ex_ds) = Err (EOther 2).
Proof. repeat split. Qed.
Example C118_ex_names : match @valid_sets QNum 0 [Some ex_ds; None; Some (fst (set_field "name" (VStr "test") ex_ds)); Some ex_ds] with
  | Ok (sets, names) => List.length sets = 3%nat /\ names = ["valid_0"; "test"; "valid_3"] | _ => False end.
Proof. vm_compute. split; reflexivity. Qed.
(** A label that SetField refuses makes a later subset panic. *)
Theorem C118_refused_label_refuted : exists (ds ds' : dataset QNum) l e, complete ds /\ set_field "label" (VMat l) ds = (ds', Err e)
  /\ (exists s, subset [2]%Z ds = Ok s) /\ subset [2]%Z ds' = Panic.
Proof.
  exists ex_ds. eexists. exists (@mkmat QNum 1 [[1]; [0]]%Q), (EDimension 3 2). split; [exact C118_ex_complete|]. split; [reflexivity|].
  split; [eexists; reflexivity|reflexivity].
Qed.
(** Weights are never checked: a dataset may have fewer weights than rows, and a subset of it panics. *)
Theorem C118_weights_refuted : exists (ds : dataset QNum), new_dataset (Some ex_data) (Some ex_label) [@WithWeight QNum (Some [1]%Q)] = Ok ds
  /\ subset [2]%Z ds = Panic.
Proof. eexists. split; reflexivity. Qed.

(** * C119 Train *)
Section C119.
  Context {N : Num}.
  Local Open Scope num_scope.
  Variable trainer : settings N * (N * N) -> matrix N -> matrix N -> option (res (gmodel N)).
  Variables toint32 roundint : N -> Z.
  Variable zthr : N.
  Variable fuel : nat.
  Notation train_api := (train_api trainer toint32 roundint zthr fuel).
  Notation predicts := (predict_model roundint fuel).
  Notation names_for := (fun (sets : list (option (dataset N))) (names : list string) =>
    match names with [] => map (fun i => append "valid_" (show_int (Z.of_nat i))) (seq 0 (List.length sets)) | _ => names end).

  (** With at least one round, the result holds the model that one call of the trainer makes of the parameters, the data and the
      label, predicts with it, and reports the number of rounds as current and best iteration.  For every validation set the score
      of that model is recorded once per round. *)
  Theorem C119_trained h p ds num sets names init h' b : (1 <= num)%Z -> train_api h p ds num sets names init = Some (Ok (h', b)) ->
    exists y m scores, d_label ds = Some y /\ trainer (parse_params p) (d_data ds) y = Some (Ok m)
      /\ h' = h ++ [(m, d_names ds)] /\ b_model b = Some (List.length h) /\ b_names b = d_names ds
      /\ (forall X, predict toint32 roundint zthr fuel [] h' b X = predicts m X)
      /\ num_trees h' b = Ok (Z.of_nat (List.length (m_trees m)))
      /\ b_cur b = num /\ b_best b = num
      /\ Forall2 (scored predicts (s_obj (fst (parse_params p))) m) sets scores
      /\ forall key, evals_of key b = concat (repeat (under key (metric_name (s_obj (fst (parse_params p)))) (names_for sets names) scores) (Z.to_nat num)).
  Proof.
    intros Hn H. destruct (train_inv _ _ _ _ _ _ _ _ _ _ _ _ _ _ Hn H) as (y & m & scores & Hy & Hm & Hh & L & HF). subst h'.
    destruct (train_ok _ _ _ _ _ _ _ _ _ _ init _ _ _ _ Hn Hy Hm L HF) as (b' & E & B1 & B2 & B3 & B4 & B5 & B6 & B7).
    rewrite E in H. injection H as <-. exists y, m, scores. split; [exact Hy|]. split; [exact Hm|]. split; [reflexivity|]. split; [exact B1|]. split; [exact B4|].
    assert (Hd : nth_error (h ++ [(m, d_names ds)]) (List.length h) = Some (m, d_names ds)) by (rewrite nth_error_app2, Nat.sub_diag by lia; reflexivity).
    split; [|split; [|split; [exact B5|split; [exact B6|split; [exact (scores_scored _ _ _ _ _ _ _ _ _ _ HF)|exact B7]]]]].
    - intros X. unfold predict, with_options, ask. rewrite B3, B2. cbn [deref]. rewrite Hd. reflexivity.
    - unfold num_trees, of_model. rewrite B1. cbn [deref]. rewrite Hd. reflexivity.
  Qed.
  (** So the number of rounds changes neither whether Train succeeds nor the model. *)
  Theorem C119_rounds h p ds num num' sets names init h' b : (1 <= num)%Z -> (1 <= num')%Z -> train_api h p ds num sets names init = Some (Ok (h', b)) ->
    exists b', train_api h p ds num' sets names init = Some (Ok (h', b')) /\ b_model b' = b_model b /\ b_names b' = b_names b
      /\ (forall X, predict toint32 roundint zthr fuel [] h' b' X = predict toint32 roundint zthr fuel [] h' b X)
      /\ forall key, firstn (List.length (evals_of key b)) (evals_of key b') = firstn (List.length (evals_of key b')) (evals_of key b).
  Proof.
    intros Hn Hn' H. destruct (train_inv _ _ _ _ _ _ _ _ _ _ _ _ _ _ Hn H) as (y & m & scores & Hy & Hm & Hh & L & HF). subst h'.
    destruct (train_ok _ _ _ _ _ _ _ _ _ _ init _ _ _ _ Hn Hy Hm L HF) as (b1 & E & B1 & B2 & B3 & B4 & B5 & B6 & B7).
    destruct (train_ok _ _ _ _ _ _ _ _ _ _ init _ _ _ _ Hn' Hy Hm L HF) as (b' & E' & D1 & D2 & D3 & D4 & D5 & D6 & D7).
    rewrite E in H. injection H as <-. exists b'. split; [exact E'|]. split; [congruence|]. split; [congruence|]. split.
    - intros X. unfold predict, with_options, ask. now rewrite B3, B2, D3, D2.
    - intros key. rewrite B7, D7. generalize (under key (metric_name (s_obj (fst (parse_params p)))) (default_names sets names) scores) as u. intros u.
      assert (G : forall i j, (i <= j)%nat -> firstn (List.length (concat (repeat u i))) (concat (repeat u j)) = concat (repeat u i)).
      { intros i j Hij. replace j with (i + (j - i))%nat by lia. rewrite repeat_app, concat_app. rewrite firstn_app, firstn_all, Nat.sub_diag. cbn. now rewrite app_nil_r. }
      assert (G' : forall i j, (i <= j)%nat -> firstn (List.length (concat (repeat u j))) (concat (repeat u i)) = concat (repeat u i)).
      { intros i j Hij. apply firstn_all2. replace j with (i + (j - i))%nat by lia. rewrite repeat_app, concat_app, app_length. lia. }
      destruct (Nat.le_ge_cases (Z.to_nat num) (Z.to_nat num')) as [K|K]; [now rewrite G, G'|now rewrite G', G].
  Qed.
  (** Without rounds Train reports success with a booster that has no model and cannot predict. *)
  Theorem C119_no_rounds h p ds num sets names init : (num <= 0)%Z ->
    exists b, train_api h p ds num sets names init = Some (Ok (h, b)) /\ num_trees h b = Ok 0%Z
      /\ forall opts X, exists e, predict toint32 roundint zthr fuel opts h b X = Some (Err e).
  Proof.
    intros Hn. exists new_booster. split; [exact (train_none _ _ _ _ _ _ _ _ _ _ _ _ Hn)|]. split; [reflexivity|]. intros opts X. eexists. reflexivity.
  Qed.
  (** Only data, label and feature names of the training set and data and label of the validation sets are used: weights,
      categorical features and parameters of the datasets and the initial model have no effect. *)
  Theorem C119_ignored h p ds ds' num sets sets' names init init' : same_input ds ds' -> d_names ds = d_names ds' ->
    Forall2 (fun a b => match a, b with Some a, Some b => same_input a b | None, None => True | _, _ => False end) sets sets' ->
    train_api h p ds num sets names init = train_api h p ds' num sets' names init'.
  Proof. exact (train_same _ _ _ _ _ _ _ _ _ _ _ _ _ _ _). Qed.
  (** Two parameter maps that agree on the parameters of the documented type under the documented names give the same result:
      any other name (an alias) and a value of another type are as if absent. *)
  Theorem C119_parameters h p q ds num sets names init : (forall k, typed k (sget k p) = typed k (sget k q)) ->
    train_api h p ds num sets names init = train_api h q ds num sets names init.
  Proof. intros H. unfold LgbApi.train_api. now rewrite (parse_typed _ _ H). Qed.
  (** Every parameter that is given with its type is the training parameter of that name, the others have their usual values, and
      random_state is the seed if no seed is given. *)
  Theorem C119_settings (p : params N) k v : usual k = Some v ->
    setting k (parse_params p) = match typed k (sget k p) with
                                 | Some w => Some w
                                 | None => if String.eqb k "seed" then match typed "random_state" (sget "random_state" p) with Some w => Some w | None => Some v end
                                           else Some v
                                 end.
  Proof.
    intros H. unfold usual in H. cbn [sget] in H.
    repeat match type of H with
    | (if (k =? ?s)%string then _ else _) = _ => destruct (String.eqb_spec k s) as [->|_]
    end; try discriminate H; injection H as <-; unfold setting, parse_params, int_of, num_of, str_of, bool_of, ints_of; cbn -[nlit];
    repeat match goal with |- context [sget ?k' p] => destruct (sget k' p) as [[]|]; cbn -[nlit] end; reflexivity.
  Qed.
  (** A training set without labels is a panic, and with fewer names than validation sets Train does not succeed. *)
  Theorem C119_panics h p ds num sets names init : (1 <= num)%Z ->
    (d_label ds = None -> train_api h p ds num sets names init = Some Panic)
    /\ (names <> [] -> (List.length names < List.length sets)%nat -> forall h' b, train_api h p ds num sets names init <> Some (Ok (h', b))).
  Proof.
    intros Hn. split.
    - intros Hy. unfold LgbApi.train_api. destruct (Z.to_nat num) as [|k] eqn:Ek; [lia|]. cbn [rounds]. unfold train_one, new_booster. cbn [b_model]. now rewrite Hy.
    - intros Hne HL h' b H. destruct (train_inv _ _ _ _ _ _ _ _ _ _ _ _ _ _ Hn H) as (y & m & scores & _ & _ & _ & L & _). unfold default_names in L. destruct names; [easy|]. lia.
  Qed.
  (** A validation set whose number of columns is not that of the model scores zero. *)
  Theorem C119_wrong_width obj (m : gmodel N) ds sc : Z.of_nat (mcols (d_data ds)) <> m_nfeat m -> scored predicts obj m (Some ds) sc -> sc = n0.
  Proof.
    intros Hw [(P & E & _)|[_ H]]; [|exact H]. unfold predict_model in E. destruct (Z.eqb_spec (Z.of_nat (mcols (d_data ds))) (m_nfeat m)); [contradiction|discriminate].
  Qed.
End C119.
Print Assumptions C119_trained.
Print Assumptions C119_settings.

(** Classes other than 0 and 1 never count as predicted correctly. *)
Theorem C119_third_class obj (label P : matrix RNum) (sc : R) : In obj ["binary"; "multiclass"; "softmax"; "multiclass_logloss"] ->
  (forall t, In t (labels label) -> t <> 0%R /\ t <> 1%R) -> measured obj (Some label) P sc -> sc = 0%R.
Proof.
  intros Ho Hl H. assert (E : sc = (@nofnat RNum (List.length (filter (fun tp => @correct RNum (fst tp) (snd tp)) (combine (labels label) (labels P))))
      / @nofnat RNum (List.length (mrows label)))%num).
  { destruct Ho as [<-|[<-|[<-|[<-|[]]]]]; exact H. }
  assert (F : filter (fun tp => @correct RNum (fst tp) (snd tp)) (combine (labels label) (labels P)) = []).
  { clear -Hl. generalize (labels P). induction (labels label) as [|t l IH]; intros [|p ps]; try reflexivity. cbn [combine filter fst snd].
    destruct (Hl t (or_introl eq_refl)) as [H0 H1]. assert (C : @correct RNum t p = false).
    { unfold correct. destruct (_ <? p)%num; [change (@neqb RNum t n1) with (Reqb t 1)|change (@neqb RNum t n0) with (Reqb t 0)].
      - destruct (Reqb_spec t 1) as [K|K]; [now destruct (H1 K)|reflexivity].
      - destruct (Reqb_spec t 0) as [K|K]; [now destruct (H0 K)|reflexivity]. }
    rewrite C. apply IH. intros u Hu. apply Hl. now right. }
  rewrite F in E. cbn [List.length] in E. rewrite E. rewrite !nofnat_R. change (INR 0) with 0%R. unR. unfold Rdiv. apply Rmult_0_l.
Qed.
Lemma share_of (k n : nat) : (k <= n)%nat -> (0 < n)%nat -> (0 <= INR k / INR n <= 1)%R /\ ((INR k / INR n)%R = 1%R <-> k = n).
Proof.
  intros H1 H2. apply lt_0_INR in H2. apply le_INR in H1. pose proof (pos_INR k). split; [split|split].
  - apply Rmult_le_pos; [assumption|left; now apply Rinv_0_lt_compat].
  - apply (Rmult_le_reg_r (INR n)); [exact H2|]. unfold Rdiv. rewrite Rmult_assoc, Rinv_l by lra. lra.
  - intros K. apply INR_eq. apply (Rmult_eq_reg_r (/ INR n)); [|apply Rinv_neq_0_compat; lra]. rewrite Rinv_r by lra. exact K.
  - intros ->. field. lra.
Qed.
(** A set whose rows are all correct scores one, the largest value there is; so under the names "binary_logloss" and
    "multi_logloss" larger is better. *)
Theorem C119_all_correct obj (label P : matrix RNum) (sc : R) : In obj ["binary"; "multiclass"; "softmax"; "multiclass_logloss"] ->
  mrows label <> [] -> List.length (mrows P) = List.length (mrows label) ->
  measured obj (Some label) P sc -> (0 <= sc <= 1)%R /\ (sc = 1%R <-> Forall2 (fun t p => @correct RNum t p = true) (labels label) (labels P)).
Proof.
  intros Ho Hne HL H. assert (E : sc = (INR (List.length (filter (fun tp => @correct RNum (fst tp) (snd tp)) (combine (labels label) (labels P))))
      / INR (List.length (mrows label)))%R).
  { rewrite <- !nofnat_R. destruct Ho as [<-|[<-|[<-|[<-|[]]]]]; exact H. }
  assert (Ll : List.length (labels label) = List.length (mrows label)) by (unfold labels; now rewrite map_length).
  assert (Lp : List.length (labels P) = List.length (labels label)) by (unfold labels; now rewrite !map_length).
  assert (G : forall (l q : list R), List.length q = List.length l ->
    (List.length (filter (fun tp => @correct RNum (fst tp) (snd tp)) (combine l q)) <= List.length l)%nat
    /\ (List.length (filter (fun tp => @correct RNum (fst tp) (snd tp)) (combine l q)) = List.length l <-> Forall2 (fun t p => @correct RNum t p = true) l q)).
  { induction l as [|t l IH]; intros [|p q] E'; cbn in E'; try discriminate; [split; [cbn; lia|split; [constructor|reflexivity]]|]. injection E' as E'.
    destruct (IH q E') as [I1 I2]. cbn [combine filter fst snd]. destruct (@correct RNum t p) eqn:C; cbn [List.length]; split; try lia.
    - split; [intros K; constructor; [exact C|apply I2; lia]|intros K; inversion K; subst; f_equal; now apply I2].
    - split; [lia|]. intros K. inversion K; subst. congruence. }
  destruct (G (labels label) (labels P) Lp) as [G1 G2]. set (k := List.length (filter _ _)) in *. rewrite <- Ll in E.
  assert (Hpos : (0 < List.length (labels label))%nat) by (rewrite Ll; destruct (mrows label); [easy|cbn; lia]).
  destruct (share_of k (List.length (labels label)) G1 Hpos) as [S1 S2]. rewrite E. split; [exact S1|]. rewrite <- G2. exact S2.
Qed.
Print Assumptions C119_all_correct.

(** The trainer of the package makes as many trees as the parameter "num_iterations" says; the number of rounds given to Train
    plays no role.  Labels are read from the first column only. *)
Section C119Trees.
  Context {N : Num}.
  Local Open Scope num_scope.
  Variables toint roundint toint32 : N -> Z.
  Variable pow : N -> N -> N.
  Variables floori ceili : N -> Z.
  Variables (sortf : list N -> list N) (sortr : list (N * bin N) -> list (N * bin N)).
  Variable sampled : N -> N -> Z -> Z -> bool -> nat -> nat -> nat -> list nat.
  Variable zthr : N.
  Variable fuel : nat.
  Notation real := (real_trainer toint pow floori ceili sortf sortr sampled fuel).
  Theorem C119_trees h p ds num sets names init h' b : (1 <= num)%Z -> train_api real toint32 roundint zthr fuel h p ds num sets names init = Some (Ok (h', b)) ->
    num_trees h' b = Ok (Z.max 0 (match sget "num_iterations" p with Some (VInt k) => if (k =? 0)%Z then 100 else k | _ => 100 end)) /\ b_cur b = num.
  Proof.
    intros Hn H. destruct (C119_trained _ _ _ _ _ _ _ _ _ _ _ _ _ _ Hn H) as (y & m & scores & Hy & Hm & _ & _ & _ & _ & Ht & Hc & _).
    split; [|exact Hc]. rewrite Ht. f_equal. exact (real_trees _ _ _ _ _ _ _ _ _ _ _ _ Hm).
  Qed.
  (** Only the first column of the labels is learned. *)
  Theorem C119_first_column h p ds ds' y y' num names init : d_data ds = d_data ds' -> d_names ds = d_names ds' ->
    d_label ds = Some y -> d_label ds' = Some y' -> labels y = labels y' ->
    train_api real toint32 roundint zthr fuel h p ds num [] names init = train_api real toint32 roundint zthr fuel h p ds' num [] names init.
  Proof.
    intros E1 E2 Ey Ey' El. unfold LgbApi.train_api. generalize 0%Z as iter. generalize (h, @new_booster N) as st. generalize (match names with [] => map (fun i => append "valid_" (show_int (Z.of_nat i))) (seq 0 (List.length (@nil (option (dataset N))))) | _ => names end) as nms.
    intros nms st iter.
    assert (G : forall k it s, rounds real toint32 roundint zthr fuel (parse_params p) ds [] nms k it s = rounds real toint32 roundint zthr fuel (parse_params p) ds' [] nms k it s).
    { induction k as [|k IH]; intros it [hh bb]; cbn [rounds]; [reflexivity|].
      assert (E : train_one real (parse_params p) ds (hh, bb) = train_one real (parse_params p) ds' (hh, bb)).
      { unfold train_one. rewrite Ey, Ey', E1, E2. unfold real_trainer. now rewrite El. }
      rewrite E. destruct (train_one real (parse_params p) ds' (hh, bb)) as [[[h1 b1]|e|]|]; auto. cbn [evaluate_sets]. apply IH. }
    now rewrite G.
  Qed.
End C119Trees.
Print Assumptions C119_trees.

(** ** Examples *)
Definition qtoint (x : Q) : Z := (Qnum x / Zpos (Qden x))%Z.
(** A trainer that learns a constant. *)
Definition ex_trainer (s : settings QNum * (QNum * QNum)) (X y : matrix QNum) : option (res (gmodel QNum)) :=
  Some (Ok (@mkgm QNum (s_obj (fst s)) 1 0 0 (1 # 10)%Q [] (Z.of_nat (mcols X)) (nth 0 (labels y) 0%Q))).
Definition train_summary (r : option (res (heap QNum * booster QNum))) (key : string) : option (res (list Q * Z)) :=
  match r with Some (Ok (h, b)) => Some (Ok (evals_of key b, b_best b)) | Some (Err e) => Some (Err e) | Some Panic => Some Panic | None => None end.
Definition ex_valid : dataset QNum := @mkds QNum ex_data (Some (@mkmat QNum 1 [[1]; [3]; [2]]%Q)) None ["a"; "b"] [] [] 3 2 false 0 true.
Example C119_ex_scores : train_summary (@train_api QNum ex_trainer qtoint qtoint 0%Q 5 [] [] ex_ds 2 [Some ex_valid; None] [] None) "valid_0-l2"
  = Some (Ok ([(14 # 3)%Q; (14 # 3)%Q], 2%Z)).
Proof. vm_compute. reflexivity. Qed.
Example C119_ex_none : train_summary (@train_api QNum ex_trainer qtoint qtoint 0%Q 5 [] [] ex_ds 0 [Some ex_valid] [] None) "valid_0-l2" = Some (Ok ([], 0%Z)).
Proof. vm_compute. reflexivity. Qed.
Example C119_ex_same_name : train_summary (@train_api QNum ex_trainer qtoint qtoint 0%Q 5 [] [] ex_ds 2 [Some ex_valid; Some ex_ds] ["v"; "v"] None) "v-l2"
  = Some (Ok ([(14 # 3)%Q; (2 # 3)%Q; (14 # 3)%Q; (2 # 3)%Q], 2%Z)).
Proof. vm_compute. reflexivity. Qed.
(** "num_boost_round", "n_estimators" or an int64-like value do not change anything. *)
Example C119_ex_alias : @typed QNum "n_estimators" (Some (VInt 5)) = None /\ @typed QNum "num_iterations" (Some (@VNum QNum 5%Q)) = None
  /\ @typed QNum "num_iterations" (Some (VInt 5)) = Some (VInt 5).
Proof. repeat split. Qed.
Definition ex_params : params QNum := [("num_iterations", VInt 2); ("min_data_in_leaf", VInt 1); ("learning_rate", @VNum QNum (1 # 2)%Q); ("num_leaves", VInt 2)].
Definition ex_real := @real_trainer QNum qtoint (fun x _ => x) qtoint qtoint (fun l => l) (fun l => l) (fun _ _ _ _ _ _ n _ => seq 0 n) 9.
Definition trees_summary (r : option (res (heap QNum * booster QNum))) : option (res Z * Z) :=
  match r with Some (Ok (h, b)) => Some (num_trees h b, b_cur b) | _ => None end.
Example C119_ex_trees : trees_summary (@train_api QNum ex_real qtoint qtoint 0%Q 9 [] ex_params ex_ds 7 [] [] None) = Some (Ok 2%Z, 7%Z).
Proof. vm_compute. reflexivity. Qed.
(** The parameter numBoostRound does not say how many trees there are. *)
Theorem C119_rounds_refuted : exists p ds, match @train_api QNum ex_real qtoint qtoint 0%Q 9 [] p ds 7 [] [] None with
  | Some (Ok (h, b)) => num_trees h b = Ok 2%Z | _ => False end.
Proof. exists ex_params, ex_ds. vm_compute. reflexivity. Qed.

(** * C120 QuickTrain *)
Section C120.
  Context {N : Num} (L : lt_laws N) (C : cmp_laws N).
  Local Open Scope num_scope.
  Variable trainer : settings N * (N * N) -> matrix N -> matrix N -> option (res (gmodel N)).
  Variables toint32 roundint : N -> Z.
  Variable zthr : N.
  Variable fuel : nat.
  Notation quick := (quick_train trainer toint32 roundint zthr fuel).
  Notation train_api := (train_api trainer toint32 roundint zthr fuel).
  Definition usable (X y : matrix N) : Prop := nrows X <> 0%nat /\ mcols X <> 0%nat /\ nrows y = nrows X.

  (** QuickTrain writes into the map it is given: afterwards it has an objective and a number of iterations.  An objective that
      was given is kept; otherwise it is "binary" exactly for one column of at least eight zeros and ones (or at least four that
      are all the same), "multiclass" exactly for three or more columns, and "regression" in all other cases. *)
  Theorem C120_objective h X y p : usable X y -> let p' := fst (quick h (Some X) (Some y) (Some p)) in
    (forall o, sget "objective" p = Some o -> sget "objective" p' = Some o)
    /\ (sget "objective" p = None ->
         (sget "objective" p' = Some (VStr "binary") <-> mcols y = 1%nat /\ looks_binary (labels y))
         /\ (sget "objective" p' = Some (VStr "multiclass") <-> (3 <= mcols y)%nat)
         /\ (sget "objective" p' = Some (VStr "multiclass") -> sget "num_class" p' = Some (VInt (Z.of_nat (mcols y))))
         /\ (sget "objective" p' <> Some (VStr "binary") -> sget "objective" p' <> Some (VStr "multiclass") -> sget "objective" p' = Some (VStr "regression"))).
  Proof.
    intros (U1 & U2 & U3). cbn zeta. unfold quick_train. destruct (new_dataset_ok X (Some y) [] U1 U2) as [ds Hds]; [now intros z [= <-]|]. rewrite Hds. cbn [fst].
    destruct (new_dataset_inv _ _ _ _ Hds) as (_ & _ & _ & _ & _ & _ & _ & Hc).
    assert (Q : forall k, k <> "num_iterations" -> sget k (quick_params ds p) = sget k (match sget "objective" p with
             | Some _ => p
             | None => if d_binary ds then sput "objective" (VStr "binary") p
                       else if (2 <? d_classes ds)%Z then sput "num_class" (VInt (d_classes ds)) (sput "objective" (VStr "multiclass") p)
                       else sput "objective" (VStr "regression") p
             end)).
    { intros k Hk. unfold quick_params. destruct (sget "num_iterations" _); [reflexivity|]. now rewrite sget_put_other. }
    rewrite !Q by discriminate. split; [intros o Ho; now rewrite Ho|]. intros Ho. rewrite Ho.
    assert (Hne : labels y <> []) by (unfold labels; intros E; apply map_eq_nil in E; apply U1; rewrite <- U3; unfold nrows; now rewrite E).
    assert (P1 : forall v, sget "objective" (sput "num_class" v (sput "objective" (VStr "multiclass") p)) = Some (VStr "multiclass")) by (intros v; rewrite sget_put_other by discriminate; apply sget_put_same).
    destruct (Nat.eqb_spec (mcols y) 1) as [K|K].
    - destruct Hc as [-> ->]. pose proof (detect_spec L C (labels y) Hne) as D. change (first_column y) with (labels y). destruct (detect (labels y)).
      + rewrite !sget_put_same. split; [split; [intros _; split; [exact K|now apply D]|reflexivity]|]. split; [split; [discriminate|lia]|]. split; [discriminate|intros Kb; now destruct (Kb eq_refl)].
      + cbn [Z.ltb Z.compare]. rewrite !sget_put_same. split; [split; [discriminate|intros [_ G]; apply D in G; discriminate]|]. split; [split; [discriminate|lia]|]. split; [discriminate|reflexivity].
    - destruct Hc as [-> ->]. destruct (Z.ltb_spec 2 (Z.of_nat (mcols y))) as [M|M].
      + rewrite !P1, !sget_put_same. split; [split; [discriminate|lia]|]. split; [split; [lia|reflexivity]|]. split; [reflexivity|intros _ Kb; now destruct (Kb eq_refl)].
      + rewrite !sget_put_same. split; [split; [discriminate|lia]|]. split; [split; [discriminate|lia]|]. split; [discriminate|reflexivity].
  Qed.
  (** The number of iterations is 100 if it is not given, and is both the parameter and the number of rounds: given as anything but
      an int it is a panic, below one it is success without a model; else QuickTrain is Train. *)
  Theorem C120_iterations h X y p : usable X y -> let p' := fst (quick h (Some X) (Some y) (Some p)) in
    (sget "num_iterations" p = None -> sget "num_iterations" p' = Some (VInt 100))
    /\ (forall v, sget "num_iterations" p = Some v -> sget "num_iterations" p' = Some v)
    /\ ((forall k, sget "num_iterations" p' <> Some (VInt k)) -> snd (quick h (Some X) (Some y) (Some p)) = Some Panic)
    /\ (forall k, sget "num_iterations" p' = Some (VInt k) -> (k <= 0)%Z -> exists b, snd (quick h (Some X) (Some y) (Some p)) = Some (Ok (h, b)) /\ num_trees h b = Ok 0%Z)
    /\ (forall k, sget "num_iterations" p' = Some (VInt k) -> exists ds, new_dataset (Some X) (Some y) [] = Ok ds /\ snd (quick h (Some X) (Some y) (Some p)) = train_api h p' ds k [] [] None).
  Proof.
    intros (U1 & U2 & U3). cbn zeta. unfold quick_train. destruct (new_dataset_ok X (Some y) [] U1 U2) as [ds Hds]; [now intros z [= <-]|]. rewrite Hds. cbn [fst snd].
    assert (Q : sget "num_iterations" (quick_params ds p) = match sget "num_iterations" p with Some v => Some v | None => Some (VInt 100) end).
    { assert (F : forall q : params N, sget "num_iterations" q = sget "num_iterations" p ->
        sget "num_iterations" (match sget "num_iterations" q with Some _ => q | None => sput "num_iterations" (VInt 100) q end)
        = match sget "num_iterations" p with Some v => Some v | None => Some (VInt 100) end).
      { intros q Eq. rewrite <- Eq. destruct (sget "num_iterations" q) eqn:Ev; [exact Ev|apply sget_put_same]. }
      unfold quick_params. apply F. destruct (sget "objective" p); [reflexivity|]. destruct (d_binary ds); [now rewrite sget_put_other|].
      destruct (2 <? d_classes ds)%Z; rewrite !sget_put_other by discriminate; reflexivity. }
    rewrite Q. split; [now intros ->|]. split; [now intros v ->|]. split.
    - intros H. destruct (match sget "num_iterations" p with Some v => Some v | None => Some (VInt 100) end) as [[| | | | k | | | |]|]; try reflexivity. now destruct (H k).
    - split; intros k -> ; [|exists ds; auto]. intros Hk. exists new_booster. split; [exact (train_none _ _ _ _ _ _ _ _ _ _ _ _ Hk)|reflexivity].
  Qed.
  (** A map used before keeps the objective found then, whatever the new labels are. *)
  Theorem C120_shared_map h h2 X y X2 y2 p : usable X y -> usable X2 y2 -> let p' := fst (quick h (Some X) (Some y) (Some p)) in
    sget "objective" (fst (quick h2 (Some X2) (Some y2) (Some p'))) = sget "objective" p'.
  Proof.
    intros U U2 p'. assert (E : exists o, sget "objective" p' = Some o).
    { destruct (C120_objective h X y p U) as [K1 K2]. fold p' in K1, K2. destruct (sget "objective" p) as [o|] eqn:Eo; [exists o; now apply K1|].
      destruct (K2 eq_refl) as (_ & _ & _ & K). destruct (sget "objective" p') as [o|]; [eauto|]. exfalso. assert (None = Some (@VStr N "regression")) by (apply K; discriminate). discriminate. }
    destruct E as [o Eo]. rewrite Eo. exact (proj1 (C120_objective h2 X2 y2 p' U2) o Eo).
  Qed.
  (** Without labels QuickTrain panics. *)
  Theorem C120_no_label h X p : nrows X <> 0%nat -> mcols X <> 0%nat -> (sget "num_iterations" p = None \/ exists k, sget "num_iterations" p = Some (VInt k) /\ (1 <= k)%Z) ->
    snd (quick h (Some X) None (Some p)) = Some Panic.
  Proof.
    intros U1 U2 Hk. unfold quick_train. destruct (new_dataset_ok X None [] U1 U2) as [ds Hds]; [discriminate|]. rewrite Hds. cbn [snd].
    destruct (new_dataset_inv _ _ _ _ Hds) as (_ & _ & _ & El & _). destruct (sget "num_iterations" (quick_params ds p)) as [[| | | | k | | | |]|] eqn:E; try reflexivity.
    destruct (Z_le_gt_dec 1 k) as [K|K]; [exact (proj1 (C119_panics trainer toint32 roundint zthr fuel h (quick_params ds p) ds k [] [] None K) El)|exfalso].
    unfold quick_params in E.
    assert (F : forall q : params N, sget "num_iterations" q = sget "num_iterations" p -> sget "num_iterations" (match sget "num_iterations" q with Some _ => q | None => sput "num_iterations" (VInt 100) q end) = Some (VInt k) -> False).
    { intros q Eq. destruct (sget "num_iterations" q) as [v|] eqn:Ev; [|rewrite sget_put_same; intros [= <-]; lia]. rewrite Ev. intros [= ->].
      destruct Hk as [Hk|(k' & Hk & Hk')]; [congruence|]. rewrite Hk in Eq. injection Eq as <-. lia. }
    destruct (sget "objective" p); [exact (F p eq_refl E)|]. destruct (d_binary ds); [refine (F _ _ E); now rewrite sget_put_other|].
    destruct (2 <? d_classes ds)%Z; (refine (F _ _ E); now rewrite !sget_put_other by discriminate).
  Qed.
End C120.
Print Assumptions C120_objective.
Definition C120_objective_real := @C120_objective RNum lt_laws_R cmp_laws_R.
Definition C120_objective_float fexp flog := @C120_objective (FNum fexp flog) (lt_laws_F fexp flog) (cmp_laws_F fexp flog).
Print Assumptions C120_objective_float.

(** With the trainer of the package, the columns of one-hot labels after the first are not learned. *)
Theorem C120_one_hot {N : Num} (toint roundint toint32 : N -> Z) pow floori ceili sortf sortr sampled zthr fuel h (X y y' : matrix N) p :
  usable X y -> usable X y' -> mcols y = mcols y' -> mcols y <> 1%nat -> labels y = labels y' ->
  quick_train (real_trainer toint pow floori ceili sortf sortr sampled fuel) toint32 roundint zthr fuel h (Some X) (Some y) p
  = quick_train (real_trainer toint pow floori ceili sortf sortr sampled fuel) toint32 roundint zthr fuel h (Some X) (Some y') p.
Proof.
  intros (U1 & U2 & U3) (_ & _ & U3') Hc H1 El. unfold quick_train. set (p0 := match p with Some p => p | None => [] end).
  destruct (new_dataset_ok X (Some y) [] U1 U2) as [ds Hds]; [now intros z [= <-]|]. destruct (new_dataset_ok X (Some y') [] U1 U2) as [ds' Hds']; [now intros z [= <-]|].
  rewrite Hds, Hds'. destruct (new_dataset_inv _ _ _ _ Hds) as (_ & _ & D1 & D2 & _ & _ & _ & D3). destruct (new_dataset_inv _ _ _ _ Hds') as (_ & _ & E1 & E2 & _ & _ & _ & E3).
  destruct (Nat.eqb_spec (mcols y) 1) as [|_]; [contradiction|]. rewrite <- Hc in E3. destruct (Nat.eqb_spec (mcols y) 1) as [|_]; [contradiction|].
  destruct D3 as [D3 D4], E3 as [E3 E4].
  assert (Q : quick_params ds p0 = quick_params ds' p0) by (unfold quick_params; now rewrite D3, D4, E3, E4). rewrite Q.
  destruct (sget "num_iterations" (quick_params ds' p0)) as [[| | | | k | | | |]|]; try reflexivity. f_equal.
  apply (C119_first_column toint roundint toint32 pow floori ceili sortf sortr sampled zthr fuel h (quick_params ds' p0) ds ds' y y' k [] None); auto; [congruence|].
  clear -Hds Hds' U3 U3' Hc H1. unfold new_dataset in *. destruct (_ || _); [discriminate|]. unfold validate_label in *. cbn [d_label d_n] in *.
  rewrite U3 in Hds. rewrite U3' in Hds'. rewrite Nat.eqb_refl in *. cbn [negb] in *. rewrite <- Hc in Hds'. destruct (Nat.eqb_spec (mcols y) 1); [contradiction|].
  cbn [bind fold_left] in *. injection Hds as <-. injection Hds' as <-. reflexivity.
Qed.
Print Assumptions C120_one_hot.

(** ** Examples *)
Definition ex_bin (n : nat) : matrix QNum := @mkmat QNum 1 (map (fun i => [if Nat.even i then 0%Q else 1%Q]) (seq 0 n)).
Definition ex_rows (n : nat) : matrix QNum := @mkmat QNum 1 (map (fun i => [inject_Z (Z.of_nat i)]) (seq 0 n)).
Definition objective_of (n : nat) (y : matrix QNum) (p : params QNum) : option (value QNum) :=
  sget "objective" (fst (@quick_train QNum ex_trainer qtoint qtoint 0%Q 5 [] (Some (ex_rows n)) (Some y) (Some p))).
Example C120_ex_eight : objective_of 8 (ex_bin 8) [] = Some (VStr "binary") /\ objective_of 7 (ex_bin 7) [] = Some (VStr "regression").
Proof. split; vm_compute; reflexivity. Qed.
Example C120_ex_shared : objective_of 8 (ex_bin 8) (fst (@quick_train QNum ex_trainer qtoint qtoint 0%Q 5 [] (Some (ex_rows 8)) (Some (ex_rows 8)) (Some []))) = Some (VStr "regression").
Proof. vm_compute. reflexivity. Qed.
Example C120_ex_hot : objective_of 1 (@mkmat QNum 3 [[0; 1; 0]]%Q) [] = Some (VStr "multiclass").
Proof. vm_compute. reflexivity. Qed.
Example C120_ex_float : snd (@quick_train QNum ex_trainer qtoint qtoint 0%Q 5 [] (Some (ex_rows 8)) (Some (ex_bin 8)) (Some [("num_iterations", @VNum QNum 10%Q)])) = Some Panic.
Proof. vm_compute. reflexivity. Qed.
(** Seven zeros and ones are not seen as classes. *)
Theorem C120_small_binary_refuted : exists (X y : matrix QNum), usable X y /\ mcols y = 1%nat /\ (forall v, In v (labels y) -> v = 0%Q \/ v = 1%Q)
  /\ sget "objective" (fst (@quick_train QNum ex_trainer qtoint qtoint 0%Q 5 [] (Some X) (Some y) (Some []))) = Some (VStr "regression").
Proof.
  exists (ex_rows 7), (ex_bin 7). split; [repeat split; discriminate|]. split; [reflexivity|]. split; [|exact (proj2 C120_ex_eight)].
  intros v Hv. cbn in Hv. decompose [or] Hv; subst; auto; contradiction.
Qed.
