(** C23: copying, exporting and importing model weights. *)
From Coq Require Import String List Arith Bool ZArith QArith Permutation Lia.
From Verif Require Import Base.Num Base.GoRes Base.ListX Base.Mat Model.Linear Model.Weights Spec.Weights Proofs.WeightsP.
Import ListNotations.
Close Scope Q_scope.
Local Open Scope string_scope.
Local Open Scope list_scope.

Section Props.
Context {N : Num}.

(** The clone looks like the original (which is unchanged by cloning). *)
Theorem C23_clone_equal (ord : gomap N -> gomap N) (h : heap N) (w : weights N) :
  any_order ord -> refs_ok h w -> one_each (entries h (w_hyper w)) -> one_each (entries h (w_meta w)) ->
  looks_same h w (fst (clone ord h w)) (snd (clone ord h w)) /\
  looks_same h w (fst (clone ord h w)) w.
Proof.
  intros Ho (R1 & R2 & R3 & R4) M1 M2. unfold looks_same, same_map, clone. cbn [fst snd w_type w_version w_icept w_fitted w_coef w_features w_hyper w_meta].
  split; (split; [reflexivity|]); (split; [reflexivity|]); (split; [reflexivity|]); (split; [reflexivity|]).
  - split; [|split; [|split]].
    + unfold floats at 2. rewrite nth_error_new0. reflexivity.
    + unfold strs at 2. rewrite nth_error_new. reflexivity.
    + intros k. unfold entries at 2. rewrite nth_error_new. cbn. symmetry. apply mget_copy_nil; assumption.
    + intros k. unfold entries at 2. rewrite nth_error_new. cbn. symmetry. apply mget_copy_nil; assumption.
  - split; [|split; [|split]].
    + symmetry. apply floats_app. exact R1.
    + symmetry. apply strs_app. exact R2.
    + intros k. rewrite entries_app by exact R3. reflexivity.
    + intros k. rewrite entries_app by exact R4. reflexivity.
Qed.

Lemma looks_frame (h h' : heap N) (w : weights N) :
  (forall a, In (Some a) [w_coef w; w_features w; w_hyper w; w_meta w] -> nth_error h a = nth_error h' a) ->
  looks_same h w h' w.
Proof.
  intros H. unfold looks_same, same_map.
  assert (E : forall r, In r [w_coef w; w_features w; w_hyper w; w_meta w] ->
                floats h r = floats h' r /\ strs h r = strs h' r /\ entries h r = entries h' r).
  { intros [a|] Hr; [|auto]. unfold floats, strs, entries. rewrite (H a Hr). auto. }
  repeat split; try reflexivity.
  - apply E. cbn. auto.
  - apply E. cbn. auto.
  - intros k. f_equal. apply E. cbn. auto.
  - intros k. f_equal. apply E. cbn. auto.
Qed.

(** Whatever is written afterwards, to whatever objects: what the clone shows depends only on
    the writes to storage made by the cloning, and what the original shows only on the writes
    to storage that existed before. *)
Theorem C23_clone_independent (ord : gomap N -> gomap N) (h : heap N) (w : weights N) (ws : list (write N)) :
  refs_ok h w ->
  let (h1, c) := clone ord h w in
  looks_same (writes h1 ws) c (writes h1 (filter (fun x => negb (older (List.length h) x)) ws)) c /\
  looks_same (writes h1 ws) w (writes h1 (filter (older (List.length h)) ws)) w.
Proof.
  intros (R1 & R2 & R3 & R4). unfold clone.
  split; apply looks_frame; intros a Ha; apply writes_frame; try reflexivity.
  - intros x _ Hx. unfold older. apply negb_true_iff, Nat.ltb_ge. rewrite Hx.
    cbn in Ha. intuition; match goal with H : Some _ = Some _ |- _ => inversion H; lia end.
  - intros x _ Hx. unfold older. apply Nat.ltb_lt. rewrite Hx.
    cbn in Ha. unfold inside in *.
    destruct Ha as [Ha|[Ha|[Ha|[Ha|[]]]]]; rewrite Ha in *; assumption.
Qed.

(** GetParams(true) hands out a map of its own with the same entries. *)
Theorem C23_params_copy (ord : gomap N -> gomap N) (h : heap N) (e : base) (ws : list (write N)) :
  any_order ord -> inside h (b_hyper e) -> one_each (entries h (b_hyper e)) ->
  let (h1, a) := get_params ord h e true in
  same_map h (b_hyper e) h1 (Some a) /\
  (forallb (fun x => negb (older (List.length h) x)) ws = true ->
   entries (writes h1 ws) (b_hyper e) = entries h (b_hyper e)).
Proof.
  intros Ho R M. unfold get_params. destruct (b_hyper e) as [a|] eqn:E; cbn [negb].
  - split.
    + intros k. unfold entries at 2. rewrite nth_error_new0. cbn. symmetry. apply mget_copy_nil; assumption.
    + intros F. assert (K : nth_error (writes (h ++ [OMap (copy_into ord (entries h (Some a)) [])]) ws) a = nth_error h a).
      { rewrite (writes_frame (older (List.length h)) ws _ (h ++ [OMap (copy_into ord (entries h (Some a)) [])]) a).
        - replace (filter (older (List.length h)) ws) with (@nil (write N)).
          + cbn. apply nth_error_app1. exact R.
          + symmetry. clear - F. induction ws as [|x ws IH]; [reflexivity|]. cbn in *. apply andb_prop in F. destruct F as [F1 F2].
            apply negb_true_iff in F1. rewrite F1. apply IH. exact F2.
        - intros x _ Hx. unfold older. apply Nat.ltb_lt. rewrite Hx. exact R.
        - reflexivity. }
      exact (f_equal (fun o => match o with Some (OMap m) => m | _ => [] end) K).
  - split; [|reflexivity]. intros k. unfold entries at 2. rewrite nth_error_new0. reflexivity.
Qed.

(** Clone of a base estimator has parameters of its own: writes to storage that existed before never
    reach the clone, writes to the clone's never reach the original. *)
Theorem C23_base_clone (ord : gomap N -> gomap N) (h : heap N) (e : base) (ws : list (write N)) :
  any_order ord -> inside h (b_hyper e) -> one_each (entries h (b_hyper e)) ->
  let (h1, e') := base_clone ord h e in
  b_fitted e' = b_fitted e /\ b_type e' = b_type e /\ b_version e' = b_version e /\
  same_map h (b_hyper e) h1 (b_hyper e') /\
  (forallb (fun x => negb (older (List.length h) x)) ws = true -> entries (writes h1 ws) (b_hyper e) = entries h (b_hyper e)) /\
  (forallb (older (List.length h)) ws = true -> entries (writes h1 ws) (b_hyper e') = entries h1 (b_hyper e')).
Proof.
  intros Ho R M. unfold base_clone. cbn [b_fitted b_type b_version b_hyper]. set (c := copy_into ord (entries h (b_hyper e)) []).
  assert (NF : forall f a, (forall x, target x = a -> f x = true) -> forallb (fun x => negb (f x)) ws = true ->
    nth_error (writes (h ++ [OMap c]) ws) a = nth_error (h ++ [OMap c]) a).
  { intros f a Hf F. rewrite (writes_frame f ws _ (h ++ [OMap c]) a); [|intros x _ Hx; apply Hf; exact Hx|reflexivity].
    replace (filter f ws) with (@nil (write N)); [reflexivity|]. symmetry. clear - F. induction ws as [|x ws IH]; [reflexivity|].
    cbn in *. apply andb_prop in F. destruct F as [F1 F2]. apply negb_true_iff in F1. rewrite F1. apply IH. exact F2. }
  split; [reflexivity|]. split; [reflexivity|]. split; [reflexivity|]. split; [|split].
  - intros k. unfold entries at 2. rewrite nth_error_new0. cbn. symmetry. apply mget_copy_nil; assumption.
  - intros F. destruct (b_hyper e) as [a|]; [|reflexivity]. cbn in R.
    assert (K : nth_error (writes (h ++ [OMap c]) ws) a = nth_error h a).
    { rewrite (NF (older (List.length h)) a); [apply nth_error_app1; exact R | | exact F]. intros x Hx. unfold older. apply Nat.ltb_lt. rewrite Hx. exact R. }
    exact (f_equal (fun o => match o with Some (OMap m) => m | _ => [] end) K).
  - intros F. assert (K : nth_error (writes (h ++ [OMap c]) ws) (List.length h) = nth_error (h ++ [OMap c]) (List.length h)).
    { apply (NF (fun x => negb (older (List.length h) x))).
      - intros x Hx. unfold older. rewrite Hx, Nat.ltb_irrefl. reflexivity.
      - clear - F. induction ws as [|x ws IH]; [reflexivity|]. cbn in *. apply andb_prop in F. destruct F as [F1 F2]. rewrite F1. cbn. apply IH. exact F2. }
    exact (f_equal (fun o => match o with Some (OMap m) => m | _ => [] end) K).
Qed.

(** Importing: another model type (or nil) is rejected and nothing changes; otherwise version
    and every imported parameter are taken over, parameters the weights do not mention stay,
    and the model is fitted if it was or the weights are. *)
Theorem C23_base_import (ord : gomap N -> gomap N) (h : heap N) (e : base) (w : option (weights N)) :
  any_order ord ->
  (forall a, b_hyper e = Some a -> exists m, nth_error h a = Some (OMap m)) ->
  match w with
  | None => exists c, base_import ord h e w = (h, e, Err (EOther c))
  | Some w' =>
      (w_type w' <> b_type e -> exists c, base_import ord h e w = (h, e, Err (EOther c))) /\
      (w_type w' = b_type e -> inside h (w_hyper w') -> one_each (entries h (w_hyper w')) ->
       exists h' e', base_import ord h e w = (h', e', Ok tt) /\
         b_fitted e' = (b_fitted e || w_fitted w')%bool /\ b_version e' = w_version w' /\ b_type e' = b_type e /\
         (forall k, mget k (entries h' (b_hyper e')) =
                    match mget k (entries h (w_hyper w')) with Some v => Some v | None => mget k (entries h (b_hyper e)) end) /\
         (forall a, a < List.length h -> b_hyper e <> Some a -> nth_error h' a = nth_error h a))
  end.
Proof.
  intros Ho T. destruct w as [w|]; [|eexists; reflexivity]. unfold base_import. split.
  - intros K. apply String.eqb_neq in K. rewrite K. eexists. reflexivity.
  - intros K R M. rewrite K, String.eqb_refl. cbn [negb]. unfold set_params. cbn [b_hyper b_fitted b_type b_version].
    destruct (b_hyper e) as [a|] eqn:E.
    + destruct (T a eq_refl) as [m Hm].
      eexists. eexists. split; [reflexivity|]. cbn [b_fitted b_version b_type b_hyper].
      split; [reflexivity|]. split; [reflexivity|]. split; [reflexivity|]. split.
      * intros k. unfold entries at 1. rewrite nth_error_upd_same, Hm. cbn [option_map].
        rewrite mget_copy by assumption. unfold entries at 3. rewrite Hm. reflexivity.
      * intros a' _ Hne. apply nth_error_upd_other. congruence.
    + eexists. eexists. split; [reflexivity|]. cbn [b_fitted b_version b_type b_hyper].
      split; [reflexivity|]. split; [reflexivity|]. split; [reflexivity|]. split.
      * intros k. unfold entries at 1. rewrite nth_error_upd_same, nth_error_new0. cbn [option_map nth_error].
        rewrite mget_copy by assumption. reflexivity.
      * intros a' Ha _. rewrite nth_error_upd_other by lia. apply nth_error_app1. exact Ha.
Qed.

(** Exporting a fitted model and importing into a new one of the same type gives the same
    parameters, version and fittedness; the parameters are a copy. *)
Theorem C23_base_round_trip (ord : gomap N -> gomap N) (h : heap N) (e fresh : base) :
  any_order ord -> inside h (b_hyper e) -> one_each (entries h (b_hyper e)) ->
  b_type fresh = b_type e -> b_hyper fresh = None ->
  (b_fitted e = false -> exists c, base_export ord h e = Err (EOther c)) /\
  (b_fitted e = true ->
   exists h1 w h2 e', base_export ord h e = Ok (h1, w) /\ base_import ord h1 fresh (Some w) = (h2, e', Ok tt) /\
     b_fitted e' = true /\ b_version e' = b_version e /\ b_type e' = b_type e /\
     same_map h (b_hyper e) h2 (b_hyper e') /\ (b_hyper e' <> b_hyper e)).
Proof.
  intros Ho R M Ht Hf. unfold base_export. split; intros F; rewrite F; cbn [negb]; [eexists; reflexivity|].
  destruct (get_params ord h e true) as [h0 a] eqn:G.
  assert (K : same_map h (b_hyper e) h0 (Some a) /\ a < List.length h0 /\ List.length h <= a /\ one_each (entries h0 (Some a))).
  { pose proof (C23_params_copy ord h e [] Ho R M) as K. rewrite G in K. destruct K as [K _]. split; [exact K|].
    assert (D : forall l, one_each l -> forall d, one_each d -> one_each (fold_left (fun m (p : string * val N) => mput (fst p) (snd p) m) l d)).
    { clear. induction l as [|x l IH]; intros H d Hd; [exact Hd|]. cbn. inversion H; subst. apply IH; [assumption|]. apply one_each_mput. exact Hd. }
    unfold get_params in G. destruct (b_hyper e) as [b|]; cbn [negb] in G; inversion G; subst; rewrite app_length; cbn [List.length];
      (split; [lia|]); (split; [lia|]); unfold entries at 1; rewrite nth_error_new0; cbn [nth_error].
    - apply D; [|constructor]. unfold one_each in *. eapply Permutation_NoDup; [apply Permutation_map, Permutation_sym, Ho|exact M].
    - constructor. }
  destruct K as (K & A1 & A2 & A3).
  pose proof (C23_base_import ord (h0 ++ [OMap []]) fresh
    (Some (mkw (b_type e) (b_version e) None n0 None (Some a) (Some (List.length h0)) true)) Ho) as I.
  assert (I0 : forall a0, b_hyper fresh = Some a0 -> exists m, nth_error (h0 ++ [OMap []]) a0 = Some (OMap m)) by (rewrite Hf; discriminate).
  destruct (I I0) as [_ I1].
  assert (EA : entries (h0 ++ [OMap []]) (Some a) = entries h0 (Some a)) by (apply entries_app; exact A1).
  destruct I1 as (h2 & e' & I2 & I3 & I4 & I5 & I6 & _); cbn [w_type w_hyper w_version w_fitted] in *.
  { symmetry. exact Ht. }
  { cbn. rewrite app_length. cbn. lia. }
  { rewrite EA. exact A3. }
  exists (h0 ++ [OMap []]), (mkw (b_type e) (b_version e) None n0 None (Some a) (Some (List.length h0)) true), h2, e'.
  split; [reflexivity|]. split; [exact I2|]. split; [rewrite I3; apply orb_true_r|]. split; [exact I4|]. split; [congruence|]. split.
  - intros k. rewrite (I6 k), EA, Hf. rewrite <- (K k). cbn [entries mget]. destruct (mget k (entries h (b_hyper e))); reflexivity.
  - unfold base_import, set_params in I2. cbn [w_type] in I2. rewrite Ht, String.eqb_refl in I2. cbn [negb b_hyper b_fitted b_type b_version] in I2.
    rewrite Hf in I2. inversion I2; subst. cbn [b_hyper]. intros Q. rewrite <- Q in R. cbn in R. rewrite app_length in R. cbn in R. lia.
Qed.

(** What the base implementation exports never passes Validate. *)
Theorem C23_base_export_invalid (ord : gomap N -> gomap N) (h h1 : heap N) (e : base) (w : weights N) :
  base_export ord h e = Ok (h1, w) -> exists c, validate h1 w = Err (EOther c).
Proof.
  unfold base_export. destruct (b_fitted e) eqn:F; cbn [negb]; [|discriminate].
  destruct (get_params ord h e true) as [h0 a]. intros E. inversion E; subst. unfold validate. cbn [w_type w_version w_fitted w_coef].
  destruct (b_type e =? "")%string; [eexists; reflexivity|]. destruct (b_version e =? "")%string; [eexists; reflexivity|].
  cbn. eexists. reflexivity.
Qed.

(** Validate accepts exactly the named, versioned records that have coefficients if and only
    if they are fitted. *)
Theorem C23_validate (h : heap N) (w : weights N) :
  validate h w = Ok tt <->
  w_type w <> "" /\ w_version w <> "" /\ (w_fitted w = true <-> floats h (w_coef w) <> []).
Proof.
  unfold validate.
  destruct (w_type w =? "")%string eqn:E1; [apply String.eqb_eq in E1; split; [discriminate|tauto]|apply String.eqb_neq in E1].
  destruct (w_version w =? "")%string eqn:E2; [apply String.eqb_eq in E2; split; [discriminate|tauto]|apply String.eqb_neq in E2].
  destruct (w_fitted w), (floats h (w_coef w)) as [|x l]; cbn; split; try discriminate; try (intros _; intuition congruence); try reflexivity;
    intros (_ & _ & K); exfalso; intuition congruence.
Qed.

(** *** linear_model.LinearRegression *)
Variable hash : list N -> string.
Variable toint : N -> Z.
Definition counts_exact (n : nat) : Prop := toint (nofZ (Z.of_nat n)) = Z.of_nat n.

Lemma get_count_exact k m n old : mget k m = Some (VFloat (nofZ (Z.of_nat n))) -> counts_exact n -> get_count toint k m old = n.
Proof. intros H E. unfold get_count. rewrite H, E. apply Nat2Z.id. Qed.

Lemma sk_predict_ext (a b : sklr N) X :
  sk_fitted a = sk_fitted b -> sk_nfeat a = sk_nfeat b -> sk_coef a = sk_coef b -> sk_intercept a = sk_intercept b ->
  sk_predict a X = sk_predict b X.
Proof. intros E1 E2 E3 E4. unfold sk_predict, sk_row. rewrite E1, E2, E3, E4. reflexivity. Qed.

(** By way of JSON, a fitted model comes back with everything but n_jobs, whatever model it is
    imported into, and predicts the same. *)
Theorem C23_json_round_trip (lr lr0 : sklr N) (w : list N) :
  sk_fitted lr = true -> sk_coef lr = Some w ->
  forallb (fun x => negb (nisnan x) && negb (nisinf x)) (sk_intercept lr :: w) = true ->
  counts_exact (sk_nfeat lr) -> counts_exact (sk_nsamp lr) -> counts_exact (sk_rank lr) ->
  exists wt wt', sk_export hash lr = Ok wt /\ through_json wt = Ok wt' /\
    let lr' := mksk true (sk_nfeat lr) (sk_nsamp lr) (sk_icpt lr) (sk_normalize lr) (sk_copyx lr) (sk_njobs lr0) (sk_positive lr)
                 (sk_coef lr) (sk_intercept lr) (sk_nfeat lr) (sk_nsamp lr) (sk_rank lr) in
    sk_import hash toint lr0 (Some wt') = (lr', Ok tt) /\
    (forall X, sk_predict lr' X = sk_predict lr X).
Proof.
  intros F Hw Fin C1 C2 C3. unfold sk_export. rewrite F, Hw. cbn [negb].
  eexists. eexists. split; [reflexivity|]. unfold through_json. cbn [fw_icept fw_coef]. rewrite Fin.
  split; [reflexivity|]. cbv zeta. split.
  - unfold sk_import. cbn [fw_type fw_hyper fw_meta fw_coef fw_icept]. rewrite String.eqb_refl. cbn [negb].
    set (m := map _ [("n_features", _); _; _; _]).
    rewrite (get_count_exact "n_features" m (sk_nfeat lr)) by (reflexivity || assumption).
    rewrite (get_count_exact "n_samples" m (sk_nsamp lr)) by (reflexivity || assumption).
    rewrite (get_count_exact "rank" m (sk_rank lr)) by (reflexivity || assumption).
    change (mget "checksum" m) with (Some (@VStr N (hash w))). cbn iota beta. rewrite String.eqb_refl. cbn [negb].
    reflexivity.
  - intros X. apply sk_predict_ext; cbn; auto.
Qed.

(** Handed over in memory, the counts are not taken over (they are int, and the import looks
    for float64): the importing model keeps its own number of features. *)
Theorem C23_memory_round_trip (lr lr0 : sklr N) (w : list N) :
  sk_fitted lr = true -> sk_coef lr = Some w ->
  exists wt, sk_export hash lr = Ok wt /\
    sk_import hash toint lr0 (Some wt) =
    (mksk true (sk_nfeat lr0) (sk_nsamp lr0) (sk_icpt lr) (sk_normalize lr) (sk_copyx lr) (sk_njobs lr) (sk_positive lr)
       (Some w) (sk_intercept lr) (sk_nfeat lr0) (sk_nsamp lr0) (sk_rank lr0), Ok tt).
Proof.
  intros F Hw. unfold sk_export. rewrite F, Hw. cbn [negb].
  eexists. split; [reflexivity|]. unfold sk_import. cbn [fw_type fw_hyper fw_meta fw_coef fw_icept]. rewrite String.eqb_refl. cbn [negb].
  set (m := [("n_features", _); _; _; _]).
  change (mget "checksum" m) with (Some (@VStr N (hash w))). cbn iota beta. rewrite String.eqb_refl. cbn [negb]. reflexivity.
Qed.

(** So the clone of a fitted model rejects every input. *)
Theorem C23_clone_unusable (lr : sklr N) (w : list N) (X : matrix N) :
  sk_fitted lr = true -> sk_coef lr = Some w -> (0 < mcols X)%nat ->
  sk_coef (sk_clone hash toint lr) = Some w /\ sk_intercept (sk_clone hash toint lr) = sk_intercept lr /\
  sk_predict (sk_clone hash toint lr) X = Err (EDimension 0 (mcols X)).
Proof.
  intros F Hw Hc. unfold sk_clone. rewrite F.
  destruct (C23_memory_round_trip lr (sk_new (sk_icpt lr) (sk_normalize lr) (sk_copyx lr) (sk_njobs lr) (sk_positive lr)) w F Hw) as (wt & E1 & E2).
  rewrite E1, E2. cbn [fst sk_coef sk_intercept]. split; [reflexivity|]. split; [reflexivity|].
  unfold sk_predict. cbn [sk_fitted sk_nfeat negb sk_new].
  destruct (mcols X) as [|n]; [lia|]. cbn. reflexivity.
Qed.

(** nil weights and weights of another model are rejected and nothing changes. *)
Theorem C23_import_rejects (lr0 : sklr N) (wt : flatw N) :
  fw_type wt <> "LinearRegression" ->
  (exists c, sk_import hash toint lr0 (Some wt) = (lr0, Err (EOther c))) /\
  (exists c, sk_import hash toint lr0 None = (lr0, Err (EOther c))).
Proof.
  intros H. split; [|eexists; reflexivity]. unfold sk_import. apply String.eqb_neq in H. rewrite H. eexists. reflexivity.
Qed.

(** A wrong checksum is reported, but the coefficients have been replaced by then. *)
Theorem C23_checksum (lr0 : sklr N) (wt : flatw N) (s : string) :
  fw_type wt = "LinearRegression" -> mget "checksum" (fw_meta wt) = Some (VStr s) ->
  (s = hash (fw_coef wt) <-> snd (sk_import hash toint lr0 (Some wt)) = Ok tt) /\
  sk_coef (fst (sk_import hash toint lr0 (Some wt))) = Some (fw_coef wt) /\
  sk_intercept (fst (sk_import hash toint lr0 (Some wt))) = fw_icept wt /\
  (s <> hash (fw_coef wt) -> sk_fitted (fst (sk_import hash toint lr0 (Some wt))) = sk_fitted lr0).
Proof.
  intros H1 H2. unfold sk_import. rewrite H1, String.eqb_refl, H2. cbn [negb].
  destruct (s =? hash (fw_coef wt))%string eqn:E; cbn [negb fst snd].
  - apply String.eqb_eq in E. cbn. intuition congruence.
  - apply String.eqb_neq in E. cbn. intuition congruence.
Qed.

End Props.

(** *** Concrete cases *)
Definition ex_heap : heap QNum := [@OFloats QNum [1%Q; 2%Q]; OStrs ["age"; "size"]; OMap [("alpha", @VFloat QNum 3%Q); ("layers", VRef 4)]; OMap []; @OFloats QNum [7%Q]].
Definition ex_w : weights QNum := @mkw QNum "LinearRegression" "1.0.0" (Some 0) 5%Q (Some 1) (Some 2) (Some 3) true.
Example ex_clone :
  any_order (@rev (string * val QNum)) /\ refs_ok ex_heap ex_w /\
  one_each (entries ex_heap (w_hyper ex_w)) /\ one_each (entries ex_heap (w_meta ex_w)) /\
  entries (fst (clone (@rev _) ex_heap ex_w)) (w_hyper (snd (clone (@rev _) ex_heap ex_w))) = [("alpha", @VFloat QNum 3%Q); ("layers", VRef 4)] /\
  floats (writes (fst (clone (@rev _) ex_heap ex_w)) [@WFloat QNum 0 0 9%Q; @WPut QNum 2 "alpha" (VBool true)]) (w_coef ex_w) = ([9%Q; 2%Q] : list QNum) /\
  floats (writes (fst (clone (@rev _) ex_heap ex_w)) [@WFloat QNum 0 0 9%Q; @WPut QNum 2 "alpha" (VBool true)]) (w_coef (snd (clone (@rev _) ex_heap ex_w))) = ([1%Q; 2%Q] : list QNum) /\
  validate ex_heap ex_w = Ok tt.
Proof.
  split; [intros m; apply Permutation_sym, Permutation_rev|].
  split; [unfold refs_ok, inside; cbn; lia|].
  split; [constructor; [intros [K|[]]; discriminate K|constructor; [intros []|constructor]]|].
  split; [constructor|]. vm_compute. auto 10.
Qed.

(** The clone is not deep: a slice stored inside a parameter is shared, and a write to it
    through the original shows through the clone. *)
Theorem C23_deep_refuted :
  exists (h : heap QNum) (w : weights QNum) (a : nat) (x : write QNum),
    let (h1, c) := clone (fun m => m) h w in
    refs_ok h w /\ mget "layers" (entries h (w_hyper w)) = Some (VRef a) /\ target x = a /\
    mget "layers" (entries h1 (w_hyper c)) = Some (VRef a) /\
    floats h1 (Some a) <> floats (do_write h1 x) (Some a).
Proof.
  exists ex_heap, ex_w, 4, (@WFloat QNum 4 0 8%Q). cbn [clone ex_heap ex_w].
  split; [unfold refs_ok, inside; cbn; lia|]. vm_compute. repeat split; intros K; discriminate K.
Qed.

(** GetParams(false) hands out the model's own map: writing to it changes the model. *)
Theorem C23_params_shared_refuted :
  exists (h : heap QNum) (e : base) (v : val QNum),
    let (h1, a) := get_params (fun m => m) h e false in
    mget "alpha" (entries h1 (b_hyper e)) = Some (@VFloat QNum 3%Q) /\
    mget "alpha" (entries (do_write h1 (WPut a "alpha" v)) (b_hyper e)) = Some v /\ v <> @VFloat QNum 3%Q.
Proof. exists ex_heap, (mkbase true (Some 2) "m" "1"), (VBool true). cbn. repeat split. discriminate. Qed.

Definition ex_lr : sklr QNum := @mksk QNum true 2 10 true false true 4%Z false (@Some (list QNum) [1%Q; 2%Q]) 5%Q 2 10 3.
Definition ex_hash (l : list QNum) : string := match l with [] => "empty" | x :: _ => if Qeq_bool x 1 then "one" else "other" end.
Definition ex_X : matrix QNum := @mkmat QNum 2 [[1%Q; 1%Q]].
Definition qint (x : Q) : Z := (Qnum x / Zpos (Qden x))%Z.
Example ex_json :
  exists wt wt', sk_export ex_hash ex_lr = Ok wt /\ through_json wt = Ok wt' /\
    sk_predict (fst (sk_import ex_hash qint (sk_new true false true 1%Z false) (Some wt'))) ex_X = sk_predict ex_lr ex_X /\
    sk_predict ex_lr ex_X = Ok ([8%Q] : list QNum) /\
    sk_njobs (fst (sk_import ex_hash qint (sk_new true false true 1%Z false) (Some wt'))) = 1%Z.
Proof. eexists. eexists. repeat split; vm_compute; reflexivity. Qed.

(** Neither way restores everything: by JSON n_jobs is lost, in memory the feature count, so
    that the clone cannot predict where the original can. *)
Theorem C23_round_trip_refuted :
  (exists (lr lr0 : sklr QNum) wt wt', sk_export ex_hash lr = Ok wt /\ through_json wt = Ok wt' /\
     snd (sk_import ex_hash qint lr0 (Some wt')) = Ok tt /\ sk_njobs (fst (sk_import ex_hash qint lr0 (Some wt'))) <> sk_njobs lr) /\
  (exists (lr : sklr QNum) X, is_ok (sk_predict lr X) = true /\ is_ok (sk_predict (sk_clone ex_hash qint lr) X) = false).
Proof.
  split.
  - exists ex_lr, (sk_new true false true 1%Z false). eexists. eexists. split; [reflexivity|]. split; [reflexivity|]. vm_compute. split; [reflexivity|discriminate].
  - exists ex_lr, ex_X. vm_compute. auto.
Qed.

(** A rejected import leaves a fitted model with the rejected coefficients. *)
Theorem C23_rejected_import_refuted :
  exists (lr0 : sklr QNum) wt X, is_ok (snd (sk_import ex_hash qint lr0 (Some wt))) = false /\
    sk_predict lr0 X = Ok ([8%Q] : list QNum) /\ sk_predict (fst (sk_import ex_hash qint lr0 (Some wt))) X = Ok ([105%Q] : list QNum).
Proof.
  exists ex_lr, (@mkfw QNum "LinearRegression" "1.0.0" [60%Q; 40%Q] 5%Q [] [("checksum", VStr "one")] true), ex_X.
  vm_compute. auto.
Qed.

(** Import does not validate: weights marked unfitted, or whose number of features is not the
    number of coefficients, are accepted; Predict then panics. *)
Theorem C23_unvalidated_refuted :
  exists wt X, fw_fitted wt = false /\
    let lr' := sk_import ex_hash qint (sk_new true false true 1%Z false) (Some wt) in
    snd lr' = Ok tt /\ sk_fitted (fst lr') = true /\ sk_predict (fst lr') X = Panic.
Proof.
  exists (@mkfw QNum "LinearRegression" "1.0.0" [60%Q] 5%Q [] [("n_features", @VFloat QNum 2%Q)] false), ex_X. vm_compute. auto.
Qed.

Print Assumptions C23_clone_equal.
Print Assumptions C23_clone_independent.
Print Assumptions C23_params_copy.
Print Assumptions C23_base_clone.
Print Assumptions C23_base_import.
Print Assumptions C23_base_round_trip.
Print Assumptions C23_base_export_invalid.
Print Assumptions C23_validate.
Print Assumptions C23_json_round_trip.
Print Assumptions C23_memory_round_trip.
Print Assumptions C23_clone_unusable.
Print Assumptions C23_import_rejects.
Print Assumptions C23_checksum.
Print Assumptions C23_deep_refuted.
Print Assumptions C23_params_shared_refuted.
Print Assumptions C23_round_trip_refuted.
Print Assumptions C23_rejected_import_refuted.
Print Assumptions C23_unvalidated_refuted.
