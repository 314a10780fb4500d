From Coq Require Import String List Arith ZArith Bool Lia.
From Verif Require Import Base.Num Base.GoRes Base.GoMap Base.Mat Base.ListX Spec.Order
  Model.Metrics Model.LgbTree Model.LgbEstimator Model.LgbText Model.LgbBooster Model.LgbApi Spec.LgbApi Proofs.DatasetP Proofs.LgbArrayP.
Import ListNotations.
Local Open Scope string_scope.
Local Open Scope list_scope.
Local Open Scope num_scope.
Local Open Scope nat_scope.

(** * Keys of a map of floats *)
Section Keys.
  Context {N : Num} (L : lt_laws N) (C : cmp_laws N).
  Lemma eq_num (a b : N) : (a =? b)%num = true -> nisnan a = false /\ nisnan b = false.
  Proof.
    intros H. destruct (nisnan a) eqn:A; [destruct (cmp_nan _ C a b (or_introl A)) as [_ E]; congruence|].
    destruct (nisnan b) eqn:B; [destruct (cmp_nan _ C a b (or_intror B)) as [_ E]; congruence|]. auto.
  Qed.
  Lemma eq_sym_num (a b : N) : (a =? b)%num = true -> (b =? a)%num = true.
  Proof.
    intros H. destruct (eq_num _ _ H) as [A B]. rewrite (cmp_eq _ C) in * by assumption. now rewrite andb_comm.
  Qed.
  Lemma eq_trans_num (a b c : N) : (a =? b)%num = true -> (b =? c)%num = true -> (a =? c)%num = true.
  Proof.
    intros H H'. destruct (eq_num _ _ H) as [A B], (eq_num _ _ H') as [_ D]. rewrite (cmp_eq _ C) in * by assumption.
    apply andb_prop in H, H'. destruct H as [H1 H2], H' as [H3 H4]. apply negb_true_iff in H1, H2, H3, H4.
    rewrite (lt_negtrans _ L a b c), (lt_negtrans _ L c b a) by assumption. reflexivity.
  Qed.
  Definition collect (vs keys : list N) : list N := fold_left (fun k v => add_key v k) vs keys.
  Lemma add_key_len (v : N) keys : List.length keys <= List.length (add_key v keys).
  Proof. unfold add_key. destruct (existsb _ keys); cbn; lia. Qed.
  Lemma collect_len vs : forall keys, List.length keys <= List.length (collect vs keys).
  Proof.
    induction vs as [|v vs IH]; intros keys; cbn [collect fold_left]; [lia|]. etransitivity; [apply (add_key_len v)|]. apply IH.
  Qed.
  Lemma few_keys_spec limit vs : forall keys, vs <> [] \/ List.length keys <= limit ->
    few_keys limit vs keys = if Nat.ltb limit (List.length (collect vs keys)) then None else Some (collect vs keys).
  Proof.
    induction vs as [|v vs IH]; intros keys H; cbn [few_keys collect fold_left].
    - destruct H as [[]|H]; [reflexivity|]. destruct (Nat.ltb_spec limit (List.length keys)); [lia|reflexivity].
    - destruct (Nat.ltb_spec limit (List.length (add_key v keys))) as [K|K].
      + pose proof (collect_len vs (add_key v keys)) as K2. unfold collect in K2.
        destruct (Nat.ltb_spec limit (List.length (fold_left (fun k v => add_key v k) vs (add_key v keys)))); [reflexivity|lia].
      + apply (IH (add_key v keys)). now right.
  Qed.
  Definition apart (keys : list N) : Prop := forall i j a b, i <> j -> nth_error keys i = Some a -> nth_error keys j = Some b -> (a =? b)%num = false.
  Lemma apart_cons (a : N) keys : apart (a :: keys) <-> apart keys /\ forall b, In b keys -> (a =? b)%num = false /\ (b =? a)%num = false.
  Proof.
    split.
    - intros H. split; [intros i j x y Hij Hi Hj; exact (H (S i) (S j) x y (ltac:(lia)) Hi Hj)|].
      intros b Hb. apply In_nth_error in Hb as [j Hj]. split; [exact (H 0 (S j) a b (ltac:(lia)) eq_refl Hj)|exact (H (S j) 0 b a (ltac:(lia)) Hj eq_refl)].
    - intros [H1 H2] i j x y Hij Hi Hj. destruct i as [|i], j as [|j]; cbn in Hi, Hj; [lia| | |].
      + injection Hi as <-. apply H2. eapply nth_error_In; eauto.
      + injection Hj as <-. apply H2. eapply nth_error_In; eauto.
      + apply (H1 i j x y (ltac:(lia)) Hi Hj).
  Qed.
  Lemma eqb_false_sym (a b : N) : (a =? b)%num = false -> (b =? a)%num = false.
  Proof. intros H. destruct (b =? a)%num eqn:E; [|reflexivity]. apply eq_sym_num in E. congruence. Qed.
  Lemma collect_inv vs : forall keys, apart keys ->
    apart (collect vs keys) /\ (forall k, In k (collect vs keys) -> In k keys \/ In k vs)
    /\ (forall k, In k keys -> In k (collect vs keys))
    /\ (forall v, In v vs -> In v (collect vs keys) \/ exists k, In k (collect vs keys) /\ (v =? k)%num = true).
  Proof.
    induction vs as [|v vs IH]; intros keys A; cbn [collect fold_left].
    - split; [exact A|]. split; [auto|]. split; [auto|]. intros v [].
    - assert (A' : apart (add_key v keys)).
      { unfold add_key. destruct (existsb (fun k => v =? k)%num keys) eqn:E; [exact A|]. apply apart_cons. split; [exact A|].
        intros b Hb. assert (F : (v =? b)%num = false).
        { destruct (v =? b)%num eqn:F; [|reflexivity]. assert (existsb (fun k => v =? k)%num keys = true) by (apply existsb_exists; eauto). congruence. }
        split; [exact F|now apply eqb_false_sym]. }
      destruct (IH _ A') as (B1 & B2 & B3 & B4). split; [exact B1|]. split; [|split].
      + intros k Hk. destruct (B2 k Hk) as [K|K]; [|now right; right]. unfold add_key in K. destruct (existsb _ keys); [now left|].
        destruct K as [<-|K]; [right; now left|now left].
      + intros k Hk. apply B3. unfold add_key. destruct (existsb _ keys); [exact Hk|now right].
      + intros w [<-|Hw]; [|auto]. unfold add_key in *. destruct (existsb (fun k => v =? k)%num keys) eqn:E.
        * apply existsb_exists in E as (k & K1 & K2). right. exists k. split; [apply B3; exact K1|exact K2].
        * left. apply B3. now left.
  Qed.
  (** Keys that all equal one of two values are at most two. *)
  Lemma apart_two (keys : list N) (p q : N) : apart keys -> (forall k, In k keys -> (k =? p)%num = true \/ (k =? q)%num = true) -> List.length keys <= 2.
  Proof.
    intros A H. destruct keys as [|a [|b [|c keys]]]; cbn [List.length]; try lia. exfalso.
    pose proof (A 0 1 a b (ltac:(lia)) eq_refl eq_refl) as E1. pose proof (A 0 2 a c (ltac:(lia)) eq_refl eq_refl) as E2.
    pose proof (A 1 2 b c (ltac:(lia)) eq_refl eq_refl) as E3.
    assert (join : forall x y z : N, (x =? z)%num = true -> (y =? z)%num = true -> (x =? y)%num = true).
    { intros x y z X Y. eapply eq_trans_num; [exact X|now apply eq_sym_num]. }
    destruct (H a) as [Ha|Ha]; [now left| |]; destruct (H b) as [Hb|Hb]; try (right; now left); destruct (H c) as [Hc|Hc]; try (right; right; now left);
      first [rewrite (join _ _ _ Ha Hb) in E1 | rewrite (join _ _ _ Ha Hc) in E2 | rewrite (join _ _ _ Hb Hc) in E3]; discriminate.
  Qed.
  Lemma detect_spec (vs : list N) : vs <> [] -> detect vs = true <-> looks_binary vs.
  Proof.
    intros Hne. unfold detect. rewrite few_keys_spec by now left.
    assert (A0 : apart ([] : list N)) by (intros [|i] j a b _ Hi; discriminate).
    destruct (collect_inv vs [] A0) as (B1 & B2 & _ & B4).
    assert (Bin : forall k, In k (collect vs []) -> In k vs) by (intros k Hk; destruct (B2 k Hk) as [[]|]; assumption).
    assert (Hkeys : collect vs [] <> []).
    { destruct vs as [|v vs']; [easy|]. intros E. destruct (B4 v (or_introl eq_refl)) as [K|(k & K & _)]; rewrite E in K; exact K. }
    set (ks := collect vs []) in *. set (n := List.length vs).
    pose proof (Nat.div_mod n 4 (ltac:(lia))) as Hd. pose proof (Nat.mod_upper_bound n 4 (ltac:(lia))) as Hm.
    assert (val : forall v, In v vs -> (v =? n0)%num = true \/ (v =? n1)%num = true -> exists k, In k ks /\ (v =? k)%num = true).
    { intros v Hv H01. destruct (B4 v Hv) as [K|K]; [|exact K]. exists v. split; [exact K|].
      destruct H01 as [H|H]; (eapply eq_trans_num; [exact H|now apply eq_sym_num]). }
    destruct (Nat.ltb_spec (Nat.div n 4) (List.length ks)) as [K|K].
    - split; [discriminate|]. intros [H1 H2]. exfalso. fold n in H2. destruct H2 as [H2|[H2 H3]].
      + pose proof (apart_two ks n0 n1 B1 (fun k Hk => H1 k (Bin k Hk))). lia.
      + destruct ks as [|a [|b ks']] eqn:Ek; cbn [List.length] in K; [easy|lia|].
        pose proof (B1 0 1 a b (ltac:(lia)) eq_refl eq_refl) as F. rewrite (H3 a b) in F; [discriminate| |]; apply Bin; [now left|right; now left].
    - rewrite forallb_forall. split.
      + intros H.
        assert (H01 : forall v, In v vs -> (v =? n0)%num = true \/ (v =? n1)%num = true).
        { intros v Hv. destruct (B4 v Hv) as [Kv|(k & K1 & K2)]; [apply orb_prop, H, Kv|]. specialize (H k K1). apply orb_prop in H as [H|H];
            [left|right]; eapply eq_trans_num; eauto. }
        split; [exact H01|]. fold n. destruct (le_lt_dec 8 n) as [L8|L8]; [now left|right].
        assert (Hl : List.length ks = 1) by (destruct ks as [|a ks'] eqn:Ek; [easy|]; cbn [List.length] in *; lia).
        split; [lia|]. intros v w Hv Hw. destruct (val v Hv (H01 v Hv)) as (k & K1 & K2), (val w Hw (H01 w Hw)) as (k' & K1' & K2').
        destruct ks as [|a [|]]; cbn in Hl; try lia. destruct K1 as [<-|[]], K1' as [<-|[]]. eapply eq_trans_num; [exact K2|now apply eq_sym_num].
      + intros [H1 _] k Hk. apply orb_true_intro, H1, Bin, Hk.
  Qed.
End Keys.

(** * Datasets *)
Section Dataset.
  Context {N : Num}.
  Lemma option_label (ds : dataset N) o : d_data (apply_option ds o) = d_data ds /\ d_label (apply_option ds o) = d_label ds /\ d_binary (apply_option ds o) = d_binary ds
    /\ d_classes (apply_option ds o) = d_classes ds /\ d_n (apply_option ds o) = d_n ds /\ d_f (apply_option ds o) = d_f ds.
  Proof. destruct o; cbn; auto 10. Qed.
  Lemma options_label opts : forall (ds : dataset N), let ds' := fold_left apply_option opts ds in
    d_data ds' = d_data ds /\ d_label ds' = d_label ds /\ d_binary ds' = d_binary ds /\ d_classes ds' = d_classes ds /\ d_n ds' = d_n ds /\ d_f ds' = d_f ds.
  Proof.
    induction opts as [|o opts IH]; intros ds; cbn [fold_left]; [cbn; auto 10|]. cbn zeta. destruct (IH (apply_option ds o)) as (-> & -> & -> & -> & -> & ->).
    apply option_label.
  Qed.
  (** What NewDataset makes of the labels. *)
  Lemma new_dataset_inv (X : matrix N) label opts ds : new_dataset (Some X) label opts = Ok ds ->
    nrows X <> 0 /\ mcols X <> 0 /\ d_data ds = X /\ d_label ds = label /\ d_n ds = nrows X /\ d_f ds = mcols X
    /\ match label with
       | None => d_binary ds = false /\ d_classes ds = 0%Z
       | Some y => nrows y = nrows X
           /\ if Nat.eqb (mcols y) 1 then d_binary ds = detect (first_column y) /\ d_classes ds = (if detect (first_column y) then 2%Z else 0%Z)
              else d_binary ds = false /\ d_classes ds = Z.of_nat (mcols y)
       end.
  Proof.
    unfold new_dataset. destruct (Nat.eqb_spec (nrows X) 0) as [|Hr]; [discriminate|]. destruct (Nat.eqb_spec (mcols X) 0) as [|Hc]; [discriminate|]. cbn [orb].
    destruct (validate_label _) as [ds0 r] eqn:Ev. destruct r as [u| |]; cbn [bind]; try discriminate. intros H. injection H as H.
    assert (G : d_data ds = d_data ds0 /\ d_label ds = d_label ds0 /\ d_binary ds = d_binary ds0 /\ d_classes ds = d_classes ds0 /\ d_n ds = d_n ds0 /\ d_f ds = d_f ds0).
    { pose proof (options_label opts ds0) as O. cbn zeta in O. subst ds.
      destruct (d_names (fold_left apply_option opts ds0)); [cbn [d_data d_label d_binary d_classes d_n d_f apply_option]|]; exact O. }
    clear H. destruct G as (-> & -> & -> & -> & -> & ->). split; [exact Hr|]. split; [exact Hc|]. unfold validate_label in Ev. cbn [d_label] in Ev. destruct label as [y|].
    - cbn [d_n] in Ev. destruct (Nat.eqb_spec (nrows y) (nrows X)) as [E|E]; cbn [negb] in Ev; [|discriminate].
      destruct (Nat.eqb_spec (mcols y) 1) as [K|K]; injection Ev as <- <-; cbn; repeat split; auto. 
    - injection Ev as <- <-. cbn. repeat split; auto.
  Qed.
  Lemma new_dataset_ok (X : matrix N) label opts : nrows X <> 0 -> mcols X <> 0 -> (forall y, label = Some y -> nrows y = nrows X) ->
    exists ds, new_dataset (Some X) label opts = Ok ds.
  Proof.
    intros Hr Hc Hy. unfold new_dataset. destruct (Nat.eqb_spec (nrows X) 0); [easy|]. destruct (Nat.eqb_spec (mcols X) 0); [easy|]. cbn [orb].
    destruct (validate_label _) as [ds0 r] eqn:Ev. assert (r = Ok tt).
    { unfold validate_label in Ev. cbn [d_label] in Ev. destruct label as [y|]; [|now injection Ev as <- <-]. cbn [d_n] in Ev. rewrite (Hy y eq_refl), Nat.eqb_refl in Ev.
      cbn [negb] in Ev. destruct (Nat.eqb (mcols y) 1); injection Ev as <- <-; reflexivity. }
    subst r. cbn [bind]. eauto.
  Qed.
  Lemma first_labels (y : matrix N) : first_column y = labels y.
  Proof. reflexivity. Qed.

  (** ** Fields *)
  Lemma validate_same (ds : dataset N) : let ds' := fst (validate_label ds) in
    d_data ds' = d_data ds /\ d_label ds' = d_label ds /\ d_weight ds' = d_weight ds /\ d_names ds' = d_names ds /\ d_cats ds' = d_cats ds
    /\ d_params ds' = d_params ds /\ d_n ds' = d_n ds /\ d_f ds' = d_f ds.
  Proof.
    unfold validate_label. destruct (d_label ds) as [l|] eqn:E; [|cbn; rewrite E; auto 10]. destruct (Nat.eqb (nrows l) (d_n ds)); cbn [negb fst]; [|rewrite E; auto 10].
    destruct (Nat.eqb (mcols l) 1); cbn; auto 10.
  Qed.
  Definition stored (name : string) (v : value N) : value N :=
    if String.eqb name "label" then match v with VVec (Some l) => VMat (mkmat 1 (map (fun x => [x]) l)) | _ => v end else v.
  Lemma get_set_same name v (ds ds' : dataset N) : ~ In name ["data"; "n_samples"; "n_features"] -> set_field name v ds = (ds', Ok tt) ->
    get_field name ds' = Ok (Some (stored name v)).
  Proof.
    intros Hn. unfold set_field, stored, get_field.
    destruct (String.eqb_spec name "label") as [->|H1].
    { assert (G : forall m, validate_label (with_label (Some m) (d_binary ds) (d_classes ds) ds) = (ds', Ok tt) -> d_label ds' = Some m).
      { intros m E. pose proof (validate_same (with_label (Some m) (d_binary ds) (d_classes ds) ds)) as V. rewrite E in V. cbn in V. tauto. }
      destruct v as [m|[l|]| | | | | | |]; try discriminate; intros E; rewrite (G _ E); reflexivity. }
    destruct (String.eqb_spec name "weight") as [->|H2]; [destruct v; try discriminate; intros [= <-]; reflexivity|].
    destruct (String.eqb_spec name "data") as [->|H3]; [exfalso; apply Hn; cbn; auto|].
    destruct (String.eqb_spec name "feature_name") as [->|H4]; [destruct v; try discriminate; intros [= <-]; reflexivity|].
    destruct (String.eqb_spec name "categorical_feature") as [->|H5]; [destruct v; try discriminate; intros [= <-]; reflexivity|].
    destruct (String.eqb_spec name "n_samples") as [->|H6]; [exfalso; apply Hn; cbn; auto|].
    destruct (String.eqb_spec name "n_features") as [->|H7]; [exfalso; apply Hn; cbn; auto|].
    intros [= <-]. cbn [d_params]. now rewrite sget_put_same.
  Qed.
  Lemma get_set_other name other v (ds : dataset N) : (name <> other \/ In name ["data"; "n_samples"; "n_features"]) ->
    get_field other (fst (set_field name v ds)) = get_field other ds.
  Proof.
    intros Hno. unfold set_field.
    destruct (String.eqb_spec name "label") as [->|H1].
    { assert (Ho : other <> "label") by (destruct Hno as [H|[H|[H|[H|[]]]]]; [congruence|discriminate..]). 
      assert (G : forall m, get_field other (fst (validate_label (with_label (Some m) (d_binary ds) (d_classes ds) ds))) = get_field other ds).
      { intros m. destruct (validate_same (with_label (Some m) (d_binary ds) (d_classes ds) ds)) as (V1 & V2 & V3 & V4 & V5 & V6 & V7 & V8). unfold get_field.
        rewrite V1, V2, V3, V4, V5, V6, V7, V8. cbn. destruct (String.eqb_spec other "label"); [contradiction|reflexivity]. }
      destruct v as [m|[l|]| | | | | | |]; cbn [fst]; auto. }
    destruct (String.eqb_spec name "weight") as [->|H2].
    { destruct v; cbn [fst]; try reflexivity. unfold get_field. cbn. destruct (String.eqb_spec other "weight") as [->|]; [|reflexivity].
      destruct Hno as [H|[H|[H|[H|[]]]]]; [congruence|discriminate..]. }
    destruct (String.eqb_spec name "feature_name") as [->|H3].
    { destruct v; cbn [fst]; try reflexivity. unfold get_field. cbn. destruct (String.eqb_spec other "feature_name") as [->|]; [|reflexivity].
      destruct Hno as [H|[H|[H|[H|[]]]]]; [congruence|discriminate..]. }
    destruct (String.eqb_spec name "categorical_feature") as [->|H4].
    { destruct v; cbn [fst]; try reflexivity. unfold get_field. cbn. destruct (String.eqb_spec other "categorical_feature") as [->|]; [|reflexivity].
      destruct Hno as [H|[H|[H|[H|[]]]]]; [congruence|discriminate..]. }
    cbn [fst]. unfold get_field. cbn [d_label d_weight d_data d_names d_cats d_n d_f d_params].
    destruct (String.eqb_spec other "label"); [reflexivity|]. destruct (String.eqb_spec other "weight"); [reflexivity|].
    destruct (String.eqb_spec other "data"); [reflexivity|]. destruct (String.eqb_spec other "feature_name"); [reflexivity|].
    destruct (String.eqb_spec other "categorical_feature"); [reflexivity|]. destruct (String.eqb_spec other "n_samples"); [reflexivity|].
    destruct (String.eqb_spec other "n_features"); [reflexivity|]. rewrite sget_put_other; [reflexivity|].
    intros ->. destruct Hno as [H|[H|[H|[H|[]]]]]; congruence.
  Qed.

  (** ** Subsets *)
  Lemma take_at {A} (l : list A) i : (0 <= i < Z.of_nat (List.length l))%Z -> exists a, take l i = Ok a /\ nth_error l (Z.to_nat i) = Some a.
  Proof.
    intros H. unfold take. destruct (Z.ltb_spec i 0); [lia|]. destruct (nth_error l (Z.to_nat i)) as [a|] eqn:E; [eauto|].
    apply nth_error_None in E. lia.
  Qed.
  Lemma take_inv {A} (l : list A) i a : take l i = Ok a -> (0 <= i)%Z /\ nth_error l (Z.to_nat i) = Some a.
  Proof. unfold take. destruct (Z.ltb_spec i 0); [discriminate|]. destruct (nth_error l (Z.to_nat i)); [|discriminate]. intros [= ->]. split; [lia|reflexivity]. Qed.
  Lemma takes {A} (l : list A) idx r : mapM (take l) idx = Ok r <-> rows_at idx l r.
  Proof.
    revert r. induction idx as [|i idx IH]; intros r; cbn [mapM].
    - split; [intros [= <-]; constructor|intros H; now inversion H].
    - split.
      + destruct (take l i) as [a| |] eqn:E; cbn [bind]; try discriminate. destruct (mapM (take l) idx) as [t| |] eqn:E2; cbn [bind]; try discriminate.
        intros [= <-]. constructor; [now apply take_inv|now apply IH].
      + intros H. inversion H as [|? a ? t [Ha1 Ha2] Ht]; subst. unfold take at 1. destruct (Z.ltb_spec i 0); [lia|]. rewrite Ha2. cbn [bind].
        apply IH in Ht. now rewrite Ht.
  Qed.
  Lemma takes_all {A} (l : list A) idx : Forall (fun i => (0 <= i < Z.of_nat (List.length l))%Z) idx -> exists r, mapM (take l) idx = Ok r.
  Proof.
    induction 1 as [|i idx Hi _ [r IH]]; cbn [mapM]; [eauto|]. destruct (take_at l i Hi) as (a & -> & _). cbn [bind]. rewrite IH. cbn [bind]. eauto.
  Qed.
  Lemma checked_rows n (X : list (list N)) idx : List.length X = n ->
    (forall r, mapM (fun i => if (i <? 0)%Z || (Z.of_nat n <=? i)%Z then Err (EOther 1) else take X i) idx = Ok r <-> rows_at idx X r)
    /\ (mapM (fun i => if (i <? 0)%Z || (Z.of_nat n <=? i)%Z then Err (EOther 1) else take X i) idx <> Panic).
  Proof.
    intros Hn. induction idx as [|i idx [IH IH2]]; cbn [mapM].
    - split; [|discriminate]. intros r. split; [intros [= <-]; constructor|intros H; now inversion H].
    - destruct (Z.ltb_spec i 0) as [K|K]; [|destruct (Z.leb_spec (Z.of_nat n) i) as [K2|K2]]; cbn [orb].
      + split; [|discriminate]. intros r. split; [discriminate|]. intros H. inversion H; subst. lia.
      + split; [|discriminate]. intros r. split; [discriminate|]. intros H. inversion H as [|? ? ? ? [? G]]; subst.
        assert (Z.to_nat i < List.length X) by (apply nth_error_Some; congruence). lia.
      + destruct (take_at X i) as (a & Ea & Na); [lia|]. rewrite Ea. cbn [bind]. split.
        * intros r. split.
          -- destruct (mapM _ idx) as [t| |]; cbn [bind]; try discriminate. intros [= <-]. constructor; [split; [lia|exact Na]|now apply IH].
          -- intros H. inversion H as [|? ? ? ? [? G] Ht]; subst. apply IH in Ht. rewrite Ht. cbn [bind]. rewrite Na in G. now injection G as ->.
        * destruct (mapM _ idx); cbn [bind]; [discriminate|discriminate|now destruct IH2].
  Qed.
  Lemma rows_at_len {A} idx (l r : list A) : rows_at idx l r -> List.length r = List.length idx.
  Proof. intros H. symmetry. exact (Forall2_len _ _ _ H). Qed.
  Definition subset_body (indices : list Z) (ds : dataset N) : res (dataset N) :=
    let* _ := newdense (List.length indices) (d_f ds) in
    let* rows := mapM (fun i => if (i <? 0)%Z || (Z.of_nat (d_n ds) <=? i)%Z then Err (EOther 1) else take (mrows (d_data ds)) i) indices in
    let* label := match d_label ds with
                  | None => Ok None
                  | Some l => let* _ := newdense (List.length indices) (mcols l) in
                              let* r := mapM (take (mrows l)) indices in Ok (Some (mkmat (mcols l) r))
                  end in
    let* weight := match d_weight ds with
                   | None => Ok None
                   | Some w => let* r := mapM (take w) indices in Ok (Some r)
                   end in
    Ok (mkds (mkmat (d_f ds) rows) label weight (d_names ds) (d_cats ds) (d_params ds) (List.length indices) (d_f ds) (d_binary ds) (d_classes ds) true).
  Lemma subset_body_eq idx ds : idx <> [] -> subset idx ds = subset_body idx ds.
  Proof. destruct idx; [easy|reflexivity]. Qed.
  Lemma subset_inv idx (ds s : dataset N) : complete ds -> subset idx ds = Ok s ->
    idx <> [] /\ rows_at idx (mrows (d_data ds)) (mrows (d_data s)) /\ mcols (d_data s) = d_f ds /\ d_n s = List.length idx /\ d_f s = d_f ds
    /\ match d_label ds with None => d_label s = None | Some l => exists l', d_label s = Some l' /\ mcols l' = mcols l /\ rows_at idx (mrows l) (mrows l') end
    /\ match d_weight ds with None => d_weight s = None | Some w => exists w', d_weight s = Some w' /\ rows_at idx w w' end
    /\ d_names s = d_names ds /\ d_cats s = d_cats ds /\ d_params s = d_params ds /\ d_binary s = d_binary ds /\ d_classes s = d_classes ds /\ d_valid s = true.
  Proof.
    intros (C1 & C2 & C3 & C4). destruct (list_eq_dec Z.eq_dec idx []) as [->|Hne]; [discriminate|]. rewrite subset_body_eq by exact Hne. unfold subset_body.
    rename idx into idx1.
    destruct (newdense (List.length idx1) (d_f ds)) as [u| |]; cbn [bind]; try discriminate.
    destruct (checked_rows (d_n ds) (mrows (d_data ds)) idx1 C1) as [CR _].
    destruct (mapM _ idx1) as [rows| |]; cbn [bind]; try discriminate. pose proof (proj1 (CR rows) eq_refl) as Er.
    destruct (d_label ds) as [l|].
    - destruct (newdense (List.length idx1) (mcols l)) as [u'| |]; cbn [bind]; try discriminate.
      destruct (mapM (take (mrows l)) idx1) as [r| |] eqn:El; cbn [bind]; try discriminate. apply takes in El.
      destruct (d_weight ds) as [w|].
      + destruct (mapM (take w) idx1) as [r'| |] eqn:Ew; cbn [bind]; try discriminate. apply takes in Ew. intros [= <-]. cbn. repeat split; eauto.
      + cbn [bind]. intros [= <-]. cbn. repeat split; eauto.
    - cbn [bind]. destruct (d_weight ds) as [w|].
      + destruct (mapM (take w) idx1) as [r'| |] eqn:Ew; cbn [bind]; try discriminate. apply takes in Ew. intros [= <-]. cbn. repeat split; eauto.
      + cbn [bind]. intros [= <-]. cbn. repeat split; eauto.
  Qed.
  Lemma subset_ok idx (ds : dataset N) : complete ds -> idx <> [] -> Forall (fun i => (0 <= i < Z.of_nat (d_n ds))%Z) idx -> exists s, subset idx ds = Ok s.
  Proof.
    intros (C1 & C2 & C3 & C4) Hne HF. rewrite subset_body_eq by exact Hne. unfold subset_body. rename idx into idx1.
    assert (D : forall c, 0 < c -> newdense (List.length idx1) c = Ok tt).
    { intros c Hc. unfold newdense. destruct idx1; [easy|]. cbn [List.length Nat.eqb orb]. destruct (Nat.eqb_spec c 0); [lia|reflexivity]. }
    rewrite (D _ C2). cbn [bind]. destruct (checked_rows (d_n ds) (mrows (d_data ds)) idx1 C1) as [CR _].
    destruct (takes_all (mrows (d_data ds)) idx1) as [rows Er]; [now rewrite C1|]. apply takes in Er. apply CR in Er. rewrite Er. cbn [bind].
    destruct (d_label ds) as [l|].
    - destruct (C3 l eq_refl) as [L1 L2]. rewrite (D _ L2). cbn [bind]. destruct (takes_all (mrows l) idx1) as [r ->]; [now rewrite L1|]. cbn [bind].
      destruct (d_weight ds) as [w|]; cbn [bind]; [|eauto]. destruct (takes_all w idx1) as [r' ->]; [now rewrite (C4 w eq_refl)|]. cbn [bind]. eauto.
    - cbn [bind]. destruct (d_weight ds) as [w|]; cbn [bind]; [|eauto]. destruct (takes_all w idx1) as [r' ->]; [now rewrite (C4 w eq_refl)|]. cbn [bind]. eauto.
  Qed.
  Lemma subset_err idx (ds : dataset N) : complete ds -> ~ (idx <> [] /\ Forall (fun i => (0 <= i < Z.of_nat (d_n ds))%Z) idx) -> exists e, subset idx ds = Err e.
  Proof.
    intros (C1 & C2 & C3 & C4) H. destruct (list_eq_dec Z.eq_dec idx []) as [->|Hne]; [cbn; eauto|]. rewrite subset_body_eq by exact Hne. unfold subset_body.
    rename idx into idx1.
    assert (D : newdense (List.length idx1) (d_f ds) = Ok tt).
    { unfold newdense. destruct idx1; [easy|]. cbn [List.length Nat.eqb orb]. destruct (Nat.eqb_spec (d_f ds) 0); [lia|reflexivity]. }
    rewrite D. cbn [bind]. destruct (checked_rows (d_n ds) (mrows (d_data ds)) idx1 C1) as [CR CP].
    destruct (mapM _ idx1) as [rows|e|]; cbn [bind]; [|eauto|now destruct CP]. exfalso. apply H. split; [exact Hne|].
    pose proof (proj1 (CR rows) eq_refl) as Er. clear -Er C1. induction Er as [|i a idx t [K1 K2] _ IH]; constructor; [|exact IH].
    assert (Z.to_nat i < List.length (mrows (d_data ds))) by (apply nth_error_Some; congruence). lia.
  Qed.
  Lemma subset_complete idx (ds s : dataset N) : complete ds -> subset idx ds = Ok s -> complete s.
  Proof.
    intros Hc Hs. destruct (subset_inv _ _ _ Hc Hs) as (S1 & S2 & S3 & S4 & S5 & S6 & S7 & _). destruct Hc as (C1 & C2 & C3 & C4).
    split; [rewrite S4; now apply rows_at_len in S2|]. split; [now rewrite S5|]. split.
    - intros l Hl. destruct (d_label ds) as [l0|]; [|congruence]. destruct S6 as (l' & E & E2 & E3). rewrite Hl in E. injection E as <-.
      destruct (C3 l0 eq_refl) as [_ K]. split; [rewrite S4; now apply rows_at_len in E3|now rewrite E2].
    - intros w Hw. destruct (d_weight ds) as [w0|]; [|congruence]. destruct S7 as (w' & E & E2). rewrite Hw in E. injection E as <-. rewrite S4. now apply rows_at_len in E2.
  Qed.
  Lemma rows_at_twice {A} idx idx' js (l m r : list A) : rows_at idx l m -> rows_at idx' m r -> rows_at idx' idx js -> rows_at js l r.
  Proof.
    intros H H' HJ. revert r H'. induction HJ as [|k j idx' js [Hk Hj] _ IH]; intros r H'; inversion H' as [|? a ? t [_ Ha] Ht]; subst; constructor; [|now apply IH].
    clear -H Hj Ha. revert k Hj Ha. induction H as [|i b idx m [K1 K2] _ IH]; intros k Hj Ha; [destruct (Z.to_nat k); discriminate|].
    destruct (Z.to_nat k) as [|n] eqn:En; cbn in Hj, Ha; [injection Hj as <-; injection Ha as <-; auto|].
    apply (IH (Z.of_nat n)); rewrite Nat2Z.id; assumption.
  Qed.
  Lemma rows_at_unique {A} idx (l r r' : list A) : rows_at idx l r -> rows_at idx l r' -> r = r'.
  Proof.
    intros H. revert r'. induction H as [|i a idx r [_ K] _ IH]; intros r' H'; inversion H' as [|? a' ? t [_ K'] Ht]; subst; [reflexivity|].
    rewrite K in K'. injection K' as <-. f_equal. now apply IH.
  Qed.
  Lemma matrix_ext (a b : matrix N) : mcols a = mcols b -> mrows a = mrows b -> a = b.
  Proof. destruct a, b. cbn. now intros -> ->. Qed.
  Lemma dataset_ext (a b : dataset N) : d_data a = d_data b -> d_label a = d_label b -> d_weight a = d_weight b -> d_names a = d_names b -> d_cats a = d_cats b ->
    d_params a = d_params b -> d_n a = d_n b -> d_f a = d_f b -> d_binary a = d_binary b -> d_classes a = d_classes b -> d_valid a = d_valid b -> a = b.
  Proof. destruct a, b. cbn. intros; now subst. Qed.
  Lemma subset_subset idx idx' js (ds s s' : dataset N) : complete ds -> subset idx ds = Ok s -> subset idx' s = Ok s' -> rows_at idx' idx js -> subset js ds = Ok s'.
  Proof.
    intros Hc Hs Hs' HJ. pose proof (subset_complete _ _ _ Hc Hs) as Hc'.
    destruct (subset_inv _ _ _ Hc Hs) as (S1 & S2 & S3 & S4 & S5 & S6 & S7 & S8 & S9 & S10 & S11 & S12 & S13).
    destruct (subset_inv _ _ _ Hc' Hs') as (T1 & T2 & T3 & T4 & T5 & T6 & T7 & T8 & T9 & T10 & T11 & T12 & T13).
    pose proof (rows_at_len _ _ _ HJ) as HL. assert (Hjs : js <> []) by (destruct js; [destruct idx'; [easy|discriminate]|discriminate]).
    pose proof (rows_at_twice _ _ _ _ _ _ S2 T2 HJ) as R1.
    destruct (subset_ok js ds Hc Hjs) as [t Ht].
    { destruct Hc as (C1 & _). rewrite <- C1. clear -R1. induction R1 as [|i a js r [K1 K2] _ IH]; constructor; [|exact IH].
      assert (Z.to_nat i < List.length (mrows (d_data ds))) by (apply nth_error_Some; congruence). lia. }
    rewrite Ht. f_equal. destruct (subset_inv _ _ _ Hc Ht) as (U1 & U2 & U3 & U4 & U5 & U6 & U7 & U8 & U9 & U10 & U11 & U12 & U13).
    apply dataset_ext; try congruence.
    - apply matrix_ext; [congruence|]. exact (rows_at_unique _ _ _ _ U2 R1).
    - destruct (d_label ds) as [l|]; [|destruct (d_label s); congruence]. destruct S6 as (l1 & E1 & F1 & G1). rewrite E1 in T6.
      destruct T6 as (l2 & E2 & F2 & G2), U6 as (l3 & E3 & F3 & G3). rewrite E2, E3. f_equal. apply matrix_ext; [congruence|].
      exact (rows_at_unique _ _ _ _ G3 (rows_at_twice _ _ _ _ _ _ G1 G2 HJ)).
    - destruct (d_weight ds) as [w|]; [|destruct (d_weight s); congruence]. destruct S7 as (w1 & E1 & G1). rewrite E1 in T7.
      destruct T7 as (w2 & E2 & G2), U7 as (w3 & E3 & G3). rewrite E2, E3. f_equal.
      exact (rows_at_unique _ _ _ _ G3 (rows_at_twice _ _ _ _ _ _ G1 G2 HJ)).
  Qed.

  (** ** Validation sets *)
  Lemma valid_sets_from l : forall i sets names, valid_sets (N := N) i l = Ok (sets, names) ->
    List.length sets = List.length names /\
    combine sets names = flat_map (fun p => match snd p with Some ds => [named (fst p) ds] | None => [] end) (combine (seq i (List.length l)) l).
  Proof.
    induction l as [|[ds|] l IH]; intros i sets names; cbn [valid_sets List.length seq combine flat_map].
    - intros [= <- <-]. auto.
    - destruct (d_valid ds); cbn [negb]; [|discriminate]. destruct (valid_sets (S i) l) as [[ss ns]| |] eqn:E; cbn [bind]; try discriminate.
      intros [= <- <-]. destruct (IH _ _ _ E) as [E1 E2]. cbn [List.length combine snd fst app]. split; [now f_equal|]. now rewrite E2.
    - intros H. cbn [snd app]. now apply IH.
  Qed.
  Lemma valid_sets_ok l : forall i, (forall ds, In (Some ds) l -> d_valid ds = true) -> exists sets names, valid_sets (N := N) i l = Ok (sets, names).
  Proof.
    induction l as [|[ds|] l IH]; intros i H; cbn [valid_sets]; [eauto| |apply IH; intros; apply H; now right].
    rewrite (H ds) by now left. cbn [negb]. destruct (IH (S i)) as (ss & ns & ->); [intros; apply H; now right|]. cbn [bind]. eauto.
  Qed.
End Dataset.
