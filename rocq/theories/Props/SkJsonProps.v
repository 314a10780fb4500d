(** C25 - core/model/sklearn_import.go and the exchange methods of linear/regression.go. *)
From Coq Require Import String List Arith Bool ZArith Lia.
From Verif Require Import Base.Num Base.GoRes Base.Mat Model.Linear Model.SkJson Spec.SkJson Proofs.SkJsonP.
Import ListNotations.
Local Open Scope string_scope.
Local Open Scope list_scope.

Lemma Forall2_len {A B} (R : A -> B -> Prop) l l' : Forall2 R l l' -> List.length l = List.length l'.
Proof. induction 1; cbn; congruence. Qed.

Section C25.
Context {N : Num}.

Lemma has_fun (ms : list (string * json N)) k v v' : distinct ms -> has ms k v -> has ms k v' -> v = v'.
Proof.
  induction ms as [|[k0 v0] ms IH]; intros D H H'; [destruct H as (? & [] & _)|].
  destruct (string_dec (lower k0) k) as [<- |NE].
  - apply has_cons_same in H; [|exact D]. apply has_cons_same in H'; [|exact D]. congruence.
  - apply has_cons_other in H; [|exact NE]. apply has_cons_other in H'; [|exact NE]. apply IH; auto. exact (distinct_tail _ _ D).
Qed.

(** A document without repeated names is accepted exactly when it describes a linear
    regression, and the model then holds what it describes. *)
Theorem C25_accepts : forall (lr : linreg N) (j : json N) cs b, clean j ->
  lr_load lr j = (mklr true (List.length cs) 0 (Some cs) b (List.length cs), Ok tt) <-> describes j cs b.
Proof.
  intros lr j cs b Hc. unfold lr_load, load_model. split.
  - intros H. destruct (to_struct model_field _ j) as [m| |] eqn:Em; cbn [bind] in H; try discriminate.
    destruct (String.eqb_spec (sp_format (sm_spec m)) ""); [discriminate|]. destruct (String.eqb_spec (sp_format (sm_spec m)) "1.0") as [Ef|]; [|discriminate]. cbn [negb] in H.
    destruct (String.eqb_spec (sp_name (sm_spec m)) ""); [discriminate|].
    destruct (load_params m) as [p| |] eqn:Ep; try discriminate. unfold load_params in Ep.
    destruct (String.eqb_spec (sp_name (sm_spec m)) "LinearRegression") as [En|]; [|discriminate]. cbn [negb] in Ep.
    destruct (sm_params m) as [jp|] eqn:Ejp; [|discriminate]. destruct (to_struct params_field _ jp) as [p'| |] eqn:Ep'; cbn [bind] in Ep; try discriminate.
    destruct (Nat.eqb_spec (List.length (pa_coef p')) 0) as [|L0]; [discriminate|]. destruct (Z.eqb_spec (pa_nfeat p') (Z.of_nat (List.length (pa_coef p')))) as [Enf|]; [|discriminate]. cbn [negb] in Ep. injection Ep as <-.
    injection H as _ Hcs Hb _. 
    destruct j as [|?|?|?|?|ms]; cbn [to_struct] in Em; try discriminate. { injection Em as <-. discriminate. }
    destruct Hc as [D Dsub]. apply (model_reads ms D) in Em as [R1 R2]. cbn [sm_spec sm_params] in R1, R2.
    destruct R1 as [[_ R1]|(vs & Hvs & R1)]; [rewrite R1 in Ef; discriminate|].
    destruct R2 as [[_ R2]|(vp & Hvp & R2)]; [congruence|]. unfold read_params in R2. assert (vp = jp) by congruence. subst vp. clear R2.
    destruct vs as [|?|?|?|?|spec]; cbn [to_struct] in R1; try discriminate. { injection R1 as R1. rewrite <- R1 in Ef. discriminate. }
    assert (Dspec : distinct spec). { destruct Hvs as (nm & Hnm & _). exact (Dsub _ _ Hnm). }
    apply (spec_reads spec Dspec) in R1 as (S1 & S2 & S3). cbn [sp_name sp_format sp_sklearn] in S1, S2, S3.
    destruct jp as [|?|?|?|?|params]; cbn [to_struct] in Ep'; try discriminate. { injection Ep' as <-. cbn in L0. easy. }
    assert (Dpar : distinct params). { destruct Hvp as (k & Hk & _). exact (Dsub _ _ Hk). }
    apply (params_reads params Dpar) in Ep' as (P1 & P2 & P3). cbn [pa_coef pa_icept pa_nfeat] in P1, P2, P3.
    assert (S1' : has spec "name" (JStr "LinearRegression")).
    { destruct S1 as [[_ K]|(v & Hv & K)]; [rewrite K in En; discriminate|]. destruct v; cbn in K; try discriminate; [injection K as K; rewrite <- K in En; discriminate|]. injection K as K. rewrite En in K. now subst s. }
    assert (S2' : has spec "format_version" (JStr "1.0")).
    { destruct S2 as [[_ K]|(v & Hv & K)]; [rewrite K in Ef; discriminate|]. destruct v; cbn in K; try discriminate; [injection K as K; rewrite <- K in Ef; discriminate|]. injection K as K. rewrite Ef in K. now subst s. }
    assert (P1' : exists coefs, has params "coefficients" (JArr coefs) /\ Forall2 number coefs cs).
    { destruct P1 as [[_ K]|(v & Hv & K)]; [rewrite K in L0; cbn in L0; easy|]. unfold read_floats in K. destruct v; cbn in K; try discriminate; [injection K as K; rewrite <- K in L0; cbn in L0; easy|].
      exists l. split; [exact Hv|]. apply mapM_number in K. now rewrite Hcs in K. }
    destruct P1' as (coefs & Hcoefs & Fc). pose proof (Forall2_len _ _ _ Fc) as Lc. rewrite Hcs in L0, Enf.
    destruct P3 as [[_ K]|(v & Hv & K)]; [rewrite K in Enf; lia|].
    assert (V : exists x, v = JNum x (Some (Z.of_nat (List.length coefs)))).
    { destruct v as [|?|x i|?|?|?]; cbn in K; try discriminate; [injection K as K; lia|]. destruct i as [z|]; [|discriminate]. injection K as K. exists x. rewrite Lc. congruence. }
    destruct V as (x & ->).
    exists ms, spec, params, coefs, x. split; [reflexivity|]. split; [exact Hvs|]. split; [exact Hvp|]. split; [exact S1'|]. split; [exact S2'|]. split.
    { destruct S3 as [[K0 _]|(v & Hv' & K')]; [now left|]. right. destruct v; cbn in K'; try discriminate; [now left|right; eauto]. }
    split; [exact Hcoefs|]. split; [intros ->; cbn in Lc; lia|]. split; [exact Fc|]. split; [|exact Hv].
    rewrite <- Hb. destruct P2 as [[K1 K2]|(v & Hv' & K')]; [left; auto|right; exists v; split; [exact Hv'|now apply to_float_number]].
  - intros (ms & spec & params & coefs & x & -> & Hms & Hmp & Hn & Hf & Hs & Hco & Hne & Fc & Hb & Hnf).
    destruct Hc as [D Dsub].
    assert (Dspec : distinct spec) by (destruct Hms as (k & Hk & _); exact (Dsub _ _ Hk)).
    assert (Dpar : distinct params) by (destruct Hmp as (k & Hk & _); exact (Dsub _ _ Hk)).
    assert (Hsv : exists s, reads "sklearn_version" (@to_string N) "" spec s).
    { destruct Hs as [K|[K|(s & K)]]; [exists ""; now left|exists ""; right; exists JNull; auto|exists s; right; exists (JStr s); auto]. }
    destruct Hsv as (sv & Hsv).
    assert (Espec : to_struct spec_field (mkspec "" "" "") (JObj spec) = Ok (mkspec "LinearRegression" "1.0" sv)).
    { cbn [to_struct]. apply (spec_reads spec Dspec). cbn [sp_name sp_format sp_sklearn]. split; [right; eauto|]. split; [right; eauto|exact Hsv]. }
    assert (Em : to_struct model_field (mkmodel (mkspec "" "" "") None) (JObj ms) = Ok (mkmodel (mkspec "LinearRegression" "1.0" sv) (Some (JObj params)))).
    { cbn [to_struct]. apply (model_reads ms D). cbn [sm_spec sm_params]. split; right; eauto. }
    rewrite Em. cbn [bind sm_spec sp_format sp_name]. cbn [String.eqb Ascii.eqb Bool.eqb negb].
    unfold load_params. cbn [sm_spec sp_name sm_params]. cbn [String.eqb Ascii.eqb Bool.eqb negb].
    pose proof (Forall2_len _ _ _ Fc) as Lc.
    assert (Epar : to_struct params_field (mkparams [] n0 0%Z) (JObj params) = Ok (mkparams cs b (Z.of_nat (List.length cs)))).
    { cbn [to_struct]. apply (params_reads params Dpar). cbn [pa_coef pa_icept pa_nfeat]. split; [right; exists (JArr coefs); split; [exact Hco|now apply mapM_number]|].
      split; [destruct Hb as [[K1 K2]|(v & Hv & K)]; [left; auto|right; exists v; split; [exact Hv|now apply to_float_number]]|]. right. exists (JNum x (Some (Z.of_nat (List.length coefs)))). split; [exact Hnf|]. cbn. now rewrite Lc. }
    rewrite Epar. cbn [bind pa_coef pa_nfeat pa_icept]. destruct (Nat.eqb_spec (List.length cs) 0) as [K|_]; [destruct coefs; [easy|cbn in Lc; lia]|]. rewrite Z.eqb_refl. cbn [negb pa_coef pa_nfeat pa_icept]. cbv zeta. rewrite Nat2Z.id. reflexivity.
Qed.
(** Whatever the document is: it is either rejected, and nothing changes, or accepted with at
    least one coefficient and as many features as coefficients. *)
Theorem C25_rejects : forall (lr : linreg N) (j : json N),
  (exists e, lr_load lr j = (lr, Err e))
  \/ exists cs b, cs <> [] /\ lr_load lr j = (mklr true (List.length cs) 0 (Some cs) b (List.length cs), Ok tt).
Proof.
  intros lr j. unfold lr_load. destruct (load_model j) as [m| |]; [|left; eauto|left; eauto]. unfold load_params. destruct (negb (sp_name (sm_spec m) =? "LinearRegression")%string); [left; eauto|].
  destruct (match sm_params m with None => _ | Some _ => _ end) as [p| |]; cbn [bind]; [|left; eauto|left; eauto].
  destruct (Nat.eqb_spec (List.length (pa_coef p)) 0) as [|L]; [left; eauto|]. destruct (Z.eqb_spec (pa_nfeat p) (Z.of_nat (List.length (pa_coef p)))) as [E|]; cbn [negb]; [|left; eauto].
  right. exists (pa_coef p), (pa_icept p). split; [intros K; rewrite K in L; now elim L|]. rewrite E, Nat2Z.id. reflexivity.
Qed.

Lemma load_exported intlit (lr0 : linreg N) w b n : forallb finite w = true -> finite b = true ->
  lr_load lr0 (JObj [("model_spec", JObj [("name", JStr "LinearRegression"); ("format_version", JStr "1.0")]);
                 ("params", JObj [("coefficients", JArr (map (of_float intlit) w)); ("intercept", of_float intlit b); ("n_features", JNum (nofZ n) (Some n))])])
  = if (List.length w =? 0)%nat then (lr0, Err (EWrapped EValue))
    else if negb (n =? Z.of_nat (List.length w))%Z then (lr0, Err (EWrapped EValue))
    else (mklr true (Z.to_nat n) 0 (Some w) b (Z.to_nat n), Ok tt).
Proof.
  intros Hw Hb.
  assert (FIN : forall x : N, finite x = true -> nisinf x = false) by (intros x K; unfold finite in K; apply andb_true_iff in K as [_ K]; now apply negb_true_iff in K).
  assert (M : mapM (to_float n0) (map (of_float intlit) w) = Ok w).
  { clear - Hw FIN. induction w as [|x w IH]; [reflexivity|]. cbn in Hw. apply andb_true_iff in Hw as [H1 H2]. cbn [map mapM of_float to_float]. rewrite (FIN x H1). cbn [bind]. unfold of_float in *. rewrite (IH H2). reflexivity. }
  unfold lr_load.
  match goal with |- context [load_model ?j] => assert (E : load_model j = Ok (mkmodel (mkspec "LinearRegression" "1.0" "")
     (Some (JObj [("coefficients", JArr (map (of_float intlit) w)); ("intercept", of_float intlit b); ("n_features", JNum (nofZ n) (Some n))])))) by reflexivity end.
  rewrite E. unfold load_params. cbn [sm_spec sp_name sm_params String.eqb Ascii.eqb Bool.eqb negb].
  cbn [to_struct foldM fst snd].
  change (params_field (mkparams [] n0 0%Z) (lower "coefficients") (JArr (map (of_float intlit) w))) with (let* v := mapM (to_float n0) (map (of_float intlit) w) in Ok (mkparams v n0 0%Z)).
  rewrite M. cbn [bind].
  change (params_field (mkparams w n0 0%Z) (lower "intercept") (of_float intlit b)) with (let* v := (if nisinf b then Err (EOther 1) else Ok b) in Ok (mkparams w v 0%Z)).
  rewrite (FIN _ Hb). cbn [bind].
  change (params_field (mkparams w b 0%Z) (lower "n_features") (JNum (nofZ n) (Some n))) with (Ok (mkparams w b n)). cbn [bind pa_coef pa_nfeat].
  destruct (List.length w =? 0)%nat; [reflexivity|]. destruct (negb _); reflexivity.
Qed.
(** Writing a fitted model and reading it back, into any model, gives the same weights,
    intercept and number of features, hence the same predictions. *)
Theorem C25_round_trip : forall intlit (lr lr0 : linreg N) w, lr_fitted lr = true -> lr_weights lr = Some w -> w <> [] -> lr_nfeat lr = List.length w ->
  forallb finite w = true -> finite (lr_icept lr) = true ->
  exists j lr', lr_export intlit lr = Ok j /\ lr_load lr0 j = (lr', Ok tt)
    /\ lr_fitted lr' = true /\ lr_weights lr' = Some w /\ lr_icept lr' = lr_icept lr /\ lr_nfeat lr' = lr_nfeat lr
    /\ forall X, lr_predict lr' X = lr_predict lr X.
Proof.
  intros intlit lr lr0 w F W Hne NF Hw Hb. unfold lr_export. rewrite F, W. cbn [negb]. unfold export_doc. cbn [pa_coef pa_icept pa_nfeat]. rewrite Hw, Hb. cbn [andb].
  eexists. exists (mklr true (List.length w) 0 (Some w) (lr_icept lr) (List.length w)). split; [reflexivity|]. split.
  - rewrite NF, (load_exported intlit lr0 w (lr_icept lr) _ Hw Hb). destruct (Nat.eqb_spec (List.length w) 0) as [K|_]; [destruct w; [easy|discriminate]|]. rewrite Z.eqb_refl. cbn [negb]. rewrite Nat2Z.id. reflexivity.
  - cbn. rewrite NF. repeat (split; [reflexivity|]). intros X. unfold lr_predict, lr_row. cbn. rewrite F, W, NF. reflexivity.
Qed.
(** A model whose number of features disagrees with its weights (C27) still writes a document,
    and that document is rejected; NaN and infinite values cannot be written. *)
Theorem C25_inconsistent_refuted : forall intlit (lr lr0 : linreg N) w, lr_fitted lr = true -> lr_weights lr = Some w -> lr_nfeat lr <> List.length w ->
  forallb finite w = true -> finite (lr_icept lr) = true ->
  exists j e, lr_export intlit lr = Ok j /\ lr_load lr0 j = (lr0, Err e).
Proof.
  intros intlit lr lr0 w F W NF Hw Hb. unfold lr_export. rewrite F, W. cbn [negb]. unfold export_doc. cbn [pa_coef pa_icept pa_nfeat]. rewrite Hw, Hb. cbn [andb].
  eexists. exists (EWrapped EValue). split; [reflexivity|].
  rewrite (load_exported intlit lr0 w (lr_icept lr) _ Hw Hb).
  destruct (Nat.eqb_spec (List.length w) 0) as [K|K]; [reflexivity|]. destruct (Z.eqb_spec (Z.of_nat (lr_nfeat lr)) (Z.of_nat (List.length w))); [lia|]. reflexivity.
Qed.
Theorem C25_not_finite : forall intlit (lr : linreg N) w, lr_fitted lr = true -> lr_weights lr = Some w ->
  forallb finite (lr_icept lr :: w) = false -> exists e, lr_export intlit lr = Err e.
Proof.
  intros intlit lr w F W H. unfold lr_export. rewrite F, W. cbn [negb]. unfold export_doc. cbn [pa_coef pa_icept]. cbn [forallb] in H. rewrite andb_comm in H. rewrite H. eauto.
Qed.
Theorem C25_unfitted : forall intlit (lr : linreg N), lr_fitted lr = false -> lr_export intlit lr = Err ENotFitted.
Proof. intros intlit lr F. unfold lr_export. now rewrite F. Qed.
End C25.

(** *** Example: a document written by hand, with further members and other case. *)
Definition ex_doc : json F0 :=
  JObj [("Model_Spec", JObj [("format_version", JStr "1.0"); ("name", JStr "LinearRegression"); ("sklearn_version", JStr "1.4.0")]);
        ("comment", JBool true);
        ("params", JObj [("n_features", JNum (f 2 1) (Some 2%Z)); ("coefficients", JArr [JNum (f 3 2) None; JNum (f 4 1) (Some 4%Z)]); ("intercept", JNum (f 1 2) None)])].
Example ex_accepted : describes ex_doc [f 3 2; f 4 1] (f 1 2) /\ clean ex_doc.
Proof.
  split.
  - exists [("Model_Spec", JObj [("format_version", JStr "1.0"); ("name", JStr "LinearRegression"); ("sklearn_version", JStr "1.4.0")]);
        ("comment", JBool true);
        ("params", JObj [("n_features", JNum (f 2 1) (Some 2%Z)); ("coefficients", JArr [JNum (f 3 2) None; JNum (f 4 1) (Some 4%Z)]); ("intercept", JNum (f 1 2) None)])],
      [("format_version", JStr "1.0"); ("name", JStr "LinearRegression"); ("sklearn_version", JStr "1.4.0")],
      [("n_features", JNum (f 2 1) (Some 2%Z)); ("coefficients", JArr [JNum (f 3 2) None; JNum (f 4 1) (Some 4%Z)]); ("intercept", JNum (f 1 2) None)],
      [JNum (f 3 2) None; JNum (f 4 1) (Some 4%Z)], (f 2 1).
    assert (FI : nisinf (f 3 2) = false /\ nisinf (f 4 1) = false /\ nisinf (f 1 2) = false) by (vm_compute; auto). destruct FI as (F1 & F2 & F3).
    split; [reflexivity|]. split; [eexists; split; [left; reflexivity|reflexivity]|]. split; [eexists; split; [right; right; left; reflexivity|reflexivity]|].
    split; [eexists; split; [right; left; reflexivity|reflexivity]|]. split; [eexists; split; [left; reflexivity|reflexivity]|].
    split; [right; right; eexists; eexists; split; [right; right; left; reflexivity|reflexivity]|].
    split; [eexists; split; [right; left; reflexivity|reflexivity]|]. split; [discriminate|]. split; [constructor; [left; eexists; split; [reflexivity|assumption]|constructor; [left; eexists; split; [reflexivity|assumption]|constructor]]|].
    split; [|eexists; split; [left; reflexivity|reflexivity]]. right. exists (JNum (f 1 2) None). split; [eexists; split; [right; right; left; reflexivity|reflexivity]|]. left. eexists. split; [reflexivity|exact F3].
  - assert (D3 : forall a b c : string, a <> b -> a <> c -> b <> c -> NoDup [a; b; c]).
    { intros a b c H1 H2 H3. repeat constructor; cbn; intuition congruence. }
    split; [apply D3; discriminate|]. intros k v [E|[E|[E|[]]]]; injection E as <- <-; try exact I; apply D3; discriminate.
Qed.

Print Assumptions C25_accepts. Print Assumptions C25_rejects. Print Assumptions C25_round_trip. Print Assumptions C25_inconsistent_refuted.
Print Assumptions C25_not_finite. Print Assumptions C25_unfitted.
