(** Reading documents without repeated names. *)
From Coq Require Import String List Arith Bool ZArith Lia.
From Verif Require Import Base.Num Base.GoRes Base.Mat Model.Linear Model.SkJson Spec.SkJson.
Import ListNotations.
Local Open Scope string_scope.
Local Open Scope list_scope.

Section P.
Context {N : Num}.
Notation members := (list (string * json N)).

Definition reads {V} (k : string) (rd : V -> json N -> res V) (o : V) (ms : members) (n : V) : Prop :=
  (lacks ms k /\ n = o) \/ exists v, has ms k v /\ rd o v = Ok n.

Lemma has_cons_other (ms : members) k0 v0 k v : lower k0 <> k -> has ((k0, v0) :: ms) k v <-> has ms k v.
Proof.
  intros H. split; intros (n & Hn & El).
  - destruct Hn as [E|Hn]; [injection E as -> ->; now elim H|]. exists n. auto.
  - exists n. split; [now right|exact El].
Qed.
Lemma lacks_distinct (ms : members) k0 v0 : distinct ((k0, v0) :: ms) -> lacks ms (lower k0).
Proof.
  intros D v (n & Hn & E). inversion D as [|? ? Hni _]; subst. apply Hni. apply in_map_iff. exists (n, v). auto.
Qed.
Lemma has_cons_same (ms : members) k0 v0 v : distinct ((k0, v0) :: ms) -> has ((k0, v0) :: ms) (lower k0) v <-> v = v0.
Proof.
  intros D. split.
  - intros (n & [E|Hn] & El); [now injection E as _ <-|]. exfalso. apply (lacks_distinct ms k0 v0 D v). exists n. auto.
  - intros ->. exists k0. split; [now left|reflexivity].
Qed.
Lemma distinct_tail (ms : members) m : distinct (m :: ms) -> distinct ms.
Proof. intros D. now inversion D. Qed.

Lemma reads_nil {V} k (rd : V -> json N -> res V) o n : reads k rd o [] n <-> n = o.
Proof.
  split; [intros [[_ E]|(v & (x & [] & _) & _)]; exact E|]. intros ->. left. split; [|reflexivity]. intros v (x & [] & _).
Qed.
Lemma reads_other {V} k (rd : V -> json N -> res V) o k0 v0 ms n : lower k0 <> k -> reads k rd o ((k0, v0) :: ms) n <-> reads k rd o ms n.
Proof.
  intros H. unfold reads, lacks. split; (intros [[L E]|(v & Hv & E)]; [left; split; [intros v Hv; apply (L v); now apply has_cons_other in Hv || (apply has_cons_other; assumption)|exact E]|right; exists v; split; [now apply has_cons_other in Hv || (apply has_cons_other; assumption)|exact E]]).
Qed.
Lemma reads_same {V} (rd : V -> json N -> res V) o k0 v0 ms n : distinct ((k0, v0) :: ms) -> reads (lower k0) rd o ((k0, v0) :: ms) n <-> rd o v0 = Ok n.
Proof.
  intros D. split.
  - intros [[L E]|(v & Hv & E)]; [exfalso; apply (L v0); now apply has_cons_same|]. apply has_cons_same in Hv; [now subst v|exact D].
  - intros E. right. exists v0. split; [now apply has_cons_same|exact E].
Qed.
Lemma reads_absent {V} k (rd : V -> json N -> res V) o ms n : lacks ms k -> reads k rd o ms n <-> n = o.
Proof.
  intros L. split; [intros [[_ E]|(v & Hv & _)]; [exact E|now elim (L v)]|]. intros ->. left. auto.
Qed.


Lemma spec_reads (ms : members) : distinct ms -> forall s s',
  foldM (fun st m => spec_field st (lower (fst m)) (snd m)) s ms = Ok s' <->
  reads "name" to_string (sp_name s) ms (sp_name s') /\ reads "format_version" to_string (sp_format s) ms (sp_format s')
  /\ reads "sklearn_version" to_string (sp_sklearn s) ms (sp_sklearn s').
Proof.
  induction ms as [|[k v] ms IH]; intros D s s'.
  - rewrite !reads_nil. cbn. split; [intros E; injection E as ->; auto|]. intros (E1 & E2 & E3). destruct s, s'; cbn in *; subst; reflexivity.
  - specialize (IH (distinct_tail _ _ D)). pose proof (lacks_distinct _ _ _ D) as L. cbn [foldM fst snd]. unfold spec_field at 1.
    destruct (String.eqb_spec (lower k) "name") as [E|N1].
    { rewrite <- E in *. rewrite (reads_same _ _ _ _ _ _ D), !reads_other by (rewrite E; discriminate).
      destruct (to_string (sp_name s) v) as [x| |] eqn:Ex; cbn [bind]; [|split; [discriminate|intros (K & _); discriminate]..].
      rewrite IH. cbn [sp_name sp_format sp_sklearn]. rewrite (reads_absent _ _ _ _ _ L). split; intros (A & B & C); (split; [|split; assumption]); congruence. }
    destruct (String.eqb_spec (lower k) "format_version") as [E|N2].
    { rewrite <- E in *. rewrite (reads_same _ _ _ _ _ _ D), !reads_other by (rewrite E; discriminate).
      destruct (to_string (sp_format s) v) as [x| |] eqn:Ex; cbn [bind]; [|split; [discriminate|intros (_ & K & _); discriminate]..].
      rewrite IH. cbn [sp_name sp_format sp_sklearn]. rewrite (reads_absent _ _ _ _ _ L). split; intros (A & B & C); (split; [assumption|split; [|assumption]]); congruence. }
    destruct (String.eqb_spec (lower k) "sklearn_version") as [E|N3].
    { rewrite <- E in *. rewrite (reads_same _ _ _ _ _ _ D), !reads_other by (rewrite E; discriminate).
      destruct (to_string (sp_sklearn s) v) as [x| |] eqn:Ex; cbn [bind]; [|split; [discriminate|intros (_ & _ & K); discriminate]..].
      rewrite IH. cbn [sp_name sp_format sp_sklearn]. rewrite (reads_absent _ _ _ _ _ L). split; intros (A & B & C); (split; [assumption|split; [assumption|]]); congruence. }
    cbn [bind]. rewrite IH, !reads_other by assumption. reflexivity.
Qed.

Definition read_params (o : option (json N)) (j : json N) : res (option (json N)) := Ok (Some j).
Lemma model_reads (ms : members) : distinct ms -> forall s s',
  foldM (fun st m => model_field st (lower (fst m)) (snd m)) s ms = Ok s' <->
  reads "model_spec" (to_struct spec_field) (sm_spec s) ms (sm_spec s') /\ reads "params" read_params (sm_params s) ms (sm_params s').
Proof.
  induction ms as [|[k v] ms IH]; intros D s s'.
  - rewrite !reads_nil. cbn. split; [intros E; injection E as ->; auto|]. intros (E1 & E2). destruct s, s'; cbn in *; subst; reflexivity.
  - specialize (IH (distinct_tail _ _ D)). pose proof (lacks_distinct _ _ _ D) as L. cbn [foldM fst snd]. unfold model_field at 1.
    destruct (String.eqb_spec (lower k) "model_spec") as [E|N1].
    { rewrite <- E in *. rewrite (reads_same _ _ _ _ _ _ D), !reads_other by (rewrite E; discriminate).
      destruct (to_struct spec_field (sm_spec s) v) as [x| |] eqn:Ex; cbn [bind]; [|split; [discriminate|intros (K & _); discriminate]..].
      rewrite IH. cbn [sm_spec sm_params]. rewrite (reads_absent _ _ _ _ _ L). split; intros (A & B); (split; [|assumption]); congruence. }
    destruct (String.eqb_spec (lower k) "params") as [E|N2].
    { rewrite <- E in *. rewrite (reads_same _ _ _ _ _ _ D), !reads_other by (rewrite E; discriminate). cbn [bind].
      rewrite IH. cbn [sm_spec sm_params]. rewrite (reads_absent _ _ _ _ _ L). unfold read_params. split; intros (A & B); (split; [assumption|]); congruence. }
    cbn [bind]. rewrite IH, !reads_other by assumption. reflexivity.
Qed.

Definition read_floats (o : list N) (j : json N) : res (list N) := to_floats j.
Lemma params_reads (ms : members) : distinct ms -> forall s s',
  foldM (fun st m => params_field st (lower (fst m)) (snd m)) s ms = Ok s' <->
  reads "coefficients" read_floats (pa_coef s) ms (pa_coef s') /\ reads "intercept" to_float (pa_icept s) ms (pa_icept s')
  /\ reads "n_features" to_int (pa_nfeat s) ms (pa_nfeat s').
Proof.
  induction ms as [|[k v] ms IH]; intros D s s'.
  - rewrite !reads_nil. cbn. split; [intros E; injection E as ->; auto|]. intros (E1 & E2 & E3). destruct s, s'; cbn in *; subst; reflexivity.
  - specialize (IH (distinct_tail _ _ D)). pose proof (lacks_distinct _ _ _ D) as L. cbn [foldM fst snd]. unfold params_field at 1.
    destruct (String.eqb_spec (lower k) "coefficients") as [E|N1].
    { rewrite <- E in *. rewrite (reads_same _ _ _ _ _ _ D), !reads_other by (rewrite E; discriminate). unfold read_floats at 1.
      destruct (to_floats v) as [x| |] eqn:Ex; cbn [bind]; [|split; [discriminate|intros (K & _); discriminate]..].
      rewrite IH. cbn [pa_coef pa_icept pa_nfeat]. rewrite (reads_absent _ _ _ _ _ L). split; intros (A & B & C); (split; [|split; assumption]); congruence. }
    destruct (String.eqb_spec (lower k) "intercept") as [E|N2].
    { rewrite <- E in *. rewrite (reads_same _ _ _ _ _ _ D), !reads_other by (rewrite E; discriminate).
      destruct (to_float (pa_icept s) v) as [x| |] eqn:Ex; cbn [bind]; [|split; [discriminate|intros (_ & K & _); discriminate]..].
      rewrite IH. cbn [pa_coef pa_icept pa_nfeat]. rewrite (reads_absent _ _ _ _ _ L). split; intros (A & B & C); (split; [assumption|split; [|assumption]]); congruence. }
    destruct (String.eqb_spec (lower k) "n_features") as [E|N3].
    { rewrite <- E in *. rewrite (reads_same _ _ _ _ _ _ D), !reads_other by (rewrite E; discriminate).
      destruct (to_int (pa_nfeat s) v) as [x| |] eqn:Ex; cbn [bind]; [|split; [discriminate|intros (_ & _ & K); discriminate]..].
      rewrite IH. cbn [pa_coef pa_icept pa_nfeat]. rewrite (reads_absent _ _ _ _ _ L). split; intros (A & B & C); (split; [assumption|split; [assumption|]]); congruence. }
    cbn [bind]. rewrite IH, !reads_other by assumption. reflexivity.
Qed.

Lemma to_float_number (v : json N) (x : N) : to_float n0 v = Ok x <-> number v x.
Proof.
  unfold number. destruct v as [|b|y i|s|l|ms]; cbn; split; intros H; try discriminate.
  - injection H as <-. right. auto.
  - destruct H as [(i & K & _)|[_ ->]]; [discriminate|reflexivity].
  - destruct H as [(i & K & _)|[K _]]; discriminate.
  - destruct (nisinf y) eqn:E; [discriminate|]. injection H as <-. left. exists i. auto.
  - destruct H as [(i' & K & E)|[K _]]; [|discriminate]. injection K as -> ->. now rewrite E.
  - destruct H as [(i & K & _)|[K _]]; discriminate.
  - destruct H as [(i & K & _)|[K _]]; discriminate.
  - destruct H as [(i & K & _)|[K _]]; discriminate.
Qed.
Lemma mapM_number (l : list (json N)) (xs : list N) : mapM (to_float n0) l = Ok xs <-> Forall2 number l xs.
Proof.
  revert xs. induction l as [|v l IH]; intros xs; cbn [mapM].
  - split; [intros E; injection E as <-; constructor|]. intros H. inversion H. reflexivity.
  - destruct (to_float n0 v) as [x| |] eqn:E; cbn [bind].
    + destruct (mapM (to_float n0) l) as [ys| |] eqn:E2; cbn [bind].
      * split.
        -- intros K. injection K as <-. constructor; [now apply to_float_number|now apply IH].
        -- intros H. inversion H as [|? x' ? ys' H1 H2]; subst. apply to_float_number in H1. apply IH in H2. congruence.
      * split; [discriminate|]. intros H. inversion H as [|? x' ? ys' H1 H2]; subst. apply IH in H2. congruence.
      * split; [discriminate|]. intros H. inversion H as [|? x' ? ys' H1 H2]; subst. apply IH in H2. congruence.
    + split; [discriminate|]. intros H. inversion H as [|? x' ? ys' H1 H2]; subst. apply to_float_number in H1. congruence.
    + split; [discriminate|]. intros H. inversion H as [|? x' ? ys' H1 H2]; subst. apply to_float_number in H1. congruence.
Qed.
End P.
