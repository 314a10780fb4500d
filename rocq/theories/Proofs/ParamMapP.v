From Coq Require Import String List Bool ZArith Permutation Lia.
From Verif Require Import Base.Num Base.GoRes Base.GoMap Model.ParamMap Spec.ParamMap.
Import ListNotations.
Local Open Scope string_scope.
Local Open Scope list_scope.

(** *** Finite tables. *)
Definition oeqb (a b : option string) : bool :=
  match a, b with Some x, Some y => (x =? y)%string | None, None => true | _, _ => false end.
Lemma oeqb_eq a b : oeqb a b = true -> a = b.
Proof. destruct a, b; cbn; try discriminate; auto. intros H. apply String.eqb_eq in H. now subst. Qed.

Lemma table_ext (l1 l2 : smap string) :
  forallb (fun k => oeqb (sget k l1) (sget k l2)) (skeys l1 ++ skeys l2) = true -> forall k, sget k l1 = sget k l2.
Proof.
  intros H k. rewrite forallb_forall in H.
  destruct (in_dec string_dec k (skeys l1 ++ skeys l2)) as [Hi|Hi]; [now apply oeqb_eq, H |].
  rewrite in_app_iff in Hi. rewrite (proj2 (sget_none k l1)), (proj2 (sget_none k l2)); tauto.
Qed.

Fixpoint nodupb (l : list string) : bool :=
  match l with [] => true | a :: r => negb (existsb (String.eqb a) r) && nodupb r end.
Lemma existsb_in a l : existsb (String.eqb a) l = true <-> In a l.
Proof.
  rewrite existsb_exists. split; [intros [x [H E]]; apply String.eqb_eq in E; now subst | intros H; exists a; split; auto; apply String.eqb_refl].
Qed.
Lemma nodupb_ok l : nodupb l = true -> NoDup l.
Proof.
  induction l as [|a l IH]; cbn; [constructor |]. intros H. apply andb_true_iff in H as [H1 H2]. constructor; auto.
  intros Hi. apply existsb_in in Hi. now rewrite Hi in H1.
Qed.

Definition flat : smap string :=
  flat_map (fun g => map (fun n => (n, fst g)) (fst (snd g) :: snd (snd g))) parameters.

Lemma sget_names k f names rest :
  sget k (map (fun n : string => (n, f)) names ++ rest) = if existsb (String.eqb k) names then Some f else @sget string k rest.
Proof. induction names as [|n names IH]; cbn; auto. destruct (k =? n)%string; cbn; auto. Qed.

Lemma parameter_flat k : parameter k = match sget k flat with Some f => f | None => k end.
Proof.
  unfold parameter, flat. generalize parameters as l. induction l as [|g l IH]; [reflexivity |].
  cbn [flat_map find]. rewrite sget_names. destruct (existsb (String.eqb k) (fst (snd g) :: snd (snd g))); auto.
Qed.

Section P.
Context {N : Num}.
Notation dict := (list (string * pval N)).
Notation pm := (@new_mapper N).

Lemma to_go_flat k : sget k (to_go pm) = sget k flat.
Proof. revert k. apply table_ext. vm_compute. reflexivity. Qed.

Lemma alias_known k : sget k (to_go pm) = None -> sget k (alias pm) = None.
Proof.
  intros H. apply sget_none. intros Hi.
  assert (A : forallb (fun k => match sget k (to_go pm) with Some _ => true | None => false end) (skeys (alias pm)) = true)
    by (vm_compute; reflexivity).
  rewrite forallb_forall in A. specialize (A _ Hi). now rewrite H in A.
Qed.

Lemma go_key_parameter k : go_key pm k = Some (parameter k).
Proof.
  unfold go_key. rewrite parameter_flat, <- to_go_flat. destruct (sget k (to_go pm)) eqn:E; auto.
  now rewrite (alias_known _ E).
Qed.

(** *** Mapping: the last visited entry of a parameter wins. *)
Definition lastp (p : string) (l : dict) (init : option (pval N)) : option (pval N) :=
  fold_left (fun r e => if (p =? parameter (fst e))%string then Some (snd e) else r) l init.

Lemma map_get l : forall m p,
  sget p (fold_left (fun m e => match go_key pm (fst e) with Some g => sput g (snd e) m | None => m end) l m) = lastp p l (sget p m).
Proof.
  induction l as [|[k v] l IH]; intros m p; cbn [fold_left lastp]; [reflexivity |].
  cbn [fst snd]. rewrite IH, go_key_parameter, sget_put. reflexivity.
Qed.

Lemma map_py_get l p : sget p (map_py_to_go pm l) = lastp p l None.
Proof. unfold map_py_to_go. now rewrite map_get. Qed.

Lemma map_nodup l : NoDup (skeys (map_py_to_go pm l)).
Proof.
  unfold map_py_to_go. assert (G : forall m : smap (pval N), NoDup (skeys m) ->
    NoDup (skeys (fold_left (fun m e => match go_key pm (fst e) with Some g => sput g (snd e) m | None => m end) l m))).
  { induction l as [|e l IH]; intros m Hm; cbn [fold_left]; auto. apply IH. rewrite go_key_parameter. now apply sput_keys. }
  apply G. constructor.
Qed.

Lemma lastp_app p l1 l2 i : lastp p (l1 ++ l2) i = lastp p l2 (lastp p l1 i).
Proof. apply fold_left_app. Qed.

Lemma lastp_gives p l : forall i v, lastp p l i = Some v -> i = Some v \/ gives l p v.
Proof.
  induction l as [|[k w] l IH]; intros i v; cbn; auto. intros H. apply IH in H as [H|[k' [E H]]].
  - destruct (String.eqb_spec p (parameter k)) as [->|]; auto. injection H as ->. right. exists k. split; [auto | now left].
  - right. exists k'. split; [auto | now right].
Qed.

Lemma lastp_some p l : forall i, i <> None -> lastp p l i <> None.
Proof.
  induction l as [|[k w] l IH]; intros i Hi; cbn; auto. apply IH. destruct (p =? parameter k)%string; auto. discriminate.
Qed.

Lemma lastp_present p l : forall i v, gives l p v -> lastp p l i <> None.
Proof.
  induction l as [|[k w] l IH]; intros i v [k' [E H]]; [destruct H |]. destruct H as [H|H].
  - inversion H; subst. cbn. rewrite String.eqb_refl. apply lastp_some. discriminate.
  - cbn. apply (IH _ v). now exists k'.
Qed.

Lemma gives_perm (d l : dict) p v : Permutation d l -> gives d p v -> gives l p v.
Proof. intros P [k [E H]]. exists k. split; auto. eapply Permutation_in; eauto. Qed.

Lemma consistent_perm (d l : dict) : Permutation d l -> consistent d -> consistent l.
Proof.
  intros P C p v v' H H'. apply (C p); apply (gives_perm l d); auto; now apply Permutation_sym.
Qed.

Lemma lastp_consistent p (l : dict) v : consistent l -> gives l p v -> lastp p l None = Some v.
Proof.
  intros C H. destruct (lastp p l None) as [w|] eqn:E.
  - apply lastp_gives in E as [E|E]; [discriminate |]. f_equal. eapply C; eauto.
  - exfalso. now apply (lastp_present p l None v).
Qed.

Lemma lastp_absent p (l : dict) : (forall v, ~ gives l p v) -> lastp p l None = None.
Proof.
  intros H. destruct (lastp p l None) as [w|] eqn:E; auto.
  apply lastp_gives in E as [E|E]; [discriminate | now apply H in E].
Qed.

Lemma lastp_perm p (d l : dict) : Permutation d l -> consistent d -> lastp p l None = lastp p d None.
Proof.
  intros P C. destruct (lastp p d None) as [v|] eqn:E.
  - apply lastp_gives in E as [E|E]; [discriminate |]. apply lastp_consistent; [eapply consistent_perm | eapply gives_perm]; eauto.
  - apply lastp_absent. intros v H. apply (lastp_present p d None v); auto. apply (gives_perm l d); auto. now apply Permutation_sym.
Qed.

Lemma order_last (d : dict) k v : NoDup (skeys d) -> In (k, v) d -> exists l, visits d l /\ lastp (parameter k) l None = Some v.
Proof.
  intros Hn Hi. destruct (in_split _ _ Hi) as [a [b ->]]. exists (a ++ b ++ [(k, v)]). split.
  - split; auto. apply Permutation_app_head. apply Permutation_cons_append.
  - rewrite app_assoc, lastp_app. cbn. now rewrite String.eqb_refl.
Qed.

Lemma order_iff (d : dict) : NoDup (skeys d) ->
  (forall l1 l2, visits d l1 -> visits d l2 -> same_map (map_py_to_go pm l1) (map_py_to_go pm l2)) <-> consistent d.
Proof.
  intros Hn. split.
  - intros H p v v' [k [E Hk]] [k' [E' Hk']]. subst p.
    destruct (order_last d k v Hn Hk) as [l1 [V1 L1]]. destruct (order_last d k' v' Hn Hk') as [l2 [V2 L2]].
    pose proof (H l1 l2 V1 V2 (parameter k)) as G. rewrite !map_py_get in G. rewrite E' in L2. congruence.
  - intros C l1 l2 [P1 _] [P2 _] p. rewrite !map_py_get, (lastp_perm p d l1), (lastp_perm p d l2); auto.
Qed.

(** *** From Go names to Python names. *)
Definition putall (f : string -> string) (l : dict) (m : smap (pval N)) : smap (pval N) :=
  fold_left (fun m e => sput (f (fst e)) (snd e) m) l m.

Lemma putall_get f l : forall (m : smap (pval N)) q,
  sget q (putall f l m) = fold_left (fun r e => if (q =? f (fst e))%string then Some (snd e) else r) l (sget q m).
Proof.
  unfold putall. induction l as [|[k v] l IH]; intros m q; cbn [fold_left fst snd]; auto.
  rewrite IH. now rewrite sget_put.
Qed.

Lemma putall_nodup f l : forall m : smap (pval N), NoDup (skeys m) -> NoDup (skeys (putall f l m)).
Proof.
  unfold putall. induction l as [|[k v] l IH]; intros m Hm; cbn [fold_left]; auto. apply IH. now apply sput_keys.
Qed.

Lemma fold_absent (f : string -> string) (l : dict) q : forall i,
  (forall k, In k (skeys l) -> f k <> q) ->
  fold_left (fun r e => if (q =? f (fst e))%string then Some (snd e) else r) l i = i.
Proof.
  induction l as [|[k v] l IH]; intros i H; cbn; auto. rewrite IH.
  - destruct (String.eqb_spec q (f k)) as [E|]; auto. exfalso. apply (H k); [now left | auto].
  - intros k' Hk'. apply H. now right.
Qed.

(** A renaming that is injective on the keys. *)
Lemma putall_inj f (l : dict) : NoDup (skeys l) ->
  (forall k k', In k (skeys l) -> In k' (skeys l) -> f k = f k' -> k = k') ->
  forall (m : smap (pval N)) k, In k (skeys l) -> sget (f k) (putall f l m) = sget k l.
Proof.
  intros Hn Hf m k Hk. rewrite putall_get. generalize (sget (f k) m) as i.
  induction l as [|[a v] l IH]; intros i; [destruct Hk |]. cbn [fold_left fst snd sget].
  inversion Hn as [|? ? Ha Hn']; subst. destruct (String.eqb_spec k a) as [->|Hka].
  - rewrite String.eqb_refl. apply fold_absent. intros k' Hk' E. apply Ha.
    assert (k' = a) as <-; [apply Hf; [now right | now left | exact E] | exact Hk'].
  - destruct Hk as [Hk|Hk]; [cbn in Hk; congruence |]. apply IH; auto. intros x y Hx Hy. apply Hf; now right.
Qed.

Lemma putall_keys f (l : dict) q v : forall m : smap (pval N), sget q (putall f l m) = Some v ->
  sget q m = Some v \/ exists k, f k = q /\ In (k, v) l.
Proof.
  induction l as [|[k w] l IH]; intros m H; cbn in H; auto.
  apply IH in H as [H|[k' [E H]]].
  - rewrite sget_put in H. destruct (String.eqb_spec q (f k)) as [->|]; auto.
    right. exists k. injection H as ->. split; [auto | now left].
  - right. exists k'. split; [auto | now right].
Qed.

Lemma parameter_py_key f : In f fields -> parameter (py_key pm f) = f.
Proof.
  assert (A : forallb (fun f => (parameter (py_key pm f) =? f)%string) fields = true) by (vm_compute; reflexivity).
  rewrite forallb_forall in A. intros H. now apply String.eqb_eq, A.
Qed.

Lemma py_key_parameter k : In k documented -> k <> "min_split_gain" -> py_key pm (parameter k) = k.
Proof.
  assert (A : forallb (fun k => (k =? "min_split_gain")%string || (py_key pm (parameter k) =? k)%string) documented = true)
    by (vm_compute; reflexivity).
  rewrite forallb_forall in A. intros H Hk. specialize (A _ H). apply orb_true_iff in A as [A|A]; apply String.eqb_eq in A; auto.
  contradiction.
Qed.

Lemma round_trip (d l l' : dict) : visits d l -> incl (skeys d) fields ->
  visits (map_go_to_py pm l) l' -> same_map (map_py_to_go pm l') d.
Proof.
  intros V Hf V' k. pose proof (visits_nodup _ _ V) as Nl.
  assert (Hl : incl (skeys l) fields).
  { intros x Hx. apply Hf. destruct V as [P _]. eapply Permutation_in; [apply Permutation_map, Permutation_sym, P | exact Hx]. }
  assert (Hi : forall k k', In k (skeys l) -> In k' (skeys l) -> py_key pm k = py_key pm k' -> k = k').
  { intros a b Ha Hb E. rewrite <- (parameter_py_key a), <- (parameter_py_key b), E; auto. }
  assert (G : forall p v, gives (map_go_to_py pm l) p v -> In (p, v) l).
  { intros p v [q [E Hq]]. apply sget_in in Hq; [| now apply (putall_nodup (py_key pm) l []); constructor].
    apply (putall_keys (py_key pm)) in Hq as [Hq|[a [Ea Hq]]]; [discriminate |]. subst q.
    assert (Ha : In a (skeys l)) by now apply (in_map fst) in Hq.
    rewrite (parameter_py_key a) in E; auto. now subst. }
  assert (G' : forall p v, In (p, v) l -> gives (map_go_to_py pm l) p v).
  { intros p v Hp. assert (Hk : In p (skeys l)) by now apply (in_map fst) in Hp.
    exists (py_key pm p). split; [now apply parameter_py_key, Hl |].
    apply sget_some_in. unfold map_go_to_py. fold (putall (py_key pm) l []). rewrite putall_inj; auto. now apply sget_in. }
  assert (C : consistent (map_go_to_py pm l)).
  { intros p v v' Hv Hv'. apply G in Hv, Hv'. apply sget_in in Hv, Hv'; auto. congruence. }
  rewrite map_py_get. rewrite (lastp_perm k _ l' (proj1 V') C), <- (visits_get _ _ k V).
  destruct (sget k l) as [v|] eqn:E.
  - apply lastp_consistent; auto. apply G'. now apply sget_some_in.
  - apply lastp_absent. intros v Hv. apply G in Hv. apply sget_in in Hv; auto. congruence.
Qed.

Lemma canonical_trip (d l l' : dict) : visits d l -> incl (skeys d) documented -> ~ In "min_split_gain" (skeys d) ->
  visits (map_py_to_go pm l) l' -> same_map (map_go_to_py pm l') d.
Proof.
  intros V Hd Hm V' q. pose proof (visits_nodup _ _ V) as Nl.
  assert (Hl : forall x, In x (skeys l) -> py_key pm (parameter x) = x).
  { intros x Hx. assert (In x (skeys d)).
    { destruct V as [P _]. eapply Permutation_in; [apply Permutation_map, Permutation_sym, P | exact Hx]. }
    apply py_key_parameter; auto. intros ->. auto. }
  assert (C : consistent l).
  { intros p v v' [a [Ea Ha]] [b [Eb Hb]].
    assert (a = b). { rewrite <- (Hl a), <- (Hl b); [congruence | now apply (in_map fst) in Hb | now apply (in_map fst) in Ha]. }
    subst b. apply sget_in in Ha, Hb; auto. congruence. }
  assert (K : forall p v, In (p, v) l' <-> gives l p v).
  { intros p v. split.
    - intros H. apply (Permutation_in _ (Permutation_sym (proj1 V'))) in H.
      apply sget_in in H; [| apply map_nodup]. rewrite map_py_get in H. apply lastp_gives in H as [H|H]; [discriminate | auto].
    - intros H. apply (Permutation_in _ (proj1 V')). apply sget_some_in. rewrite map_py_get. now apply lastp_consistent. }
  assert (Kp : forall p, In p (skeys l') -> exists a v, parameter a = p /\ In (a, v) l).
  { intros p Hp. apply in_map_iff in Hp as [[p' v] [E H]]. cbn in E. subst p'. apply K in H as [a [Ea Ha]]. now exists a, v. }
  assert (Hi : forall k k', In k (skeys l') -> In k' (skeys l') -> py_key pm k = py_key pm k' -> k = k').
  { intros x y Hx Hy E. apply Kp in Hx as [a [va [Ea Ha]]], Hy as [b [vb [Eb Hb]]]. subst x y.
    apply (in_map fst) in Ha, Hb. cbn in Ha, Hb. rewrite (Hl a), (Hl b) in E; auto. now subst. }
  unfold map_go_to_py. fold (putall (py_key pm) l' []). rewrite <- (visits_get _ _ q V).
  destruct (sget q l) as [v|] eqn:E.
  - assert (Hq : In q (skeys l)) by (apply sget_some_in in E; now apply (in_map fst) in E).
    assert (HI : In (parameter q, v) l') by (apply K; exists q; split; auto; now apply sget_some_in).
    rewrite <- (Hl q) at 1; auto. rewrite putall_inj; auto.
    + apply sget_in; auto. eapply visits_nodup; eauto.
    + eapply visits_nodup; eauto.
    + now apply (in_map fst) in HI.
  - destruct (sget q (putall (py_key pm) l' [])) as [v|] eqn:E'; auto. exfalso.
    apply putall_keys in E' as [E'|[p [Ep Hp]]]; [discriminate |]. apply K in Hp as [a [Ea Ha]]. subst p.
    assert (In a (skeys l)) by now apply (in_map fst) in Ha. rewrite Hl in Ep; auto. subst a.
    apply sget_none in E. auto.
Qed.

(** *** Defaults. *)
Lemma apply_get (l defs : dict) k : NoDup (skeys l) -> NoDup (skeys defs) ->
  sget k (apply_defaults l defs) = match sget k l with Some v => Some v | None => sget k defs end.
Proof.
  intros Hl Hd. unfold apply_defaults.
  assert (A : sget k (fold_left (fun m e => sput (fst e) (snd e) m) l []) = sget k l).
  { change (sget k (putall (fun s => s) l []) = sget k l).
    destruct (in_dec string_dec k (skeys l)) as [Hi|Hi]; [now apply (putall_inj (fun s => s)) |].
    rewrite (proj2 (sget_none k l)); auto. rewrite putall_get. apply (fold_absent (fun s => s)). intros k' Hk' ->. auto. }
  rewrite <- A. generalize (fold_left (fun m e => sput (fst e) (snd e) m) l []) as m. clear A.
  induction defs as [|[a v] defs IH]; intros m; cbn [fold_left]; [cbn; now destruct (sget k m) |].
  inversion Hd as [|? ? Ha Hd']; subst. rewrite IH; auto. cbn [fst snd sget].
  destruct (sget a m) as [w|] eqn:E.
  - destruct (String.eqb_spec k a) as [->|]; auto. now rewrite E.
  - rewrite sget_put. destruct (String.eqb_spec k a) as [->|]; auto. now rewrite E.
Qed.

Lemma apply_nodup l defs : NoDup (skeys (@apply_defaults N l defs)).
Proof.
  unfold apply_defaults. assert (A : NoDup (skeys (fold_left (fun m e => sput (fst e) (snd e) m) l ([] : smap (pval N))))).
  { apply (putall_nodup (fun s => s) l []). constructor. }
  revert A. generalize (fold_left (fun m e => sput (fst e) (snd e) m) l ([] : smap (pval N))) as m.
  induction defs as [|[a v] defs IH]; intros m Hm; cbn [fold_left]; auto. apply IH. cbn [fst snd].
  destruct (sget a m); auto. now apply sput_keys.
Qed.

Lemma default_entries_nodup : NoDup (skeys (@default_entries N)).
Proof. apply nodupb_ok. vm_compute. reflexivity. Qed.

Lemma defaults_get k : sget k (defaults pm) = sget k (@default_entries N).
Proof.
  change (sget k (putall (fun s => s) (@default_entries N) []) = sget k (@default_entries N)).
  pose proof default_entries_nodup as Nd.
  destruct (in_dec string_dec k (skeys (@default_entries N))) as [Hi|Hi]; [now apply (putall_inj (fun s => s)) |].
  rewrite (proj2 (sget_none k (@default_entries N))); auto. rewrite putall_get. apply (fold_absent (fun s => s)). intros k' Hk' ->. auto.
Qed.

Lemma defaults_nodup : NoDup (skeys (defaults pm)).
Proof. unfold new_mapper. cbn [defaults]. apply (putall_nodup (fun s => s) _ []). constructor. Qed.

Lemma in_iff_get (m : smap (pval N)) k v : NoDup (skeys m) -> (In (k, v) m <-> sget k m = Some v).
Proof. intros Hn. split; [now apply sget_in | apply sget_some_in]. Qed.

Lemma apply_in d l defs k v : visits d l -> visits (defaults pm) defs ->
  (In (k, v) (apply_defaults l defs) <-> In (k, v) d \/ ~ In k (skeys d) /\ sget k (@default_entries N) = Some v).
Proof.
  intros V Vd. pose proof (visits_nodup _ _ V). pose proof (visits_nodup _ _ Vd).
  rewrite in_iff_get by apply apply_nodup. rewrite apply_get; auto.
  rewrite (visits_get _ _ k V), (visits_get _ _ k Vd), defaults_get.
  rewrite in_iff_get by apply V. rewrite <- sget_none. destruct (sget k d); intuition congruence.
Qed.

Lemma defaults_mapped d l defs l' : visits d l -> visits (defaults pm) defs -> visits (apply_defaults l defs) l' ->
  consistent d ->
  (forall k k', In k (skeys d) -> In k' (skeys (@default_entries N)) -> parameter k = parameter k' -> k = k') ->
  (forall k v, In (k, v) d -> sget (parameter k) (map_py_to_go pm l') = Some v) /\
  (forall k v, In (k, v) (@default_entries N) -> (forall w, ~ gives d (parameter k) w) ->
     sget (parameter k) (map_py_to_go pm l') = Some v).
Proof.
  intros V Vd V' C Hk.
  assert (Cd : forall k k', In k (skeys (@default_entries N)) -> In k' (skeys (@default_entries N)) ->
    parameter k = parameter k' -> k = k').
  { assert (A : forallb (fun k => forallb (fun k' => negb (parameter k =? parameter k')%string || (k =? k')%string)
        (skeys (@default_entries N))) (skeys (@default_entries N)) = true) by (vm_compute; reflexivity).
    intros k k' H H' E. rewrite forallb_forall in A. specialize (A _ H). rewrite forallb_forall in A. specialize (A _ H').
    rewrite E, String.eqb_refl in A. now apply String.eqb_eq. }
  assert (I : forall k v, sget k (@default_entries N) = Some v -> In k (skeys (@default_entries N))).
  { intros k v H. apply sget_some_in in H. now apply (in_map fst) in H. }
  assert (CA : consistent (apply_defaults l defs)).
  { intros p v v' [a [Ea Ha]] [b [Eb Hb]]. rewrite (apply_in d l defs) in Ha, Hb; auto.
    destruct Ha as [Ha|[Na Ha]], Hb as [Hb|[Nb Hb]].
    - apply (C p); [now exists a | now exists b].
    - exfalso. apply Nb. rewrite <- (Hk a b); [now apply (in_map fst) in Ha | now apply (in_map fst) in Ha | eapply I; eauto | congruence].
    - exfalso. apply Na. rewrite <- (Hk b a); [now apply (in_map fst) in Hb | now apply (in_map fst) in Hb | eapply I; eauto | congruence].
    - assert (a = b) by (apply Cd; eauto; congruence). congruence. }
  split.
  - intros k v H. rewrite map_py_get, (lastp_perm _ _ _ (proj1 V') CA). apply lastp_consistent; auto.
    exists k. split; auto. rewrite (apply_in d l defs); auto.
  - intros k v H Hn. rewrite map_py_get, (lastp_perm _ _ _ (proj1 V') CA). apply lastp_consistent; auto.
    exists k. split; auto. rewrite (apply_in d l defs); auto. right. split.
    + intros Hi. apply in_map_iff in Hi as [[a w] [E Hi]]. cbn in E. subst a. apply (Hn w). now exists k.
    + apply sget_in; auto. apply default_entries_nodup.
Qed.

Lemma alias_default d l defs k : visits d l -> visits (defaults pm) defs ->
  forall k' dv, In (k', dv) (@default_entries N) -> parameter k' = parameter k -> ~ In k' (skeys d) ->
  exists l', visits (apply_defaults l defs) l' /\ sget (parameter k) (map_py_to_go pm l') = Some dv.
Proof.
  intros V Vd k' dv Hd E Hk'.
  destruct (order_last (apply_defaults l defs) k' dv) as [l' [V' L]].
  - apply apply_nodup.
  - rewrite (apply_in d l defs); auto. right. split; auto. apply sget_in; auto. apply default_entries_nodup.
  - exists l'. split; auto. now rewrite map_py_get, <- E.
Qed.

(** *** GetDefault. *)
Lemma default_names : Forall (fun g => Forall (fun n => get_default pm n = sget (fst (snd g)) (@default_entries N))
  (fst (snd g) :: snd (snd g))) parameters.
Proof. unfold parameters. repeat constructor; cbn [fst snd]; repeat constructor; vm_compute; reflexivity. Qed.

Lemma default_unlisted k : parameter k = k -> ~ In k fields -> get_default pm k = None.
Proof.
  intros E Hk. assert (F : sget k flat = None).
  { rewrite parameter_flat in E. destruct (sget k flat) as [f|] eqn:Ef; auto. subst f. exfalso. apply Hk.
    apply sget_some_in in Ef. unfold flat in Ef. apply in_flat_map in Ef as [g [Hg Hi]].
    apply in_map_iff in Hi as [n [En _]]. inversion En. subst. now apply (in_map fst). }
  assert (A : forallb (fun k => match sget k flat with Some _ => true | None => false end)
     (skeys (@default_entries N) ++ skeys (alias pm)) = true) by (vm_compute; reflexivity).
  rewrite forallb_forall in A.
  assert (B : ~ In k (skeys (@default_entries N) ++ skeys (alias pm))).
  { intros Hi. specialize (A _ Hi). now rewrite F in A. }
  rewrite in_app_iff in B. unfold get_default. rewrite defaults_get.
  rewrite (proj2 (sget_none k (@default_entries N))), (proj2 (sget_none k (alias pm))); tauto.
Qed.

(** *** SetParams and GetParams. *)

(** A field whose value a loop over a dictionary with different keys determines. *)
Lemma fold_field {A B} (step : A -> string -> pval N -> A) (proj : A -> B) (set : pval N -> B -> B) key l :
  (forall a k v, proj (step a k v) = if (k =? key)%string then set v (proj a) else proj a) ->
  NoDup (skeys l) -> forall a,
  proj (fold_left (fun a e => step a (fst e) (snd e)) l a) =
  match sget key l with Some v => set v (proj a) | None => proj a end.
Proof.
  intros Hs. induction l as [|[k v] l IH]; intros Hn a; cbn [fold_left sget fst snd]; auto.
  inversion Hn as [|? ? Hk Hn']; subst. rewrite IH; auto. rewrite Hs.
  rewrite (String.eqb_sym key k). destruct (String.eqb_spec k key) as [->|]; auto.
  now rewrite (proj2 (sget_none key l)).
Qed.
End P.
