From Coq Require Import String List ZArith Bool Lia.
From Verif Require Import Base.GoMap Model.Log Model.TestLog Spec.TestLog.
Import ListNotations.
Open Scope Z_scope.

Section P.
  Context {F : Type} (of_int : Z -> F) (fin : F -> bool) (show : value F -> string).
  Notation enc := (enc of_int fin).
  Notation enc_all := (enc_all of_int fin).
  Notation put_pairs := (put_pairs show).
  Notation pairs := (pairs show).
  Notation texec := (texec of_int fin show).
  Notation sexec := (sexec fin show).
  Implicit Types (m e : list (string * value F)).

  Lemma sget_app k m1 m2 : sget k (m1 ++ m2) = match sget k m1 with Some v => Some v | None => sget k m2 end.
  Proof. induction m1 as [|[a v] m1 IH]; cbn; [reflexivity|]. destruct (k =? a)%string; auto. Qed.
  Lemma final_app k m1 m2 : final k (m1 ++ m2) = match final k m2 with Some v => Some v | None => final k m1 end.
  Proof. unfold final. now rewrite rev_app_distr, sget_app. Qed.
  Lemma final_cons k a v m : final k ((a, v) :: m) = match final k m with Some w => Some w | None => if (k =? a)%string then Some v else None end.
  Proof. change ((a, v) :: m) with ([(a, v)] ++ m). rewrite final_app. unfold final at 2. cbn. now destruct (final k m). Qed.
  Definition puts l e := fold_left (fun e kv => sput (fst kv) (snd kv) e) l e.
  Lemma put_puts n : forall fs e, (length fs < n)%nat -> put_pairs fs e = puts (pairs fs) e.
  Proof. induction n as [|n IH]; intros fs e H; [lia|]. destruct fs as [|a [|b r]]; cbn in *; try reflexivity. rewrite IH by lia. now destruct b. Qed.
  Lemma put_puts' fs e : put_pairs fs e = puts (pairs fs) e.
  Proof. apply (put_puts (S (length fs))). lia. Qed.
  Lemma puts_get k l : forall e, sget k (puts l e) = match final k l with Some v => Some v | None => sget k e end.
  Proof.
    induction l as [|[a v] l IH]; intros e; [reflexivity|]. cbn [puts fold_left fst snd]. fold (puts l (sput a v e)). rewrite IH, final_cons, sget_put. destruct (final k l); [reflexivity|]. now destruct (k =? a)%string.
  Qed.
  Lemma puts_keys l : forall e, NoDup (skeys e) -> NoDup (skeys (puts l e)).
  Proof. induction l as [|[a v] l IH]; intros e H; [exact H|]. apply IH. now apply sput_keys. Qed.
  Lemma final_nodup k m : NoDup (skeys m) -> final k m = sget k m.
  Proof.
    induction m as [|[a v] m IH]; intros H; [reflexivity|]. inversion H; subst. rewrite final_cons, IH by assumption. cbn. destruct (String.eqb_spec k a) as [->|Hk]; [|now destruct (sget k m)].
    now rewrite (proj2 (sget_none a m) H2).
  Qed.
  Lemma enc_some v : encodable fin v = true <-> enc v <> None.
  Proof. destruct v; cbn; try (split; congruence). destruct (fin x); split; congruence. Qed.
  Lemma enc_all_get m j : enc_all m = Some j -> forall k, sget k j = match sget k m with Some v => enc v | None => None end.
  Proof.
    revert j. induction m as [|[a v] m IH]; intros j H k; cbn in *; [injection H as <-; reflexivity|]. destruct (enc v) as [w|] eqn:Ev; [|discriminate]. destruct (enc_all m) as [l|] eqn:El; [|discriminate]. injection H as <-. cbn.
    destruct (k =? a)%string; [congruence|]. now apply IH.
  Qed.
  Lemma enc_all_none m : (exists a v, In (a, v) m /\ enc v = None) <-> enc_all m = None.
  Proof.
    induction m as [|[a v] m IH]; cbn.
    - split; [intros (a & v & [] & _)|discriminate].
    - destruct (enc v) as [w|] eqn:Ev.
      + destruct (enc_all m) as [l|].
        * split; [|discriminate]. intros (a' & v' & [K | K] & E'); [congruence|]. destruct IH as [IH _]. discriminate IH. eauto.
        * split; [auto|]. intros _. destruct (proj2 IH eq_refl) as (a' & v' & K & E'). eauto.
      + split; [auto|]. intros _. exists a, v. auto.
  Qed.
  Lemma forallb_false {A} (f : A -> bool) l : forallb f l = false -> exists x, In x l /\ f x = false.
  Proof. induction l as [|x l IH]; cbn; [discriminate|]. destruct (f x) eqn:Ef; cbn; [intros G; destruct (IH G) as (y & ? & ?); eauto|eauto]. Qed.
  (** Same values for all keys, distinct keys: encodable or not together *)
  Lemma enc_all_good e l : NoDup (skeys e) -> (forall k, sget k e = final k l) ->
    if good fin l then exists j, enc_all e = Some j /\ reads of_int fin j l else enc_all e = None.
  Proof.
    intros Hn Hg. destruct (good fin l) eqn:G.
    - destruct (enc_all e) as [j|] eqn:Ej.
      + exists j. split; [reflexivity|]. intros k. now rewrite (enc_all_get e j Ej k), Hg.
      + exfalso. apply enc_all_none in Ej as (a & v & Hi & Hv). pose proof (sget_in a v e Hn Hi) as K. rewrite Hg in K. unfold good in G. rewrite forallb_forall in G.
        assert (Hin : In (a, v) l) by (apply in_rev, sget_some_in; exact K). specialize (G _ Hin). cbn [fst] in G. rewrite K in G. apply enc_some in G. contradiction.
    - apply enc_all_none. unfold good in G. apply forallb_false in G as ((a & v0) & Hi & Hx).
      cbn [fst] in Hx. destruct (final a l) as [v|] eqn:Ef; [|discriminate]. exists a, v. split; [apply sget_some_in; now rewrite Hg|]. destruct (enc v) eqn:Ev; [|reflexivity]. exfalso. assert (enc v <> None) by congruence. apply enc_some in H. congruence.
  Qed.

  (** A logger with its fields against the pairs given for it *)
  Definition rel1 (t : tlogger F) (p : Z * list (string * value F)) : Prop := t_level t = fst p /\ NoDup (skeys (t_fields t)) /\ forall k, sget k (t_fields t) = final k (snd p).
  Definition rel (s : tst F) (q : sst) : Prop := Forall2 rel1 (loggers s) (slogs q) /\ Forall2 (reads of_int fin) (get_entries s) (entries q).
  Lemma forall2_nth {A B} (R : A -> B -> Prop) l r i : Forall2 R l r -> match nth_error l i, nth_error r i with Some x, Some y => R x y | None, None => True | _, _ => False end.
  Proof. intros H. revert i. induction H; intros [|i]; cbn; auto. apply IHForall2. Qed.
  Lemma set_lvl_rel i L : forall ls ps k, Forall2 rel1 ls ps -> Forall2 rel1 (set_lvl i L ls) (map (fun '(j, (L', acc)) => if Nat.eqb j (k + i) then (L, acc) else (L', acc)) (combine (seq k (length ps)) ps)).
  Proof.
    induction i as [|i IH]; intros ls ps k H; destruct H as [|t p ls ps H1 H2]; cbn; try constructor.
    - destruct p as [L' acc]. rewrite Nat.add_0_r, Nat.eqb_refl. destruct H1 as (_ & A & B). now repeat split.
    - clear H1. rewrite Nat.add_0_r. assert (forall k', (k < k')%nat -> Forall2 rel1 ls (map (fun '(j, (L', acc)) => if Nat.eqb j k then (L, acc) else (L', acc)) (combine (seq k' (length ps)) ps))) as K.
      { induction H2 as [|t' [L' acc] ls ps H3 H4 IH4]; intros k' Hk'; cbn; constructor; [destruct (Nat.eqb_spec k' k); [lia|exact H3]|apply IH4; lia]. } apply K. lia.
    - destruct p as [L' acc]. destruct (Nat.eqb_spec k (k + S i)); [lia|exact H1].
    - specialize (IH ls ps (S k) H2). replace (k + S i)%nat with (S k + i)%nat by lia. exact IH.
  Qed.
  Lemma entry_get t p (m : meth) msg fs : rel1 t p -> NoDup (skeys (entry_of show t m msg fs)) /\ forall k, sget k (entry_of show t m msg fs) = final k ([("level"%string, VStr (text m)); ("message"%string, VStr msg)] ++ snd p ++ pairs fs).
  Proof.
    intros (_ & Hn & Hg). unfold entry_of. rewrite put_puts'. fold (puts (t_fields t) (sput "message" (VStr msg) (sput "level" (VStr (name_of m)) []))). split.
    - apply puts_keys, puts_keys, sput_keys, sput_keys. constructor.
    - intros k. rewrite puts_get, !final_app, puts_get, (final_nodup k _ Hn), Hg. destruct (final k (pairs fs)); [reflexivity|]. destruct (final k (snd p)); [reflexivity|].
      rewrite !sget_put. unfold final. cbn [rev app sget]. change (name_of m) with (text m). destruct (k =? "message")%string; reflexivity.
  Qed.
  Lemma step_rel s q o : rel s q -> rel (texec s o) (sexec q o).
  Proof.
    intros [HL HE]. destruct o; cbn [Model.TestLog.texec Spec.TestLog.sexec]; cbv zeta.
    - pose proof (forall2_nth rel1 _ _ i HL) as K. destruct (nth_error (loggers s) i) as [t|], (nth_error (slogs q) i) as [[L acc]|]; try contradiction; [|now split].
      destruct (entry_get t (L, acc) m msg fs K) as [N G]. pose proof (proj1 K) as Kl. cbn [fst] in Kl. rewrite Kl. change (meth_level m) with (number m). destruct (L <=? number m); cbn [andb]; [|now split].
      pose proof (enc_all_good _ _ N G) as E. cbn [snd app] in *. unfold rel, get_entries. cbn [lines]. destruct (good fin _); cbn [loggers slogs entries].
      + destruct E as (j & -> & Hr). split; [exact HL|]. rewrite flat_map_app. cbn. apply Forall2_app; [exact HE|]. repeat constructor. exact Hr.
      + rewrite E. split; [exact HL|]. rewrite flat_map_app. cbn. rewrite app_nil_r. exact HE.
    - pose proof (forall2_nth rel1 _ _ i HL) as K. destruct (nth_error (loggers s) i) as [t|], (nth_error (slogs q) i) as [[L acc]|]; try contradiction; [|now split].
      destruct K as (K1 & K2 & K3). split; [|exact HE]. cbn [loggers slogs]. apply Forall2_app; [exact HL|]. constructor; [|constructor]. rewrite put_puts'. split; [exact K1|]. cbn [t_fields snd]. split; [now apply puts_keys|].
      intros k. now rewrite puts_get, final_app, K3.
    - split; [|exact HE]. cbn. exact (set_lvl_rel i L _ _ 0 HL).
    - split; [exact HL|constructor].
  Qed.
  Lemma run_rel os : forall s q, rel s q -> rel (fold_left texec os s) (fold_left sexec os q).
  Proof. induction os as [|o os IH]; intros s q H; [exact H|]. apply IH. now apply step_rel. Qed.
  Lemma start_rel L : rel (new_test L) (sstart L).
  Proof. split; cbn; [|constructor]. constructor; [|constructor]. repeat split. constructor. Qed.
End P.
