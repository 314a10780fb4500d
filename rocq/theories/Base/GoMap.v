(** Go maps with string keys, as lists of entries with at most one entry for each key. *)
From Coq Require Import String List Bool Permutation.
Import ListNotations.

Section GoMap.
Context {V : Type}.

Definition smap : Type := list (string * V).
(** v, ok := m[k] *)
Fixpoint sget (k : string) (m : smap) : option V :=
  match m with [] => None | (k', v) :: r => if (k =? k')%string then Some v else sget k r end.
(** m[k] = v *)
Definition sput (k : string) (v : V) (m : smap) : smap :=
  (k, v) :: filter (fun e => negb (fst e =? k)%string) m.
Definition skeys (m : smap) : list string := map fst m.
(** The entries of a map in the order in which one range loop visits them. *)
Definition visits (m : smap) (l : list (string * V)) : Prop := Permutation m l /\ NoDup (skeys m).

Lemma sget_put_same k v m : sget k (sput k v m) = Some v.
Proof. cbn. now rewrite String.eqb_refl. Qed.

Lemma sget_filter k k' m : k <> k' -> sget k (filter (fun e => negb (fst e =? k')%string) m) = sget k m.
Proof.
  intros Hk. induction m as [|[a v] m IH]; cbn; auto.
  destruct (String.eqb_spec a k') as [->|Ha]; cbn.
  - destruct (String.eqb_spec k k'); [contradiction | auto].
  - destruct (String.eqb_spec k a); auto.
Qed.

Lemma sget_put_other k k' v m : k <> k' -> sget k (sput k' v m) = sget k m.
Proof. intros Hk. cbn. destruct (String.eqb_spec k k'); [contradiction | now apply sget_filter]. Qed.

Lemma sget_put k k' v m : sget k (sput k' v m) = if (k =? k')%string then Some v else sget k m.
Proof. destruct (String.eqb_spec k k') as [->|H]; [apply sget_put_same | now apply sget_put_other]. Qed.

Lemma sget_some_in k v m : sget k m = Some v -> In (k, v) m.
Proof.
  induction m as [|[a w] m IH]; cbn; try discriminate.
  destruct (String.eqb_spec k a) as [->|]; [intros [= ->]; now left | right; auto].
Qed.

Lemma sget_none k m : sget k m = None <-> ~ In k (skeys m).
Proof.
  induction m as [|[a w] m IH]; cbn; [tauto |].
  destruct (String.eqb_spec k a) as [->|H]; [split; [discriminate | tauto] |].
  rewrite IH. split; [intros Hn [->|]; tauto | tauto].
Qed.

Lemma sget_in k v m : NoDup (skeys m) -> In (k, v) m -> sget k m = Some v.
Proof.
  induction m as [|[a w] m IH]; cbn; [tauto |]. intros Hn [E|Hi].
  - inversion E; subst. now rewrite String.eqb_refl.
  - inversion Hn; subst. destruct (String.eqb_spec k a) as [->|]; auto.
    exfalso. apply H1. now apply (in_map fst) in Hi.
Qed.

Lemma sput_keys k v m : NoDup (skeys m) -> NoDup (skeys (sput k v m)).
Proof.
  intros Hn. unfold skeys in *. cbn. constructor.
  - intros Hi. apply in_map_iff in Hi as [[a w] [E Hi]]. apply filter_In in Hi as [_ Hb]. cbn in *. subst.
    now rewrite String.eqb_refl in Hb.
  - induction m as [|[a w] m IH]; cbn; [constructor |]. inversion Hn; subst.
    destruct (negb (a =? k)%string); cbn; auto. constructor; auto.
    intros Hi. apply H1. apply in_map_iff in Hi as [[b x] [E Hi]]. apply filter_In in Hi as [Hi _]. cbn in *. subst.
    now apply (in_map fst) in Hi.
Qed.

Lemma visits_nodup m l : visits m l -> NoDup (skeys l).
Proof. intros [P N]. eapply Permutation_NoDup; [apply Permutation_map, P | exact N]. Qed.

Lemma visits_get m l k : visits m l -> sget k l = sget k m.
Proof.
  intros Hv. pose proof (visits_nodup _ _ Hv) as Nl. destruct Hv as [P N].
  destruct (sget k m) as [v|] eqn:E.
  - apply sget_in; auto. eapply Permutation_in; eauto. now apply sget_some_in.
  - apply sget_none. apply sget_none in E. intros Hi. apply E. unfold skeys in *.
    eapply Permutation_in; [apply Permutation_sym, Permutation_map, P | exact Hi].
Qed.

Lemma visits_refl m : NoDup (skeys m) -> visits m m.
Proof. split; auto. Qed.

End GoMap.
Arguments smap : clear implicits.
