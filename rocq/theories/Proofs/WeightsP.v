From Coq Require Import String List Arith Bool ZArith Permutation Lia.
From Verif Require Import Base.Num Base.GoRes Base.ListX Base.Mat Model.Linear Model.Weights Spec.Weights.
Import ListNotations.
Local Open Scope string_scope.
Local Open Scope list_scope.

Section P.
Context {N : Num}.

Lemma mget_filter (k : string) (m : gomap N) k' :
  mget k (filter (fun e => negb (fst e =? k')%string) m) = if (k =? k')%string then None else mget k m.
Proof.
  induction m as [|[a v] m IH]; cbn; [destruct (k =? k')%string; reflexivity|].
  destruct (a =? k')%string eqn:E; cbn.
  - rewrite IH. apply String.eqb_eq in E. subst. destruct (k =? k')%string eqn:E2; reflexivity.
  - destruct (k =? a)%string eqn:E2.
    + apply String.eqb_eq in E2. subst. rewrite E. reflexivity.
    + apply IH.
Qed.
Lemma mget_mput k k' v (m : gomap N) : mget k (mput k' v m) = if (k =? k')%string then Some v else mget k m.
Proof. unfold mput. cbn. destruct (k =? k')%string eqn:E; [reflexivity|]. rewrite mget_filter, E. reflexivity. Qed.

Lemma mget_none k (m : gomap N) : ~ In k (map fst m) -> mget k m = None.
Proof.
  induction m as [|[a v] m IH]; cbn; [reflexivity|]. intros H. destruct (k =? a)%string eqn:E.
  - apply String.eqb_eq in E. subst. tauto.
  - apply IH. tauto.
Qed.

Lemma mget_in k v (m : gomap N) : one_each m -> (mget k m = Some v <-> In (k, v) m).
Proof.
  unfold one_each. induction m as [|[a u] m IH]; cbn; [intuition discriminate|]. intros H. inversion H as [|? ? H1 H2]; subst.
  destruct (k =? a)%string eqn:E.
  - apply String.eqb_eq in E. subst. split.
    + intros K. inversion K; subst. auto.
    + intros [K|K]; [congruence|]. exfalso. apply H1. change a with (fst (a, v)). apply in_map. exact K.
  - rewrite (IH H2). split; [auto|]. intros [K|K]; [|exact K]. inversion K; subst. rewrite String.eqb_refl in E. discriminate.
Qed.

Lemma mget_perm k (m m' : gomap N) : one_each m -> Permutation m m' -> mget k m = mget k m'.
Proof.
  intros H P.
  assert (H' : one_each m') by (unfold one_each in *; eapply Permutation_NoDup; [apply Permutation_map; exact P|exact H]).
  destruct (mget k m) as [v|] eqn:E.
  - symmetry. apply (mget_in k v m' H'). eapply Permutation_in; [exact P|]. apply (mget_in k v m H). exact E.
  - destruct (mget k m') as [v|] eqn:E'; [|reflexivity].
    apply (mget_in k v m' H') in E'. apply (Permutation_in _ (Permutation_sym P)) in E'.
    apply (mget_in k v m H) in E'. congruence.
Qed.

Lemma mget_fold k (l : gomap N) (m : gomap N) :
  one_each l ->
  mget k (fold_left (fun m e => mput (fst e) (snd e) m) l m) = match mget k l with Some v => Some v | None => mget k m end.
Proof.
  unfold one_each. revert m. induction l as [|[a v] l IH]; cbn; intros m H; [reflexivity|].
  inversion H as [|? ? H1 H2]; subst. rewrite (IH _ H2), mget_mput.
  destruct (k =? a)%string eqn:E; [|reflexivity].
  apply String.eqb_eq in E. subst. rewrite (mget_none a l H1). reflexivity.
Qed.

Lemma mget_copy ord k (src dst : gomap N) :
  any_order ord -> one_each src ->
  mget k (copy_into ord src dst) = match mget k src with Some v => Some v | None => mget k dst end.
Proof.
  intros Ho H. unfold copy_into. rewrite mget_fold.
  - rewrite (mget_perm k (ord src) src); [reflexivity| |apply Ho].
    unfold one_each in *. eapply Permutation_NoDup; [apply Permutation_map, Permutation_sym, Ho|exact H].
  - unfold one_each in *. eapply Permutation_NoDup; [apply Permutation_map, Permutation_sym, Ho|exact H].
Qed.
Lemma mget_copy_nil ord k (src : gomap N) : any_order ord -> one_each src -> mget k (copy_into ord src []) = mget k src.
Proof. intros. rewrite mget_copy by assumption. cbn. destruct (mget k src); reflexivity. Qed.

Lemma one_each_mput k v (m : gomap N) : one_each m -> one_each (mput k v m).
Proof.
  unfold one_each, mput. cbn. intros H. constructor.
  - intros K. apply in_map_iff in K. destruct K as ([a u] & E & K). apply filter_In in K. cbn in *. subst.
    rewrite String.eqb_refl in K. destruct K; discriminate.
  - induction m as [|[a u] m IH]; cbn; [constructor|]. inversion H as [|? ? H1 H2]; subst.
    destruct (a =? k)%string; cbn; [apply IH; assumption|]. constructor; [|apply IH; assumption].
    intros K. apply H1. apply in_map_iff in K. destruct K as (e & <- & K). apply filter_In in K. apply in_map. tauto.
Qed.

(** reading the heap *)
Lemma entries_app h h2 r : inside h r -> entries (h ++ h2) r = @entries N h r.
Proof. destruct r as [a|]; cbn; [|reflexivity]. intros. rewrite nth_error_app1 by assumption. reflexivity. Qed.
Lemma floats_app h h2 r : inside h r -> floats (h ++ h2) r = @floats N h r.
Proof. destruct r as [a|]; cbn; [|reflexivity]. intros. rewrite nth_error_app1 by assumption. reflexivity. Qed.
Lemma strs_app h h2 r : inside h r -> strs (h ++ h2) r = @strs N h r.
Proof. destruct r as [a|]; cbn; [|reflexivity]. intros. rewrite nth_error_app1 by assumption. reflexivity. Qed.
Lemma nth_error_new {A} (h h2 : list A) k : nth_error (h ++ h2) (List.length h + k) = nth_error h2 k.
Proof. rewrite nth_error_app2 by lia. f_equal. lia. Qed.
Lemma nth_error_new0 {A} (h h2 : list A) : nth_error (h ++ h2) (List.length h) = nth_error h2 0.
Proof. rewrite nth_error_app2 by lia. f_equal. lia. Qed.

(** only writes to an object change it *)
Lemma write_other (h : heap N) w a : target w <> a -> nth_error (do_write h w) a = nth_error h a.
Proof. intros H. unfold do_write. apply nth_error_upd_other. exact H. Qed.
Lemma write_same (h h' : heap N) w a : nth_error h a = nth_error h' a -> nth_error (do_write h w) a = nth_error (do_write h' w) a.
Proof.
  intros H. destruct (Nat.eq_dec (target w) a) as [E|E].
  - unfold do_write. rewrite E, !nth_error_upd_same, H. reflexivity.
  - rewrite !write_other by exact E. exact H.
Qed.
Lemma writes_frame (f : write N -> bool) ws : forall (h h' : heap N) a,
  (forall w, In w ws -> target w = a -> f w = true) ->
  nth_error h a = nth_error h' a -> nth_error (writes h ws) a = nth_error (writes h' (filter f ws)) a.
Proof.
  unfold writes. induction ws as [|w ws IH]; cbn; intros h h' a Hf H; [exact H|].
  destruct (f w) eqn:E; cbn.
  - apply IH; [intros; apply Hf; auto|]. apply write_same. exact H.
  - apply IH; [intros; apply Hf; auto|]. rewrite write_other; [exact H|].
    intros K. rewrite (Hf w) in E by auto. discriminate.
Qed.
End P.
