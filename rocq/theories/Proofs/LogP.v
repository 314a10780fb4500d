From Coq Require Import String List ZArith Bool Lia.
From Verif Require Import Model.Log Spec.Log.
Import ListNotations.
Open Scope Z_scope.

Section P.
  Context {V : Type} (show : V -> string) (is_err : V -> bool) (stack : V -> option string).
  Notation exec := (exec show is_err stack).
  Notation run := (run show is_err stack).
  Notation written := (written show is_err stack).
  Implicit Types (s : st V) (o : op V).

  Lemma skip_all {A} (l : list A) : skipn (length l) l = [].
  Proof. induction l; auto. Qed.
  Lemma skip_app {A} (l r : list A) : skipn (length l) (l ++ r) = r.
  Proof. induction l; auto. Qed.
  Lemma written_log s i g m fs msg : nth_error (logs s) i = Some g ->
    written s (Log i m fs msg) = if (event_level m <? level g) || (event_level m <? glob s) then [] else [mkentry (event_level m) (context g ++ fields_of show is_err stack m fs) msg].
  Proof. intros H. unfold Spec.Log.written. cbn. rewrite H. destruct (_ || _); cbn; [apply skip_all|apply skip_app]. Qed.
  Lemma nth_app_l {A} (l r : list A) i x : nth_error l i = Some x -> nth_error (l ++ r) i = Some x.
  Proof. intros H. rewrite nth_error_app1; [exact H|]. apply nth_error_Some. congruence. Qed.
  Lemma nth_new {A} (l : list A) x : nth_error (l ++ [x]) (length l) = Some x.
  Proof. rewrite nth_error_app2, Nat.sub_diag; [reflexivity|lia]. Qed.
  Lemma logs_hand g s i x : nth_error (logs s) i = Some x -> nth_error (logs (hand_out g s)) i = Some x.
  Proof. apply nth_app_l. Qed.
  Lemma logs_from f p s i x : nth_error (logs s) i = Some x -> nth_error (logs (from_provider f p s)) i = Some x.
  Proof. intros H. unfold from_provider. destruct (nth_error (provs s) p); [now apply logs_hand|exact H]. Qed.
  Lemma default_logs s : logs (fst (default_provider s)) = logs s.
  Proof. unfold default_provider. now destruct (dflt s). Qed.
  (** The loggers handed out stay as they are *)
  Lemma exec_logs s o i x : nth_error (logs s) i = Some x -> nth_error (logs (exec s o)) i = Some x.
  Proof.
    intros H. destruct o; cbn.
    - destruct to_log_level; exact H.
    - exact H.
    - exact H.
    - destruct (nth_error (provs s) p); exact H.
    - now apply logs_from.
    - now apply logs_from.
    - pose proof (default_logs s) as D. destruct (default_provider s) as [s' p]. apply logs_from. cbn in D. congruence.
    - pose proof (default_logs s) as D. destruct (default_provider s) as [s' p]. apply logs_from. cbn in D. congruence.
    - destruct (nth_error (logs s) i0); [now apply logs_hand|exact H].
    - destruct (nth_error (logs s) i0); [|exact H]. destruct (_ || _); exact H.
  Qed.
  Lemma run_logs os : forall s i x, nth_error (logs s) i = Some x -> nth_error (logs (run s os)) i = Some x.
  Proof. induction os as [|o os IH]; intros s i x H; [exact H|]. apply IH. now apply exec_logs. Qed.
  Lemma exec_quiet s o : keeps_levels o = true -> glob (exec s o) = glob s /\ forall p g, nth_error (provs s) p = Some g -> nth_error (provs (exec s o)) p = Some g.
  Proof.
    intros H. destruct o; cbn in *; try discriminate; auto.
    - split; [auto|]. intros. now apply nth_app_l.
    - unfold from_provider. destruct (nth_error (provs s) p); cbn; auto.
    - unfold from_provider. destruct (nth_error (provs s) p); cbn; auto.
    - unfold default_provider. destruct (dflt s); unfold from_provider; cbn; destruct (nth_error _ _); cbn; split; auto; intros; now apply nth_app_l.
    - unfold default_provider. destruct (dflt s); unfold from_provider; cbn; destruct (nth_error _ _); cbn; split; auto; intros; now apply nth_app_l.
    - destruct (nth_error (logs s) i); cbn; auto.
    - destruct (nth_error (logs s) i); [|auto]. destruct (_ || _); cbn; auto.
  Qed.
  Lemma run_quiet os : forall s, forallb keeps_levels os = true -> glob (run s os) = glob s /\ forall p g, nth_error (provs s) p = Some g -> nth_error (provs (run s os)) p = Some g.
  Proof.
    induction os as [|o os IH]; intros s H; [cbn; auto|]. cbn in H. apply andb_prop in H as [H1 H2]. destruct (exec_quiet s o H1) as [A B]. destruct (IH (exec s o) H2) as [C D].
    change (run s (o :: os)) with (run (exec s o) os). split; [congruence|]. intros p g Hp. auto.
  Qed.
  Lemma run_dflt os : forall s p, forallb no_provider_change os = true -> dflt s = Some p -> dflt (run s os) = Some p.
  Proof.
    induction os as [|o os IH]; intros s p H Hd; [exact Hd|]. cbn in H. apply andb_prop in H as [H1 H2]. apply (IH (exec s o) p H2).
    destruct o; cbn in *; try discriminate; auto; unfold default_provider; rewrite ?Hd; unfold from_provider.
    - destruct (nth_error (provs s) p0); auto.
    - destruct (nth_error (provs s) p0); auto.
    - destruct (nth_error (provs s) p); auto.
    - destruct (nth_error (provs s) p); auto.
    - destruct (nth_error (logs s) i); auto.
    - destruct (nth_error (logs s) i); auto. destruct (_ || _); auto.
  Qed.
  Lemma quiet_of os : forallb (@no_provider_change V) os = true -> forallb keeps_levels os = true.
  Proof. rewrite !forallb_forall. intros H o Ho. specialize (H o Ho). now destruct o. Qed.
  Lemma set_at_same p g l : (p < length l)%nat -> nth_error (set_at (V := V) p g l) p = Some g.
  Proof. revert p. induction l as [|x l IH]; intros [|p] H; cbn in *; try lia; auto. apply IH. lia. Qed.

  (** A logger writes what is below neither its own level nor the global one *)
  Lemma log_iff s i g m : nth_error (logs s) i = Some g ->
    if (level g <=? event_level m) && (glob s <=? event_level m) then writes show is_err stack s i m else silent show is_err stack s i m.
  Proof.
    intros H. destruct (Z.leb_spec (level g) (event_level m)); destruct (Z.leb_spec (glob s) (event_level m)); cbn; intros fs msg; rewrite (written_log s i g m fs msg H);
      destruct (Z.ltb_spec (event_level m) (level g)); destruct (Z.ltb_spec (event_level m) (glob s)); try lia; cbn; try reflexivity; eauto.
  Qed.
  Lemma from_after f s p g os : nth_error (provs s) p = Some g -> (forall x, level (f x) = level x) -> forallb keeps_levels os = true ->
    exists g', level g' = level g /\ nth_error (logs (run (from_provider f p s) os)) (length (logs s)) = Some g' /\ glob (run (from_provider f p s) os) = glob s.
  Proof.
    intros H Hf Hq. unfold from_provider. rewrite H. exists (f g). split; [apply Hf|]. split; [|apply (run_quiet os (hand_out (f g) s) Hq)].
    apply run_logs. cbn. apply nth_new.
  Qed.
End P.
