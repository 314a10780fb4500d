(** C147: what is logged of an error *)
From Coq Require Import String List ZArith Bool Lia.
From Verif Require Import Model.Log Model.ErrChain Model.ErrLog Spec.Log Props.ErrChainProps.
Import ListNotations.
Local Open Scope string_scope.

Section C147.
  Context {P W : Type} (show : etype -> P -> string) (stack : err P -> string) (wshow : wtype -> W -> string) (lower : string -> string).
  Notation log_error := (log_error show stack).
  (** The calls of SetupLogger, by their names *)
  Definition after (names : list string) : option Z := fold_left (setup lower) names None.
  Definition accepted (n : string) : bool := existsb (String.eqb (lower n)) (map fst setup_writes).
  (** What the table of names says about a method after these calls: that of the last name accepted *)
  Definition said (m : meth) (names : list string) : Prop :=
    exists a n b ws, names = (a ++ n :: b)%list /\ In (lower n, ws) setup_writes /\ forallb (fun x => negb (accepted x)) b = true /\ In m ws.
  Lemma level_of_name n : match to_log_level lower n with
    | Some z => exists ws, In (lower n, ws) setup_writes /\ forall m, (z <=? event_level m)%Z = true <-> In m ws
    | None => accepted n = false end.
  Proof.
    unfold to_log_level, accepted, setup_writes. cbn [map fst existsb]. cbv zeta.
    repeat match goal with |- context [(lower n =? ?x)%string] =>
      let K := fresh in destruct (String.eqb_spec (lower n) x) as [K|K]; [rewrite K; cbn; eexists; (split; [tauto|]); intros m; destruct m; cbn; intuition discriminate|] end.
    reflexivity.
  Qed.
  Lemma table_functional n a b : In (n, a) setup_writes -> In (n, b) setup_writes -> a = b.
  Proof. intros H1 H2. cbn in H1, H2. repeat destruct H1 as [H1 | H1]; try contradiction; injection H1 as <- <-; repeat destruct H2 as [H2 | H2]; try contradiction; try discriminate; now injection H2. Qed.
  Lemma accepted_in n ws : In (lower n, ws) setup_writes -> accepted n = true.
  Proof. intros H. unfold accepted. apply existsb_exists. exists (lower n). split; [|apply String.eqb_refl]. exact (in_map fst _ _ H). Qed.
  Lemma after_said names m : (exists z, after names = Some z /\ (z <=? event_level m)%Z = true) <-> said m names.
  Proof.
    induction names as [|n names IH] using rev_ind.
    - split; [intros (z & H & _); discriminate|]. intros (a & n & b & ws & H & _). destruct a; discriminate.
    - unfold after in *. rewrite fold_left_app. cbn [fold_left]. unfold setup at 1. pose proof (level_of_name n) as L. destruct (to_log_level lower n) as [z|].
      + destruct L as (ws & Hw & Hm). split.
        * intros (z' & E & H). injection E as <-. exists names, n, [], ws. repeat split; auto. now apply Hm.
        * intros (a & n' & b & ws' & E & Hi & Hb & Hs). exists z. split; [reflexivity|]. apply Hm. destruct b as [|b0 b] using rev_ind.
          -- apply app_inj_tail in E as [_ <-]. now rewrite (table_functional _ _ _ Hw Hi).
          -- clear IHb. rewrite app_comm_cons, app_assoc in E. apply app_inj_tail in E as [_ ->]. rewrite forallb_app in Hb. apply andb_prop in Hb as [_ Hb]. cbn [forallb] in Hb.
             exfalso. rewrite (accepted_in _ _ Hw) in Hb. discriminate.
      + rewrite IH. split.
        * intros (a & n' & b & ws & -> & Hi & Hb & Hs). exists a, n', (b ++ [n])%list, ws. repeat split; auto; [now rewrite <- app_assoc|]. rewrite forallb_app, Hb. cbn [forallb]. now rewrite L.
        * intros (a & n' & b & ws & E & Hi & Hb & Hs). destruct b as [|b0 b _] using rev_ind.
          -- apply app_inj_tail in E as [_ <-]. exfalso. rewrite (accepted_in _ _ Hi) in L. discriminate.
          -- rewrite app_comm_cons, app_assoc in E. apply app_inj_tail in E as [-> ->]. rewrite forallb_app in Hb. apply andb_prop in Hb as [Hb _]. exists a, n', b, ws. auto.
  Qed.
  Lemma emit_iff names m l : l_level l = event_level m -> (said m names -> emit (after names) l = [l]) /\ (~ said m names -> emit (after names) l = []).
  Proof.
    intros Hl. pose proof (after_said names m) as A. unfold emit. rewrite Hl. destruct (after names) as [z|].
    - destruct (z <=? event_level m)%Z eqn:E; split; intros H; try reflexivity.
      + exfalso. apply H, A. eauto.
      + apply A in H. destruct H as (z' & E' & K). injection E' as <-. congruence.
    - split; [|reflexivity]. intros H. apply A in H. destruct H as (z & E & _). discriminate.
  Qed.

  (** LogError writes one line when the last name given to SetupLogger allows errors, and nothing otherwise, so nothing before the first
      call; the line has the text of the error. *)
  Theorem C147_written names e msg :
    (said MError names -> exists fs, log_error (after names) e msg = [mkline 3 (("error", VText (text show e)) :: fs) msg]) /\
    (~ said MError names -> log_error (after names) e msg = []).
  Proof. unfold ErrLog.log_error. destruct (emit_iff names MError (mkline ErrorLevel (("error"%string, VText (text show e)) :: (if marshals (type_of e) then [("details"%string, VDetails (type_of e))] else []) ++ (if (stack e =? "")%string then [] else [("stacktrace"%string, VText (stack e))]))%list msg) eq_refl) as [A B]. split; [intros H; rewrite (A H); eauto|exact B]. Qed.
  (** The details of the struct are shown exactly for a struct of one of three types that nothing is wrapped around. *)
  Theorem C147_details names e msg l : In l (log_error (after names) e msg) ->
    (exists v, In ("details", v) (l_fields l)) <-> exists t i p, e = Obj t i p /\ In t [TNotFitted; TDimension; TValidation].
  Proof.
    unfold ErrLog.log_error, emit. destruct (after names) as [z|]; [|contradiction]. destruct (z <=? _)%Z; [|contradiction]. intros [<- | []]. cbn [l_fields]. split.
    - intros (v & [H | H]); [discriminate|]. apply in_app_or in H. destruct H as [H | H]; [|destruct (stack e =? "")%string; [contradiction|destruct H as [H | []]; discriminate]].
      destruct e as [t i p|i op kd x|i op s v'|x|m x|a b x]; cbn [type_of marshals] in H; try contradiction. exists t, i, p. split; [reflexivity|]. destruct t; cbn [marshals] in H; try contradiction; cbn; auto.
    - intros (t & i & p & -> & H). exists (VDetails t). right. apply in_or_app. left. cbn [type_of]. destruct H as [<- | [<- | [<- | []]]]; now left.
  Qed.
  (** So never for an error of a constructor, however it was passed on; As finds the struct all the same (C144). *)
  Theorem C147_constructors names ls t i p msg l e : pass_all ls (new_obj t i p) = Some e -> In l (log_error (after names) e msg) -> forall v, ~ In ("details", v) (l_fields l).
  Proof.
    intros He Hl v Hv. destruct (proj1 (C147_details names e msg l Hl)) as (t' & i' & p' & -> & _); [eauto|].
    assert (G : forall ls x, type_of x <> t' \/ match x with Obj _ _ _ => False | _ => True end -> match x with Obj _ _ _ => False | _ => True end -> pass_all ls (Some x) <> Some (Obj t' i' p')).
    { clear. induction ls as [|l ls IH]; intros x _ H; [intros E; injection E as ->; exact H|]. change (pass_all (l :: ls) (Some x)) with (pass_all ls (pass l (Some x))). destruct l; cbn [pass with_stack wrap option_map recover new_model]; apply IH; auto; now right. }
    apply (G ls (StackE (Obj t i p))); [now right|exact I|exact He].
  Qed.
  (** Warnings: one line when the last name allows warnings, with details for the two types that have them. *)
  Theorem C147_warnings names w c :
    (said MWarn names -> log_warning wshow (after names) w c = [mkline 2 (match w with WConvergence | WConversion => [("warning_details", VWarning w)] | _ => [] end) (wshow w c)]) /\
    (~ said MWarn names -> log_warning wshow (after names) w c = []).
  Proof. unfold log_warning. destruct (emit_iff names MWarn (mkline WarnLevel (if wmarshals w then [("warning_details"%string, VWarning w)] else []) (wshow w c)) eq_refl) as [A B]. split; [intros H; rewrite (A H); now destruct w|exact B]. Qed.
End C147.
(** Expected, and false: "records the detailed information of the error as structured log" for the errors of the package *)
Theorem C147_details_refuted : exists (e : err nat) line, new_obj TDimension 0 5%nat = Some e /\ as_type TDimension (Some e) = Some (Obj TDimension 0 5%nat) /\
  log_error (fun _ _ => "2 for 3") (fun _ => "trace") (after (fun s => s) ["info"]) e "fit failed" = [line] /\
  l_fields line = [("error", VText "2 for 3"); ("stacktrace", VText "trace")].
Proof. eexists. eexists. repeat split; reflexivity. Qed.
(** Expected, and false: that an error is logged without any setup *)
Theorem C147_setup_refuted : exists (e : err nat), log_error (fun _ _ => "2 for 3") (fun _ => "trace") (after (fun s => s) []) e "fit failed" = [].
Proof. exists (Obj TDimension 0 5%nat). reflexivity. Qed.
Example C147_example : said (fun s => s) MError ["debug"; "warn"; "verbose"] /\ ~ said (fun s => s) MWarn ["debug"; "error"] /\
  log_error (fun _ (n : nat) => "2 for 3") (fun _ => "") (after (fun s => s) ["warn"; "verbose"]) (Obj TDimension 0 5%nat) "m" = [mkline 3 [("error", VText "2 for 3"); ("details", VDetails TDimension)] "m"].
Proof.
  split; [|split; [|reflexivity]].
  - exists ["debug"], "warn", ["verbose"], [MWarn; MError]. repeat split; cbn; auto 10.
  - intros H. apply after_said in H. destruct H as (z & E & K). injection E as <-. discriminate.
Qed.
Print Assumptions C147_written. Print Assumptions C147_details. Print Assumptions C147_constructors. Print Assumptions C147_warnings. Print Assumptions C147_details_refuted. Print Assumptions C147_setup_refuted.
