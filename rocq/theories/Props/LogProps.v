(** C140: levels and fields of the loggers *)
From Coq Require Import String List ZArith Bool Lia.
From Verif Require Import Model.Log Spec.Log Proofs.LogP.
Import ListNotations.
Open Scope Z_scope.

Section C140.
  Context {V : Type} (show : V -> string) (is_err : V -> bool) (stack : V -> option string).
  Notation exec := (exec show is_err stack).
  Notation run := (run show is_err stack).
  Notation writes := (writes show is_err stack).
  Notation silent := (silent show is_err stack).
  Implicit Types (s : st V).
  (** Level L is set on provider p, then a logger is got from it, with or without name, with anything else around that sets no level. *)
  Definition after_set (s : st V) p L os1 name os2 : st V * nat :=
    let s1 := run (exec s (SetLevel p L)) os1 in
    (run (exec s1 match name with Some n => GetName p n | None => Get p end) os2, length (logs s1)).
  Lemma after_set_levels s p L os1 name os2 : (p < length (provs s))%nat -> forallb keeps_levels os1 = true -> forallb keeps_levels os2 = true ->
    let '(s2, i) := after_set s p L os1 name os2 in
    exists g, nth_error (logs s2) i = Some g /\ level g = set_level_level L /\ glob s2 = set_level_level L.
  Proof.
    intros Hp H1 H2. unfold after_set. destruct (nth_error (provs s) p) as [g0|] eqn:E0; [|apply nth_error_None in E0; lia].
    set (g1 := mklogger (set_level_level L) (context g0)). assert (Hs : nth_error (provs (exec s (SetLevel p L))) p = Some g1) by (cbn; rewrite E0; now apply set_at_same).
    assert (Hg : glob (exec s (SetLevel p L)) = set_level_level L) by (cbn; now rewrite E0).
    destruct (run_quiet show is_err stack os1 (exec s (SetLevel p L)) H1) as [A B]. specialize (B p g1 Hs).
    destruct name as [n|].
    - destruct (from_after show is_err stack (fun g => named g n) _ p g1 os2 B ltac:(reflexivity) H2) as (g' & C & D & F). exists g'. split; [exact D|]. split; [exact C|]. rewrite <- Hg, <- A. exact F.
    - destruct (from_after show is_err stack (fun g => g) _ p g1 os2 B ltac:(reflexivity) H2) as (g' & C & D & F). exists g'. split; [exact D|]. split; [exact C|]. rewrite <- Hg, <- A. exact F.
  Qed.

  (** Numbers of SetLevel from -1 to 7 are taken for zerolog's, where debug, info, warn, error are 0, 1, 2, 3; others mean info. *)
  Theorem C140_set_level s p L os1 name os2 m : (p < length (provs s))%nat -> forallb keeps_levels os1 = true -> forallb keeps_levels os2 = true ->
    let '(s2, i) := after_set s p L os1 name os2 in
    (-1 <= L <= 7 -> if L <=? event_level m then writes s2 i m else silent s2 i m) /\
    (L < -1 \/ 7 < L -> match m with MDebug => silent s2 i m | _ => writes s2 i m end).
  Proof.
    intros Hp H1 H2. pose proof (after_set_levels s p L os1 name os2 Hp H1 H2) as K. destruct (after_set s p L os1 name os2) as [s2 i]. destruct K as (g & K1 & K2 & K3).
    pose proof (log_iff show is_err stack s2 i g m K1) as K. rewrite K2, K3, andb_diag in K. unfold set_level_level in K. split; intros HL.
    - destruct (Z.ltb_spec L TraceLevel); [unfold TraceLevel in *; lia|]. destruct (Z.ltb_spec Disabled L); [unfold Disabled in *; lia|]. exact K.
    - destruct (Z.ltb_spec L TraceLevel); [|destruct (Z.ltb_spec Disabled L)]; cbn [orb] in K; try (destruct m; exact K). unfold TraceLevel, Disabled in *. lia.
  Qed.
  (** For the levels of the package: debug shows no debug messages, info shows them, warn shows nothing, error shows info. *)
  Theorem C140_named_levels s p os1 name os2 : (p < length (provs s))%nat -> forallb keeps_levels os1 = true -> forallb keeps_levels os2 = true ->
    (let '(s2, i) := after_set s p LevelDebug os1 name os2 in silent s2 i MDebug /\ writes s2 i MInfo /\ writes s2 i MWarn /\ writes s2 i MError) /\
    (let '(s2, i) := after_set s p LevelInfo os1 name os2 in forall m, writes s2 i m) /\
    (let '(s2, i) := after_set s p LevelWarn os1 name os2 in forall m, silent s2 i m) /\
    (let '(s2, i) := after_set s p LevelError os1 name os2 in silent s2 i MDebug /\ writes s2 i MInfo /\ writes s2 i MWarn /\ writes s2 i MError).
  Proof.
    intros Hp H1 H2. split; [|split; [|split]].
    - pose proof (fun m => C140_set_level s p LevelDebug os1 name os2 m Hp H1 H2) as K. destruct (after_set s p LevelDebug os1 name os2) as [s2 i].
      split; [apply (K MDebug)|split; [apply (K MInfo)|split; [apply (K MWarn)|apply (K MError)]]]; left; reflexivity.
    - pose proof (fun m => C140_set_level s p LevelInfo os1 name os2 m Hp H1 H2) as K. destruct (after_set s p LevelInfo os1 name os2) as [s2 i].
      intros m. destruct (K m) as [K1 _]. assert (-1 <= LevelInfo <= 7) as Hl by (unfold LevelInfo; lia). specialize (K1 Hl). now destruct m.
    - pose proof (fun m => C140_set_level s p LevelWarn os1 name os2 m Hp H1 H2) as K. destruct (after_set s p LevelWarn os1 name os2) as [s2 i].
      intros m. destruct (K m) as [K1 _]. assert (-1 <= LevelWarn <= 7) as Hl by (unfold LevelWarn; lia). specialize (K1 Hl). now destruct m.
    - pose proof (fun m => C140_set_level s p LevelError os1 name os2 m Hp H1 H2) as K. destruct (after_set s p LevelError os1 name os2) as [s2 i].
      split; [apply (K MDebug)|split; [apply (K MInfo)|split; [apply (K MWarn)|apply (K MError)]]]; right; reflexivity.
  Qed.
  (** SetupLogger does what it says: the loggers of the package then write from the level of that name on. *)
  Theorem C140_setup s lower t z os1 name os2 m : to_log_level lower t = Some z -> forallb no_provider_change os1 = true -> forallb keeps_levels os2 = true ->
    let s1 := run (exec s (Setup lower t)) os1 in
    let s2 := run (exec s1 (Named name)) os2 in
    if z <=? event_level m then writes s2 (length (logs s1)) m else silent s2 (length (logs s1)) m.
  Proof.
    intros Hz H1 H2 s1 s2. set (p := length (provs s)).
    assert (Hs : nth_error (provs (exec s (Setup lower t))) p = Some (mklogger z [])) by (cbn; rewrite Hz; cbn; apply nth_new).
    assert (Hg : glob (exec s (Setup lower t)) = z) by (cbn; now rewrite Hz). assert (Hd : dflt (exec s (Setup lower t)) = Some p) by (cbn; now rewrite Hz).
    destruct (run_quiet show is_err stack os1 (exec s (Setup lower t)) (quiet_of os1 H1)) as [A B]. specialize (B p _ Hs). pose proof (run_dflt show is_err stack os1 _ p H1 Hd) as D.
    destruct (from_after show is_err stack (fun g => named g name) s1 p _ os2 B ltac:(reflexivity) H2) as (g' & C & F & G).
    assert (E2 : s2 = run (from_provider (fun g => named g name) p s1) os2) by (unfold s2; cbn [Model.Log.exec]; unfold default_provider; fold s1 in D; now rewrite D).
    rewrite E2. pose proof (log_iff show is_err stack _ _ g' m F) as K. rewrite G, C in K. cbn [level] in K. fold s1 in A. rewrite A, Hg, andb_diag in K. exact K.
  Qed.
  (** The same by the names, in any case of the letters; other names panic. *)
  Theorem C140_setup_names s lower t ws os1 name os2 m : In (lower t, ws) setup_writes -> forallb no_provider_change os1 = true -> forallb keeps_levels os2 = true ->
    let s1 := run (exec s (Setup lower t)) os1 in
    let s2 := run (exec s1 (Named name)) os2 in
    (In m ws -> writes s2 (length (logs s1)) m) /\ (~ In m ws -> silent s2 (length (logs s1)) m).
  Proof.
    intros Hin H1 H2. assert (E : exists z, to_log_level lower t = Some z /\ ((z <=? event_level m) = true <-> In m ws)).
    { unfold to_log_level. cbn in Hin. repeat (destruct Hin as [Hin | Hin]; [injection Hin as Hn <-; rewrite <- Hn; eexists; split; [reflexivity|]; destruct m; cbn; intuition discriminate|]). contradiction. }
    destruct E as (z & Ez & Em). pose proof (C140_setup s lower t z os1 name os2 m Ez H1 H2) as K. cbv zeta in K |- *.
    destruct (z <=? event_level m).
    - split; [intros _; exact K|]. intros N. exfalso. apply N, Em. reflexivity.
    - split; [|intros _; exact K]. intros I. apply Em in I. discriminate.
  Qed.
  Theorem C140_other_names lower t : ~ In (lower t) (map fst setup_writes) -> to_log_level lower t = None.
  Proof.
    intros N. unfold to_log_level. cbn [map fst setup_writes In] in N.
    repeat match goal with |- context [(lower t =? ?n)%string] => let K := fresh in destruct (String.eqb_spec (lower t) n) as [K|K]; [exfalso; apply N; rewrite K; auto 12|]; cbn [orb] end. reflexivity.
  Qed.
  (** As long as no level is set, a provider's own level alone decides. *)
  Theorem C140_provider os1 z os2 name os3 m : forallb keeps_levels os1 = true -> forallb keeps_levels os2 = true -> forallb keeps_levels os3 = true -> -1 <= z ->
    let s0 := run init os1 in
    let s1 := run (exec s0 (NewProvider z)) os2 in
    let s2 := run (exec s1 (GetName (length (provs s0)) name)) os3 in
    if z <=? event_level m then writes s2 (length (logs s1)) m else silent s2 (length (logs s1)) m.
  Proof.
    intros H1 H2 H3 Hz s0 s1 s2. destruct (run_quiet show is_err stack os1 init H1) as [A _]. fold s0 in A. destruct (run_quiet show is_err stack os2 (exec s0 (NewProvider z)) H2) as [B C]. fold s1 in B, C.
    specialize (C (length (provs s0)) (mklogger z []) (nth_new _ _)). destruct (from_after show is_err stack (fun g => named g name) s1 _ _ os3 C ltac:(reflexivity) H3) as (g' & D & E & F).
    pose proof (log_iff show is_err stack _ _ g' m E) as K. rewrite F, D, B in K. cbn [level Model.Log.exec glob] in K. rewrite A in K.
    change (glob (@init V)) with (-1) in K. replace (-1 <=? event_level m) with true in K by (destruct m; reflexivity). rewrite andb_true_r in K. exact K.
  Qed.
  (** Before any level or provider is set the loggers of the package write all but debug messages. *)
  Theorem C140_unconfigured os1 name os2 : forallb no_provider_change os1 = true -> forallb keeps_levels os2 = true ->
    let s1 := run init os1 in
    let s2 := run (exec s1 (Named name)) os2 in
    silent s2 (length (logs s1)) MDebug /\ writes s2 (length (logs s1)) MInfo /\ writes s2 (length (logs s1)) MWarn /\ writes s2 (length (logs s1)) MError.
  Proof.
    intros H1 H2 s1 s2. assert (I : forall os s, forallb no_provider_change os = true -> match dflt s with None => True | Some p => nth_error (provs s) p = Some (mklogger 1 []) end ->
      match dflt (run s os) with None => True | Some p => nth_error (provs (run s os)) p = Some (mklogger 1 []) end).
    { clear. induction os as [|o os IH]; intros s H Hs; [exact Hs|]. cbn [forallb] in H. apply andb_prop in H as [Ho H]. apply (IH (exec s o) H). clear IH H.
      destruct (dflt s) as [p|] eqn:Ed.
      - assert (Ho' : forallb no_provider_change [o] = true) by (cbn; now rewrite Ho). pose proof (run_dflt show is_err stack [o] s p Ho' Ed) as D. cbn [Model.Log.run fold_left] in D. rewrite D.
        apply (exec_quiet show is_err stack s o); [now destruct o|exact Hs].
      - destruct o; cbn in Ho |- *; try discriminate; rewrite ?Ed; auto; unfold default_provider; rewrite ?Ed; unfold from_provider; cbn [provs].
        + destruct (nth_error (provs s) p); cbn [hand_out dflt]; rewrite ?Ed; exact I.
        + destruct (nth_error (provs s) p); cbn [hand_out dflt]; rewrite ?Ed; exact I.
        + rewrite nth_new. cbn. apply nth_new.
        + rewrite nth_new. cbn. apply nth_new.
        + destruct (nth_error (logs s) i); cbn [hand_out dflt]; rewrite ?Ed; exact I.
        + destruct (nth_error (logs s) i); [destruct (_ || _)|]; cbn [dflt]; rewrite ?Ed; exact I. }
    destruct (run_quiet show is_err stack os1 init (quiet_of os1 H1)) as [A _]. fold s1 in A. change (glob (@init V)) with (-1) in A.
    assert (E2 : exists g, nth_error (logs s2) (length (logs s1)) = Some g /\ level g = 1 /\ glob s2 = -1).
    { specialize (I os1 init H1 Logic.I). fold s1 in I. unfold s2. cbn [Model.Log.exec]. unfold default_provider. destruct (dflt s1) as [p|].
      - destruct (from_after show is_err stack (fun g => named g name) s1 _ _ os2 I ltac:(reflexivity) H2) as (g' & D & E & F). exists g'. split; [exact E|]. split; [exact D|]. now rewrite F.
      - match goal with |- context [from_provider ?f ?p ?s] => destruct (from_after show is_err stack f s p (mklogger 1 []) os2 (nth_new _ _) ltac:(reflexivity) H2) as (g' & D & E & F) end.
        exists g'. split; [exact E|]. split; [exact D|]. now rewrite F. }
    destruct E2 as (g & E & L & G). pose proof (fun m => log_iff show is_err stack _ _ g m E) as K. rewrite L, G in K. repeat split; [exact (K MDebug)|exact (K MInfo)|exact (K MWarn)|exact (K MError)].
  Qed.
  (** A level that is set never makes an older logger write more: it writes what was within its own level and is within the new one. *)
  Theorem C140_old_loggers s p L i g m : (p < length (provs s))%nat -> nth_error (logs s) i = Some g ->
    if (level g <=? event_level m) && (set_level_level L <=? event_level m) then writes (exec s (SetLevel p L)) i m else silent (exec s (SetLevel p L)) i m.
  Proof.
    intros Hp Hi. pose proof (exec_logs show is_err stack s (SetLevel p L) i g Hi) as K. pose proof (log_iff show is_err stack _ i g m K) as K2.
    assert (Hg : glob (exec s (SetLevel p L)) = set_level_level L). { cbn. destruct (nth_error (provs s) p) eqn:E0; [reflexivity|]. apply nth_error_None in E0. lia. } now rewrite Hg in K2.
  Qed.
  (** What is written was enabled; and the other way round just after setting the level. *)
  Theorem C140_enabled s i g m : nth_error (logs s) i = Some g -> ~ silent s i m -> enabled g (level_of m) = true.
  Proof.
    intros Hi Hs. pose proof (log_iff show is_err stack s i g m Hi) as K. destruct (Z.leb_spec (level g) (event_level m)); [|contradiction]. unfold enabled. apply Z.leb_le. now destruct m.
  Qed.
  Theorem C140_enabled_after_set s p L os1 name os2 m : (p < length (provs s))%nat -> forallb keeps_levels os1 = true -> forallb keeps_levels os2 = true ->
    let '(s2, i) := after_set s p L os1 name os2 in exists g, nth_error (logs s2) i = Some g /\ if enabled g (level_of m) then writes s2 i m else silent s2 i m.
  Proof.
    intros Hp H1 H2. pose proof (after_set_levels s p L os1 name os2 Hp H1 H2) as K. destruct (after_set s p L os1 name os2) as [s2 i]. destruct K as (g & K1 & K2 & K3).
    exists g. split; [exact K1|]. pose proof (log_iff show is_err stack s2 i g m K1) as K. unfold enabled. rewrite K2, K3, andb_diag in K. rewrite K2. destruct m; exact K.
  Qed.

  (** The logger that With returns writes exactly what the one it was made from writes, so the fields are lost. *)
  Theorem C140_with s i fs0 os m fs msg : (i < length (logs s))%nat ->
    let s1 := run (exec s (With i fs0)) os in
    written show is_err stack s1 (Log (length (logs s)) m fs msg) = written show is_err stack s1 (Log i m fs msg).
  Proof.
    intros Hi s1. destruct (nth_error (logs s) i) as [g|] eqn:Eg; [|apply nth_error_None in Eg; lia].
    assert (E1 : nth_error (logs s1) i = Some g) by now apply run_logs, exec_logs.
    assert (E2 : nth_error (logs s1) (length (logs s)) = Some g) by (apply run_logs; cbn; rewrite Eg; apply nth_new).
    now rewrite (written_log show is_err stack s1 _ g m fs msg E1), (written_log show is_err stack s1 _ g m fs msg E2).
  Qed.
  (** A pair of key and value appears under its key unless the value is an error, which appears as "error"; what has no partner is left
      out.  In Error a first field that is an error is taken by itself. *)
  Theorem C140_fields s i m fs msg e : written show is_err stack s (Log i m fs msg) = [e] -> (m = MError -> forall v r, fs = v :: r -> is_err v = false) ->
    exists g, nth_error (logs s) i = Some g /\ exists l, e_fields e = context g ++ l /\ length l = (length fs / 2)%nat /\
      forall j k v, nth_error fs (2 * j) = Some k -> nth_error fs (2 * j + 1) = Some v -> nth_error l j = Some ((if is_err v then "error"%string else show k), CVal v).
  Proof.
    intros H He. unfold written in H. cbn in H. destruct (nth_error (logs s) i) as [g|] eqn:Eg; [|rewrite skip_all in H; discriminate]. exists g. split; [reflexivity|].
    destruct (_ || _); [rewrite skip_all in H; discriminate|]. cbn in H. rewrite skip_app in H. injection H as <-. exists (add_fields show is_err fs). cbn [e_fields]. split.
    - destruct m; try reflexivity. cbn [fields_of]. unfold error_fields. destruct fs as [|v r]; [reflexivity|]. now rewrite (He eq_refl v r eq_refl).
    - clear. assert (Hind : forall n (fs : list V), (length fs < 2 * n)%nat -> length (add_fields show is_err fs) = (length fs / 2)%nat /\
        forall j k v, nth_error fs (2 * j) = Some k -> nth_error fs (2 * j + 1) = Some v -> nth_error (add_fields show is_err fs) j = Some ((if is_err v then "error"%string else show k), CVal v)).
      + induction n as [|n IH]; intros fs0 Hn; [lia|]. destruct fs0 as [|a [|b r]]; cbn [length] in Hn.
        * split; [reflexivity|]. intros j k v H. destruct (2 * j)%nat; discriminate.
        * split; [reflexivity|]. intros j k v H H'. destruct j; [discriminate|]. replace (2 * S j)%nat with (S (S (2 * j))) in H by lia. cbn in H. destruct (j + (j + 0))%nat; discriminate.
        * destruct (IH r ltac:(lia)) as [I1 I2]. split.
          -- cbn [add_fields length]. rewrite I1. change (S (S (length r))) with (2 + length r)%nat. replace (2 + length r)%nat with (length r + 1 * 2)%nat by lia. rewrite Nat.div_add by lia. lia.
          -- intros j k v H H'. destruct j as [|j]; [cbn in H, H'; injection H as ->; injection H' as ->; reflexivity|]. replace (2 * S j)%nat with (S (S (2 * j))) in H by lia. replace (2 * S j + 1)%nat with (S (S (2 * j + 1))) in H' by lia. cbn [add_fields nth_error]. now apply I2.
      + apply (Hind (S (length fs)) fs). lia.
  Qed.
  Theorem C140_error_first s i v r msg e : written show is_err stack s (Log i MError (v :: r) msg) = [e] -> is_err v = true ->
    exists g, nth_error (logs s) i = Some g /\ e_fields e = context g ++ ("error"%string, CVal v) :: (match stack v with Some t => [("stacktrace"%string, CStr t)] | None => [] end) ++ add_fields show is_err r.
  Proof.
    intros H He. unfold written in H. cbn in H. destruct (nth_error (logs s) i) as [g|] eqn:Eg; [|rewrite skip_all in H; discriminate]. exists g. split; [reflexivity|].
    destruct (_ || _); [rewrite skip_all in H; discriminate|]. cbn in H. rewrite skip_app in H. injection H as <-. cbn. now rewrite He.
  Qed.
  (** A logger with a name shows it. *)
  Theorem C140_component s p name os m fs msg e : (p < length (provs s))%nat ->
    written show is_err stack (run (exec s (GetName p name)) os) (Log (length (logs s)) m fs msg) = [e] -> In ("component"%string, CStr name) (e_fields e).
  Proof.
    intros Hp H. destruct (nth_error (provs s) p) as [g|] eqn:Eg; [|apply nth_error_None in Eg; lia]. set (s1 := run _ _) in H.
    assert (E2 : nth_error (logs s1) (length (logs s)) = Some (named g name)) by (apply run_logs; cbn; unfold from_provider; rewrite Eg; apply nth_new).
    rewrite (written_log show is_err stack s1 _ _ m fs msg E2) in H. destruct (_ || _); [discriminate|]. injection H as <-. cbn. apply in_or_app. left. apply in_or_app. right. now left.
  Qed.
End C140.

(** Concrete values: strings, and errors with a message *)
Definition ex_show (v : string + string) : string := match v with inl s => s | inr s => s end.
Definition ex_err (v : string + string) : bool := match v with inl _ => false | inr _ => true end.
Definition ex_stack (v : string + string) : option string := None.
Definition ex_run := run ex_show ex_err ex_stack.
Definition ex_one : st (string + string) := ex_run (@init _) [NewProvider InfoLevel; Get 0].

(** "SetLevel L: the loggers got afterwards write the messages from L on" *)
Theorem C140_set_level_refuted : exists (s : st (string + string)) p L m, (p < length (provs s))%nat /\ In L [LevelDebug; LevelInfo; LevelWarn; LevelError] /\ L <= level_of m /\
  forall fs msg, out (ex_run s [SetLevel p L; Get p; Log (length (logs s)) m fs msg]) = out s.
Proof. exists (ex_run (@init _) [NewProvider InfoLevel]), 0%nat, LevelWarn, MError. split; [cbn; lia|]. split; [cbn; auto|]. split; [cbn; unfold LevelWarn; lia|]. intros. reflexivity. Qed.
(** "a logger made by With shows the fields" *)
Theorem C140_with_refuted : exists (s : st (string + string)) i fs msg e, out (ex_run s [With i fs; Log (length (logs s)) MInfo [] msg]) = out s ++ [e] /\ e_fields e = [] /\ fs = [inl "model"; inl "ridge"]%string.
Proof. exists ex_one, 0%nat, [inl "model"; inl "ridge"]%string, "fitted"%string, (mkentry 1 [] "fitted"%string). repeat split. Qed.
(** "what is enabled is written" *)
Theorem C140_enabled_refuted : exists (s : st (string + string)) i g m, nth_error (logs s) i = Some g /\ enabled g (level_of m) = true /\ silent ex_show ex_err ex_stack s i m.
Proof. exists (ex_run ex_one [SetLevel 0 LevelWarn]), 0%nat, (mklogger InfoLevel []), MError. repeat split. Qed.
(** "an error is shown under its key" *)
Theorem C140_error_key_refuted : exists (s : st (string + string)) i k v msg e, out (ex_run s [Log i MWarn [inl k; inr v] msg]) = out s ++ [e] /\ e_fields e = [("error"%string, CVal (inr v))] /\ k = "cause"%string.
Proof. exists ex_one, 0%nat, "cause"%string, "no data"%string, "retry"%string. eexists. split; [reflexivity|]. split; reflexivity. Qed.

(** SetupLogger("warn"), then a named logger: the warning is written with its component, the information is not *)
Example C140_case : out (ex_run (@init _) [Setup (fun s => s) "warn"; Named "trainer"; Log 0 MInfo [] "a"; Log 0 MWarn [inl "k"; inl "v"] "b"]%string)
  = [mkentry 2 [("component", CStr "trainer"); ("k", CVal (inl "v"))] "b"]%string.
Proof. reflexivity. Qed.
Example C140_case_levels : (0 < length (provs ex_one))%nat /\ out (ex_run ex_one [SetLevel 0 LevelDebug; Get 0; Log 1 MDebug [] "a"; Log 1 MInfo [] "b"]%string) = [mkentry 1 [] "b"%string].
Proof. split; [cbn; lia|reflexivity]. Qed.

Print Assumptions C140_set_level. Print Assumptions C140_named_levels. Print Assumptions C140_setup. Print Assumptions C140_old_loggers. Print Assumptions C140_enabled.
Print Assumptions C140_enabled_after_set. Print Assumptions C140_with. Print Assumptions C140_fields. Print Assumptions C140_error_first. Print Assumptions C140_component.
Print Assumptions C140_set_level_refuted. Print Assumptions C140_with_refuted. Print Assumptions C140_enabled_refuted. Print Assumptions C140_error_key_refuted.
Print Assumptions C140_setup_names. Print Assumptions C140_other_names. Print Assumptions C140_provider. Print Assumptions C140_unconfigured.
