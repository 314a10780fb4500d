(** C141: what the logger for tests records *)
From Coq Require Import String List ZArith Bool Lia.
From Verif Require Import Base.GoMap Model.Log Model.TestLog Spec.TestLog Proofs.TestLogP.
Import ListNotations.
Open Scope Z_scope.

Section C141.
  Context {F : Type} (of_int : Z -> F) (fin : F -> bool) (feq : F -> F -> bool) (show : value F -> string).
  Notation trun os L := (fold_left (texec of_int fin show) os (new_test L)).
  Notation srun os L := (fold_left (sexec fin show) os (sstart L)).
  Implicit Types (os : list (top F)).

  (** After any calls of a logger and the loggers made from it GetLogEntries has, in order and since the last Clear, one entry for each
      call that is not below the level of its logger and whose fields can be written as JSON.  A key has the value given last for it:
      by the call, else by With, else the level and message. *)
  Theorem C141_entries os L : Forall2 (reads of_int fin) (get_entries (trun os L)) (entries (srun os L)).
  Proof. apply run_rel, start_rel. Qed.

  (** ContainsField finds what some entry has for the key, for strings, booleans and floats, *)
  Theorem C141_contains os L k v : match v with VStr _ | VBool _ | VNum _ | VNil => True | _ => False end ->
    (contains_field feq (trun os L) k v = true <-> exists l, In l (entries (srun os L)) /\
       match v with VNum x => (exists y, final k l = Some (VNum y) /\ fin y = true /\ feq y x = true) \/ exists z, final k l = Some (VInt z) /\ feq (of_int z) x = true | _ => final k l = Some v end).
  Proof.
    intros Hv. pose proof (C141_entries os L) as H. unfold contains_field. rewrite existsb_exists.
    assert (Hs : forall e l, reads of_int fin e l -> (match sget k e with Some j => same feq j v | None => false end = true <->
      match v with VNum x => (exists y, final k l = Some (VNum y) /\ fin y = true /\ feq y x = true) \/ exists z, final k l = Some (VInt z) /\ feq (of_int z) x = true | _ => final k l = Some v end)).
    { intros e l Hr. rewrite (Hr k). destruct (final k l) as [w|]; [|destruct v; try contradiction; split; try discriminate; intros [(w & K & _) | (w & K & _)]; discriminate].
      destruct w as [a|z|x|b| | |]; cbn [enc]; try (destruct (fin x) eqn:Ex); destruct v as [a'|z'|x'|b'| | |]; cbn; try contradiction; try (split; [discriminate|intros K; try discriminate; destruct K as [(w & K & K' & _) | (w & K & _)]; congruence]).
      - rewrite String.eqb_eq. split; congruence.
      - split; [eauto|]. intros [(w & K & _) | (w & K & K2)]; congruence.
      - split; [eauto|]. intros [(w & K & _ & K2) | (w & K & _)]; congruence.
      - rewrite Bool.eqb_true_iff. split; congruence.
      - split; reflexivity. }
    clear Hv. induction H as [|e l es ls He Hes IH]; cbn [In]; [split; intros (? & [] & _)|]. specialize (Hs e l He). split.
    - intros (x & [<- | Hx] & K); [exists l; split; [now left|now apply Hs]|]. destruct (proj1 IH) as (y & Hy & Ky); [eauto|]. exists y. auto.
    - intros (y & [<- | Hy] & K); [exists e; split; [now left|now apply Hs]|]. destruct (proj2 IH) as (x & Hx & Kx); [eauto|]. exists x. auto.
  Qed.
  (** but never an int, whatever was logged. *)
  Theorem C141_contains_int (s : tst F) k z : contains_field feq s k (VInt z) = false.
  Proof. unfold contains_field. induction (get_entries s) as [|e es IH]; [reflexivity|]. cbn. rewrite IH. destruct (sget k e) as [[]|]; reflexivity. Qed.

  (** One value that JSON cannot hold, such as a NaN, loses the whole entry, *)
  Theorem C141_lost (s : tst F) i m msg pre k x post : fin x = false -> Nat.Even (length pre) -> ~ In (show k) (map fst (pairs show post)) ->
    get_entries (texec of_int fin show s (TLog i m msg (pre ++ k :: VNum x :: post))) = get_entries s.
  Proof.
    intros Hx [h Hh] Hp. cbn. destruct (nth_error (loggers s) i) as [t|]; [|reflexivity]. destruct (_ <=? _); [|reflexivity].
    assert (E : enc_all of_int fin (entry_of show t m msg (pre ++ k :: VNum x :: post)) = None).
    { apply enc_all_none. exists (show k), (VNum x). split; [|cbn; now rewrite Hx]. apply sget_some_in. unfold entry_of. rewrite put_puts', puts_get.
      assert (Ep : pairs show (pre ++ k :: VNum x :: post) = pairs show pre ++ (show k, VNum x) :: pairs show post).
      { clear - Hh. revert pre Hh. induction h as [|h IH]; intros pre Hh; [destruct pre; [reflexivity|discriminate]|]. destruct pre as [|a [|b r]]; cbn in Hh; try lia. cbn [app pairs]. rewrite IH by lia. reflexivity. }
      rewrite Ep, final_app, final_cons, String.eqb_refl. assert (Ef : final (show k) (pairs show post) = None). { unfold final. apply sget_none. unfold skeys. rewrite map_rev. intros K. apply in_rev in K. contradiction. } now rewrite Ef. }
    rewrite E. unfold get_entries. cbn. rewrite flat_map_app. cbn. now rewrite app_nil_r.
  Qed.
  (** and one given to With loses every entry of the logger made, unless the call gives the key a new value. *)
  Theorem C141_with_lost os L i k x os' m msg fs : (i < length (loggers (trun os L)))%nat -> fin x = false -> ~ In (show k) (map fst (pairs show fs)) ->
    get_entries (trun (os ++ TWith i [k; VNum x] :: os' ++ [TLog (length (loggers (trun os L))) m msg fs]) L) = get_entries (trun (os ++ TWith i [k; VNum x] :: os') L).
  Proof.
    intros Hi Hx Hk. set (n := length (loggers (trun os L))). change (TWith i [k; VNum x] :: os') with ([TWith i [k; VNum x]] ++ os'). change (TWith i [k; VNum x] :: os' ++ [TLog n m msg fs]) with ([TWith i [k; VNum x]] ++ os' ++ [TLog n m msg fs]).
    rewrite !app_assoc, fold_left_app. set (s := fold_left _ ((os ++ _) ++ os') _). cbn [fold_left texec].
    assert (Hs : exists t, nth_error (loggers s) n = Some t /\ sget (show k) (t_fields t) = Some (VNum x) /\ NoDup (skeys (t_fields t))).
    { unfold s. rewrite fold_left_app. set (s0 := fold_left _ (os ++ _) _).
      assert (H0 : exists t, nth_error (loggers s0) n = Some t /\ sget (show k) (t_fields t) = Some (VNum x) /\ NoDup (skeys (t_fields t))).
      { unfold s0. rewrite fold_left_app. cbn [fold_left texec]. pose proof (proj1 (run_rel of_int fin show os _ _ (start_rel of_int fin L))) as R. destruct (nth_error (loggers (trun os L)) i) as [t|] eqn:Et; [|apply nth_error_None in Et; unfold n in *; lia].
        pose proof (forall2_nth rel1 _ _ i R) as K. rewrite Et in K. destruct (nth_error (slogs _) i) as [p|]; [|contradiction]. destruct K as (_ & K & _).
        eexists. split; [cbn [loggers]; unfold n; rewrite nth_error_app2, Nat.sub_diag; [reflexivity|lia]|]. cbn [t_fields put_pairs plain]. split; [now rewrite sget_put_same|now apply sput_keys]. }
      clearbody s0. clear s. revert s0 H0. induction os' as [|o os' IH]; intros s0 H0; [exact H0|]. cbn [fold_left]. apply IH. destruct H0 as (t & A & B & C). destruct o; cbn.
      - destruct (nth_error (loggers s0) i0) as [t'|]; [|eauto]. destruct (_ <=? _); cbn; eauto.
      - destruct (nth_error (loggers s0) i0) as [t'|]; [|eauto]. cbn. exists t. split; [rewrite nth_error_app1; [exact A|apply nth_error_Some; congruence]|auto].
      - assert (Hq : forall j l q, nth_error l q = Some t -> exists t', nth_error (set_lvl j L0 l) q = Some t' /\ t_fields t' = t_fields t).
        { clear. induction j as [|j IH]; intros [|y l] [|q] H; cbn in *; try discriminate; eauto. injection H as ->. eexists. split; reflexivity. }
        destruct (Hq i0 _ _ A) as (t' & A' & B'). exists t'. rewrite B'. auto.
      - eauto. }
    destruct Hs as (t & A & B & C). rewrite A. destruct (_ <=? _); [|reflexivity].
    assert (E : enc_all of_int fin (entry_of show t m msg fs) = None).
    { apply enc_all_none. exists (show k), (VNum x). split; [|cbn; now rewrite Hx]. apply sget_some_in. unfold entry_of. rewrite put_puts', puts_get. 
      assert (Ef : final (show k) (pairs show fs) = None) by (unfold final; apply sget_none; unfold skeys; rewrite map_rev; intros K; apply in_rev in K; contradiction). rewrite Ef. refine (eq_trans (puts_get (show k) (t_fields t) _) _). now rewrite (final_nodup _ _ C), B. }
    rewrite E. unfold get_entries. cbn. rewrite flat_map_app. cbn. now rewrite app_nil_r.
  Qed.
  (** Fields given to With are as given in the call. *)
  Theorem C141_with os L i fs1 fs2 m msg : (i < length (loggers (trun os L)))%nat -> Nat.Even (length fs1) ->
    Forall2 (fun e e' => forall k, sget k e = sget k e') (get_entries (trun (os ++ [TWith i fs1; TLog (length (loggers (trun os L))) m msg fs2]) L)) (get_entries (trun (os ++ [TLog i m msg (fs1 ++ fs2)]) L)).
  Proof.
    intros Hi [h Hh]. set (n := length (loggers (trun os L))). pose proof (C141_entries (os ++ [TWith i fs1; TLog n m msg fs2]) L) as H1. pose proof (C141_entries (os ++ [TLog i m msg (fs1 ++ fs2)]) L) as H2.
    assert (E : entries (srun (os ++ [TWith i fs1; TLog n m msg fs2]) L) = entries (srun (os ++ [TLog i m msg (fs1 ++ fs2)]) L)).
    { rewrite !fold_left_app. cbn [fold_left]. pose proof (proj1 (run_rel of_int fin show os _ _ (start_rel of_int fin L))) as R. assert (Hl : length (loggers (trun os L)) = length (slogs (srun os L))) by (clear - R; induction R; cbn; auto). fold n in Hl.
      assert (Ep : pairs show (fs1 ++ fs2) = pairs show fs1 ++ pairs show fs2).
      { clear - Hh. revert fs1 Hh. induction h as [|h IH]; intros fs1 Hh; [destruct fs1; [reflexivity|discriminate]|]. destruct fs1 as [|a [|b r]]; cbn in Hh; try lia. cbn. rewrite IH by lia. reflexivity. }
      cbn [sexec]. destruct (nth_error (slogs (srun os L)) i) as [[L0 acc]|] eqn:Ei; [|apply nth_error_None in Ei; unfold n in *; lia].
      cbn [sexec slogs entries]. rewrite nth_error_app2, Hl, Nat.sub_diag by lia. cbn [nth_error]. rewrite Ep, <- (app_assoc acc). destruct (_ && _); reflexivity. }
    rewrite E in H1. clear E. revert H1 H2. generalize (entries (srun (os ++ [TLog i m msg (fs1 ++ fs2)]) L)). generalize (get_entries (trun (os ++ [TWith i fs1; TLog n m msg fs2]) L)) (get_entries (trun (os ++ [TLog i m msg (fs1 ++ fs2)]) L)). clear.
    intros es es' ls H1. revert es'. induction H1 as [|e l es ls He Hes IH]; intros es' H2; inversion H2 as [|e' l' es'' ls' He' Hes']; subst; constructor; auto. intros k. now rewrite (He k), (He' k).
  Qed.
End C141.

(** Numbers: the integers and one that JSON refuses *)
Definition ex_fin (x : option Z) : bool := match x with Some _ => true | None => false end.
Definition ex_eq (x y : option Z) : bool := match x, y with Some a, Some b => a =? b | _, _ => false end.
Definition ex_show (v : value (option Z)) : string := match v with VStr s => s | VErr s => s | _ => "?" end.
Definition ex_run os := fold_left (texec (fun z => Some z) ex_fin ex_show) os (new_test LevelInfo).

(** "ContainsField finds a field that was logged" *)
Theorem C141_contains_refuted : exists k v, contains_field ex_eq (ex_run [TLog 0 MInfo "fit" [VStr k; v]]) k v = false /\ k = "samples"%string /\ v = VInt 1000.
Proof. exists "samples"%string, (VInt 1000). repeat split. Qed.
(** "a message at or above the level is recorded" *)
Theorem C141_recorded_refuted : exists m msg fs, LevelInfo <= number m /\ get_entries (ex_run [TLog 0 m msg fs]) = [] /\ fs = [VStr "loss"; VNum None]%string.
Proof. exists MError, "diverged"%string, [VStr "loss"; VNum None]%string. split; [unfold LevelInfo, number; lia|]. split; reflexivity. Qed.
(** "an error given first to Error is recorded", as the interface says and the other logger does: alone it is dropped, and else it is the
    key of the next field *)
Theorem C141_error_first_refuted : exists e, get_entries (ex_run [TLog 0 MError "failed" [VErr e]]) = get_entries (ex_run [TLog 0 MError "failed" []]) /\
  contains_field ex_eq (ex_run [TLog 0 MError "failed" [VErr e; VStr "op"; VStr "fit"]]) "op" (VStr "fit") = false /\
  contains_field ex_eq (ex_run [TLog 0 MError "failed" [VErr e; VStr "op"; VStr "fit"]]) e (VStr "op") = true.
Proof. exists "no data"%string. repeat split. Qed.
(** "the entry has the level and message of the call" *)
Theorem C141_message_refuted : exists fs, contains_field ex_eq (ex_run [TLog 0 MInfo "fit" fs]) "message" (VStr "fit") = false.
Proof. exists [VStr "message"; VStr "other"]%string. reflexivity. Qed.

Example C141_case : get_entries (ex_run [TLog 0 MDebug "a" []; TWith 0 [VStr "model"; VStr "ridge"]; TLog 1 MWarn "b" [VStr "n"; VInt 3; VStr "odd"]])
  = [[("n", JNum (Some 3)); ("model", JStr "ridge"); ("message", JStr "b"); ("level", JStr "WARN")]]%string.
Proof. reflexivity. Qed.
Example C141_case_contains : contains_field ex_eq (ex_run [TLog 0 MInfo "fit" [VStr "n"; VInt 3]]) "n" (VNum (Some 3)) = true.
Proof. reflexivity. Qed.

Print Assumptions C141_entries. Print Assumptions C141_contains. Print Assumptions C141_contains_int. Print Assumptions C141_lost. Print Assumptions C141_with_lost. Print Assumptions C141_with.
Print Assumptions C141_contains_refuted. Print Assumptions C141_recorded_refuted. Print Assumptions C141_error_first_refuted. Print Assumptions C141_message_refuted.
