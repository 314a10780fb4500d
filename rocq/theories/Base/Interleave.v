(** Interleaving semantics for a fixed pool of goroutines.

    A goroutine is the list of atomic actions it still has to perform.  A
    configuration is a shared state with one list per goroutine; a step lets any
    goroutine perform its next action.  wg.Wait() returns in the configurations
    in which every list is empty. *)
From Coq Require Import List Arith Lia Relations Permutation.
Import ListNotations.

Section Interleave.
  Context {S Act : Type} (run : Act -> S -> S).

  Inductive istep : S * list (list Act) -> S * list (list Act) -> Prop :=
  | istep_intro s pre a p post :
      istep (s, pre ++ (a :: p) :: post) (run a s, pre ++ p :: post).

  Inductive isteps : S * list (list Act) -> S * list (list Act) -> Prop :=
  | isteps_refl c : isteps c c
  | isteps_step c c' c'' : istep c c' -> isteps c' c'' -> isteps c c''.

  Definition all_done (ps : list (list Act)) : Prop := forall p, In p ps -> p = [].

  (** Sequential execution of a list of actions. *)
  Definition exec (l : list Act) (s : S) : S := fold_left (fun s a => run a s) l s.

  Lemma exec_app l1 l2 s : exec (l1 ++ l2) s = exec l2 (exec l1 s).
  Proof. unfold exec; apply fold_left_app. Qed.

  Lemma all_done_concat ps : all_done ps -> concat ps = [].
  Proof.
    induction ps as [|p ps IH]; intros H; [reflexivity|].
    simpl. rewrite (H p (or_introl eq_refl)). apply IH.
    intros q Hq. apply H. now right.
  Qed.

  Lemma exec_move_front l a s :
    (forall b, In b l -> forall s, run a (run b s) = run b (run a s)) ->
    exec (l ++ [a]) s = exec (a :: l) s.
  Proof.
    revert s; induction l as [|b l IH]; intros s H; [reflexivity|].
    cbn [app]. change (exec (b :: l ++ [a]) s) with (exec (l ++ [a]) (run b s)).
    rewrite IH by (intros c Hc; apply H; now right).
    change (exec (a :: l) (run b s)) with (exec l (run a (run b s))).
    rewrite H by now left. reflexivity.
  Qed.

  Lemma isteps_exec c c' :
    isteps c c' ->
    NoDup (concat (snd c)) ->
    (forall a b, In a (concat (snd c)) -> In b (concat (snd c)) -> a <> b ->
       forall s, run a (run b s) = run b (run a s)) ->
    exec (concat (snd c)) (fst c) = exec (concat (snd c')) (fst c').
  Proof.
    induction 1 as [c|c c' c'' Hs _ IH]; intros Hnd Hc; [reflexivity|].
    destruct Hs as [s pre a p post]. cbn [fst snd] in *.
    assert (Hcat : concat (pre ++ (a :: p) :: post) = concat pre ++ a :: (p ++ concat post))
      by (rewrite concat_app; reflexivity).
    assert (Hcat' : concat (pre ++ p :: post) = concat pre ++ (p ++ concat post))
      by (rewrite concat_app; reflexivity).
    rewrite Hcat in *. rewrite Hcat' in IH.
    rewrite <- IH.
    - change (a :: p ++ concat post) with ([a] ++ (p ++ concat post)).
      rewrite (app_assoc (concat pre) [a]), exec_app, exec_move_front.
      + change (exec (a :: concat pre) s) with (exec (concat pre) (run a s)).
        now rewrite <- exec_app.
      + intros b Hb s'. apply Hc.
        * apply in_app_iff; right; now left.
        * apply in_app_iff; now left.
        * intros ->. apply NoDup_remove_2 in Hnd. apply Hnd.
          apply in_app_iff; now left.
    - now apply NoDup_remove_1 in Hnd.
    - intros x y Hx Hy. apply Hc; apply in_app_iff.
      + apply in_app_iff in Hx as [Hx|Hx]; [now left|right; now right].
      + apply in_app_iff in Hy as [Hy|Hy]; [now left|right; now right].
  Qed.

  (** Every complete interleaving of commuting, pairwise distinct actions has
      the effect of the sequential execution. *)
  Lemma interleave_sequential s ps s' ps' :
    isteps (s, ps) (s', ps') -> all_done ps' ->
    NoDup (concat ps) ->
    (forall a b, In a (concat ps) -> In b (concat ps) -> a <> b ->
       forall s, run a (run b s) = run b (run a s)) ->
    s' = exec (concat ps) s.
  Proof.
    intros H Hd Hnd Hc. pose proof (isteps_exec _ _ H Hnd Hc) as E. cbn [fst snd] in E.
    rewrite E, (all_done_concat _ Hd). reflexivity.
  Qed.

  (** Progress and termination: a configuration that is not finished can step,
      and an execution has at most as many steps as there are actions. *)
  Lemma istep_progress s ps : ~ all_done ps -> exists c', istep (s, ps) c'.
  Proof.
    intros H. assert (exists p, In p ps /\ p <> []) as (p & Hp & Hne).
    { induction ps as [|q ps IH]; [exfalso; apply H; easy|].
      destruct q as [|a q].
      - destruct IH as (p & Hp & Hne).
        + intros Hd. apply H. intros p [<-|Hp]; [reflexivity|now apply Hd].
        + exists p; split; [now right|exact Hne].
      - exists (a :: q). split; [now left|easy]. }
    destruct p as [|a p]; [easy|].
    apply in_split in Hp as (pre & post & ->). eexists. constructor.
  Qed.

  Lemma istep_measure c c' : istep c c' ->
    length (concat (snd c)) = Datatypes.S (length (concat (snd c'))).
  Proof.
    intros H; destruct H; cbn [snd]. rewrite !concat_app, !app_length; simpl.
    rewrite !app_length. lia.
  Qed.

  Lemma exists_complete ps s : exists s' ps', isteps (s, ps) (s', ps') /\ all_done ps'.
  Proof.
    remember (length (concat ps)) as n eqn:Hn. revert s ps Hn.
    induction n as [|n IH]; intros s ps Hn.
    - exists s, ps. split; [constructor|]. intros p Hp.
      destruct p as [|a p]; [reflexivity|]. exfalso.
      apply in_split in Hp as (pre & post & ->).
      rewrite concat_app, app_length in Hn. simpl in Hn. lia.
    - destruct (istep_progress s ps) as [[s1 ps1] H1].
      { intros Hd. rewrite (all_done_concat _ Hd) in Hn. discriminate. }
      pose proof (istep_measure _ _ H1) as Hm. cbn [snd] in Hm.
      destruct (IH s1 ps1) as (s' & ps' & H2 & Hd); [lia|].
      exists s', ps'. split; [econstructor; eauto|exact Hd].
  Qed.
End Interleave.
