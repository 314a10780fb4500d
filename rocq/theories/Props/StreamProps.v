(** C55 and C96: training and predicting from channels. *)
From Coq Require Import List Bool Arith Lia.
From Verif Require Import Base.GoRes Model.Stream Spec.Stream.
Import ListNotations.
Local Open Scope list_scope.

Section C55.
Variables (S B : Type) (pfit : S -> B -> S * res unit).
Notation steps := (fs_steps S B pfit).

Lemma train_app s l l' :
  train pfit s (l ++ l') = match snd (train pfit s l) with Ok _ => train pfit (fst (train pfit s l)) l' | _ => train pfit s l end.
Proof.
  revert s. induction l as [|b l IH]; cbn; intros s; [reflexivity|].
  destruct (snd (pfit s b)); cbn; try reflexivity. apply IH.
Qed.

(** In every state that can be reached: what was sent is what was received and then what is
    still waiting; the model is in the state reached by training on the batches received, in
    their order.  The method is still running only if all updates succeeded.  It returns
    success only if the channel is closed and every batch sent was used; the context's error
    only if it was cancelled; and otherwise the result of the last batch received, the first
    that failed. *)
Theorem C55_stream (s0 : S) (w : fsw S B) :
  steps (fs_init s0) w ->
  f_sent w = f_rcvd w ++ f_queue w /\
  f_st w = fst (train pfit s0 (f_rcvd w)) /\
  match f_ctl w with
  | Loop => snd (train pfit s0 (f_rcvd w)) = Ok tt
  | Done (Ok tt) => snd (train pfit s0 (f_rcvd w)) = Ok tt /\ f_closed w = true /\ f_rcvd w = f_sent w
  | Done r =>
      (snd (train pfit s0 (f_rcvd w)) = Ok tt /\ f_cancelled w = true /\ r = Err ECtx) \/
      (snd (train pfit s0 (f_rcvd w)) = r /\ exists l b, f_rcvd w = l ++ [b] /\ snd (train pfit s0 l) = Ok tt)
  end.
Proof.
  intros H. remember (fs_init s0) as w0 eqn:E0. induction H as [w|w w' w'' _ IH Hs]; subst.
  - cbn. auto.
  - specialize (IH eq_refl). destruct IH as (I1 & I2 & I3). destruct Hs as [Hs|Hs]; inversion Hs; subst; cbn [f_sent f_rcvd f_queue f_st f_ctl f_closed f_cancelled] in *; subst s.
    + split; [rewrite app_assoc; congruence|]. split; [reflexivity|].
      destruct c as [|[[]| |]]; try assumption. destruct I3 as (_ & K & _). discriminate.
    + split; [assumption|]. split; [reflexivity|]. destruct c as [|[[]| |]]; try assumption. tauto.
    + split; [assumption|]. split; [reflexivity|]. destruct c as [|[[]| |]]; try assumption.
      * destruct I3 as [(A & K & C)|I3]; [left; auto|right; assumption].
      * destruct I3 as [(A & K & C)|I3]; [left; auto|right; assumption].
    + split; [assumption|]. split; [reflexivity|]. left. auto.
    + split; [rewrite <- app_assoc; assumption|]. rewrite train_app, I3. cbn [train].
      set (s1 := fst (train pfit s0 rc)). destruct (snd (pfit s1 b)) as [[]| |] eqn:Eb; cbn [after fst snd].
      * split; reflexivity.
      * split; [reflexivity|]. right. split; [reflexivity|]. exists rc, b. auto.
      * split; [reflexivity|]. right. split; [reflexivity|]. exists rc, b. auto.
    + split; [assumption|]. split; [reflexivity|]. rewrite app_nil_r in I1. auto.
Qed.

(** Left alone, the method takes at most one step more than there are batches waiting; and once
    the channel is closed or the context cancelled it can always go on until it has returned.
    It waits exactly if the channel is open and empty and the context not cancelled. *)
Fixpoint runs (n : nat) (w w' : fsw S B) : Prop :=
  match n with 0 => w = w' | Datatypes.S k => exists v, fs_run S B pfit w v /\ runs k v w' end.
Theorem C55_terminates (w : fsw S B) :
  (forall n w', runs n w w' -> n <= List.length (f_queue w) + 1) /\
  (f_ctl w = Loop ->
   ((~ exists w', fs_run S B pfit w w') <-> (f_queue w = [] /\ f_closed w = false /\ f_cancelled w = false))).
Proof.
  split.
  - intros n. revert w. induction n as [|n IH]; intros w w' H; [lia|]. destruct H as (v & H1 & H2).
    destruct n as [|n]; [lia|]. specialize (IH v w' H2). cbn in H2. destruct H2 as (v2 & H2 & _).
    inversion H1; subst; cbn in *; try (inversion H2; fail). lia.
  - intros Hl. split.
    + intros N. destruct w as [q cl cn s c rc sn]. cbn in *. subst. repeat split.
      * destruct q as [|b q]; [reflexivity|]. exfalso. apply N. eexists. apply FRecv.
      * destruct cl; [|reflexivity]. exfalso. apply N. destruct q as [|b q]; eexists; [apply FEnd|apply FRecv].
      * destruct cn; [|reflexivity]. exfalso. apply N. eexists. apply FStop.
    + intros (Q & C & K) [w' R]. inversion R; subst; cbn in *; congruence.
Qed.
End C55.

(** Cancelling does not stop the training at once: the next batch may still be used. *)
Definition addfit (s b : nat) : nat * res unit := if b =? 0 then (s, Err EModel) else (s + b, Ok tt).
Theorem C55_cancel_refuted :
  exists w w' : fsw nat nat, fs_steps nat nat addfit (fs_init 0) w /\ f_cancelled w = true /\ fs_run nat nat addfit w w' /\ f_st w' <> f_st w.
Proof.
  exists (mkfs [5] false true 0 Loop [] [5]), (mkfs [] false true 5 Loop [5] [5]). split.
  - eapply fs_more; [eapply fs_more; [apply fs_refl|left; apply (FSend nat nat 5)]|]. left. apply FCancel.
  - split; [reflexivity|]. split; [apply (FRecv nat nat addfit 5)|]. cbn. discriminate.
Qed.
Example ex_stream :
  fs_steps nat nat addfit (fs_init 1) (mkfs [7] false false 6 (Done (Err EModel)) [5; 0] [5; 0; 7]) /\
  train addfit 1 [5; 0] = (6, Err EModel).
Proof.
  split; [|reflexivity].
  eapply fs_more. 2: right; exact (FRecv nat nat addfit 0 [7] false false 6 [5] [5; 0; 7]).
  eapply fs_more. 2: left; exact (FSend nat nat 7 [0] false 6 Loop [5] [5; 0]).
  eapply fs_more. 2: right; exact (FRecv nat nat addfit 5 [0] false false 1 [] [5; 0]).
  eapply fs_more. 2: left; exact (FSend nat nat 0 [5] false 1 Loop [] [5]).
  eapply fs_more. 2: left; exact (FSend nat nat 5 [] false 1 Loop [] []).
  apply fs_refl.
Qed.

Section C96.
Variables (S B X P : Type) (pfit : S -> B -> S * res unit) (fitted : S -> bool) (predict : S -> X -> res P) (bx : B -> X).

Lemma answers_snoc l p : answers predict (l ++ [p]) = answers predict l ++ answer predict (fst p) (snd p).
Proof. unfold answers. rewrite flat_map_app. cbn. rewrite app_nil_r. reflexivity. Qed.

(** Predictions come out in the order of the inputs, each made by the model as it was when the
    input was taken; inputs that cannot be predicted give nothing.  At most the last one is
    missing, and none is once the method has ended without cancellation. *)
Theorem C96_predict_stream (s0 : S) (w : psw S X P) :
  ps_steps S X P predict (ps_init s0) w ->
  p_sent w = map snd (p_rcvd w) ++ p_queue w /\
  (exists rest, answers predict (p_rcvd w) = p_outs w ++ rest /\ List.length rest <= 1 /\
     match p_ctl w with
     | PLoop => rest = []
     | PSend p => rest = [p]
     | PDone => p_cancelled w = true \/ (rest = [] /\ p_closed w = true /\ p_queue w = [])
     | PCrash => rest = [] /\ exists l s x, p_rcvd w = l ++ [(s, x)] /\ predict s x = Panic
     end).
Proof.
  intros H. remember (ps_init s0) as w0 eqn:E0. induction H as [w|w w' w'' _ IH Hs]; subst.
  - cbn. split; [reflexivity|]. exists []. auto.
  - specialize (IH eq_refl). destruct IH as (I1 & rest & I2 & I3 & I4).
    destruct Hs as [Hs|Hs]; inversion Hs; subst; cbn [p_sent p_rcvd p_queue p_st p_ctl p_closed p_cancelled p_outs] in *.
    + split; [rewrite app_assoc; congruence|]. exists rest. repeat split; auto.
      destruct c; auto. destruct I4 as [I4|(_ & K & _)]; [auto|discriminate].
    + split; [assumption|]. exists rest. repeat split; auto. destruct c; auto. intuition.
    + split; [assumption|]. exists rest. repeat split; auto. destruct c; auto.
    + split; [assumption|]. exists rest. auto.
    + split; [assumption|]. subst. exists []. rewrite app_nil_r. auto.
    + split; [assumption|]. exists rest. auto.
    + split; [rewrite map_app, <- app_assoc; cbn; assumption|]. subst. rewrite answers_snoc, I2, app_nil_r. cbn [fst snd]. unfold answer.
      destruct (predict s x) as [p| |] eqn:Ep.
      * exists [p]. auto.
      * exists []. auto.
      * exists []. repeat split; auto. exists rc, s, x. auto.
    + split; [assumption|]. exists rest. repeat split; auto.
    + split; [assumption|]. exists rest. auto.
Qed.

Lemma ttt_app s l l' :
  test_then_train pfit fitted predict bx s (l ++ l') =
  (fst (test_then_train pfit fitted predict bx s l) ++ fst (test_then_train pfit fitted predict bx (snd (test_then_train pfit fitted predict bx s l)) l'),
   snd (test_then_train pfit fitted predict bx (snd (test_then_train pfit fitted predict bx s l)) l')).
Proof.
  revert s. induction l as [|b l IH]; cbn; intros s.
  - destruct (test_then_train pfit fitted predict bx s l'); reflexivity.
  - rewrite IH. destruct (test_then_train pfit fitted predict bx (fst (pfit s b)) l) as [o s1]. cbn [fst snd]. rewrite app_assoc. reflexivity.
Qed.

(** FitPredictStream answers each batch with the model trained on exactly the batches before
    it, in order, and then trains on it; only a cancellation while an answer waits to be taken
    makes the two differ. *)
Theorem C96_test_then_train (s0 : S) (w : tsw S B P) :
  ts_steps S B X P pfit fitted predict bx (ts_init s0) w ->
  t_sent w = t_rcvd w ++ t_queue w /\
  let ttt := test_then_train pfit fitted predict bx s0 in
  match t_ctl w with
  | TLoop => ttt (t_rcvd w) = (t_outs w, t_st w)
  | TSend p b => exists l, t_rcvd w = l ++ [b] /\ ttt l = (t_outs w, t_st w) /\ fitted (t_st w) = true /\ predict (t_st w) (bx b) = Ok p
  | TDone =>
      (ttt (t_rcvd w) = (t_outs w, t_st w) /\ (t_cancelled w = true \/ (t_closed w = true /\ t_queue w = []))) \/
      (t_cancelled w = true /\ exists l b, t_rcvd w = l ++ [b] /\ ttt l = (t_outs w, t_st w))
  | TCrash => True
  end.
Proof.
  intros H. remember (ts_init s0) as w0 eqn:E0.
  assert (G : forall l b, let t := test_then_train pfit fitted predict bx in
    t s0 (l ++ [b]) = (fst (t s0 l) ++ (if fitted (snd (t s0 l)) then answer predict (snd (t s0 l)) (bx b) else []), fst (pfit (snd (t s0 l)) b))).
  { intros l b t. unfold t. rewrite ttt_app. cbn. rewrite app_nil_r. reflexivity. }
  induction H as [w|w w' w'' _ IH Hs]; subst.
  - cbn. auto.
  - specialize (IH eq_refl). destruct IH as (I1 & I2). cbv zeta in *.
    destruct Hs as [Hs|Hs]; inversion Hs; subst; cbn [t_sent t_rcvd t_queue t_st t_ctl t_closed t_cancelled t_outs] in *.
    + split; [rewrite app_assoc; congruence|]. destruct c; auto.
      destruct I2 as [(I2 & [K|(K & _)])|I2]; [left; auto|discriminate|right; auto].
    + split; [assumption|]. destruct c; auto. intuition.
    + split; [assumption|]. destruct c; auto. destruct I2 as [(I2 & _)|(_ & I2)]; [left; auto|right; auto].
    + split; [assumption|]. destruct I2 as (l & -> & K1 & K2 & K3).
      unfold trained. destruct (snd (pfit s b)) eqn:Eb; auto; rewrite (G l b), K1; cbn [fst snd]; rewrite K2; unfold answer; rewrite K3; reflexivity.
    + split; [assumption|]. left. auto.
    + split; [rewrite <- app_assoc; assumption|]. exists rc. auto.
    + split; [rewrite <- app_assoc; assumption|]. exact I.
    + split; [rewrite <- app_assoc; assumption|]. 
      assert (K : (if fitted s then answer predict s (bx b) else []) = []).
      { match goal with H : _ \/ _ |- _ => destruct H as [-> | [e He]] end; [reflexivity|]. unfold answer. rewrite He. destruct (fitted s); reflexivity. }
      unfold trained. destruct (snd (pfit s b)) eqn:Eb; auto; rewrite (G rc b), I2; cbn [fst snd]; rewrite K, app_nil_r; reflexivity.
    + split; [assumption|]. left. auto.
    + split; [assumption|]. right. destruct I2 as (l & K0 & K1 & _). eauto.
Qed.

(** A result nobody takes blocks the goroutine for good unless the context is cancelled. *)
Theorem C96_blocked (w : psw S X P) p :
  p_ctl w = PSend p -> ((exists w', ps_run S X P predict w w') <-> p_cancelled w = true).
Proof.
  intros E. destruct w as [q cl cn s c rc sn o]. cbn in *. subst. split.
  - intros [w' R]. inversion R; reflexivity.
  - intros ->. eexists. apply PDrop.
Qed.
End C96.

(** The i-th prediction need not belong to the i-th input: an input that cannot be predicted is
    passed over without notice. *)
Definition okpred (s x : nat) : res nat := if x =? 9 then Err EModel else Ok (s + x).
Theorem C96_positions_refuted :
  exists w : psw nat nat nat, ps_steps nat nat nat okpred (ps_init 100) w /\
    p_ctl w = PDone /\ p_cancelled w = false /\ p_sent w = [9; 1] /\ p_outs w = [101].
Proof.
  exists (mkps [] true false 100 PDone [(100, 9); (100, 1)] [9; 1] [101]). split; [|auto].
  eapply ps_more. 2: right; apply PEnd.
  eapply ps_more. 2: left; exact (PTake nat nat nat 101 [] true false 100 [(100, 9); (100, 1)] [9; 1] []).
  eapply ps_more. 2: right; exact (PRecv nat nat nat okpred 1 [] true false 100 [(100, 9)] [9; 1] []).
  eapply ps_more. 2: right; exact (PRecv nat nat nat okpred 9 [1] true false 100 [] [9; 1] []).
  eapply ps_more. 2: left; apply PClose.
  eapply ps_more. 2: left; exact (PSendX nat nat nat 1 [9] false 100 PLoop [] [9] []).
  eapply ps_more. 2: left; exact (PSendX nat nat nat 9 [] false 100 PLoop [] [] []).
  apply ps_refl.
Qed.
(** An ignored training failure: the model is not what the caller thinks. *)
Example ex_ttt : test_then_train addfit (fun s => 0 <? s) okpred (fun b => b) 0 [5; 0; 2] = ([5; 7], 7).
Proof. reflexivity. Qed.

Print Assumptions C55_stream.
Print Assumptions C55_terminates.
Print Assumptions C55_cancel_refuted.
Print Assumptions C96_predict_stream.
Print Assumptions C96_test_then_train.
Print Assumptions C96_blocked.
Print Assumptions C96_positions_refuted.
