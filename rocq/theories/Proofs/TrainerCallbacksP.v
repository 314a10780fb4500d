From Coq Require Import String List Arith ZArith Bool Lia.
From Verif Require Import Base.Num Base.GoRes Model.EarlyStop Model.TrainerCallbacks Spec.TrainerCallbacks.
Import ListNotations.
Local Open Scope list_scope.

Section P.
  Context {N : Num} {T : Type}.
  Variable lr : N.
  Variable leaves : Z.
  Variable grow : list T -> res T.
  Variable loss : list T -> N.
  Notation plain := (plain_rounds grow).

  Section Any.
    Context {W : Type}.
    Variable cbs : list (callback N W).
    Notation keep := (keep_loop lr leaves grow loss cbs).

    Lemma keep_cb fuel : forall iter e w ts, cb_loop lr leaves grow loss cbs fuel iter e w ts
      = let '(e', w', ts', r) := keep fuel iter e w ts in (w', match r with Ok _ => Ok ts' | Err x => Err x | Panic => Panic end).
    Proof.
      induction fuel as [|fuel IH]; intros iter e w ts; cbn [cb_loop keep_loop]; [reflexivity|].
      destruct (run_before cbs _ w) as [[e2 w2] [[]|x|]]; try reflexivity. destruct (c_stop e2); [reflexivity|].
      destruct (grow ts) as [t|x|]; try reflexivity. destruct (run_after cbs _ w2) as [[e4 w4] [[]|x|]]; try reflexivity.
      destruct (c_stop e4); [reflexivity|]. apply IH.
    Qed.

    Lemma plain_prefix k : forall ts ts', plain k ts = Ok ts' -> exists l, ts' = ts ++ l /\ List.length l = k.
    Proof.
      induction k as [|k IH]; intros ts ts' H; cbn in H; [injection H as <-; exists []; now rewrite app_nil_r|].
      destruct (grow ts) as [t|x|]; try discriminate H. destruct (IH _ _ H) as (l & -> & <-). exists (t :: l). now rewrite <- app_assoc.
    Qed.

    Lemma keep_prefix fuel : forall iter e w ts, let '(e', w', ts', r) := keep fuel iter e w ts in
      exists k, k <= fuel /\ plain k ts = Ok ts' /\ (r = Ok tt -> k = fuel \/ c_stop e' = true).
    Proof.
      induction fuel as [|fuel IH]; intros iter e w ts; cbn [keep_loop]; [exists 0; auto|].
      destruct (run_before cbs _ w) as [[e2 w2] [[]|x|]]; try (exists 0; cbn; repeat split; auto; lia || discriminate).
      destruct (c_stop e2) eqn:S2; [exists 0; cbn; repeat split; auto; lia|].
      destruct (grow ts) as [t|x|] eqn:G; try (exists 0; cbn; repeat split; auto; lia || discriminate).
      assert (G1 : forall k, plain (S k) ts = plain k (ts ++ [t])) by (intros k; cbn; now rewrite G).
      destruct (run_after cbs _ w2) as [[e4 w4] [[]|x|]]; try (exists 1; rewrite G1; cbn; repeat split; auto; lia || discriminate).
      destruct (c_stop e4) eqn:S4; [exists 1; rewrite G1; cbn; repeat split; auto; lia|].
      specialize (IH (iter + 1)%Z e4 w4 (ts ++ [t])). destruct (keep fuel _ e4 w4 (ts ++ [t])) as [[[e' w'] ts'] r]. destruct IH as (k & K1 & K2 & K3).
      exists (S k). rewrite G1. split; [lia|]. split; [exact K2|]. intros Hr. destruct (K3 Hr); [left; lia|now right].
    Qed.

    (** The stop flag stays *)
    Lemma run_before_stop (l : list (callback N W)) : Forall keeps_stop l -> forall (e : cenv N) (w : W), c_stop e = true -> c_stop (fst (fst (run_before l e w))) = true.
    Proof.
      induction 1 as [|c l Hc Hl IH]; intros e w He; cbn [run_before]; [exact He|]. pose proof (Hc e w He) as H.
      destruct (c e w) as [[e' w'] [[]|x|]]; cbn in H |- *; try exact H. rewrite H. exact H.
    Qed.
    Lemma keep_stopped fuel iter e w ts : Forall keeps_stop cbs -> c_stop e = true ->
      let '(e', w', ts', r) := keep fuel iter e w ts in ts' = ts /\ c_stop e' = true.
    Proof.
      intros HC He. destruct fuel as [|fuel]; cbn [keep_loop]; [auto|].
      pose proof (run_before_stop cbs HC (mkcenv iter lr leaves (c_eval e) (c_stop e)) w He) as H. destruct (run_before cbs _ w) as [[e2 w2] [[]|x|]]; cbn in H; auto.
      rewrite H. auto.
    Qed.
  End Any.

  Section Calm.
    Context {A U : Type}.
    Implicit Types l : list (callback N (A * U)).
    Lemma run_before_calm l : Forall calm l -> forall e a u, c_stop e = false ->
      exists e' u', run_before l e (a, u) = (e', (a, u'), Ok tt) /\ c_iter e' = c_iter e /\ c_eval e' = c_eval e /\ c_stop e' = false.
    Proof.
      induction 1 as [|c l Hc Hl IH]; intros e a u He; cbn [run_before]; [exists e, u; auto|].
      destruct (Hc e a u) as (e1 & u1 & -> & I1 & V1 & S1). rewrite S1, He. destruct (IH e1 a u1) as (e2 & u2 & -> & I2 & V2 & S2); [congruence|].
      exists e2, u2. repeat split; congruence.
    Qed.
    Lemma run_after_calm l : Forall calm l -> forall e a u,
      exists e' u', run_after l e (a, u) = (e', (a, u'), Ok tt) /\ c_iter e' = c_iter e /\ c_eval e' = c_eval e /\ c_stop e' = c_stop e.
    Proof.
      induction 1 as [|c l Hc Hl IH]; intros e a u; cbn [run_after]; [exists e, u; auto|].
      destruct (Hc e a u) as (e1 & u1 & -> & I1 & V1 & S1). destruct (IH e1 a u1) as (e2 & u2 & -> & I2 & V2 & S2). exists e2, u2. repeat split; congruence.
    Qed.
    Lemma run_before_app l l' : Forall calm l -> forall e a u, c_stop e = false ->
      exists e' u', run_before (l ++ l') e (a, u) = run_before l' e' (a, u') /\ c_iter e' = c_iter e /\ c_eval e' = c_eval e /\ c_stop e' = false.
    Proof.
      induction 1 as [|c l Hc Hl IH]; intros e a u He; cbn [run_before app]; [exists e, u; auto|].
      destruct (Hc e a u) as (e1 & u1 & -> & I1 & V1 & S1). rewrite S1, He. destruct (IH e1 a u1) as (e2 & u2 & -> & I2 & V2 & S2); [congruence|].
      exists e2, u2. repeat split; congruence.
    Qed.
    Lemma run_after_app l l' : Forall calm l -> forall e a u,
      exists e' u', run_after (l ++ l') e (a, u) = run_after l' e' (a, u') /\ c_iter e' = c_iter e /\ c_eval e' = c_eval e /\ c_stop e' = c_stop e.
    Proof.
      induction 1 as [|c l Hc Hl IH]; intros e a u; cbn [run_after app]; [exists e, u; auto|].
      destruct (Hc e a u) as (e1 & u1 & -> & I1 & V1 & S1). destruct (IH e1 a u1) as (e2 & u2 & -> & I2 & V2 & S2). exists e2, u2. repeat split; congruence.
    Qed.
  End Calm.

  (** TimeLimit among calm callbacks *)
  Section Limit.
    Context {U : Type}.
    Variable clock : nat -> Z.
    Variable limit : Z.
    Variables l1 l2 : list (callback N (nat * U)).
    Hypothesis H1 : Forall calm l1.
    Hypothesis H2 : Forall calm l2.
    Notation cbs := (l1 ++ time_limit (reading clock) limit :: l2).
    Lemma before_limit e n u : c_stop e = false ->
      exists e' u', run_before cbs e (n, u) = (e', (S n, u'), Ok tt) /\ c_stop e' = (limit <? clock n)%Z.
    Proof.
      intros He. destruct (run_before_app l1 (time_limit (reading clock) limit :: l2) H1 e n u He) as (e1 & u1 & -> & _ & _ & S1).
      cbn [run_before]. unfold time_limit. cbn [reading fst snd]. destruct (limit <? clock n)%Z eqn:L.
      - cbn [c_stop]. eexists _, _. split; reflexivity.
      - rewrite S1. destruct (run_before_calm l2 H2 e1 (S n) u1 S1) as (e2 & u2 & -> & _ & _ & S2). exists e2, u2. auto.
    Qed.
    Lemma after_limit e n u : c_stop e = false ->
      exists e' u', run_after cbs e (n, u) = (e', (S n, u'), Ok tt) /\ c_stop e' = (limit <? clock n)%Z.
    Proof.
      intros He. destruct (run_after_app l1 (time_limit (reading clock) limit :: l2) H1 e n u) as (e1 & u1 & -> & _ & _ & S1).
      cbn [run_after]. unfold time_limit. cbn [reading fst snd].
      match goal with |- context [run_after l2 ?x ?y] => destruct (run_after_calm l2 H2 x (S n) u1) as (e2 & u2 & -> & _ & _ & S2) end.
      exists e2, u2. split; [reflexivity|]. rewrite S2. destruct (limit <? clock n)%Z; [reflexivity|congruence].
    Qed.
    Lemma limit_reached fuel : forall iter e n u ts d ts', c_stop e = false -> (forall m, n <= m < n + d -> (clock m <= limit)%Z) -> (limit < clock (n + d))%Z ->
      d < 2 * fuel -> plain (Nat.div2 (S d)) ts = Ok ts' ->
      exists e' w', keep_loop lr leaves grow loss cbs fuel iter e (n, u) ts = (e', w', ts', Ok tt) /\ c_stop e' = true.
    Proof.
      induction fuel as [|fuel IH]; intros iter e n u ts d ts' He HB HA Hd HP; [lia|]. cbn [keep_loop].
      destruct (before_limit (mkcenv iter lr leaves (c_eval e) (c_stop e)) n u He) as (e2 & u2 & -> & S2). destruct d as [|d].
      - rewrite Nat.add_0_r in HA. replace (limit <? clock n)%Z with true in S2 by (symmetry; now apply Z.ltb_lt). rewrite S2. cbn in HP. injection HP as <-. eauto.
      - replace (limit <? clock n)%Z with false in S2 by (symmetry; apply Z.ltb_ge; apply HB; lia). rewrite S2.
        destruct d as [|d]; cbn [Nat.div2] in HP; cbn [plain_rounds] in HP; destruct (grow ts) as [t|x|]; try discriminate HP.
        + destruct (after_limit (mkcenv iter lr leaves [("training_loss"%string, loss (ts ++ [t]))] false) (S n) u2 eq_refl) as (e4 & u4 & -> & S4).
          rewrite Nat.add_1_r in HA. replace (limit <? clock (S n))%Z with true in S4 by (symmetry; now apply Z.ltb_lt). rewrite S4. cbn in HP. injection HP as <-. eauto.
        + destruct (after_limit (mkcenv iter lr leaves [("training_loss"%string, loss (ts ++ [t]))] false) (S n) u2 eq_refl) as (e4 & u4 & -> & S4).
          replace (limit <? clock (S n))%Z with false in S4 by (symmetry; apply Z.ltb_ge; apply HB; lia). rewrite S4.
          apply (IH (iter + 1)%Z e4 (S (S n)) u4 (ts ++ [t]) d ts' S4); [intros m Hm; apply HB; lia|now replace (S (S n) + d) with (n + S (S d)) by lia|lia|exact HP].
    Qed.
    Lemma limit_not_reached fuel : forall iter e n u ts ts', c_stop e = false -> (forall m, n <= m < n + 2 * fuel -> (clock m <= limit)%Z) -> plain fuel ts = Ok ts' ->
      exists e' w', keep_loop lr leaves grow loss cbs fuel iter e (n, u) ts = (e', w', ts', Ok tt) /\ c_stop e' = false.
    Proof.
      induction fuel as [|fuel IH]; intros iter e n u ts ts' He HB HP; cbn [keep_loop]; [cbn in HP; injection HP as <-; eauto|].
      destruct (before_limit (mkcenv iter lr leaves (c_eval e) (c_stop e)) n u He) as (e2 & u2 & -> & S2).
      replace (limit <? clock n)%Z with false in S2 by (symmetry; apply Z.ltb_ge; apply HB; lia). rewrite S2. cbn [plain_rounds] in HP. destruct (grow ts) as [t|x|]; try discriminate HP.
      destruct (after_limit (mkcenv iter lr leaves [("training_loss"%string, loss (ts ++ [t]))] false) (S n) u2 eq_refl) as (e4 & u4 & -> & S4).
      replace (limit <? clock (S n))%Z with false in S4 by (symmetry; apply Z.ltb_ge; apply HB; lia). rewrite S4.
      apply (IH (iter + 1)%Z e4 (S (S n)) u4 (ts ++ [t]) ts' S4); [intros m Hm; apply HB; lia|exact HP].
    Qed.
  End Limit.

  (** PrintEvaluation among calm callbacks *)
  Section Printer.
    Context {U : Type}.
    Variable period : Z.
    Hypothesis Hp : period <> 0%Z.
    Variables l1 l2 : list (callback N (list (Z * list (string * N)) * U)).
    Hypothesis H1 : Forall calm l1.
    Hypothesis H2 : Forall calm l2.
    Notation cbs := (l1 ++ print_evaluation printing period :: l2).
    Definition line_of (i : Z) (v : list (string * N)) := if (Z.rem i period =? 0)%Z then [(i, v)] else [].
    Lemma before_print e a u : c_stop e = false ->
      exists e' u', run_before cbs e (a, u) = (e', (a ++ line_of (c_iter e) (c_eval e), u'), Ok tt) /\ c_eval e' = c_eval e /\ c_stop e' = false.
    Proof.
      intros He. destruct (run_before_app l1 (print_evaluation printing period :: l2) H1 e a u He) as (e1 & u1 & -> & I1 & V1 & S1).
      cbn [run_before]. unfold print_evaluation. destruct (Z.eqb_spec period 0); [contradiction|]. rewrite S1.
      unfold line_of. rewrite <- I1, <- V1. destruct (Z.rem (c_iter e1) period =? 0)%Z.
      - unfold printing; cbn [fst snd]. destruct (run_before_calm l2 H2 e1 (a ++ [(c_iter e1, c_eval e1)]) u1 S1) as (e2 & u2 & -> & _ & V2 & S2). exists e2, u2. auto.
      - rewrite app_nil_r. destruct (run_before_calm l2 H2 e1 a u1 S1) as (e2 & u2 & -> & _ & V2 & S2). exists e2, u2. auto.
    Qed.
    Lemma after_print e a u :
      exists e' u', run_after cbs e (a, u) = (e', (a ++ line_of (c_iter e) (c_eval e), u'), Ok tt) /\ c_eval e' = c_eval e /\ c_stop e' = c_stop e.
    Proof.
      destruct (run_after_app l1 (print_evaluation printing period :: l2) H1 e a u) as (e1 & u1 & -> & I1 & V1 & S1).
      cbn [run_after]. unfold print_evaluation. destruct (Z.eqb_spec period 0); [contradiction|].
      unfold line_of. rewrite <- I1, <- V1, <- S1. destruct (Z.rem (c_iter e1) period =? 0)%Z.
      - unfold printing; cbn [fst snd]. destruct (run_after_calm l2 H2 e1 (a ++ [(c_iter e1, c_eval e1)]) u1) as (e2 & u2 & -> & _ & V2 & S2). exists e2, u2. auto.
      - rewrite app_nil_r. destruct (run_after_calm l2 H2 e1 a u1) as (e2 & u2 & -> & _ & V2 & S2). exists e2, u2. auto.
    Qed.
    (** [i] rounds are done and [pre] are their trees *)
    Lemma print_loop fuel : forall i e a u pre ts', c_stop e = false -> List.length pre = i ->
      c_eval e = (if Nat.eqb i 0 then [] else [("training_loss"%string, loss pre)]) -> plain fuel pre = Ok ts' ->
      exists e' u', keep_loop lr leaves grow loss cbs fuel (Z.of_nat i) e (a, u) pre
        = (e', (a ++ flat_map (fun j => if (Z.rem (Z.of_nat j) period =? 0)%Z then two_lines loss (firstn j ts') (firstn (S j) ts') (Nat.eqb j 0) (Z.of_nat j) else []) (seq i fuel), u'), ts', Ok tt)
        /\ c_stop e' = false.
    Proof.
      induction fuel as [|fuel IH]; intros i e a u pre ts' He Hi Hv HP; cbn [keep_loop seq flat_map]; [cbn in HP; injection HP as <-; rewrite app_nil_r; eauto|].
      destruct (before_print (mkcenv (Z.of_nat i) lr leaves (c_eval e) (c_stop e)) a u He) as (e2 & u2 & -> & V2 & S2). rewrite S2. cbn [c_iter c_eval] in *.
      cbn [plain_rounds] in HP. destruct (grow pre) as [t|x|]; try discriminate HP.
      destruct (after_print (mkcenv (Z.of_nat i) lr leaves [("training_loss"%string, loss (pre ++ [t]))] false) (a ++ line_of (Z.of_nat i) (c_eval e)) u2) as (e4 & u4 & -> & V4 & S4).
      cbn [c_stop c_iter c_eval] in *. rewrite S4. replace (Z.of_nat i + 1)%Z with (Z.of_nat (S i)) by lia.
      destruct (IH (S i) e4 ((a ++ line_of (Z.of_nat i) (c_eval e)) ++ line_of (Z.of_nat i) [("training_loss"%string, loss (pre ++ [t]))]) u4 (pre ++ [t]) ts' S4) as (e' & u' & -> & S'); [rewrite app_length; cbn; lia|exact V4|exact HP|].
      exists e', u'. split; [|exact S']. do 3 f_equal. f_equal. rewrite <- !app_assoc. f_equal.
      destruct (plain_prefix _ _ _ HP) as (l & -> & _). unfold line_of, two_lines.
      destruct (Z.rem (Z.of_nat i) period =? 0)%Z; [|reflexivity]. cbn [app]. rewrite Hv.
      replace (firstn i ((pre ++ [t]) ++ l)) with pre by (rewrite <- app_assoc, firstn_app, Hi, Nat.sub_diag, firstn_O, app_nil_r, <- Hi, firstn_all; reflexivity).
      replace (firstn (S i) ((pre ++ [t]) ++ l)) with (pre ++ [t]) by (rewrite firstn_app; rewrite app_length; cbn [List.length]; rewrite Hi, Nat.add_1_r, Nat.sub_diag, firstn_O, app_nil_r; rewrite <- Hi at 1; symmetry; replace (S (List.length pre)) with (List.length (pre ++ [t])) by (rewrite app_length; cbn; lia); apply firstn_all).
      reflexivity.
    Qed.
  End Printer.
End P.
