(** C138: Fit of a lightgbm Trainer with callbacks. *)
From Coq Require Import String List Arith ZArith Bool Lia QArith.
From Verif Require Import Base.Num Base.GoRes Model.EarlyStop Model.TrainerCallbacks Spec.TrainerCallbacks Proofs.TrainerCallbacksP.
Import ListNotations.
Local Close Scope Q_scope.
Local Open Scope list_scope.

Section C138.
  Context {N : Num} {T : Type}.
  Variable lr : N.
  Variable leaves : Z.
  Variable grow : list T -> res T.
  Variable loss : list T -> N.
  Notation fit := (fun cbs => fit_kept lr leaves grow loss cbs).

  (** Whatever the callbacks are, the trainer ends with the trees of so many rounds without callbacks: all of the rounds asked for,
      or fewer if StopTraining is set or an error is returned. *)
  Theorem C138_prefix {W} (cbs : list (callback N W)) iterations e w ts e' w' ts' r : fit cbs iterations e w ts = (e', w', ts', r) ->
    exists k, k <= Z.to_nat iterations /\ plain_rounds grow k ts = Ok ts' /\ (r = Ok tt -> k = Z.to_nat iterations \/ c_stop e' = true).
  Proof. intros H. pose proof (keep_prefix lr leaves grow loss cbs (Z.to_nat iterations) 0 e w ts) as K. unfold fit_kept in H. now rewrite H in K. Qed.

  (** Once StopTraining is set, a later Fit of the same trainer adds no tree, if no callback takes it back. *)
  Theorem C138_stopped_for_good {W} (cbs : list (callback N W)) iterations e w ts e' w' ts' r : Forall keeps_stop cbs -> c_stop e = true ->
    fit cbs iterations e w ts = (e', w', ts', r) -> ts' = ts /\ c_stop e' = true.
  Proof. intros HC He H. pose proof (keep_stopped lr leaves grow loss cbs (Z.to_nat iterations) 0 e w ts HC He) as K. unfold fit_kept in H. now rewrite H in K. Qed.
  (** None of the callbacks of the package does *)
  Theorem C138_library_keeps {W} (get : W -> @es_state N) (put : @es_state N -> W -> W) (geth : W -> list (string * list N)) puth rounds metric minimize decay steps params read limit putl period :
    Forall keeps_stop [early_stopping_callback get put rounds metric minimize; record_evaluation geth puth; learning_rate_schedule decay steps;
      reset_parameter params; time_limit read limit; print_evaluation putl period].
  Proof.
    repeat constructor; intros e w He.
    - unfold early_stopping_callback. destruct (lookup metric (c_eval e)); [|exact He]. destruct (get w) as [[? ?] ?]. destruct (improves minimize _ _); cbn; now rewrite He.
    - exact He.
    - unfold learning_rate_schedule. destruct (0 <? c_iter e)%Z; [|exact He]. destruct (steps =? 0)%Z; [exact He|]. destruct (_ =? 0)%Z; exact He.
    - unfold reset_parameter. destruct (params (c_iter e)). exact He.
    - unfold time_limit. destruct (read w). destruct (limit <? z)%Z; [reflexivity|exact He].
    - unfold print_evaluation. destruct (period =? 0)%Z; exact He.
  Qed.

  (** TimeLimit among callbacks that stop nothing.  It looks at the clock before and after each round; [clock n] is the time since
      the callback was made at the n-th look.  If the first time above the limit is the one at look [d], training ends with the
      trees of (d + 1) / 2 rounds: a round that has begun is finished. *)
  Theorem C138_time_limit {U} clock limit (l1 l2 : list (callback N (nat * U))) iterations u ts d ts' : Forall calm l1 -> Forall calm l2 ->
    (forall m, m < d -> (clock m <= limit)%Z) -> (limit < clock d)%Z -> d < 2 * Z.to_nat iterations -> plain_rounds grow ((d + 1) / 2) ts = Ok ts' ->
    exists e' w', fit (l1 ++ time_limit (reading clock) limit :: l2) iterations (new_env lr leaves) (0, u) ts = (e', w', ts', Ok tt) /\ c_stop e' = true.
  Proof.
    intros H1 H2 HB HA Hd HP. unfold fit_kept. apply (limit_reached lr leaves grow loss clock limit l1 l2 H1 H2 _ 0%Z (new_env lr leaves) 0 u ts d ts' eq_refl); [intros m Hm; apply HB; lia|exact HA|lia|].
    rewrite Nat.div2_div, <- Nat.add_1_r. exact HP.
  Qed.
  (** If the limit is never exceeded, all rounds are trained. *)
  Theorem C138_time_left {U} clock limit (l1 l2 : list (callback N (nat * U))) iterations u ts ts' : Forall calm l1 -> Forall calm l2 ->
    (forall m, m < 2 * Z.to_nat iterations -> (clock m <= limit)%Z) -> plain_rounds grow (Z.to_nat iterations) ts = Ok ts' ->
    exists e' w', fit (l1 ++ time_limit (reading clock) limit :: l2) iterations (new_env lr leaves) (0, u) ts = (e', w', ts', Ok tt) /\ c_stop e' = false.
  Proof.
    intros H1 H2 HB HP. unfold fit_kept. apply (limit_not_reached lr leaves grow loss clock limit l1 l2 H1 H2 _ 0%Z (new_env lr leaves) 0 u ts ts' eq_refl); [intros m Hm; apply HB; lia|exact HP].
  Qed.

  (** PrintEvaluation prints every round that is a multiple of the period twice: before it with the loss of the round before, and
      after it with its own. *)
  Theorem C138_printed {U} period (l1 l2 : list (callback N (list (Z * list (string * N)) * U))) iterations u ts' : period <> 0%Z -> Forall calm l1 -> Forall calm l2 ->
    plain_rounds grow (Z.to_nat iterations) [] = Ok ts' ->
    exists e' u', fit (l1 ++ print_evaluation printing period :: l2) iterations (new_env lr leaves) ([], u) []
      = (e', (flat_map (fun j => if (Z.rem (Z.of_nat j) period =? 0)%Z then two_lines loss (firstn j ts') (firstn (S j) ts') (Nat.eqb j 0) (Z.of_nat j) else []) (seq 0 (Z.to_nat iterations)), u'), ts', Ok tt).
  Proof.
    intros Hp H1 H2 HP. destruct (print_loop lr leaves grow loss period Hp l1 l2 H1 H2 (Z.to_nat iterations) 0 (new_env lr leaves) [] u [] ts' eq_refl eq_refl eq_refl HP) as (e' & u' & E & _).
    exists e', u'. exact E.
  Qed.
  (** With period 0 it panics in the first round. *)
  Theorem C138_print_zero {W} put (l : list (callback N W)) iterations e w ts : (0 < iterations)%Z ->
    snd (fit (print_evaluation put 0 :: l) iterations e w ts) = Panic /\ snd (fst (fit (print_evaluation put 0 :: l) iterations e w ts)) = ts.
  Proof. intros H. unfold fit_kept. destruct (Z.to_nat iterations) eqn:E; [lia|]. split; reflexivity. Qed.
  (** FitWithCallbacks is a Fit with a new environment. *)
  Theorem C138_new_list {W} (cbs : list (callback N W)) iterations w :
    fit_with_callbacks lr leaves grow loss cbs iterations w
    = let '(_, w', ts', r) := fit cbs iterations (new_env lr leaves) w [] in (w', match r with Ok _ => Ok ts' | Err x => Err x | Panic => Panic end).
  Proof. exact (keep_cb lr leaves grow loss cbs (Z.to_nat iterations) 0 (new_env lr leaves) w []). Qed.
  (** The callbacks that only set parameters are calm. *)
  Theorem C138_calm {A U} decay steps params : steps <> 0%Z -> Forall calm [learning_rate_schedule decay steps; reset_parameter (W := A * U) params : callback N (A * U)].
  Proof.
    intros Hs. repeat constructor; intros e a u.
    - unfold learning_rate_schedule. destruct (0 <? c_iter e)%Z; [|eauto 8]. destruct (Z.eqb_spec steps 0); [contradiction|]. destruct (_ =? 0)%Z; [|eauto 8]. eexists _, _. repeat split; reflexivity.
    - unfold reset_parameter. destruct (params (c_iter e)). eexists _, _. repeat split; reflexivity.
  Qed.
End C138.
Print Assumptions C138_prefix.
Print Assumptions C138_stopped_for_good.
Print Assumptions C138_library_keeps.
Print Assumptions C138_time_limit.
Print Assumptions C138_time_left.
Print Assumptions C138_printed.
Print Assumptions C138_print_zero.
Print Assumptions C138_new_list.
Print Assumptions C138_calm.

(** ** Examples: trees are numbers, the loss is 10 minus their number. *)
Definition ex_grow (ts : list nat) : res nat := Ok (List.length ts).
Definition ex_loss (ts : list nat) : QNum := (10 - inject_Z (Z.of_nat (List.length ts)))%Q.
Definition ex_fit {W} (cbs : list (callback QNum W)) := @fit_kept QNum W nat (1 # 10)%Q 31 ex_grow ex_loss cbs.
Definition ex_new : cenv QNum := @new_env QNum (1 # 10)%Q 31.
(** The clock shows 0, 5, 10, ...; the limit 12 is exceeded at look 3, after the second round. *)
Definition ex_clock (n : nat) : Z := (5 * Z.of_nat n)%Z.
Example C138_ex_limit : snd (fst (ex_fit [reset_parameter (fun _ => (None, Some 7%Z)); time_limit (reading ex_clock) 12] 9 ex_new (0, tt) [])) = [0; 1]
  /\ (3 + 1) / 2 = 2 /\ (forall m, m < 3 -> (ex_clock m <= 12)%Z) /\ (12 < ex_clock 3)%Z.
Proof. split; [vm_compute; reflexivity|]. split; [reflexivity|]. split; [unfold ex_clock; lia|reflexivity]. Qed.
Example C138_ex_late : snd (fst (ex_fit [time_limit (reading ex_clock) (-1)] 9 ex_new (0, tt) [])) = [].
Proof. vm_compute. reflexivity. Qed.
Example C138_ex_printed : fst (snd (fst (fst (ex_fit [print_evaluation printing 2] 3 ex_new ([], tt) []))))
  = [(0, []); (0, [("training_loss"%string, 9%Q)]); (2, [("training_loss"%string, 8%Q)]); (2, [("training_loss"%string, 7%Q)])]%Z.
Proof. vm_compute. reflexivity. Qed.
(** A callback of the user that stops after the second round *)
Definition ex_user : callback QNum unit := fun e w => (if (c_iter e =? 1)%Z then match c_eval e with [] => e | _ => mkcenv (c_iter e) (c_lr e) (c_leaves e) (c_eval e) true end else e, w, Ok tt).
Example C138_ex_keeps : keeps_stop ex_user.
Proof. intros e w He. unfold ex_user. destruct (c_iter e =? 1)%Z; [|exact He]. destruct (c_eval e); [exact He|reflexivity]. Qed.
(** Users would expect a second Fit to train: after the first Fit was stopped, the trainer stays at its trees for good. *)
Theorem C138_second_fit_refuted : exists (cbs : list (callback QNum unit)) e w ts, ex_fit cbs 5 ex_new tt [] = (e, w, ts, Ok tt) /\ ts = [0]
  /\ (forall iterations, exists e', ex_fit cbs iterations e w ts = (e', tt, ts, Ok tt))
  /\ snd (fst (ex_fit cbs 5 ex_new w ts)) = [0; 1].
Proof.
  exists [ex_user], (@mkcenv QNum 1 (1 # 10)%Q 31 [("training_loss"%string, 9%Q)] true), tt, [0]. split; [vm_compute; reflexivity|]. split; [reflexivity|]. split.
  - intros iterations. unfold ex_fit, fit_kept. destruct (Z.to_nat iterations) as [|k]; cbn [keep_loop]; [eauto|]. eexists. cbn. reflexivity.
  - vm_compute. reflexivity.
Qed.
Print Assumptions C138_second_fit_refuted.
