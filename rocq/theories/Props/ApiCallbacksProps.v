(** C137: Train of the lightgbm api package with callbacks. *)
From Coq Require Import String Ascii List Arith ZArith Bool Lia Permutation QArith Reals.
From Flocq Require Import IEEE754.BinarySingleNaN.
From Verif Require Import Base.Num Base.GoRes Base.GoMap Base.Mat Base.ListX Base.FTac Spec.Order
  Model.EarlyStop Model.LgbTree Model.LgbEstimator Model.LgbText Model.LgbBooster Model.LgbApi Model.ApiCallbacks Spec.LgbApi Spec.ApiCallbacks
  Proofs.OrderP Proofs.LgbApiTrainP Proofs.ApiCallbacksP Proofs.ApiCallbacksTrainP Proofs.ApiCallbacksStopP Proofs.ApiCallbacksEarlyP.
Import ListNotations.
Local Close Scope Q_scope.
Local Close Scope R_scope.
Local Open Scope string_scope.
Local Open Scope list_scope.

Section C137.
  Context {N : Num} {W : Type}.
  Variable trainer : settings N * (N * N) -> matrix N -> matrix N -> option (res (gmodel N)).
  Variables toint32 roundint : N -> Z.
  Variable zthr : N.
  Variable fuel : nat.
  Variable order : nat -> @smap (list N) -> list (string * list N).
  (** A range loop visits every entry of a map once, in some order *)
  Hypothesis visiting : forall k m, Permutation m (order k m).
  Notation cback := (cback N W).
  Notation train_with := (@train_with N W trainer toint32 roundint zthr fuel order).
  Notation train_api := (@train_api N trainer toint32 roundint zthr fuel).

  (** Printing, recording and resetting parameters, in any number, order and nesting, change nothing about the outcome of Train:
      the model, the scores and the booster, or the error, are those of Train without callbacks. *)
  Theorem C137_quiet u h p ds num sets names cs verbose r : forallb quiet cs = true -> (r <= 0)%Z -> (p <> None \/ forallb no_reset cs = true) ->
    match train_api h (entries p) ds num sets names None with
    | Some (Ok (h', b)) => exists l w, train_with u h p ds num sets names cs verbose r = Some (l, w, Ok tt) /\ w_heap w = h' /\ w_booster w = b
    | Some (Err e) => exists l w, train_with u h p ds num sets names cs verbose r = Some (l, w, Err e)
    | Some Panic => exists l w, train_with u h p ds num sets names cs verbose r = Some (l, w, Panic)
    | None => train_with u h p ds num sets names cs verbose r = None
    end.
  Proof. exact (train_quiet _ _ _ _ _ _ _ _ _ _ _ _ _ _ _ _). Qed.

  (** A CallbackList does what its callbacks do one after the other, whatever these are. *)
  Theorem C137_callback_list u h p ds num sets names cs verbose r :
    train_with u h p ds num sets names (flat_map flat cs) verbose r
    = match train_with u h p ds num sets names cs verbose r with Some (l, w, a) => Some (flat_map flat l, w, a) | None => None end.
  Proof. exact (train_flat _ _ _ _ _ _ _ _ _ _ _ _ _ _ _ _). Qed.

  Lemma plain_mild (l : list cback) : forallb quiet l = true -> forallb plain l = true -> Forall mild l.
  Proof.
    intros H1 H2. apply Forall_forall. intros c Hc. rewrite forallb_forall in H1, H2. specialize (H1 c Hc). specialize (H2 c Hc). destruct c; try discriminate; exact I.
  Qed.
  Lemma plain_writes (l : list cback) : forallb plain l = true -> forallb no_reset l = true -> existsb writes l = false.
  Proof.
    intros H1 H2. apply not_true_is_false. intros K. apply existsb_exists in K as (c & Hc & K). rewrite forallb_forall in H1, H2. specialize (H1 c Hc). specialize (H2 c Hc). destruct c; discriminate.
  Qed.
  Lemma forallb_app' {A} f (l m : list A) : forallb f (l ++ m) = true -> forallb f l = true /\ forallb f m = true.
  Proof. rewrite forallb_app. apply andb_prop. Qed.

  (** After a reset in one of the rounds the caller's own map holds the new values, while the model is the one for the old. *)
  Theorem C137_reset u h p ds num sets names l1 st new l2 verbose r h' b : forallb quiet (l1 ++ l2) = true -> forallb no_reset (l1 ++ l2) = true -> (r <= 0)%Z ->
    NoDup (skeys new) -> train_api h p ds num sets names None = Some (Ok (h', b)) ->
    exists l w, train_with u h (Some p) ds num sets names (l1 ++ CReset st new :: l2) verbose r = Some (l, w, Ok tt) /\ w_heap w = h' /\ w_booster w = b
      /\ exists q, v_params (w_env w) = Some q
         /\ forall k, sget k q = if ((0 <=? st) && (st <? num))%Z then match sget k new with Some v => Some v | None => sget k p end else sget k p.
  Proof.
    intros Q NR Hr Hn E. apply forallb_app' in Q as [Q1 Q2]. apply forallb_app' in NR as [R1 R2].
    destruct (train_reset trainer toint32 roundint zthr fuel order u h p ds num sets names (flat_map flat l1) st new (flat_map flat l2) verbose r) with (h' := h') (b := b) as (l & w & E1 & E2 & E3 & E4);
      [now apply mild_of_quiet|now apply mild_of_quiet|rewrite existsb_app, !writes_of by assumption; reflexivity|exact Hr|exact E|].
    pose proof (train_flat trainer toint32 roundint zthr fuel order u h (Some p) ds num sets names (l1 ++ CReset st new :: l2) verbose r) as F.
    rewrite flat_map_app in F. cbn [flat_map flat app] in F. rewrite E1 in F. destruct (train_with u h (Some p) ds num sets names (l1 ++ CReset st new :: l2) verbose r) as [[[l0 w0] a0]|]; [|discriminate F].
    cbn [flat_result] in F. injection F as _ <- <-. exists l0, w. split; [reflexivity|]. split; [exact E2|]. split; [exact E3|]. eexists. split; [exact E4|].
    intros k. destruct (_ && _); [|reflexivity]. now apply put_all_get.
  Qed.
  (** With a nil map of parameters a reset panics. *)
  Theorem C137_nil u h ds num sets names st new h' b : new <> [] -> (0 <= st < num)%Z -> train_api h [] ds num sets names None = Some (Ok (h', b)) ->
    exists l w, train_with u h None ds num sets names [CReset st new] None 0 = Some (l, w, Panic).
  Proof. exact (train_nil _ _ _ _ _ _ _ _ _ _ _ _ _ _ _ _). Qed.

  (** The recorder ends with all scores of every round, under the name of the set and the metric, for names that are not empty
      and metrics without a dash; other entries it had before stay. *)
  Theorem C137_recorded u h p ds num sets names l1 rec0 l2 verbose r h' b : forallb quiet (l1 ++ l2) = true -> forallb plain (l1 ++ l2) = true ->
    (p <> None \/ forallb no_reset (l1 ++ l2) = true) -> (r <= 0)%Z -> train_api h (entries p) ds num sets names None = Some (Ok (h', b)) ->
    exists w l1' rec l2', train_with u h p ds num sets names (l1 ++ CRecord rec0 :: l2) verbose r = Some (l1' ++ CRecord rec :: l2', w, Ok tt) /\ w_booster w = b
      /\ List.length l1' = List.length l1
      /\ forall d m, recorded d m rec = if recordable d m then match sget (eval_key d m) (b_evals b) with Some v => Some v | None => recorded d m rec0 end else recorded d m rec0.
  Proof.
    intros Q P Hp Hr E. pose proof Q as Q'. apply forallb_app' in Q as [Q1 Q2]. pose proof P as P'. apply forallb_app' in P as [P1 P2].
    destruct (train_record trainer toint32 roundint zthr fuel order visiting u h p ds num sets names l1 rec0 l2 verbose r) with (h' := h') (b := b) as (l & w & l1' & rec & l2' & E1 & E2 & E3 & E4 & E5 & E6);
      [now apply plain_mild|now apply plain_mild| |exact Hr|exact E|].
    - destruct Hp as [Hp|Hp]; [auto|]. rewrite (plain_writes _ P' Hp). discriminate.
    - subst l. exists w, l1', rec, l2'. auto.
  Qed.

  (** A callback that sets ShouldStop after a round ends the training there: the result is that of asking for so many rounds. *)
  Theorem C137_should_stop j u h p ds num sets names l1 l2 verbose r : forallb quiet (l1 ++ l2) = true -> forallb plain (l1 ++ l2) = true ->
    (p <> None \/ forallb no_reset (l1 ++ l2) = true) -> (r <= 0)%Z -> (0 <= j < num)%Z ->
    let result := train_with u h p ds num sets names (l1 ++ CUser (stop_after j) :: l2) verbose r in
    match train_api h (entries p) ds (j + 1) sets names None with
    | Some (Ok (h', b)) => exists l w, result = Some (l, w, Ok tt) /\ w_heap w = h' /\ w_booster w = b
    | Some (Err e) => exists l w, result = Some (l, w, Err e)
    | Some Panic => exists l w, result = Some (l, w, Panic)
    | None => result = None
    end.
  Proof.
    intros Q P Hp Hr Hj result. pose proof P as P'. apply forallb_app' in Q as [Q1 Q2]. apply forallb_app' in P as [P1 P2].
    apply train_stop; [now apply plain_mild|now apply plain_mild| |exact Hr|exact Hj]. destruct Hp as [Hp|Hp]; [auto|]. rewrite (plain_writes _ P' Hp). discriminate.
  Qed.
  (** Returning ErrEarlyStop from BeforeIteration does not: it is as if the callback had set the best iteration and returned nil. *)
  Theorem C137_before_ignored u0 h p ds num sets names l u verbose r :
    match train_with u0 h p ds num sets names (l ++ [CUser u]) verbose r, train_with u0 h p ds num sets names (l ++ [CUser (patient u)]) verbose r with
    | Some (_, w, a), Some (_, w', a') => w' = w /\ a' = a
    | None, None => True
    | _, _ => False
    end.
  Proof.
    pose proof (train_patient trainer toint32 roundint zthr fuel order u0 h p ds num sets names l u verbose r) as H. unfold same_result in H.
    destruct (train_with u0 h p ds num sets names (l ++ [CUser u]) verbose r) as [[[l1 w1] a1]|], (train_with u0 h p ds num sets names (l ++ [CUser (patient u)]) verbose r) as [[[l2 w2] a2]|]; try exact H.
    destruct H as (_ & H). exact H.
  Qed.

  (** With at least one validation set there is a line for the rounds 1, 1 + p, 1 + 2p, ..., numbered so; if the last round but one
      or an earlier one was not printed, one more line shows the scores of the last round, but under the number of the round before. *)
  Theorem C137_printed u h p ds num sets names freq r h' b : (r <= 0)%Z -> sets <> [] -> (1 <= num)%Z -> train_api h (entries p) ds num sets names None = Some (Ok (h', b)) ->
    let q := if (freq <=? 0)%Z then 1%Z else freq in
    exists l w, train_with u h p ds num sets names [] (Some freq) r = Some (l, w, Ok tt) /\ w_booster w = b
      /\ map (@l_no N) (firstn (List.length (every q num)) (w_lines w)) = every q num
      /\ skipn (List.length (every q num)) (w_lines w) = (if (2 <=? (num - 1) mod q)%Z then [mkline (num - 1) (lasts (b_evals b))] else []).
  Proof.
    intros Hr Hs Hn E q. destruct (train_print trainer toint32 roundint zthr fuel order u h p ds num sets names freq r Hr Hs Hn h' b E) as (l & w & E1 & _ & E3 & E4 & E5).
    exists l, w. auto.
  Qed.

  (** An early stopping callback that is used again, without an objective in the parameters, goes on counting: if no score is
      better than the one it remembers, Train fails as soon as all its rounds together reach the patience. *)
  Theorem C137_again u h p ds num sets names (a : aes N) verbose h' b : (1 <= num)%Z -> sets <> [] -> (forall o, sget "objective" (entries p) <> Some (VStr o)) ->
    train_api h (entries p) ds num sets names None = Some (Ok (h', b)) -> (forall key v, In v (evals_of key b) -> aes_improved a v = false) ->
    exists c l w, a_wait c = (if (a_wait a + num <? a_rounds a)%Z then a_wait a + num else Z.max (a_wait a + 1) (a_rounds a))%Z
      /\ train_with u h p ds num sets names [CEarly a] verbose 0 = Some (CEarly c :: l, w, if (a_wait a + num <? a_rounds a)%Z then Ok tt else Err err_early)
      /\ ((a_wait a + num < a_rounds a)%Z -> w_heap w = h' /\ w_booster w = b).
  Proof.
    intros Hn Hs Ho E HN. destruct (train_again trainer toint32 roundint zthr fuel order visiting u h p ds num sets names a verbose h' b Hn Hs Ho E HN) as (l & w & L).
    destruct (Z.ltb_spec (a_wait a + num) (a_rounds a)).
    - destruct L as (L1 & L2 & L3). exists (waited num a), l, w. auto.
    - exists (waited (Z.max 1 (a_rounds a - a_wait a)) a), l, w. split; [cbn [waited a_wait]; lia|]. split; [exact L|lia].
  Qed.
  Lemma eval_heap obj h h2 ds m d :
    evaluate_set toint32 roundint zthr fuel obj (h ++ [(m, d_names ds)]) (first_booster h ds m) d = evaluate_set toint32 roundint zthr fuel obj (h2 ++ [(m, d_names ds)]) (first_booster h2 ds m) d.
  Proof.
    unfold evaluate_set, first_booster, predict, with_options, ask. cbn [b_model b_pred b_leaves deref].
    rewrite !nth_error_app2, !Nat.sub_diag by lia. reflexivity.
  Qed.
  (** So the same training twice with the same callback: the first succeeds, the second fails, if the patience is at least the number of
      rounds but less than twice that. *)
  Theorem C137_twice u u2 h p ds num d names r verbose verbose2 h' b : (1 <= num)%Z -> (forall o, sget "objective" (entries p) <> Some (VStr o)) ->
    train_api h (entries p) ds num [d] names None = Some (Ok (h', b)) ->
    (forall key v, In v (evals_of key b) -> aes_improved (mkaes r None 0 0 false) v = true /\ (v <? v - n0)%num = false) -> (num <= r < 2 * num)%Z ->
    exists c l w, train_with u h p ds num [d] names [new_early r] verbose 0 = Some (c :: l, w, Ok tt) /\ w_booster w = b
      /\ exists l2 w2, train_with u2 h' p ds num [d] names [c] verbose2 0 = Some (l2, w2, Err err_early).
  Proof.
    intros Hn Ho E HS Hr. destruct (train_inv _ _ _ _ _ _ _ _ _ _ _ _ _ _ Hn E) as (y & m & scores & Hy & Hm & Hh & L & HF). subst h'.
    destruct (train_ok _ _ _ _ _ _ _ _ _ _ None _ _ _ _ Hn Hy Hm L HF) as (b' & E' & _ & _ & _ & _ & _ & _ & HE). rewrite E in E'. injection E' as <-.
    inversion HF as [|? sc ? scs Hsc Hnil]; subst. inversion Hnil; subst.
    assert (Hone : forall key v, In v (evals_of key b) -> v = sc).
    { intros key v Hv. rewrite HE in Hv. apply in_concat in Hv as (x & Hx & Hv). apply repeat_spec in Hx. subst x. unfold under in Hv. apply in_map_iff in Hv as ([n s] & <- & Hv).
      apply filter_In in Hv as [Hv _]. apply in_combine_r in Hv. destruct Hv as [<-|[]]. reflexivity. }
    assert (Hin : exists key, In sc (evals_of key b)).
    { destruct (default_names [d] names) as [|nm nms] eqn:En; [cbn in L; lia|]. eexists. rewrite HE. destruct (Z.to_nat num) as [|k] eqn:Ek; [lia|]. cbn [repeat concat]. apply in_or_app. left.
      unfold under. cbn [combine filter fst]. match goal with |- context [String.eqb ?x ?y] => instantiate (1 := eval_key nm (metric_name (s_obj (fst (parse_params (entries p)))))) end. rewrite String.eqb_refl. now left. }
    destruct Hin as [key0 Hin]. destruct (HS key0 sc Hin) as [S1 S2].
    destruct (train_new trainer toint32 roundint zthr fuel order visiting u h p ds num [d] names r verbose (h ++ [(m, d_names ds)]) b sc Hn ltac:(discriminate) Ho E Hone S1 S2 ltac:(lia)) as (l & w & T1 & T2 & T3).
    eexists _, l, w. split; [exact T1|]. split; [exact T3|].
    assert (HF2 : Forall2 (fun d0 sc0 => evaluate_set toint32 roundint zthr fuel (s_obj (fst (parse_params (entries p)))) ((h ++ [(m, d_names ds)]) ++ [(m, d_names ds)]) (first_booster (h ++ [(m, d_names ds)]) ds m) d0 = Some (Ok sc0)) [d] [sc]).
    { constructor; [|constructor]. rewrite <- Hsc. symmetry. apply eval_heap. }
    destruct (train_ok trainer toint32 roundint zthr fuel (entries p) ds num [d] names None (h ++ [(m, d_names ds)]) y m [sc] Hn Hy Hm L HF2) as (b2 & E2 & _ & _ & _ & _ & _ & _ & HE2).
    destruct (train_again trainer toint32 roundint zthr fuel order visiting u2 (h ++ [(m, d_names ds)]) p ds num [d] names (mkaes r (Some sc) 0 (num - 1) false) verbose2 _ _ Hn ltac:(discriminate) Ho E2) as (l2 & w2 & T).
    - intros key v Hv. rewrite HE2, <- HE in Hv. rewrite (Hone key v Hv). exact S2.
    - cbn [a_wait a_rounds] in T. destruct (Z.ltb_spec (num - 1 + num) r); [lia|]. eexists _, w2. exact T.
  Qed.
End C137.
Print Assumptions C137_quiet.
Print Assumptions C137_callback_list.
Print Assumptions C137_reset.
Print Assumptions C137_nil.
Print Assumptions C137_recorded.
Print Assumptions C137_should_stop.
Print Assumptions C137_before_ignored.
Print Assumptions C137_printed.
Print Assumptions C137_again.
Print Assumptions C137_twice.

(** At binary64 the condition on the scores is only that they are less than +Inf. *)
Lemma minus_zero_not_less (x : F64) : Bltb x (f64_minus x f64_zero) = false.
Proof.
  apply Bltb_ext_false. destruct (is_finite x) eqn:Hx.
  - destruct (Bminus_zero x Hx) as [K1 K2]. destruct x as [s|s| |s m e H]; cbn in Hx; try discriminate Hx;
      set (z := f64_minus _ _) in *; clearbody z; destruct z as [s'|s'| |s' m' e' H']; try discriminate K1; cbn [ext_lt]; rewrite K2; apply Rlt_irrefl.
  - destruct x as [s|[]| |s m e H]; cbn in *; easy.
Qed.
Theorem C137_twice_float {W} (fexp flog : F64 -> F64) trainer toint32 roundint zthr fuel (order : nat -> @smap (list (FNum fexp flog)) -> list (string * list (FNum fexp flog)))
    (visiting : forall k m, Permutation m (order k m)) (u u2 : W) h p ds num d names r verbose verbose2 h' b :
  (1 <= num)%Z -> (forall o, sget "objective" (entries p) <> Some (VStr o)) ->
  @train_api (FNum fexp flog) trainer toint32 roundint zthr fuel h (entries p) ds num [d] names None = Some (Ok (h', b)) ->
  (forall key v, In v (evals_of key b) -> Bltb v (f64_inf false) = true) -> (num <= r < 2 * num)%Z ->
  exists c l w, @train_with (FNum fexp flog) W trainer toint32 roundint zthr fuel order u h p ds num [d] names [new_early r] verbose 0 = Some (c :: l, w, Ok tt) /\ w_booster w = b
    /\ exists l2 w2, @train_with (FNum fexp flog) W trainer toint32 roundint zthr fuel order u2 h' p ds num [d] names [c] verbose2 0 = Some (l2, w2, Err err_early).
Proof.
  intros Hn Ho E HS Hr. apply (C137_twice trainer toint32 roundint zthr fuel order visiting u u2 h p ds num d names r verbose verbose2 h' b Hn Ho E); [|exact Hr].
  intros key v Hv. specialize (HS key v Hv). split; [|apply minus_zero_not_less].
  unfold aes_improved. cbn [a_best a_higher negb]. unfold improves. cbn. destruct v as [s|[]| |s m e H]; cbn in HS |- *; try reflexivity; try discriminate HS.
Qed.
Print Assumptions C137_twice_float.

(** ** Examples and refutations *)
Local Open Scope Q_scope.
Definition cb_toint (x : Q) : Z := (Qnum x / Zpos (Qden x))%Z.
Definition cb_data : matrix QNum := @mkmat QNum 2 [[1; 2]; [3; 4]; [5; 6]].
Definition cb_ds : dataset QNum := @mkds QNum cb_data (Some (@mkmat QNum 1 [[0]; [1]; [1]])) None ["a"; "b"] [] [] 3 2 false 0 true.
Definition cb_valid : dataset QNum := @mkds QNum cb_data (Some (@mkmat QNum 1 [[1]; [3]; [2]])) None ["a"; "b"] [] [] 3 2 false 0 true.
Definition cb_trainer (s : settings QNum * (QNum * QNum)) (X y : matrix QNum) : option (res (gmodel QNum)) :=
  Some (Ok (@mkgm QNum (s_obj (fst s)) 1 0 0 (1 # 10) [] (Z.of_nat (mcols X)) (nth 0 (labels y) 0))).
Local Close Scope Q_scope.
Definition cb_order (k : nat) (m : @smap (list QNum)) := m.
Lemma cb_visiting k m : Permutation m (cb_order k m).
Proof. apply Permutation_refl. Qed.
(** Two rounds on [cb_ds] with one validation set unless said otherwise; [nat] is the memory of the user's callbacks. *)
Definition cb_train (p : option (params QNum)) (num : Z) (cs : list (cback QNum nat)) (verbose : option Z) (r : Z) :=
  @train_with QNum nat cb_trainer cb_toint cb_toint 0%Q 5 cb_order 0 [] p cb_ds num [Some cb_valid] [] cs verbose r.
Definition cb_plain (p : params QNum) (num : Z) := @train_api QNum cb_trainer cb_toint cb_toint 0%Q 5 [] p cb_ds num [Some cb_valid] [] None.
(** What is seen of a run: the answer, the best iteration, the scores, the numbers of the printed lines, the caller's parameters *)
Definition cb_seen (r : option (list (cback QNum nat) * world QNum nat * res unit)) :=
  match r with
  | Some (_, w, a) => Some (a, b_best (w_booster w), evals_of "valid_0-l2" (w_booster w), map (@l_no QNum) (w_lines w), v_params (w_env w))
  | None => None
  end.
Definition cb_new : params QNum := [("learning_rate", @VNum QNum (1 # 2)%Q)].
Definition cb_quiet : list (cback QNum nat) := [CList [new_print 2; CRecord []]; CReset 1 cb_new; CList []].
Example C137_ex_quiet : forallb quiet cb_quiet = true /\ (match cb_plain [] 2 with Some (Ok _) => true | _ => false end) = true
  /\ cb_seen (cb_train (Some []) 2 cb_quiet None 0) = Some (Ok tt, 2%Z, [14 # 3; 14 # 3]%Q, [1%Z], Some cb_new).
Proof. vm_compute. auto. Qed.
Example C137_ex_flat : flat_map flat cb_quiet = [new_print 2; CRecord []; CReset 1 cb_new].
Proof. reflexivity. Qed.
(** The best score is kept by the callback: the second training with it fails in its first rounds. *)
Example C137_ex_twice : match cb_train (Some []) 2 [new_early 3] None 0 with
  | Some ([c], w, Ok tt) => match cb_train (Some []) 2 [c] None 0 with Some ([CEarly a], w2, Err e) => Some (b_best (w_booster w), e, a_wait a) | _ => None end
  | _ => None end = Some (2%Z, err_early, 3%Z).
Proof. vm_compute. reflexivity. Qed.
(** ... whereas a new callback each time would not. *)
Example C137_ex_fresh : cb_seen (cb_train (Some []) 2 [new_early 3] None 0) = Some (Ok tt, 2%Z, [14 # 3; 14 # 3]%Q, [], Some []).
Proof. vm_compute. reflexivity. Qed.
Example C137_ex_recorded : match cb_train (Some []) 2 [CRecord []] None 0 with Some ([CRecord r], _, _) => recorded "valid_0" "l2" r | _ => None end = Some [14 # 3; 14 # 3]%Q.
Proof. vm_compute. reflexivity. Qed.
Example C137_ex_stop : cb_seen (cb_train (Some []) 5 [CUser (stop_after 1)] None 0) = cb_seen (cb_train (Some []) 2 [] None 0).
Proof. vm_compute. reflexivity. Qed.
Example C137_ex_printed : cb_seen (cb_train (Some []) 6 [] (Some 3%Z) 0) = Some (Ok tt, 6%Z, repeat (14 # 3)%Q 6, [1; 4; 5]%Z, Some []).
Proof. vm_compute. reflexivity. Qed.
Example C137_every : every 3 8 = [1; 4; 7]%Z /\ every 1 3 = [1; 2; 3]%Z.
Proof. split; reflexivity. Qed.

(** Early stopping by the options is reported as an error, and the booster is lost. *)
Theorem C137_early_error_refuted : exists (p : params QNum) num r, match cb_plain p num with Some (Ok _) => True | _ => False end
  /\ exists l w, cb_train (Some p) num [] None r = Some (l, w, Err err_early).
Proof. exists [], 3%Z, 1%Z. split; [vm_compute; exact I|]. eexists _, _. vm_compute. reflexivity. Qed.
(** ErrEarlyStop from BeforeIteration of the second of three rounds: all three rounds are trained. *)
Definition cb_before (ph : phase) (w : world QNum nat) : world QNum nat * answer :=
  match ph with PBefore => if (v_iter (w_env w) =? 1)%Z then (w, Early) else (w, Fine) | _ => (w, Fine) end.
Theorem C137_before_refuted : exists num cs, cb_seen (cb_train (Some []) num cs None 0) = cb_seen (cb_train (Some []) num [] None 0)
  /\ exists w, snd (cb_before PBefore w) = Early /\ (v_iter (w_env w) < num - 1)%Z /\ cs = [CUser cb_before].
Proof.
  exists 3%Z, [CUser cb_before]. split; [vm_compute; reflexivity|]. exists (at_iter 1 (start 0 [] None)). split; [reflexivity|]. split; [reflexivity|reflexivity].
Qed.
(** Resetting the learning rate changes the caller's map and not the training; without a map it panics. *)
Theorem C137_reset_refuted : exists (p new : params QNum) w w', p <> new
  /\ (exists l, cb_train (Some p) 2 [CReset 1 new] None 0 = Some (l, w, Ok tt)) /\ v_params (w_env w) = Some new
  /\ (exists l, cb_train (Some p) 2 [] None 0 = Some (l, w', Ok tt)) /\ w_booster w = w_booster w' /\ v_params (w_env w') = Some p
  /\ exists l w2, cb_train None 2 [CReset 1 new] None 0 = Some (l, w2, Panic).
Proof.
  exists [], cb_new. eexists _, _. split; [discriminate|]. split; [eexists; vm_compute; reflexivity|]. split; [reflexivity|]. split; [eexists; vm_compute; reflexivity|].
  split; [reflexivity|]. split; [reflexivity|]. eexists _, _. vm_compute. reflexivity.
Qed.
(** With period 2 and two rounds the last round is not printed; with period 3 and six rounds its line has the number 5. *)
Theorem C137_printed_refuted : exists num freq num' freq', (exists l w, cb_train (Some []) num [] (Some freq) 0 = Some (l, w, Ok tt) /\ ~ In num (map (@l_no QNum) (w_lines w)))
  /\ List.length (every freq num) = 1
  /\ (exists l w, cb_train (Some []) num' [] (Some freq') 0 = Some (l, w, Ok tt) /\ In (num' - 1)%Z (map (@l_no QNum) (w_lines w)) /\ ~ In (num' - 1)%Z (every freq' num') /\ ~ In num' (map (@l_no QNum) (w_lines w))).
Proof.
  exists 2%Z, 2%Z, 6%Z, 3%Z. split.
  - eexists _, _. split; [vm_compute; reflexivity|]. vm_compute. intuition discriminate.
  - split; [reflexivity|]. eexists _, _. split; [vm_compute; reflexivity|]. vm_compute. intuition discriminate.
Qed.
(** A metric whose key has no name in front is not recorded. *)
Theorem C137_recorded_refuted : exists rec w, @train_with QNum nat cb_trainer cb_toint cb_toint 0%Q 5 cb_order 0 [] (Some []) cb_ds 2 [Some cb_valid] [""] [CRecord []] None 0 = Some ([CRecord rec], w, Ok tt)
  /\ evals_of (eval_key "" "l2") (w_booster w) = [14 # 3; 14 # 3]%Q /\ recorded "" "l2" rec = None.
Proof. eexists _, _. split; [vm_compute; reflexivity|]. split; reflexivity. Qed.
Print Assumptions C137_early_error_refuted.
Print Assumptions C137_before_refuted.
Print Assumptions C137_reset_refuted.
Print Assumptions C137_printed_refuted.
Print Assumptions C137_recorded_refuted.
