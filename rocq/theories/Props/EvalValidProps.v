(** C146: the score on validation data *)
From Coq Require Import String List Arith ZArith Bool Lia Reals Lra QArith.
From Verif Require Import Base.Num Base.GoRes Base.RTac Base.FTac Model.EarlyStop Model.EvalValid Spec.EarlyStop Spec.EvalValid.
Import ListNotations.
Local Open Scope list_scope.

Section General.
  Context {N : Num} {T : Type} (next : list T -> T) (score : list T -> N) (c : N).
  Hypothesis Const : forall ts, score ts = c.
  Lemma loop_stuck : forall fuel iter e ts, s_enabled e = true -> s_iter e = 0%Z -> improves (s_min e) (s_best e) c = false -> (0 < s_rounds e - s_noimp e <= Z.of_nat fuel)%Z ->
    fit_loop (fun ts => Ok (next ts)) score fuel iter (Some e) ts = Ok (firstn 1 (ts ++ [next ts])).
  Proof.
    induction fuel as [|fuel IH]; intros iter e ts He Hi Hc Hr; [lia|]. cbn [fit_loop]. rewrite He. unfold es_update. rewrite He, Const, Hc. cbn [s_rounds s_noimp s_iter].
    destruct (Z.leb_spec (s_rounds e) (s_noimp e + 1)).
    - rewrite Hi. destruct (Z.ltb_spec 0 (Z.of_nat (length (ts ++ [next ts])))) as [K|K]; [reflexivity|]. rewrite app_length in K. cbn in K. lia.
    - rewrite IH; cbn [s_enabled s_iter s_min s_best s_rounds s_noimp]; auto; [|lia]. f_equal. destruct ts; reflexivity.
  Qed.
  (** A score that is always the same cuts the training to one tree. *)
  Lemma const_one iterations rounds metric : (c <? c)%num = false -> (0 < rounds < iterations)%Z ->
    fit_with_validation (fun ts => Ok (next ts)) score iterations rounds metric true = Ok [next []].
  Proof.
    intros Hc Hr. unfold fit_with_validation. assert (Hz : (0 <? rounds)%Z = true) by (apply Z.ltb_lt; lia). rewrite Hz. cbn [andb]. set (mt := if String.eqb metric "" then "l2"%string else metric).
    unfold es_new. assert (Hz' : (rounds <=? 0)%Z = false) by (apply Z.leb_gt; lia). rewrite Hz'. destruct (improves (metric_minimized mt) None c) eqn:E.
    - destruct (Z.to_nat iterations) as [|n] eqn:En; [lia|]. cbn [fit_loop s_enabled]. unfold es_update. cbn [s_enabled s_min s_best]. rewrite Const, E. cbn [s_rounds s_noimp]. rewrite Hz'.
      rewrite loop_stuck; cbn [s_enabled s_iter s_min s_best s_rounds s_noimp app]; auto; [|lia]. cbn [improves]. rewrite Hc. now destruct (metric_minimized mt).
    - rewrite loop_stuck; cbn [s_enabled s_iter s_min s_best s_rounds s_noimp]; auto. lia.
  Qed.
End General.

Section Real.
  Context {X T : Type} (loss : R -> R -> R) (predict : list T -> X -> R).
  Notation score := (@evaluate_validation RNum X T loss predict true).
  (** The losses of the rows *)
  Definition row_losses (ts : list T) (rows : list (X * R)) : list R := map (fun r => loss (predict ts (fst r)) (snd r)) rows.
  Lemma losses_length ts rows : length (row_losses ts rows) = length rows.
  Proof. apply map_length. Qed.
  Lemma compounded_nil ls : compounded ls [] = total ls.
  Proof. induction ls as [|l ls IH]; [reflexivity|]. cbn [compounded tl product total fold_right]. rewrite IH. unfold total. lra. Qed.
  Lemma add_losses_R ts : forall rows (ws : list R) (acc : R), (length ws <= length rows)%nat -> @add_losses RNum X T loss predict ts acc rows ws = (acc * product ws + compounded (row_losses ts rows) ws)%R.
  Proof.
    induction rows as [|[x y] rows IH]; intros ws acc H; [destruct ws; cbn in *; [lra|lia]|]. cbn [add_losses row_losses map fst snd compounded]. fold (row_losses ts rows). destruct ws as [|w ws].
    - rewrite IH by (cbn; lia). cbn [product tl]. change (@nadd RNum) with Rplus. change (num RNum) with R. lra.
    - assert (H' : (length ws <= length rows)%nat) by exact (le_S_n _ _ H). rewrite IH by exact H'. cbn [product tl]. change (@nadd RNum) with Rplus. change (@nmul RNum) with Rmult. change (num RNum) with R. ring.
  Qed.
  (** Without weights the score is the mean loss. *)
  Theorem C146_unweighted ts rows : score rows [] ts = mean (row_losses ts rows).
  Proof.
    unfold evaluate_validation. rewrite add_losses_R by (cbn; lia). rewrite compounded_nil. unfold mean. rewrite losses_length, nofnat_R. change (@ndiv RNum) with Rdiv. change (@n0 RNum) with 0%R. cbn [product]. change (num RNum) with R. f_equal. lra.
  Qed.
  (** With weights each loss is multiplied with the weight of its row and those of all later rows. *)
  Theorem C146_weighted ts rows (ws : list R) : (length ws <= length rows)%nat -> score rows ws ts = (compounded (row_losses ts rows) ws / INR (length rows))%R.
  Proof.
    intros H. unfold evaluate_validation. rewrite add_losses_R by exact H. rewrite nofnat_R. change (@ndiv RNum) with Rdiv. change (@n0 RNum) with 0%R. change (num RNum) with R. f_equal. lra.
  Qed.
  (** Weights of 1 make no difference. *)
  Theorem C146_ones ts rows k : (k <= length rows)%nat -> score rows (repeat 1%R k) ts = mean (row_losses ts rows).
  Proof.
    intros H. rewrite C146_weighted by (rewrite repeat_length; exact H). unfold mean. rewrite losses_length. f_equal. clear H.
    assert (P : forall j, product (repeat 1%R j) = 1%R) by (induction j as [|j IH]; cbn; [|rewrite IH]; lra).
    revert k. induction (row_losses ts rows) as [|l ls IH]; intros k; [reflexivity|]. cbn [compounded total fold_right]. rewrite P. fold (total ls). rewrite <- (IH (pred k)). destruct k; cbn [repeat tl pred]; lra.
  Qed.
  (** A weight of 0 wipes out its row and all rows before it. *)
  Theorem C146_zero ts before row after (ws1 ws2 : list R) : length ws1 = length before -> (length ws2 <= length after)%nat ->
    score (before ++ row :: after) (ws1 ++ 0%R :: ws2) ts = (compounded (row_losses ts after) ws2 / INR (length (before ++ row :: after)))%R.
  Proof.
    intros H1 H2. rewrite C146_weighted by (rewrite !app_length; cbn [length]; change (num RNum) with R in *; lia). f_equal.
    assert (P0 : forall us, product (us ++ 0%R :: ws2) = 0%R) by (induction us as [|u us IH]; cbn; [|rewrite IH]; lra).
    revert ws1 H1. induction before as [|b before IH]; intros [|w ws1] H1; cbn in H1; try discriminate.
    - cbn [app row_losses map compounded tl product]. fold (row_losses ts after). change (num RNum) with R. ring.
    - cbn [app row_losses map compounded tl]. fold (row_losses ts (before ++ row :: after)). rewrite IH by (injection H1; auto). change (w :: ws1 ++ 0%R :: ws2) with ((w :: ws1) ++ 0%R :: ws2). rewrite (P0 (w :: ws1)). change (num RNum) with R. ring.
  Qed.
  (** So with a weight of 0 for the last row training ends with a single tree, whatever the data. *)
  Theorem C146_last_zero (next : list T -> T) iterations rounds metric before row (ws : list R) : length ws = length before -> (0 < rounds < iterations)%Z ->
    fit_with_validation (fun ts => Ok (next ts)) (score (before ++ [row]) (ws ++ [0%R])) iterations rounds metric true = Ok [next []].
  Proof.
    intros H Hr. apply const_one with (c := 0%R : num RNum); [|apply (proj2 (Rltb_false 0 0)); lra|exact Hr].
    intros ts. rewrite C146_zero by (auto; cbn; lia). cbn [row_losses map compounded]. unfold Rdiv. apply Rmult_0_l.
  Qed.
End Real.

(** In binary64: validation data with another number of columns give no error but a single tree. *)
Theorem C146_columns fexp fln {X T : Type} (loss : num (FNum fexp fln) -> num (FNum fexp fln) -> num (FNum fexp fln)) (predict : list T -> X -> num (FNum fexp fln)) (next : list T -> T) iterations rounds metric rows ws : (0 < rounds < iterations)%Z ->
  fit_with_validation (fun ts => Ok (next ts)) (evaluate_validation loss predict false rows ws) iterations rounds metric true = Ok [next []].
Proof. intros H. apply const_one with (c := @ninf (FNum fexp fln)); [reflexivity|reflexivity|exact H]. Qed.

(** Expected, and false: that weights give the weighted mean, so that only their ratios matter.  The same weight 2 for both rows changes the
    result of the training. *)
Theorem C146_weights_refuted : exists (loss : R -> R -> R) (predict : list nat -> nat -> R) rows ts, weighted_mean (row_losses loss predict ts rows) [2%R; 2%R] = mean (row_losses loss predict ts rows) /\
  @evaluate_validation RNum nat nat loss predict true rows [2%R; 2%R] ts <> mean (row_losses loss predict ts rows) /\
  @evaluate_validation RNum nat nat loss predict true rows [2%R; 2%R] ts <> (2 * mean (row_losses loss predict ts rows))%R.
Proof.
  exists (fun p y => p - y)%R, (fun _ x => INR x), [(1%nat, 0%R); (0%nat, 0%R)], []. rewrite C146_weighted by (cbn; lia). unfold weighted_mean, mean, row_losses. cbn. split; [field|]. split; lra.
Qed.
Definition ex_rows : list (nat * num QNum) := [(0%nat, 0%Q); (1%nat, 0%Q)].
Definition ex_predict (ts : list nat) (x : nat) : num QNum := match ts, x with [_], O => 0%Q | [_], _ => 3%Q | _, O => 2%Q | _, _ => 0%Q end.
Definition ex_loss (p y : num QNum) : num QNum := @nsub QNum p y.
Theorem C146_scale_refuted : exists ws : num QNum,
  fit_with_validation (fun ts => Ok (length ts)) (evaluate_validation ex_loss ex_predict true ex_rows [1%Q; 1%Q]) 2 1 "l2" true = Ok [0; 1]%nat /\
  fit_with_validation (fun ts => Ok (length ts)) (evaluate_validation ex_loss ex_predict true ex_rows [ws; ws]) 2 1 "l2" true = Ok [0]%nat.
Proof. exists 2%Q. split; reflexivity. Qed.
Example C146_example : @compounded [1; 2; 3]%R [2; 3]%R = (1 * 6 + 2 * 3 + 3)%R /\
  fit_with_validation (fun ts => Ok (length ts)) (evaluate_validation ex_loss ex_predict true ex_rows []) 2 1 "l2" true = Ok [0; 1]%nat.
Proof. split; [cbn; lra|reflexivity]. Qed.
Print Assumptions C146_unweighted. Print Assumptions C146_weighted. Print Assumptions C146_ones. Print Assumptions C146_zero. Print Assumptions C146_last_zero.
Print Assumptions C146_columns. Print Assumptions C146_weights_refuted. Print Assumptions C146_scale_refuted.
