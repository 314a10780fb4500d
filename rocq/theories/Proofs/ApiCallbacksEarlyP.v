From Coq Require Import String Ascii List Arith ZArith Bool Lia Permutation.
From Verif Require Import Base.Num Base.GoRes Base.GoMap Base.Mat Base.ListX
  Model.EarlyStop Model.LgbTree Model.LgbEstimator Model.LgbText Model.LgbBooster Model.LgbApi Model.ApiCallbacks Spec.ApiCallbacks
  Proofs.ApiCallbacksP Proofs.ApiCallbacksTrainP.
Import ListNotations.
Local Open Scope string_scope.
Local Open Scope list_scope.

Section Early.
  Context {N : Num} {W : Type}.
  Variable trainer : settings N * (N * N) -> matrix N -> matrix N -> option (res (gmodel N)).
  Variables toint32 roundint : N -> Z.
  Variable zthr : N.
  Variable fuel : nat.
  Variable order : nat -> @smap (list N) -> list (string * list N).
  Hypothesis visiting : forall k m, Permutation m (order k m).
  Notation cback := (cback N W).
  Notation world := (world N W).
  Notation call := (@call N W order).
  Notation calls := (@calls N W order).
  Notation loop := (@loop N W trainer toint32 roundint zthr fuel order).
  Notation rounds := (@rounds N trainer toint32 roundint zthr fuel).
  Notation evaluate_sets := (@evaluate_sets N toint32 roundint zthr fuel).
  Notation train_with := (@train_with N W trainer toint32 roundint zthr fuel order).
  Notation train_api := (@train_api N trainer toint32 roundint zthr fuel).

  Lemma rounds_evals s ds sets names k : forall iter h b h' b', rounds s ds sets names k iter (h, b) = Some (Ok (h', b')) ->
    forall key v, In v (evals_of key b) -> In v (evals_of key b').
  Proof.
    induction k as [|k IH]; intros iter h b h' b'; cbn [LgbApi.rounds]; [intros E; now injection E as <- <-|].
    destruct (train_one trainer s ds (h, b)) as [[[h1 b1]|e|]|] eqn:ET; try discriminate. destruct (LgbApi.evaluate_sets _ _ _ _ _ _ _ _ _) as [[b2|e|]|] eqn:EV; try discriminate.
    intros E key v Hv. apply (IH _ _ _ _ _ E). apply evaluate_keys in EV as (_ & _ & K & _). change (evals_of key (with_cur (iter + 1) b2)) with (evals_of key b2). apply K.
    unfold evals_of in *. now rewrite (train_one_evals _ _ _ _ _ _ _ ET).
  Qed.
  Lemma last_in {A} (l : list A) (d : A) : l <> [] -> In (List.last l d) l.
  Proof. intros H. destruct (exists_last H) as (l' & x & ->). rewrite last_last. apply in_or_app. right. now left. Qed.
  (** The score looked at is one of those recorded *)
  Lemma picked t (b : booster N) : (exists k l v rest, b_evals b = (k, l ++ [v]) :: rest) -> NoDup (skeys (b_evals b)) -> (forall k, In k (skeys (b_evals b)) -> k <> "") ->
    exists key values, first_entry (order t (b_evals b)) = Some (key, values) /\ String.eqb key "" = false /\ In (List.last values n0) (evals_of key b).
  Proof.
    intros (k & l & v & rest & E) Hn Hk. unfold first_entry. destruct (find _ (order t (b_evals b))) as [[key values]|] eqn:F.
    - apply find_some in F as [Hi Hv]. cbn [snd] in Hv. apply (Permutation_in _ (Permutation_sym (visiting t (b_evals b)))) in Hi. exists key, values. split; [reflexivity|]. split.
      + apply String.eqb_neq. apply Hk. now apply (in_map fst) in Hi.
      + unfold evals_of. rewrite (sget_in _ _ _ Hn Hi). apply last_in. now destruct values.
    - exfalso. assert (Hi : In (k, l ++ [v]) (order t (b_evals b))) by (apply (Permutation_in _ (visiting t _)); rewrite E; now left).
      apply (find_none _ _ F) in Hi. cbn [snd] in Hi. now destruct l.
  Qed.

  Definition waited (n : Z) (a : aes N) : aes N := mkaes (a_rounds a) (a_best a) (a_bestit a) (a_wait a + n) (a_higher a).
  Lemma improved_waited n a s : aes_improved (waited n a) s = aes_improved a s.
  Proof. reflexivity. Qed.
  Definition fine_keys (b : booster N) : Prop := NoDup (skeys (b_evals b)) /\ forall k, In k (skeys (b_evals b)) -> k <> "".

  (** The state after the call of the early stopping callback *)
  Lemma one_round s ds sets names iter (a : aes N) l2 w h b b' : Forall good l2 -> existsb writes l2 = false -> calm w -> fine_keys (w_booster w) -> sets <> [] ->
    train_one trainer s ds (w_heap w, w_booster w) = Some (Ok (h, b)) -> evaluate_sets (s_obj (fst s)) h b sets names = Some (Ok b') ->
    exists w1 key values, calls PBefore (CEarly a :: l2) (at_iter iter w) = (CEarly a :: l2, w1, Fine) /\ w_env w1 = w_env (at_iter iter w) /\ w_heap w1 = w_heap w /\ w_booster w1 = w_booster w
      /\ first_entry (order (w_ticks w1) (b_evals b')) = Some (key, values) /\ String.eqb key "" = false /\ In (List.last values n0) (evals_of key b') /\ fine_keys b'.
  Proof.
    intros G Wr C [Kn Kk] Hs ET EV. cbn [ApiCallbacks.calls ApiCallbacks.call early_call].
    assert (B : forall l w, Forall good l -> existsb writes l = false -> calls PBefore l w = (l, w, Fine)).
    { clear. induction l as [|c l IH]; intros w G Wr; [reflexivity|]. inversion G; subst. cbn [existsb] in Wr. apply orb_false_elim in Wr as [W1 W2]. cbn [ApiCallbacks.calls].
      destruct c; try contradiction; try discriminate W1; cbn [ApiCallbacks.call print_call record_call]; rewrite IH by assumption; reflexivity. }
    rewrite B by assumption. apply evaluate_keys in EV as (K1 & _ & _ & _ & _ & K5 & K6). rewrite (train_one_evals _ _ _ _ _ _ _ ET) in *.
    destruct (picked (w_ticks (at_iter iter w)) b') as (key & values & P1 & P2 & P3); auto. exists (at_iter iter w), key, values. repeat split; auto.
  Qed.
  Lemma after_rest l2 w : Forall good l2 -> existsb writes l2 = false -> exists l2' w', calls PAfter l2 w = (l2', w', Fine) /\ Forall good l2' /\ existsb writes l2' = false /\ core w w' /\ w_env w' = w_env w.
  Proof.
    intros G Wr. destruct (calls_good order PAfter l2 w) as (l' & w' & E & G' & W' & C & V); [now apply good_mild|auto|congruence|]. exists l', w'. repeat split; auto; try apply C. congruence.
  Qed.

  Lemma loop_early s ds sets names k : forall iter (a : aes N) l2 w h' b', Forall good l2 -> existsb writes l2 = false -> calm w -> fine_keys (w_booster w) -> sets <> [] ->
    rounds s ds sets names k iter (w_heap w, w_booster w) = Some (Ok (h', b')) -> (forall key v, In v (evals_of key b') -> aes_improved a v = false) ->
    exists l2' w', if (Nat.eqb k 0 || (a_wait a + Z.of_nat k <? a_rounds a)%Z)
      then loop s ds sets names k iter (CEarly a :: l2) w = Some (CEarly (waited (Z.of_nat k) a) :: l2', w', Ok tt) /\ w_heap w' = h' /\ w_booster w' = b' /\ Forall good l2' /\ existsb writes l2' = false
      else loop s ds sets names k iter (CEarly a :: l2) w = Some (CEarly (waited (Z.max 1 (a_rounds a - a_wait a)) a) :: l2', w', Err err_early).
  Proof.
    induction k as [|k IH]; intros iter a l2 w h' b' G Wr C K Hs; cbn [LgbApi.rounds ApiCallbacks.loop].
    { intros E _. injection E as <- <-. exists l2, w. cbn [Nat.eqb orb]. split; [|auto]. unfold waited. cbn [Z.of_nat]. rewrite Z.add_0_r. now destruct a. }
    destruct (train_one trainer s ds (w_heap w, w_booster w)) as [[[h b]|e|]|] eqn:ET; try discriminate.
    destruct (LgbApi.evaluate_sets _ _ _ _ _ _ _ _ _) as [[b1|e|]|] eqn:EV; try discriminate. intros E HN.
    destruct (one_round s ds sets names iter a l2 w h b b1 G Wr C K Hs ET EV) as (w1 & key & values & E1 & V1 & H1 & B1 & F1 & F2 & F3 & K1).
    rewrite E1, V1. cbn [at_iter with_env w_env v_stop v_results]. destruct C as [C1 C2]. rewrite C1, H1, B1, ET, C2. rewrite <- (train_one_evals _ _ _ _ _ _ _ ET), both_sets, EV.
    cbn [ApiCallbacks.calls ApiCallbacks.call early_call]. unfold early_after. cbn [trained w_ticks w_env v_results]. rewrite F1, F2.
    assert (HF : aes_improved a (List.last values n0) = false) by (apply (HN key); apply (rounds_evals _ _ _ _ _ _ _ _ _ _ E); exact F3).
    rewrite HF. cbn [a_wait a_rounds]. destruct (Z.leb_spec (a_rounds a) (a_wait a + 1)) as [H|H].
    - destruct (Z.ltb_spec (a_wait a + Z.of_nat (S k)) (a_rounds a)); [lia|]. cbn [Nat.eqb orb]. eexists l2, _. replace (Z.max 1 (a_rounds a - a_wait a)) with 1%Z by lia. reflexivity.
    - set (wm := ticked _). destruct (after_rest l2 wm G Wr) as (l2' & w2 & E2 & G2 & W2 & (_ & H2 & B2 & _ & R2 & _ & _ & S2 & _) & _). rewrite E2.
      specialize (IH (iter + 1)%Z (waited 1 a) l2' (with_booster (with_cur (iter + 1) (w_booster w2)) w2) h' b' G2 W2). cbn [with_booster w_heap w_booster w_env] in IH. rewrite B2, H2 in IH.
      destruct IH as (l3 & w3 & L).
      + split; cbn [with_booster w_env w_booster]; [rewrite S2; cbn; rewrite V1; exact C1|exact R2].
      + exact K1.
      + exact Hs.
      + exact E.
      + intros key' v Hv. rewrite improved_waited. now apply (HN key').
      + exists l3, w3. rewrite B2. change (a_wait (waited 1 a)) with (a_wait a + 1)%Z in L. change (a_rounds (waited 1 a)) with (a_rounds a) in L.
        replace (a_wait a + 1 + Z.of_nat k)%Z with (a_wait a + Z.of_nat (S k))%Z in L by lia. cbn [Nat.eqb orb].
        assert (X : (Nat.eqb k 0 || (a_wait a + Z.of_nat (S k) <? a_rounds a)%Z) = (a_wait a + Z.of_nat (S k) <? a_rounds a)%Z).
        { destruct k; [|reflexivity]. cbn [Nat.eqb orb]. symmetry. apply Z.ltb_lt. lia. }
        rewrite X in L. change (mkaes (a_rounds a) (a_best a) (a_bestit a) (a_wait a + 1) (a_higher a)) with (waited 1 a).
        assert (Wt : waited (Z.of_nat k) (waited 1 a) = waited (Z.of_nat (S k)) a) by (unfold waited; cbn [a_wait a_rounds a_best a_bestit a_higher]; f_equal; lia).
        assert (Wt' : waited (Z.max 1 (a_rounds a - (a_wait a + 1))) (waited 1 a) = waited (Z.max 1 (a_rounds a - a_wait a)) a) by (unfold waited; cbn [a_wait a_rounds a_best a_bestit a_higher]; f_equal; lia).
        rewrite Wt, Wt' in L. exact L.
  Qed.
  (** A first round that improves *)
  Lemma loop_first s ds sets names k iter (a : aes N) l2 w h' b' v0 : Forall good l2 -> existsb writes l2 = false -> calm w -> fine_keys (w_booster w) -> sets <> [] ->
    rounds s ds sets names (S k) iter (w_heap w, w_booster w) = Some (Ok (h', b')) -> (forall key v, In v (evals_of key b') -> v = v0) ->
    aes_improved a v0 = true -> (let a1 := mkaes (a_rounds a) (Some v0) iter 0 (a_higher a) in aes_improved a1 v0 = false) -> (Z.of_nat k < a_rounds a)%Z ->
    exists l2' w', loop s ds sets names (S k) iter (CEarly a :: l2) w = Some (CEarly (mkaes (a_rounds a) (Some v0) iter (Z.of_nat k) (a_higher a)) :: l2', w', Ok tt)
      /\ w_heap w' = h' /\ w_booster w' = b' /\ Forall good l2' /\ existsb writes l2' = false.
  Proof.
    intros G Wr C K Hs E HN HI HI' Hk. cbn [LgbApi.rounds ApiCallbacks.loop] in *.
    destruct (train_one trainer s ds (w_heap w, w_booster w)) as [[[h b]|e|]|] eqn:ET; try discriminate.
    destruct (LgbApi.evaluate_sets _ _ _ _ _ _ _ _ _) as [[b1|e|]|] eqn:EV; try discriminate.
    destruct (one_round s ds sets names iter a l2 w h b b1 G Wr C K Hs ET EV) as (w1 & key & values & E1 & V1 & H1 & B1 & F1 & F2 & F3 & K1).
    rewrite E1, V1. cbn [at_iter with_env w_env v_stop v_results]. destruct C as [C1 C2]. rewrite C1, H1, B1, ET, C2. rewrite <- (train_one_evals _ _ _ _ _ _ _ ET), both_sets, EV.
    cbn [ApiCallbacks.calls ApiCallbacks.call early_call]. unfold early_after. cbn [trained w_ticks w_env v_results]. rewrite F1, F2.
    assert (HF : List.last values n0 = v0) by (apply (HN key); apply (rounds_evals _ _ _ _ _ _ _ _ _ _ E); exact F3).
    rewrite HF, HI. cbn [v_iter]. assert (Vi : v_iter (w_env w1) = iter) by now rewrite V1. rewrite Vi.
    match goal with |- context [calls PAfter l2 ?x] => set (wm := x) end. destruct (after_rest l2 wm G Wr) as (l2' & w2 & E2 & G2 & W2 & (_ & H2 & B2 & _ & R2 & _ & _ & S2 & _) & _). rewrite E2.
    destruct (loop_early s ds sets names k (iter + 1)%Z (mkaes (a_rounds a) (Some v0) iter 0 (a_higher a)) l2' (with_booster (with_cur (iter + 1) (w_booster w2)) w2) h' b') as (l3 & w3 & L).
    - exact G2.
    - exact W2.
    - split; cbn [with_booster w_env w_booster]; [rewrite S2; cbn; rewrite V1; exact C1|rewrite B2; exact R2].
    - cbn [with_booster w_booster]. rewrite B2. exact K1.
    - exact Hs.
    - cbn [with_booster w_heap w_booster]. rewrite B2, H2. exact E.
    - intros key' v Hv. rewrite (HN key' v Hv). exact HI'.
    - cbn [a_wait a_rounds] in L. rewrite Z.add_0_l in L. replace (Z.of_nat k <? a_rounds a)%Z with true in L by (symmetry; apply Z.ltb_lt; exact Hk). rewrite orb_true_r in L.
      destruct L as (L1 & L2). exists l3, w3. split; [|exact L2]. rewrite L1. repeat f_equal.
  Qed.

  Lemma tail_good u h p verbose : exists l2, calls PInit (match verbose with Some freq => [new_print freq] | None => [] end : list cback) (start u h p) = (l2, start u h p, Fine)
    /\ Forall good l2 /\ existsb writes l2 = false.
  Proof.
    destruct verbose as [f|]; [|exists []; auto]. eexists. split; [reflexivity|]. split; [|reflexivity]. repeat constructor. cbn. destruct (Z.leb_spec f 0); lia.
  Qed.
  Lemma fine_new : fine_keys (@new_booster N).
  Proof. split; [constructor|intros k []]. Qed.
  Lemma final_rest l2 w : Forall good l2 -> existsb writes l2 = false -> exists l2' w', calls PFinal l2 w = (l2', w', Fine) /\ w_heap w' = w_heap w /\ w_booster w' = w_booster w.
  Proof.
    intros G Wr. destruct (calls_good order PFinal l2 w) as (l' & w' & E & _ & _ & (_ & H & B & _) & _); [now apply good_mild|auto|congruence|]. eauto.
  Qed.
  (** A training in which no score is better than what the callback remembers *)
  Lemma train_again u h p ds num sets names (a : aes N) verbose h' b : (1 <= num)%Z -> sets <> [] -> (forall o, sget "objective" (entries p) <> Some (VStr o)) ->
    train_api h (entries p) ds num sets names None = Some (Ok (h', b)) -> (forall key v, In v (evals_of key b) -> aes_improved a v = false) ->
    exists l w, if (a_wait a + num <? a_rounds a)%Z
      then train_with u h p ds num sets names [CEarly a] verbose 0 = Some (CEarly (waited num a) :: l, w, Ok tt) /\ w_heap w = h' /\ w_booster w = b
      else train_with u h p ds num sets names [CEarly a] verbose 0 = Some (CEarly (waited (Z.max 1 (a_rounds a - a_wait a)) a) :: l, w, Err err_early).
  Proof.
    intros Hn Hs Ho E HN. unfold LgbApi.train_api in E. fold (all_names sets names) in E. unfold ApiCallbacks.train_with, all_callbacks. cbn [app Z.ltb Z.compare]. rewrite app_nil_r.
    cbn [ApiCallbacks.calls ApiCallbacks.call early_call].
    assert (Ei : early_init (v_params (w_env (@start N W u h p))) a = a).
    { unfold early_init. cbn [start w_env v_params]. destruct (sget "objective" (entries p)) as [[]|] eqn:Eo; try reflexivity. now destruct (Ho s). }
    rewrite Ei. destruct (tail_good u h p verbose) as (l2 & E2 & G2 & W2). rewrite E2.
    destruct (rounds (parse_params (entries p)) ds sets (all_names sets names) (Z.to_nat num) 0 (h, new_booster)) as [[[h1 b1]|e|]|] eqn:ER; try discriminate.
    injection E as <- Eb.
    destruct (loop_early (parse_params (entries p)) ds sets (all_names sets names) (Z.to_nat num) 0 a l2 (start u h p) h1 b1 G2 W2) as (l3 & w3 & L); try assumption.
    - split; reflexivity.
    - apply fine_new.
    - intros key v Hv. apply (HN key). rewrite <- Eb. destruct (b_best b1 =? 0)%Z; exact Hv.
    - replace (Nat.eqb (Z.to_nat num) 0) with false in L by (symmetry; apply Nat.eqb_neq; lia). cbn [orb] in L. rewrite Z2Nat.id in L by lia.
      destruct (_ <? _)%Z.
      + destruct L as (L1 & L2 & L3 & L4 & L5). rewrite L1. cbn [ApiCallbacks.calls ApiCallbacks.call early_call]. destruct (final_rest l3 w3 L4 L5) as (l4 & w4 & E4 & H4 & B4). rewrite E4.
        eexists l4, _. split; [reflexivity|]. rewrite B4, L3. rewrite <- Eb. destruct (b_best b1 =? 0)%Z; cbn; split; congruence.
      + rewrite L. eexists _, _. reflexivity.
  Qed.
  (** A training with a new callback whose scores are all the same *)
  Lemma train_new u h p ds num sets names r verbose h' b v0 : (1 <= num)%Z -> sets <> [] -> (forall o, sget "objective" (entries p) <> Some (VStr o)) ->
    train_api h (entries p) ds num sets names None = Some (Ok (h', b)) -> (forall key v, In v (evals_of key b) -> v = v0) ->
    aes_improved (mkaes r None 0 0 false) v0 = true -> (v0 <? v0 - n0)%num = false -> (num - 1 < r)%Z ->
    exists l w, train_with u h p ds num sets names [new_early r] verbose 0 = Some (CEarly (mkaes r (Some v0) 0 (num - 1) false) :: l, w, Ok tt) /\ w_heap w = h' /\ w_booster w = b.
  Proof.
    intros Hn Hs Ho E HN HI Hv Hr. unfold LgbApi.train_api in E. fold (all_names sets names) in E. unfold ApiCallbacks.train_with, all_callbacks. cbn [app Z.ltb Z.compare]. rewrite app_nil_r.
    unfold new_early. cbn [ApiCallbacks.calls ApiCallbacks.call early_call]. set (a := mkaes r None 0 0 false) in *.
    assert (Ei : early_init (v_params (w_env (@start N W u h p))) a = a).
    { unfold early_init. cbn [start w_env v_params]. destruct (sget "objective" (entries p)) as [[]|] eqn:Eo; try reflexivity. now destruct (Ho s). }
    rewrite Ei. destruct (tail_good u h p verbose) as (l2 & E2 & G2 & W2). rewrite E2.
    destruct (rounds (parse_params (entries p)) ds sets (all_names sets names) (Z.to_nat num) 0 (h, new_booster)) as [[[h1 b1]|e|]|] eqn:ER; try discriminate.
    injection E as <- Eb. destruct (Z.to_nat num) as [|k] eqn:Ek; [lia|].
    destruct (loop_first (parse_params (entries p)) ds sets (all_names sets names) k 0 a l2 (start u h p) h1 b1 v0 G2 W2) as (l3 & w3 & L1 & L2 & L3 & L4 & L5); try assumption.
    - split; reflexivity.
    - apply fine_new.
    - intros key v Hi. apply (HN key). rewrite <- Eb. destruct (b_best b1 =? 0)%Z; exact Hi.
    - cbn [a a_rounds]. lia.
    - rewrite L1. cbn [ApiCallbacks.calls ApiCallbacks.call early_call]. destruct (final_rest l3 w3 L4 L5) as (l4 & w4 & E4 & H4 & B4). rewrite E4.
      eexists l4, _. cbn [a a_rounds a_higher]. replace (Z.of_nat k) with (num - 1)%Z by lia. split; [reflexivity|]. rewrite B4, L3. rewrite <- Eb. destruct (b_best b1 =? 0)%Z; cbn; split; congruence.
  Qed.
  (** ** A reset of a nil map *)
  Lemma loop_nil s ds sets names st new k : new <> [] -> forall iter (w : world) h' b', v_params (w_env w) = None -> calm w -> (iter <= st < iter + Z.of_nat k)%Z ->
    rounds s ds sets names k iter (w_heap w, w_booster w) = Some (Ok (h', b')) -> exists l w', loop s ds sets names k iter [CReset st new] w = Some (l, w', Panic).
  Proof.
    intros Hne. induction k as [|k IH]; intros iter w h' b' P C Hi; [lia|]. cbn [LgbApi.rounds ApiCallbacks.loop ApiCallbacks.calls ApiCallbacks.call reset_call].
    destruct (train_one trainer s ds (w_heap w, w_booster w)) as [[[h b]|e|]|] eqn:ET; try discriminate.
    destruct (LgbApi.evaluate_sets _ _ _ _ _ _ _ _ _) as [[b1|e|]|] eqn:EV; try discriminate. intros E.
    cbn [at_iter with_env w_env v_iter v_params]. rewrite P. destruct (Z.eqb_spec iter st) as [->|Hns].
    - destruct new as [|e new]; [congruence|]. eexists _, _. reflexivity.
    - cbn [at_iter with_env w_env w_heap w_booster v_stop v_results]. destruct C as [C1 C2]. rewrite C1, ET, C2. rewrite <- (train_one_evals _ _ _ _ _ _ _ ET), both_sets, EV.
      apply (IH (iter + 1)%Z (with_booster (with_cur (iter + 1) b1) (trained h b1 (b_evals b1) (at_iter iter w))) h' b'); [exact P|split; [exact C1|reflexivity]|lia|exact E].
  Qed.
  Lemma train_nil u h ds num sets names st new h' b : new <> [] -> (0 <= st < num)%Z -> train_api h [] ds num sets names None = Some (Ok (h', b)) ->
    exists l w, train_with u h None ds num sets names [CReset st new] None 0 = Some (l, w, Panic).
  Proof.
    intros Hne Hi E. unfold LgbApi.train_api in E. fold (all_names sets names) in E. unfold ApiCallbacks.train_with, all_callbacks. cbn [app Z.ltb Z.compare ApiCallbacks.calls ApiCallbacks.call reset_call].
    destruct (rounds (parse_params (entries None)) ds sets (all_names sets names) (Z.to_nat num) 0 (h, new_booster)) as [[[h1 b1]|e|]|] eqn:ER; cbn [entries] in ER; rewrite ER in E; try discriminate.
    destruct (loop_nil (parse_params (entries None)) ds sets (all_names sets names) st new (Z.to_nat num) Hne 0 (start u h None) h1 b1) as (l & w & L); [reflexivity|split; reflexivity|lia|exact ER|].
    rewrite L. eexists _, _. reflexivity.
  Qed.
End Early.
