From Coq Require Import String Ascii List Arith ZArith Bool Lia Permutation.
From Verif Require Import Base.Num Base.GoRes Base.GoMap Base.Mat Base.ListX
  Model.EarlyStop Model.LgbTree Model.LgbEstimator Model.LgbText Model.LgbBooster Model.LgbApi Model.ApiCallbacks Spec.ApiCallbacks
  Proofs.ApiCallbacksP.
Import ListNotations.
Local Open Scope string_scope.
Local Open Scope list_scope.

(** * Keys *)
Lemma append_nil s : append s "" = s.
Proof. induction s; cbn; congruence. Qed.
Lemma last_dash_none s : last_dash s = None <-> dashless s = true.
Proof.
  induction s as [|c s IH]; cbn [last_dash dashless]; [tauto|]. destruct (last_dash s) as [[d m]|].
  - split; [discriminate|]. intros K. apply andb_prop in K as [_ K]. apply IH in K. discriminate.
  - destruct (Ascii.eqb c "-"); cbn; [split; discriminate|]. rewrite (proj1 IH eq_refl). tauto.
Qed.
Lemma last_dash_some s d m : last_dash s = Some (d, m) <-> s = eval_key d m /\ dashless m = true.
Proof.
  revert d m. induction s as [|c s IH]; intros d m; cbn [last_dash].
  - split; [discriminate|]. intros [E _]. destruct d; discriminate E.
  - destruct (last_dash s) as [[d' m']|] eqn:E.
    + destruct (proj1 (IH d' m') eq_refl) as [-> Hm]. split.
      * intros K. injection K as <- <-. split; [reflexivity|exact Hm].
      * intros [K Hd]. destruct d as [|c' d]; cbn in K.
        -- exfalso. injection K as _ K. subst m. apply last_dash_none in Hd. congruence.
        -- injection K as <- K. assert (F : Some (d', m') = Some (d, m)) by (apply IH; split; assumption). congruence.
    + apply last_dash_none in E. destruct (Ascii.eqb_spec c "-") as [->|Hc]; cbn.
      * split; [intros K; injection K as <- <-; split; [reflexivity|exact E]|]. intros [K Hd]. destruct d as [|c' d]; cbn in K.
        -- now injection K as <-.
        -- exfalso. injection K as _ K. subst s. clear -E. induction d as [|x d IH]; cbn in E; [discriminate|]. apply andb_prop in E as [_ E]. auto.
      * split; [discriminate|]. intros [K Hd]. exfalso. destruct d as [|c' d]; cbn in K; [injection K as K _; contradiction|].
        injection K as _ K. subst s. clear -E. induction d as [|x d IH]; cbn in E; [discriminate|]. apply andb_prop in E as [_ E]. auto.
Qed.
Lemma eval_key_nonempty d m : eval_key d m <> "".
Proof. destruct d; discriminate. Qed.

Section Record.
  Context {N : Num}.
  Lemma record_one (r : @smap (@smap (list N))) k v d m :
    recorded d m (record_entry r (k, v)) = if recordable d m && String.eqb k (eval_key d m) then Some v else recorded d m r.
  Proof.
    unfold record_entry, recordable. cbn [fst snd]. destruct (last_dash k) as [[d' m']|] eqn:E.
    - apply last_dash_some in E as E'. destruct E' as [-> Hm].
      destruct (String.eqb_spec (eval_key d' m') (eval_key d m)) as [K|K].
      + destruct (dashless m) eqn:Dm.
        * assert (F : last_dash (eval_key d' m') = Some (d, m)) by (apply last_dash_some; split; assumption). rewrite E in F. injection F as -> ->.
          destruct (String.eqb_spec d ""), (String.eqb_spec m ""); cbn; try reflexivity. unfold recorded. now rewrite sget_put_same, sget_put_same.
        * rewrite andb_false_r. cbn [andb]. destruct (_ || _); [reflexivity|]. unfold recorded. rewrite sget_put. destruct (String.eqb_spec d d') as [->|]; [|reflexivity].
          rewrite sget_put. destruct (String.eqb_spec m m') as [->|]; [congruence|]. destruct (sget d' r); reflexivity.
      + rewrite andb_false_r. destruct (_ || _); [reflexivity|]. unfold recorded. rewrite sget_put. destruct (String.eqb_spec d d') as [->|]; [|reflexivity].
        rewrite sget_put. destruct (String.eqb_spec m m') as [->|]; [contradiction|]. destruct (sget d' r); reflexivity.
    - apply last_dash_none in E. destruct (String.eqb_spec k (eval_key d m)) as [->|]; [|now rewrite andb_false_r].
      exfalso. clear -E. unfold eval_key in E. induction d as [|x d IH]; cbn in E; [discriminate|]. apply andb_prop in E as [_ E]. auto.
  Qed.
  Lemma record_all (l : list (string * list N)) d m : NoDup (skeys l) -> forall r,
    recorded d m (fold_left record_entry l r) = if recordable d m then match sget (eval_key d m) l with Some v => Some v | None => recorded d m r end else recorded d m r.
  Proof.
    induction l as [|[k v] l IH]; intros Hn r; cbn [fold_left sget]; [now destruct (recordable d m)|].
    inversion Hn as [|? ? Hk Hn']; subst. rewrite IH by exact Hn'. rewrite record_one. destruct (recordable d m); cbn [andb]; [|reflexivity].
    rewrite String.eqb_sym. destruct (String.eqb_spec (eval_key d m) k) as [<-|]; [|reflexivity]. apply sget_none in Hk. now rewrite Hk.
  Qed.
End Record.

Section Train.
  Context {N : Num} {W : Type}.
  Variable trainer : settings N * (N * N) -> matrix N -> matrix N -> option (res (gmodel N)).
  Variables toint32 roundint : N -> Z.
  Variable zthr : N.
  Variable fuel : nat.
  Variable order : nat -> @smap (list N) -> list (string * list N).
  Notation cback := (cback N W).
  Notation world := (world N W).
  Notation call := (@call N W order).
  Notation calls := (@calls N W order).
  Notation loop := (@loop N W trainer toint32 roundint zthr fuel order).
  Notation rounds := (@rounds N trainer toint32 roundint zthr fuel).
  Notation evaluate_sets := (@evaluate_sets N toint32 roundint zthr fuel).
  Notation train_with := (@train_with N W trainer toint32 roundint zthr fuel order).
  Notation train_api := (@train_api N trainer toint32 roundint zthr fuel).

  Definition step (I : Z -> list cback -> world -> Prop) s ds sets names : Prop :=
    forall iter l w l1 w1 h b l2 w2, I iter l w -> Forall good l -> calls PBefore l (at_iter iter w) = (l1, w1, Fine) ->
       Forall good l1 -> v_iter (w_env w1) = iter -> calls PAfter l1 (trained h b (b_evals b) w1) = (l2, w2, Fine) -> w_booster w2 = b ->
       v_results (w_env w2) = b_evals b -> evaluate_sets (s_obj (fst s)) h (snd (match train_one trainer s ds (w_heap w, w_booster w) with Some (Ok x) => x | _ => (w_heap w, w_booster w) end)) sets names = Some (Ok b) ->
       I (iter + 1)%Z l2 (with_booster (with_cur (iter + 1) b) w2).
  Definition finish (w : world) : world :=
    if (b_best (w_booster w) =? 0)%Z then with_booster (set_best (b_cur (w_booster w)) (w_booster w)) w else w.
  Definition done (num : Z) : Z := Z.of_nat (Z.to_nat num).

  Lemma train_good (I : Z -> list cback -> world -> Prop) u h p ds num sets names cs verbose r :
    step I (parse_params (entries p)) ds sets (all_names sets names) -> Forall mild cs -> (r <= 0)%Z -> (existsb writes cs = true -> p <> None) ->
    exists l1 w1, calls PInit (all_callbacks cs verbose r) (start u h p) = (l1, w1, Fine) /\ core (start u h p) w1 /\ (existsb writes cs = false -> w_env w1 = w_env (start u h p)) /\
    (I 0%Z l1 w1 ->
     match train_api h (entries p) ds num sets names None with
     | Some (Ok (h', b)) => exists l2 w2 l3 w3, train_with u h p ds num sets names cs verbose r = Some (l3, finish w3, Ok tt)
         /\ I (done num) l2 w2 /\ calls PFinal l2 w2 = (l3, w3, Fine) /\ Forall good l2 /\ core w2 w3 /\ (existsb writes cs = false -> w_env w3 = w_env w2)
         /\ w_heap (finish w3) = h' /\ w_booster (finish w3) = b /\ v_results (w_env w2) = b_evals (w_booster w2)
         /\ (1 <= num -> v_iter (w_env w2) = num - 1)%Z
     | Some (Err e) => exists l' w', train_with u h p ds num sets names cs verbose r = Some (l', w', Err e)
     | Some Panic => exists l' w', train_with u h p ds num sets names cs verbose r = Some (l', w', Panic)
     | None => train_with u h p ds num sets names cs verbose r = None
     end).
  Proof.
    intros HI M Hr P. set (l0 := all_callbacks cs verbose r).
    assert (Ml : Forall mild l0).
    { unfold l0, all_callbacks. apply Forall_app. split; [exact M|]. apply Forall_app. split; [destruct verbose; repeat constructor|]. destruct (Z.ltb_spec 0 r); [lia|constructor]. }
    assert (Wl : existsb writes l0 = existsb writes cs).
    { unfold l0, all_callbacks. rewrite !existsb_app. replace (existsb writes (match verbose with Some f => [new_print f] | None => [] end)) with false by now destruct verbose.
      destruct (Z.ltb_spec 0 r); [lia|]. cbn. now rewrite orb_false_r. }
    destruct (calls_good order PInit l0 (start u h p) Ml) as (l1 & w1 & E1 & G1 & W1 & C1 & V1); [congruence|rewrite Wl; exact P|].
    exists l1, w1. split; [exact E1|]. split; [exact C1|]. split; [rewrite <- Wl; exact V1|]. intros HI0.
    pose proof C1 as (U1 & H1 & B1 & I1 & R1 & Be1 & Sc1 & St1 & P1). cbn [start w_heap w_booster w_env v_iter v_results v_stop v_params] in *.
    assert (K : calm w1) by (split; [exact St1|rewrite R1, B1; reflexivity]).
    pose proof (loop_good trainer toint32 roundint zthr fuel order I (parse_params (entries p)) ds sets (all_names sets names) HI (Z.to_nat num) 0%Z l1 w1 G1 K HI0) as L.
    rewrite W1, Wl, P1 in L. specialize (L P). rewrite H1, B1 in L.
    unfold LgbApi.train_api, ApiCallbacks.train_with. fold l0. rewrite E1. fold (all_names sets names).
    destruct (rounds (parse_params (entries p)) ds sets (all_names sets names) (Z.to_nat num) 0 (h, new_booster)) as [[[h' b]|e|]|].
    - destruct L as (l2 & w2 & L1 & L2 & L3 & L4 & L5 & L6 & L7 & L8 & L9 & L10). rewrite L1.
      destruct (calls_good order PFinal l2 w2) as (l3 & w3 & E3 & G3 & W3 & C3 & V3); [now apply good_mild|auto|rewrite L7, L8, P1; exact P|].
      rewrite E3. exists l2, w2, l3, w3. split; [reflexivity|]. split; [exact L6|]. split; [exact E3|]. split; [exact L4|]. split; [exact C3|].
      split; [intros Z0; apply V3; congruence|]. destruct C3 as (U3 & H3 & B3 & _).
      split; [unfold finish; destruct (_ =? _)%Z; cbn; congruence|]. split; [unfold finish; rewrite B3, L3; destruct (b_best b =? 0)%Z; cbn; congruence|].
      split; [apply L5|]. intros Hn. rewrite L9 by lia. lia.
    - destruct L as (l' & w' & ->). now eexists _, _.
    - destruct L as (l' & w' & ->). now eexists _, _.
    - now rewrite L.
  Qed.

  Lemma mild_of_quiet cs : forallb quiet cs = true -> Forall mild (flat_map flat cs : list cback).
  Proof.
    intros H. apply Forall_forall. intros c Hc. apply in_flat_map in Hc as (d & Hd & Hc). rewrite forallb_forall in H. specialize (H d Hd). clear Hd.
    revert c H Hc. induction d as [p l|a|r|s n|u|l IH] using cback_ind'; intros c H Hc; cbn [flat] in Hc; try discriminate H.
    1-3: destruct Hc as [<-|[]]; exact Logic.I.
    cbn [quiet] in H. apply in_flat_map in Hc as (e & He & Hc). rewrite forallb_forall in H. rewrite Forall_forall in IH. exact (IH e He c (H e He) Hc).
  Qed.
  Lemma writes_of cs : forallb no_reset cs = true -> existsb writes (flat_map flat cs : list cback) = false.
  Proof.
    intros H. apply not_true_is_false. intros K. apply existsb_exists in K as (c & Hc & K). apply in_flat_map in Hc as (d & Hd & Hc). rewrite forallb_forall in H. specialize (H d Hd). clear Hd.
    revert c K H Hc. induction d as [p l|a|r|s n|u|l IH] using cback_ind'; intros c K H Hc; cbn [flat] in Hc; try discriminate H.
    1-4: destruct Hc as [<-|[]]; discriminate K.
    cbn [no_reset] in H. apply in_flat_map in Hc as (e & He & Hc). rewrite forallb_forall in H. rewrite Forall_forall in IH. exact (IH e He c K (H e He) Hc).
  Qed.

  (** Quiet callbacks change nothing about the result. *)
  Lemma train_quiet u h p ds num sets names cs verbose r :
    forallb quiet cs = true -> (r <= 0)%Z -> (p <> None \/ forallb no_reset cs = true) ->
    match train_api h (entries p) ds num sets names None with
    | Some (Ok (h', b)) => exists l w, train_with u h p ds num sets names cs verbose r = Some (l, w, Ok tt) /\ w_heap w = h' /\ w_booster w = b
    | Some (Err e) => exists l w, train_with u h p ds num sets names cs verbose r = Some (l, w, Err e)
    | Some Panic => exists l w, train_with u h p ds num sets names cs verbose r = Some (l, w, Panic)
    | None => train_with u h p ds num sets names cs verbose r = None
    end.
  Proof.
    intros Q Hr Hp. pose proof (train_flat trainer toint32 roundint zthr fuel order u h p ds num sets names cs verbose r) as F.
    destruct (train_good (fun _ _ _ => True) u h p ds num sets names (flat_map flat cs) verbose r) as (l1 & w1 & _ & _ & _ & T).
    - unfold step. intros. exact Logic.I.
    - now apply mild_of_quiet.
    - exact Hr.
    - destruct Hp as [Hp|Hp]; [auto|]. rewrite (writes_of _ Hp). discriminate.
    - specialize (T Logic.I). rewrite F in T. clear F. destruct (train_api h (entries p) ds num sets names None) as [[[h' b]|e|]|].
      + destruct T as (l2 & w2 & l3 & w3 & E & _ & _ & _ & _ & _ & Hh & Hb & _). destruct (train_with u h p ds num sets names cs verbose r) as [[[l w] a]|]; [|discriminate E].
        cbn in E. injection E as _ Ew Ea. exists l, w. subst. auto.
      + destruct T as (l' & w' & E). destruct (train_with u h p ds num sets names cs verbose r) as [[[l w] a]|]; [|discriminate E]. cbn in E. injection E as _ _ ->. now eexists _, _.
      + destruct T as (l' & w' & E). destruct (train_with u h p ds num sets names cs verbose r) as [[[l w] a]|]; [|discriminate E]. cbn in E. injection E as _ _ ->. now eexists _, _.
      + now destruct (train_with u h p ds num sets names cs verbose r) as [[[l w] a]|].
  Qed.

  Lemma calls_mid ph l1 c l2 w l' w' : calls ph (l1 ++ c :: l2) w = (l', w', Fine) ->
    exists l1' c' l2' w1 w2, l' = l1' ++ c' :: l2' /\ calls ph l1 w = (l1', w1, Fine) /\ call ph c w1 = (c', w2, Fine) /\ calls ph l2 w2 = (l2', w', Fine).
  Proof.
    rewrite calls_app. destruct (calls ph l1 w) as [[l1' w1] [| |e|]]; try discriminate. cbn [ApiCallbacks.calls].
    destruct (call ph c w1) as [[c' w2] [| |e|]] eqn:E; try discriminate. destruct (calls ph l2 w2) as [[l2' w3] a] eqn:E2. intros K. injection K as <- <- ->.
    exists l1', c', l2', w1, w2. auto.
  Qed.
  Lemma calls_length ph l : forall w l' w' a, calls ph l w = (l', w', a) -> List.length l' = List.length l.
  Proof.
    induction l as [|c l IH]; intros w l' w' a; cbn [ApiCallbacks.calls]; [intros K; now injection K as <- <- <-|].
    destruct (call ph c w) as [[c' w1] [| |e|]]; try (intros K; injection K as <- <- <-; reflexivity).
    destruct (calls ph l w1) as [[l1 w2] a'] eqn:E. intros K. injection K as <- <- <-. cbn. f_equal. eauto.
  Qed.
  (** Callbacks that do not write leave the environment alone *)
  Lemma calls_env ph l w l' w' : Forall mild l -> (ph <> PInit -> Forall good l) -> existsb writes l = false -> calls ph l w = (l', w', Fine) -> w_env w' = w_env w /\ existsb writes l' = false.
  Proof.
    intros M G Wr E. destruct (calls_good order ph l w M G) as (l2 & w2 & E2 & _ & W2 & _ & V2); [congruence|]. rewrite E in E2. injection E2 as <- <-. split; [auto|congruence].
  Qed.

  (** ** The caller's parameters *)
  Lemma put_all_get (new : params N) k : NoDup (skeys new) -> forall p, sget k (put_all new p) = match sget k new with Some v => Some v | None => sget k p end.
  Proof.
    induction new as [|[k' v] new IH]; intros Hn p; [reflexivity|]. unfold put_all in *. cbn [fold_left sget fst snd]. inversion Hn as [|? ? Hk Hn']; subst.
    rewrite IH by exact Hn'. rewrite sget_put. destruct (String.eqb_spec k k') as [->|]; [|reflexivity]. apply sget_none in Hk. now rewrite Hk.
  Qed.
  Definition reset_inv st (new p : params N) n (iter : Z) (l : list cback) (w : world) : Prop :=
    exists l1 l2, l = l1 ++ CReset st new :: l2 /\ List.length l1 = n /\ existsb writes l1 = false /\ existsb writes l2 = false
      /\ v_params (w_env w) = Some (if ((0 <=? st) && (st <? iter))%Z then put_all new p else p) /\ (0 <= iter)%Z.
  Lemma reset_step st new p n s ds sets names : step (reset_inv st new p n) s ds sets names.
  Proof.
    intros iter l w l1 w1 h b l2 w2 (a & c & -> & Hn & Wa & Wc & Hp & Hi) G E1 G1 Ei E2 _ _ _.
    apply calls_mid in E1 as (a1 & x & c1 & w3 & w4 & -> & Ea & Ex & Ec).
    pose proof (good_mild _ G) as M. apply Forall_app in M as [Ma Mc]. inversion Mc as [|? ? _ Mc']; subst. apply Forall_app in G as [Ga Gc]. inversion Gc as [|? ? _ Gc']; subst.
    destruct (calls_env _ _ _ _ _ Ma (fun _ => Ga) Wa Ea) as [Va Wa1]. destruct (calls_env _ _ _ _ _ Mc' (fun _ => Gc') Wc Ec) as [Vc Wc1].
    cbn [ApiCallbacks.call reset_call] in Ex. rewrite Va in Ex. cbn [at_iter with_env w_env v_iter v_params] in Ex. rewrite Hp in Ex.
    assert (X : x = CReset st new /\ v_params (w_env w4) = Some (if ((0 <=? st) && (st <? v_iter (w_env w1) + 1))%Z then put_all new p else p)).
    { destruct (Z.eqb_spec (v_iter (w_env w1)) st) as [K|K].
      - injection Ex as <- <-. split; [reflexivity|]. cbn. destruct (Z.leb_spec 0 st), (Z.ltb_spec st (v_iter (w_env w1))), (Z.ltb_spec st (v_iter (w_env w1) + 1)); try lia. reflexivity.
      - injection Ex as <- <-. split; [reflexivity|]. rewrite Va. cbn [at_iter with_env w_env v_params]. rewrite Hp.
        destruct (Z.leb_spec 0 st), (Z.ltb_spec st (v_iter (w_env w1))), (Z.ltb_spec st (v_iter (w_env w1) + 1)); try lia; reflexivity. }
    destruct X as [-> Xp].
    apply calls_mid in E2 as (a2 & y & c2 & w5 & w6 & -> & Ea2 & Ey & Ec2).
    pose proof (good_mild _ G1) as M1. apply Forall_app in M1 as [Ma1 Mc1]. inversion Mc1 as [|? ? _ Mc1']; subst. apply Forall_app in G1 as [Ga1 Gc1]. inversion Gc1 as [|? ? _ Gc1']; subst.
    destruct (calls_env _ _ _ _ _ Ma1 (fun _ => Ga1) Wa1 Ea2) as [Va2 Wa2]. destruct (calls_env _ _ _ _ _ Mc1' (fun _ => Gc1') Wc1 Ec2) as [Vc2 Wc2].
    cbn [ApiCallbacks.call reset_call] in Ey. injection Ey as <- <-. exists a2, c2. split; [reflexivity|]. split; [rewrite (calls_length _ _ _ _ _ _ Ea2); exact (calls_length _ _ _ _ _ _ Ea)|].
    split; [exact Wa2|]. split; [exact Wc2|]. split; [|lia]. cbn [with_booster w_env]. rewrite Vc2, Va2. cbn [trained w_env v_params]. rewrite <- Vc in Xp. exact Xp.
  Qed.
  Lemma train_reset u h p ds num sets names l1 st new l2 verbose r : Forall mild l1 -> Forall mild l2 -> existsb writes (l1 ++ l2) = false -> (r <= 0)%Z ->
    forall h' b, train_api h p ds num sets names None = Some (Ok (h', b)) ->
    exists l w, train_with u h (Some p) ds num sets names (l1 ++ CReset st new :: l2) verbose r = Some (l, w, Ok tt) /\ w_heap w = h' /\ w_booster w = b
      /\ v_params (w_env w) = Some (if ((0 <=? st) && (st <? num))%Z then put_all new p else p).
  Proof.
    intros M1 M2 Wr Hr h' b E. rewrite existsb_app in Wr. apply orb_false_elim in Wr as [Wr1 Wr2].
    destruct (train_good (reset_inv st new p (List.length l1)) u h (Some p) ds num sets names (l1 ++ CReset st new :: l2) verbose r) as (i1 & w1 & Ei & Ci & _ & T).
    - apply reset_step.
    - apply Forall_app. split; [exact M1|]. constructor; [exact Logic.I|exact M2].
    - exact Hr.
    - discriminate.
    - unfold all_callbacks in Ei. rewrite <- app_assoc in Ei. cbn [app] in Ei.
      set (tl := l2 ++ _) in *. assert (Mt : Forall mild tl).
      { unfold tl. apply Forall_app. split; [exact M2|]. apply Forall_app. split; [destruct verbose; repeat constructor|]. destruct (Z.ltb_spec 0 r); [lia|constructor]. }
      assert (Wt : existsb writes tl = false).
      { unfold tl. rewrite !existsb_app, Wr2. replace (existsb writes (match verbose with Some f => [new_print f] | None => [] end)) with false by now destruct verbose. destruct (Z.ltb_spec 0 r); [lia|reflexivity]. }
      apply calls_mid in Ei as (a & x & c & w3 & w4 & -> & Ea & Ex & Ec). cbn [ApiCallbacks.call reset_call] in Ex. injection Ex as <- <-.
      destruct (calls_env _ _ _ _ _ M1 (fun K => match K eq_refl with end) Wr1 Ea) as [Va Wa]. destruct (calls_env _ _ _ _ _ Mt (fun K => match K eq_refl with end) Wt Ec) as [Vc Wc].
      assert (I0 : reset_inv st new p (List.length l1) 0 (a ++ CReset st new :: c) w1).
      { exists a, c. split; [reflexivity|]. split; [exact (calls_length _ _ _ _ _ _ Ea)|]. split; [exact Wa|]. split; [exact Wc|]. split; [|lia]. rewrite Vc, Va. cbn [start w_env v_params].
        destruct (Z.leb_spec 0 st), (Z.ltb_spec st 0); try lia; reflexivity. }
      specialize (T I0). cbn [entries] in T. rewrite E in T. destruct T as (l' & w2 & l3 & w5 & E5 & I5 & E6 & G5 & C5 & _ & Hh & Hb & _).
      exists l3, (finish w5). split; [exact E5|]. split; [exact Hh|]. split; [exact Hb|].
      destruct I5 as (b1 & b2 & -> & _ & Wb1 & Wb2 & Hp & _).
      assert (F : w_env w5 = w_env w2).
      { apply calls_mid in E6 as (a2 & y & c2 & w6 & w7 & -> & Ea2 & Ey & Ec2). pose proof (good_mild _ G5) as M5. apply Forall_app in M5 as [Ma5 Mc5]. inversion Mc5; subst.
        apply Forall_app in G5 as [Ga5 Gc5]. inversion Gc5; subst. cbn [ApiCallbacks.call reset_call] in Ey. injection Ey as <- <-.
        destruct (calls_env _ _ _ _ _ Ma5 (fun _ => Ga5) Wb1 Ea2) as [F1 _]. destruct (calls_env PFinal b2 w6 c2 w5) as [F2 _]; auto. congruence. }
      replace (v_params (w_env (finish w5))) with (v_params (w_env w5)) by (unfold finish; destruct (_ =? _)%Z; reflexivity). rewrite F, Hp. unfold done.
      destruct (Z.leb_spec 0 st), (Z.ltb_spec st (Z.of_nat (Z.to_nat num))), (Z.ltb_spec st num); try lia; reflexivity.
  Qed.

  (** ** The recorder *)
  Lemma evaluate_keys obj h sets : forall b names b', evaluate_sets obj h b sets names = Some (Ok b') ->
    (NoDup (skeys (b_evals b)) -> NoDup (skeys (b_evals b'))) /\ (forall k, sget k (b_evals b) <> None -> sget k (b_evals b') <> None)
    /\ (forall k v, In v (evals_of k b) -> In v (evals_of k b')) /\ b_best b' = b_best b /\ b_model b' = b_model b
    /\ ((forall k, In k (skeys (b_evals b)) -> k <> "") -> forall k, In k (skeys (b_evals b')) -> k <> "")
    /\ (sets <> [] -> exists k l v rest, b_evals b' = (k, l ++ [v]) :: rest).
  Proof.
    induction sets as [|ds sets IH]; intros b names b'; cbn [LgbApi.evaluate_sets]; [intros E; injection E as <-; repeat split; auto; congruence|].
    destruct (evaluate_set _ _ _ _ _ _ _ _) as [[sc|e|]|]; try discriminate. destruct names as [|name names]; [discriminate|]. intros E.
    destruct (IH _ _ _ E) as (H1 & H2 & H3 & H4 & H4' & H5 & H6). cbn [add_eval b_evals b_best] in *. split; [|split; [|split; [|split; [|split; [exact H4'|split]]]]].
    - intros Hn. apply H1. now apply sput_keys.
    - intros k Hk. apply H2. rewrite sget_put. destruct (_ =? _)%string; [discriminate|exact Hk].
    - intros k v Hv. apply H3. unfold evals_of in *. cbn [add_eval b_evals]. rewrite sget_put. destruct (String.eqb_spec k (eval_key name (metric_name obj))) as [->|]; [|exact Hv].
      apply in_or_app. now left.
    - exact H4.
    - intros Hne. apply H5. intros k [<-|Hk]; [apply eval_key_nonempty|]. apply Hne. unfold skeys in Hk. apply in_map_iff in Hk as (x & <- & Hx). apply filter_In in Hx as [Hx _]. now apply in_map.
    - intros _. destruct sets as [|d2 sets]; [|apply H6; discriminate]. cbn in E. injection E as <-. cbn [add_eval b_evals]. unfold sput. eexists _, _, _, _. reflexivity.
  Qed.
  Definition record_inv (rec0 : @smap (@smap (list N))) n (iter : Z) (l : list cback) (w : world) : Prop :=
    exists l1 rec l2, l = l1 ++ CRecord rec :: l2 /\ List.length l1 = n /\ NoDup (skeys (b_evals (w_booster w)))
      /\ forall d m, recorded d m rec = if recordable d m then match sget (eval_key d m) (b_evals (w_booster w)) with Some v => Some v | None => recorded d m rec0 end else recorded d m rec0.
  Hypothesis visiting : forall k m, Permutation m (order k m).
  Lemma train_one_evals' s ds (w : world) : b_evals (snd (match train_one trainer s ds (w_heap w, w_booster w) with Some (Ok x) => x | _ => (w_heap w, w_booster w) end)) = b_evals (w_booster w).
  Proof. destruct (train_one trainer s ds (w_heap w, w_booster w)) as [[[h b]|e|]|] eqn:E; try reflexivity. exact (train_one_evals _ _ _ _ _ _ _ E). Qed.
  Lemma record_step rec0 n s ds sets names : step (record_inv rec0 n) s ds sets names.
  Proof.
    intros iter l w l1 w1 h b l2 w2 (a & rec & c & -> & Hn & Hd & HR) G E1 G1 Ei E2 Eb Er EV. apply evaluate_keys in EV as (K1 & K2 & _). rewrite train_one_evals' in K1, K2.
    apply calls_mid in E1 as (a1 & x & c1 & w3 & w4 & -> & Ea & Ex & Ec). cbn [ApiCallbacks.call record_call] in Ex. injection Ex as <- <-.
    apply calls_mid in E2 as (a2 & y & c2 & w5 & w6 & -> & Ea2 & Ey & Ec2). cbn [ApiCallbacks.call record_call] in Ey. injection Ey as <- <-.
    assert (V5 : v_results (w_env w5) = b_evals b).
    { pose proof (calls_good order PAfter a1 (trained h b (b_evals b) w1)) as Q. apply Forall_app in G1 as [Ga1 _].
      destruct (existsb writes a1 && match v_params (w_env w1) with None => true | Some _ => false end) eqn:Q0.
      - (* writing callbacks do nothing after a round *)
        assert (Z0 : forall l w l' w', Forall good l -> calls PAfter l w = (l', w', Fine) -> v_results (w_env w') = v_results (w_env w)).
        { clear. induction l as [|c l IH]; intros w l' w' G; cbn [ApiCallbacks.calls]; [intros E; now injection E as _ <-|]. inversion G; subst.
          destruct c as [p la|e|r|s n|k|u]; try contradiction; cbn [ApiCallbacks.call print_call record_call reset_call] in *.
          - cbn [good] in *. destruct (Z.eqb_spec p 0); [lia|]. destruct (negb _); [|destruct (lasts _)];
            (destruct (calls PAfter l _) as [[q1 q2] q3] eqn:E; intros K; injection K as _ <- ->; rewrite (IH _ _ _ H2 E); reflexivity).
          - destruct (calls PAfter l _) as [[q1 q2] q3] eqn:E; intros K; injection K as _ <- ->; rewrite (IH _ _ _ H2 E); reflexivity.
          - destruct (calls PAfter l _) as [[q1 q2] q3] eqn:E; intros K; injection K as _ <- ->; rewrite (IH _ _ _ H2 E); reflexivity. }
        rewrite (Z0 _ _ _ _ Ga1 Ea2). reflexivity.
      - destruct Q as (q1 & q2 & Q1 & _ & _ & Q4 & _); [now apply good_mild|auto| |].
        + intros Wt. rewrite Wt in Q0. cbn [trained w_env v_params]. destruct (v_params (w_env w1)); [discriminate|discriminate Q0].
        + rewrite Q1 in Ea2. injection Ea2 as -> ->. destruct Q4 as (_ & _ & _ & _ & Q4 & _). exact Q4. }
    eexists a2, _, c2. split; [reflexivity|]. split; [rewrite (calls_length _ _ _ _ _ _ Ea2), (calls_length _ _ _ _ _ _ Ea); exact Hn|].
    cbn [with_booster w_booster with_cur b_evals]. split; [now apply K1|]. intros d m. rewrite V5.
    assert (V : visits (b_evals b) (order (w_ticks w5) (b_evals b))) by (split; [apply visiting|now apply K1]).
    rewrite record_all by exact (visits_nodup _ _ V). rewrite (visits_get _ _ _ V), HR. destruct (recordable d m); [|reflexivity].
    destruct (sget (eval_key d m) (b_evals b)) eqn:S; [reflexivity|]. destruct (sget (eval_key d m) (b_evals (w_booster w))) eqn:S'; [|reflexivity].
    exfalso. apply (K2 (eval_key d m)); [congruence|exact S].
  Qed.
  Lemma train_record u h p ds num sets names l1 rec0 l2 verbose r : Forall mild l1 -> Forall mild l2 -> (existsb writes (l1 ++ l2) = true -> p <> None) -> (r <= 0)%Z ->
    forall h' b, train_api h (entries p) ds num sets names None = Some (Ok (h', b)) ->
    exists l w l1' rec l2', train_with u h p ds num sets names (l1 ++ CRecord rec0 :: l2) verbose r = Some (l, w, Ok tt) /\ w_heap w = h' /\ w_booster w = b
      /\ l = l1' ++ CRecord rec :: l2' /\ List.length l1' = List.length l1
      /\ forall d m, recorded d m rec = if recordable d m then match sget (eval_key d m) (b_evals b) with Some v => Some v | None => recorded d m rec0 end else recorded d m rec0.
  Proof.
    intros M1 M2 Wr Hr h' b E.
    destruct (train_good (record_inv rec0 (List.length l1)) u h p ds num sets names (l1 ++ CRecord rec0 :: l2) verbose r) as (i1 & w1 & Ei & Ci & _ & T).
    - apply record_step.
    - apply Forall_app. split; [exact M1|]. constructor; [exact Logic.I|exact M2].
    - exact Hr.
    - rewrite existsb_app in *. exact Wr.
    - unfold all_callbacks in Ei. rewrite <- app_assoc in Ei. cbn [app] in Ei.
      apply calls_mid in Ei as (a & x & c & w3 & w4 & -> & Ea & Ex & Ec). cbn [ApiCallbacks.call record_call] in Ex. injection Ex as <- <-.
      assert (I0 : record_inv rec0 (List.length l1) 0 (a ++ CRecord rec0 :: c) w1).
      { exists a, rec0, c. split; [reflexivity|]. split; [exact (calls_length _ _ _ _ _ _ Ea)|]. destruct Ci as (_ & _ & -> & _). cbn. split; [constructor|]. intros d m. now destruct (recordable d m). }
      specialize (T I0). rewrite E in T. destruct T as (l' & w2 & l3 & w5 & E5 & I5 & E6 & G5 & C5 & _ & Hh & Hb & _).
      destruct I5 as (b1 & rec & b2 & -> & Hl & _ & HR). apply calls_mid in E6 as (a2 & y & c2 & w6 & w7 & -> & Ea2 & Ey & Ec2). cbn [ApiCallbacks.call record_call] in Ey. injection Ey as <- <-.
      exists (a2 ++ CRecord rec :: c2), (finish w5), a2, rec, c2. split; [exact E5|]. split; [exact Hh|]. split; [exact Hb|]. split; [reflexivity|]. split; [rewrite (calls_length _ _ _ _ _ _ Ea2); exact Hl|].
      destruct C5 as (_ & _ & B5 & _). intros d m. rewrite HR.
      assert (X : b_evals (w_booster w2) = b_evals b) by (rewrite <- B5, <- Hb; unfold finish; destruct (_ =? _)%Z; reflexivity). now rewrite X.
  Qed.
End Train.
