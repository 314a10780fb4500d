(** Proofs about the concurrent histogram merge. *)
From Coq Require Import List Arith ZArith Bool Lia Permutation Reals Lra.
From Verif Require Import Base.Num Base.GoRes Base.ListX Base.RTac Spec.Order Model.LgbTree Model.LgbHist Model.LgbMerge
  Spec.LgbHist Spec.LgbMerge Proofs.LgbHistP.
Import ListNotations.
Local Open Scope list_scope.

Section Merge.
  Context {N : Num}.
  Definition op_count (b : nat) (o : op N) : Z := match o with OCount b' c => if Nat.eqb b' b then c else 0%Z | _ => 0%Z end.
  Definition op_adds (a : addr) (o : op N) : list N := match o with OAdd a' v => if addr_eqb a' a then [v] else [] | _ => [] end.
  Definition zsum (l : list Z) : Z := fold_right Z.add 0%Z l.
  Definition ops_count (b : nat) (l : list (op N)) : Z := zsum (map (op_count b) l).
  Definition ops_adds (a : addr) (l : list (op N)) : list N := concat (map (op_adds a) l).
  Definition pend_count (b : nat) (gs : list (gor N)) : Z := zsum (map (fun g => ops_count b (todo g)) gs).
  Definition pend_adds (a : addr) (gs : list (gor N)) : list N := concat (map (fun g => ops_adds a (todo g)) gs).

  Lemma addr_eqb_eq a b : addr_eqb a b = true <-> a = b.
  Proof.
    unfold addr_eqb. rewrite andb_true_iff, Nat.eqb_eq, Bool.eqb_true_iff. destruct a, b; cbn. split.
    - intros [-> ->]. reflexivity.
    - intros E. injection E as -> ->. auto.
  Qed.
  Lemma addr_eqb_refl a : addr_eqb a a = true.
  Proof. now apply addr_eqb_eq. Qed.
  Lemma zsum_app l r : zsum (l ++ r) = (zsum l + zsum r)%Z.
  Proof. unfold zsum. induction l as [|x l IH]; cbn; [reflexivity|]. rewrite IH. lia. Qed.
  Lemma zsum_cons x l : zsum (x :: l) = (x + zsum l)%Z.
  Proof. reflexivity. Qed.
  Lemma pend_count_split b pre g post :
    pend_count b (pre ++ g :: post) = (ops_count b (todo g) + pend_count b (pre ++ post))%Z.
  Proof. unfold pend_count. rewrite !map_app, !zsum_app. cbn [map]. rewrite zsum_cons. lia. Qed.
  Lemma pend_adds_split a pre g post :
    Permutation (pend_adds a (pre ++ g :: post)) (ops_adds a (todo g) ++ pend_adds a (pre ++ post)).
  Proof.
    unfold pend_adds. rewrite !map_app, !concat_app. cbn [map concat]. rewrite !app_assoc.
    apply Permutation_app_tail. apply Permutation_app_comm.
  Qed.

  Lemma pend_same g g' pre post : todo g = todo g' ->
    (forall b, pend_count b (pre ++ g :: post) = pend_count b (pre ++ g' :: post))
    /\ forall a, pend_adds a (pre ++ g :: post) = pend_adds a (pre ++ g' :: post).
  Proof. intros E. split; intros x; unfold pend_count, pend_adds; rewrite !map_app; cbn [map]; now rewrite E. Qed.

  Definition inv (tc : nat -> Z) (ta : addr -> list N) (c : config N) : Prop :=
    (forall b, counts (fst c) b + pend_count b (snd c) = tc b)%Z
    /\ forall a, exists l, added_in_order l (fst (sums (fst c) a)) /\ Permutation (l ++ pend_adds a (snd c)) (ta a).
  Lemma inv_step tc ta c c' : step c c' -> inv tc ta c -> inv tc ta c'.
  Proof.
    intros S [IC IA]. destruct S as [m g m' g' pre post G]. cbn [fst snd] in *.
    destruct G as [m b c r|m a v r|m a v r old ver E|m a v r old ver E]; cbn [todo] in *.
    - split; cbn [fst snd].
      + intros b'. specialize (IC b'). rewrite pend_count_split in *. cbn [todo counts set_count] in *.
        unfold ops_count in *. cbn [map op_count] in IC. rewrite zsum_cons in IC. destruct (Nat.eqb b b'); lia.
      + intros a. destruct (IA a) as (l & L & P). exists l. split; [exact L|].
        eapply Permutation_trans; [|exact P]. apply Permutation_app_head.
        eapply Permutation_trans; [apply pend_adds_split|].
        eapply Permutation_trans; [|apply Permutation_sym, pend_adds_split]. reflexivity.
    - destruct (pend_same (mkgor (OAdd a v :: r) None) (mkgor (OAdd a v :: r) (Some (sums m a))) pre post eq_refl) as [PC PA].
      split; cbn [fst snd]; intros x; [rewrite <- PC|rewrite <- PA]; auto.
    - split; cbn [fst snd].
      + intros b'. specialize (IC b'). rewrite pend_count_split in *. exact IC.
      + intros a'. destruct (IA a') as (l & L & P). cbn [set_sum sums].
        destruct (addr_eqb a a') eqn:Ea.
        * apply addr_eqb_eq in Ea. subst a'. exists (l ++ [v]). split; [cbn [fst]; eapply added_next; eauto|].
          eapply Permutation_trans; [|exact P]. rewrite <- app_assoc. apply Permutation_app_head.
          eapply Permutation_trans; [|apply Permutation_sym, pend_adds_split]. cbn [todo ops_adds map concat op_adds].
          unfold ops_adds. cbn [map concat op_adds]. rewrite addr_eqb_refl. cbn [app]. constructor. apply pend_adds_split.
        * exists l. split; [exact L|]. eapply Permutation_trans; [|exact P]. apply Permutation_app_head.
          eapply Permutation_trans; [apply pend_adds_split|].
          eapply Permutation_trans; [|apply Permutation_sym, pend_adds_split].
          unfold ops_adds. cbn [todo map concat op_adds]. rewrite Ea. reflexivity.
    - destruct (pend_same (mkgor (OAdd a v :: r) (Some (old, ver))) (mkgor (OAdd a v :: r) None) pre post eq_refl) as [PC PA].
      split; cbn [fst snd]; intros x; [rewrite <- PC|rewrite <- PA]; auto.
  Qed.
  Lemma inv_steps tc ta c c' : steps c c' -> inv tc ta c -> inv tc ta c'.
  Proof. induction 1 as [|c c' c'' S _ IH]; [auto|]. intros I. apply IH. eapply inv_step; eauto. Qed.
  Lemma inv_start size bs ss :
    inv (fun b => pend_count b (snd (start size bs ss))) (fun a => pend_adds a (snd (start size bs ss))) (start size bs ss).
  Proof.
    split.
    - intros b. reflexivity.
    - intros a. exists []. split; [constructor|reflexivity].
  Qed.
  Lemma finished_pend c : finished c -> (forall b, pend_count b (snd c) = 0%Z) /\ forall a, pend_adds a (snd c) = [].
  Proof.
    intros F. unfold finished in F. split; intros x; unfold pend_count, pend_adds; induction (snd c) as [|g gs IH];
      try reflexivity; cbn [map zsum fold_right concat].
    - rewrite (F g (or_introl eq_refl)). apply IH. intros g' Hg. apply F. now right.
    - rewrite (F g (or_introl eq_refl)). cbn. apply IH. intros g' Hg. apply F. now right.
  Qed.
  (** What a complete execution leaves *)
  Lemma complete size bs ss m gs : steps (start size bs ss) (m, gs) -> finished (m, gs) ->
    (forall b, counts m b = pend_count b (snd (start size bs ss)))
    /\ forall a, exists l, added_in_order l (fst (sums m a)) /\ Permutation l (pend_adds a (snd (start size bs ss))).
  Proof.
    intros S F. destruct (inv_steps _ _ _ _ S (inv_start size bs ss)) as [IC IA]. destruct (finished_pend _ F) as [PC PA].
    cbn [fst snd] in *. split.
    - intros b. specialize (IC b). rewrite PC in IC. lia.
    - intros a. destruct (IA a) as (l & L & P). rewrite PA, app_nil_r in P. exists l. auto.
  Qed.

  (** ** The operations of a chunk *)
  Lemma merge_from (bins : list (bin N)) : forall i,
    (forall b, (b < i)%nat -> ops_count b (concat (mapi_from i (fun b x => if (0 <? b_cnt x)%Z
        then [OCount b (b_cnt x); OAdd (b, false) (b_g x); OAdd (b, true) (b_h x)] else []) bins)) = 0%Z)
    /\ (forall b k, (b < i)%nat -> ops_adds (b, k) (concat (mapi_from i (fun b x => if (0 <? b_cnt x)%Z
        then [OCount b (b_cnt x); OAdd (b, false) (b_g x); OAdd (b, true) (b_h x)] else []) bins)) = [])
    /\ forall j x, nth_error bins j = Some x ->
       ops_count (i + j) (concat (mapi_from i (fun b x => if (0 <? b_cnt x)%Z
        then [OCount b (b_cnt x); OAdd (b, false) (b_g x); OAdd (b, true) (b_h x)] else []) bins)) = (if (0 <? b_cnt x)%Z then b_cnt x else 0)%Z
       /\ forall k, ops_adds ((i + j)%nat, k) (concat (mapi_from i (fun b x => if (0 <? b_cnt x)%Z
        then [OCount b (b_cnt x); OAdd (b, false) (b_g x); OAdd (b, true) (b_h x)] else []) bins))
          = if (0 <? b_cnt x)%Z then [if k : bool then b_h x else b_g x] else [].
  Proof.
    induction bins as [|y bins IH]; intros i; cbn [mapi_from concat].
    - split; [reflexivity|]. split; [reflexivity|]. intros [|j] x E; discriminate.
    - destruct (IH (S i)) as (I1 & I2 & I3). set (rest := concat (mapi_from (S i) _ bins)) in *.
      assert (HC : forall b, ops_count b ((if (0 <? b_cnt y)%Z then [OCount i (b_cnt y); OAdd (i, false) (b_g y); OAdd (i, true) (b_h y)] else []) ++ rest)
                  = ((if (0 <? b_cnt y)%Z then if Nat.eqb i b then b_cnt y else 0 else 0) + ops_count b rest)%Z).
      { intros b. unfold ops_count. rewrite map_app, zsum_app. destruct (0 <? b_cnt y)%Z; cbn; [destruct (Nat.eqb i b); lia|lia]. }
      assert (HA : forall b k, ops_adds (b, k) ((if (0 <? b_cnt y)%Z then [OCount i (b_cnt y); OAdd (i, false) (b_g y); OAdd (i, true) (b_h y)] else []) ++ rest)
                  = (if (0 <? b_cnt y)%Z then if Nat.eqb i b then [if k : bool then b_h y else b_g y] else [] else []) ++ ops_adds (b, k) rest).
      { intros b k. unfold ops_adds. rewrite map_app, concat_app. f_equal. destruct (0 <? b_cnt y)%Z; [|reflexivity].
        cbn [map concat op_adds app]. unfold addr_eqb. cbn [fst snd]. destruct (Nat.eqb i b), k; reflexivity. }
      split; [|split].
      + intros b Hb. rewrite HC, I1 by lia. replace (Nat.eqb i b) with false by (symmetry; apply Nat.eqb_neq; lia).
        destruct (0 <? b_cnt y)%Z; reflexivity.
      + intros b k Hb. rewrite HA, I2 by lia. replace (Nat.eqb i b) with false by (symmetry; apply Nat.eqb_neq; lia).
        destruct (0 <? b_cnt y)%Z; reflexivity.
      + intros [|j] x E; cbn in E.
        * injection E as <-. rewrite Nat.add_0_r. split.
          -- rewrite HC, I1 by lia. rewrite Nat.eqb_refl. destruct (0 <? b_cnt y)%Z; lia.
          -- intros k. rewrite HA, I2 by lia. rewrite Nat.eqb_refl. now rewrite app_nil_r.
        * destruct (I3 j x E) as [J1 J2]. replace (i + S j)%nat with (S i + j)%nat by lia.
          assert (En : Nat.eqb i (S i + j) = false) by (apply Nat.eqb_neq; lia). split.
          -- rewrite HC, J1, En. destruct (0 <? b_cnt y)%Z; lia.
          -- intros k. rewrite HA, J2, En. destruct (0 <? b_cnt y)%Z; reflexivity.
  Qed.
  Lemma merge_ops_spec (bins : list (bin N)) j x : nth_error bins j = Some x ->
    ops_count j (merge_ops bins) = (if (0 <? b_cnt x)%Z then b_cnt x else 0)%Z
    /\ forall k : bool, ops_adds (j, k) (merge_ops bins) = if (0 <? b_cnt x)%Z then [if k then b_h x else b_g x] else [].
  Proof. intros E. destruct (merge_from bins 0%nat) as (_ & _ & K). exact (K j x E). Qed.

  (** ** Termination *)
  Definition valid (c : config N) : Prop :=
    forall g old ver, In g (snd c) -> loaded g = Some (old, ver) ->
      exists a v r, todo g = OAdd a v :: r /\ (ver <= snd (sums (fst c) a))%nat
        /\ (ver = snd (sums (fst c) a) -> old = fst (sums (fst c) a)).
  Lemma valid_step c c' : step c c' -> valid c -> valid c'.
  Proof.
    intros S V. destruct S as [m g m' g' pre post G]. intros g1 old1 ver1 Hin HL. cbn [fst snd] in *.
    assert (Hcase : In g1 (pre ++ post) \/ g1 = g').
    { apply in_app_iff in Hin. destruct Hin as [H|[H|H]]; [left|right; auto|left]; apply in_app_iff; auto. }
    assert (Hold : In g1 (pre ++ post) -> In g1 (pre ++ g :: post)).
    { intros H. apply in_app_iff in H. apply in_app_iff. cbn. tauto. }
    destruct G as [m b c r|m a v r|m a v r old ver E|m a v r old ver E].
    - destruct Hcase as [H| ->]; [|discriminate]. destruct (V g1 old1 ver1 (Hold H) HL) as (a & v & r' & E & B). exists a, v, r'. auto.
    - destruct Hcase as [H| ->].
      + destruct (V g1 old1 ver1 (Hold H) HL) as (a' & v' & r' & E & B). exists a', v', r'. auto.
      + cbn in HL. injection HL as HL. exists a, v, r. split; [reflexivity|].
        cbn [fst]. rewrite HL. cbn. auto.
    - destruct Hcase as [H| ->]; [|discriminate]. destruct (V g1 old1 ver1 (Hold H) HL) as (a' & v' & r' & E' & B1 & B2).
      exists a', v', r'. split; [exact E'|]. cbn [fst sums set_sum]. cbn [fst] in B1, B2. destruct (addr_eqb a a'); [|auto]. cbn [fst snd]. split; [lia|]. intros Hv. exfalso. lia.
    - destruct Hcase as [H| ->]; [|discriminate]. destruct (V g1 old1 ver1 (Hold H) HL) as (a' & v' & r' & E' & B). exists a', v', r'. auto.
  Qed.
  Definition rank (m : shared N) (g : gor N) : nat :=
    match loaded g, todo g with
    | Some (_, ver), OAdd a _ :: _ => if Nat.eqb ver (snd (sums m a)) then 1 else 3
    | _, _ => 2
    end.
  Definition ranks (m : shared N) (gs : list (gor N)) : nat := list_sum (map (rank m) gs).
  Definition ops_left (gs : list (gor N)) : nat := list_sum (map (fun g => List.length (todo g)) gs).
  Lemma ranks_bound m gs : (ranks m gs <= 3 * List.length gs)%nat.
  Proof.
    unfold ranks. induction gs as [|g gs IH]; [cbn; lia|]. cbn [map List.length].
    change (list_sum (rank m g :: map (rank m) gs)) with (rank m g + list_sum (map (rank m) gs))%nat.
    assert (rank m g <= 3)%nat; [|lia]. unfold rank. destruct (loaded g) as [[? ?]|]; [|lia].
    destruct (todo g) as [|[? ?|? ?] ?]; try lia. destruct (Nat.eqb _ _); lia.
  Qed.
  Definition measure (c : config N) : nat := ops_left (snd c) * (3 * List.length (snd c) + 1) + ranks (fst c) (snd c).
  Definition no_nan_cells (c : config N) : Prop := forall a, nisnan (fst (sums (fst c) a)) = false.
  Hypothesis Hrefl : forall x : N, nisnan x = false -> (x =? x)%num = true.
  Lemma measure_step c c' : step c c' -> valid c -> no_nan_cells c -> (measure c' < measure c)%nat.
  Proof.
    intros S V Hn. destruct S as [m g m' g' pre post G]. unfold measure. cbn [fst snd].
    assert (HL : List.length (pre ++ g' :: post) = List.length (pre ++ g :: post)) by (rewrite !app_length; reflexivity).
    rewrite HL. set (L := (3 * List.length (pre ++ g :: post) + 1)%nat).
    assert (B : (ranks m' (pre ++ g' :: post) < L)%nat) by (unfold L; rewrite <- HL; pose proof (ranks_bound m' (pre ++ g' :: post)); lia).
    assert (HO : forall h, ops_left (pre ++ h :: post) = (ops_left pre + (List.length (todo h) + ops_left post))%nat).
    { intros h. unfold ops_left. rewrite map_app, list_sum_app. reflexivity. }
    assert (HR : forall m h, ranks m (pre ++ h :: post) = (ranks m pre + (rank m h + ranks m post))%nat).
    { intros m0 h. unfold ranks. rewrite map_app, list_sum_app. reflexivity. }
    rewrite !HO.
    destruct G as [m b c r|m a v r|m a v r old ver E|m a v r old ver E]; cbn [todo List.length] in *.
    - nia.
    - rewrite !HR. cbn [rank loaded todo]. destruct (sums m a) as [x n] eqn:Es. rewrite Nat.eqb_refl. lia.
    - nia.
    - rewrite !HR. cbn [rank loaded todo].
      destruct (Nat.eqb_spec ver (snd (sums m a))) as [Ev|Ev]; [|lia]. exfalso.
      destruct E as [E|E]; [|congruence].
      destruct (V (mkgor (OAdd a v :: r) (Some (old, ver))) old ver) as (a' & v' & r' & Et & _ & B2).
      + cbn [snd]. apply in_app_iff. right. now left.
      + reflexivity.
      + cbn [todo] in Et. injection Et as <- <- <-. cbn [fst] in B2. rewrite (B2 Ev) in E.
        rewrite Hrefl in E; [discriminate|]. apply (Hn a).
  Qed.
End Merge.

Section NaN.
  Context {N : Num}.
  Hypothesis Hnan : forall x y : N, nisnan x = true -> (x =? y)%num = false.
  (** A cell holding NaN is never written again, and additions to it stay pending. *)
  Definition stuck_at (a : addr) (c : config N) : Prop :=
    nisnan (fst (sums (fst c) a)) = true /\ exists g, In g (snd c) /\ exists v, In (OAdd a v) (todo g).
  Lemma stuck_step a c c' : step c c' -> stuck_at a c -> stuck_at a c'.
  Proof.
    intros S [Hn (g0 & Hin & v0 & Hv)]. destruct S as [m g m' g' pre post G]. cbn [fst snd] in *.
    assert (Hcase : In g0 (pre ++ post) \/ g0 = g).
    { apply in_app_iff in Hin. destruct Hin as [H|[H|H]]; [left|right; auto|left]; apply in_app_iff; auto. }
    assert (Hnew : In g0 (pre ++ post) -> In g0 (pre ++ g' :: post)).
    { intros H. apply in_app_iff in H. apply in_app_iff. cbn. tauto. }
    assert (Hg' : In g' (pre ++ g' :: post)) by (apply in_app_iff; right; now left).
    destruct G as [m b c r|m a1 v r|m a1 v r old ver E|m a1 v r old ver E]; (split; [cbn [fst]|]).
    - exact Hn.
    - destruct Hcase as [H| ->]; [exists g0; split; [now apply Hnew|]; exists v0; exact Hv|].
      eexists. split; [exact Hg'|]. exists v0. cbn [todo] in *. destruct Hv as [Hv|Hv]; [discriminate|exact Hv].
    - exact Hn.
    - destruct Hcase as [H| ->]; [exists g0; split; [now apply Hnew|]; exists v0; exact Hv|].
      eexists. split; [exact Hg'|]. exists v0. exact Hv.
    - cbn [sums set_sum]. destruct (addr_eqb a1 a) eqn:Ea; [|exact Hn]. exfalso. apply addr_eqb_eq in Ea. subst a1.
      rewrite Hnan in E; [discriminate|exact Hn].
    - destruct Hcase as [H| ->]; [exists g0; split; [now apply Hnew|]; exists v0; exact Hv|].
      eexists. split; [exact Hg'|]. exists v0. cbn [todo] in *. destruct Hv as [Hv|Hv]; [|exact Hv].
      injection Hv as -> ->. rewrite Hnan in E; [discriminate|exact Hn].
    - exact Hn.
    - destruct Hcase as [H| ->]; [exists g0; split; [now apply Hnew|]; exists v0; exact Hv|].
      eexists. split; [exact Hg'|]. exists v0. exact Hv.
  Qed.
  Lemma stuck_steps a c c' : steps c c' -> stuck_at a c -> stuck_at a c'.
  Proof. induction 1 as [|c c' c'' S _ IH]; [auto|]. intros I. apply IH. eapply stuck_step; eauto. Qed.
  Lemma stuck_unfinished a c : stuck_at a c -> ~ finished c.
  Proof. intros [_ (g & Hin & v & Hv)] F. rewrite (F g Hin) in Hv. destruct Hv. Qed.
  (** With two NaN contributions to a cell some partial sum before the last is NaN. *)
  Hypothesis Hadd : forall x y : N, nisnan y = true -> nisnan (x + y)%num = true.
  Lemma added_nan_last (l : list N) s : added_in_order l s -> forall l1 v l2, l = l1 ++ v :: l2 -> nisnan v = true -> l2 = [].
  Proof.
    induction 1 as [|l s s' v0 K IH E]; intros l1 v l2 El Hv.
    - destruct l1; discriminate.
    - destruct (exists_last (l := v :: l2)) as (front & lst & Ef); [easy|].
      rewrite Ef, app_assoc in El. apply app_inj_tail in El. destruct El as [El ->].
      destruct front as [|f0 front]; [now injection Ef|]. cbn in Ef. injection Ef as -> Ef. subst l2.
      assert (Hf : front = []) by (eapply IH; eauto). subst front. exfalso.
      revert K. rewrite El. intros K. inversion K as [Hl|l' t t' w K' E' Hl Hs].
      + destruct l1; discriminate.
      + apply app_inj_tail in Hl. destruct Hl as [-> ->]. subst s.
        rewrite Hnan in E; [discriminate|]. now apply Hadd.
  Qed.
End NaN.

Section Progress.
  Context {N : Num}.
  Lemma gstep_progress (m : shared N) g : todo g <> [] -> (loaded g <> None -> exists a v r, todo g = OAdd a v :: r) ->
    exists m' g', gstep m g m' g'.
  Proof.
    intros Ht Hl. destruct g as [[|[b c|a v] r] [[old ver]|]]; cbn in *; try congruence.
    - destruct Hl as (a & v & r' & E); [congruence|]. discriminate.
    - eexists _, _. constructor.
    - destruct (fst (sums m a) =? old)%num eqn:E; [eexists _, _; now apply g_swap|eexists _, _; apply g_retry; now left].
    - eexists _, _. constructor.
  Qed.
  Lemma progress (c : config N) : valid c -> ~ finished c -> exists c', step c c'.
  Proof.
    intros V F. destruct c as [m gs].
    assert (K : exists g, In g gs /\ todo g <> []).
    { clear V. induction gs as [|g gs IH]; [exfalso; apply F; intros ? []|].
      destruct (todo g) eqn:E.
      - destruct IH as (h & Hh & Ht); [|exists h; split; [now right|exact Ht]].
        intros F'. apply F. intros h [<-|Hh]; [exact E|now apply F'].
      - exists g. split; [now left|congruence]. }
    destruct K as (g & Hin & Ht). destruct (gstep_progress m g Ht) as (m' & g' & G).
    { intros Hl. destruct (loaded g) as [[old ver]|] eqn:El; [|congruence].
      destruct (V g old ver Hin El) as (a & v & r & E & _). exists a, v, r. exact E. }
    apply in_split in Hin. destruct Hin as (pre & post & ->). eexists. constructor. exact G.
  Qed.
End Progress.

(** ** Chunks *)
Section Chunks.
  Context {N : Num}.
  Lemma chunks_from (size : nat) (ss : list (N * (N * N))) : (0 < size)%nat -> forall k c,
    (List.length ss <= (c + k) * size)%nat -> concat (map (chunk size ss) (seq c k)) = skipn (c * size) ss.
  Proof.
    intros Hs. induction k as [|k IH]; intros c Hk.
    - cbn. symmetry. apply skipn_all2. rewrite Nat.add_0_r in Hk. exact Hk.
    - cbn [seq map concat]. rewrite IH by lia. unfold chunk.
      replace (S c * size)%nat with (size + c * size)%nat by lia.
      assert (E : skipn (size + c * size) ss = skipn size (skipn (c * size) ss)).
      { clear. rewrite Nat.add_comm. generalize (c * size)%nat. intros n. revert ss.
        induction n as [|n IH]; intros ss; [reflexivity|]. destruct ss; [now rewrite !skipn_nil|]. cbn [plus skipn]. apply IH. }
      rewrite E. apply firstn_skipn.
  Qed.
  Lemma chunks_all size (ss : list (N * (N * N))) : (0 < size)%nat -> concat (chunks size ss) = ss.
  Proof.
    intros Hs. unfold chunks. rewrite chunks_from; [reflexivity|exact Hs|]. cbn [plus].
    pose proof (Nat.div_mod (List.length ss + size - 1) size). pose proof (Nat.mod_upper_bound (List.length ss + size - 1) size). nia.
  Qed.
  Lemma own_app find (bs : list N) i l r : own find bs i (l ++ r) = own find bs i l ++ own find bs i r.
  Proof. unfold own. apply filter_app. Qed.
  Lemma own_concat find (bs : list N) i ls : own find bs i (concat ls) = concat (map (own find bs i) ls).
  Proof. induction ls as [|l ls IH]; [reflexivity|]. cbn [concat map]. now rewrite own_app, IH. Qed.

  Definition nonempty {A} (l : list A) : bool := negb (Nat.eqb (List.length l) 0).
  Definition part (k : bool) (l : list (N * (N * N))) : N := nsum (map (fun s => if k then snd (snd s) else fst (snd s)) l).
  Lemma start_pending size bs ss i : (S i < List.length bs)%nat ->
    pend_count i (snd (@start N size bs ss)) = zsum (map (fun ch => Z.of_nat (List.length (own find_bin_opt bs i ch))) (chunks size ss))
    /\ forall k, pend_adds (i, k) (snd (@start N size bs ss))
       = map (part k) (filter nonempty (map (own find_bin_opt bs i) (chunks size ss))).
  Proof.
    intros Hi. unfold start. cbn [snd]. generalize (chunks size ss). intros chs.
    unfold pend_count, pend_adds. induction chs as [|ch chs [I1 I2]]; [split; reflexivity|].
    cbn [map]. rewrite zsum_cons. rewrite zsum_cons. cbn [todo].
    destruct (merge_ops_spec (local_bins bs ch) i _ (fill_nth find_bin_opt bs ch i Hi)) as [M1 M2]. cbn [b_cnt b_g b_h] in M1, M2.
    set (o := own find_bin_opt bs i ch) in *. split.
    - rewrite I1, M1. destruct (Z.ltb_spec 0 (Z.of_nat (List.length o))); lia.
    - intros k. cbn [concat filter]. rewrite I2, M2. unfold nonempty at 2.
      destruct (Z.ltb_spec 0 (Z.of_nat (List.length o))) as [H|H]; destruct (Nat.eqb_spec (List.length o) 0) as [H0|H0]; try lia; cbn [negb map app].
      + f_equal. unfold part. destruct k; reflexivity.
      + reflexivity.
  Qed.
  Lemma zsum_own find bs i (chs : list (list (N * (N * N)))) :
    zsum (map (fun ch => Z.of_nat (List.length (own find bs i ch))) chs) = Z.of_nat (List.length (own find bs i (concat chs))).
  Proof.
    induction chs as [|ch chs IH]; [reflexivity|]. cbn [map concat]. rewrite zsum_cons, IH, own_app, app_length. lia.
  Qed.
  Lemma read_bins_nth bs (m : shared N) i : (S i < List.length bs)%nat ->
    nth_error (read_bins bs m) i
    = Some (mkbin (nth i bs n0) (nth (S i) bs n0) (LgbMerge.counts m i) (fst (sums m (i, false))) (fst (sums m (i, true)))).
  Proof. intros Hi. unfold read_bins, mapi. rewrite nth_error_mapi_from, (empty_bins_nth bs i Hi). reflexivity. Qed.
  Lemma read_bins_length bs (m : shared N) : List.length (read_bins bs m) = (List.length bs - 1)%nat.
  Proof. unfold read_bins, mapi. rewrite mapi_from_length. apply empty_bins_length. Qed.
End Chunks.

(** Over the real numbers the order does not matter. *)
Lemma added_R l s : @added_in_order RNum l s -> s = Rsum l.
Proof.
  induction 1 as [|l s s' v K IH E]; [reflexivity|]. change (num RNum) with R in *. cbn [neqb RNum] in E.
  assert (s = s') by (destruct (Reqb_spec s s'); [assumption|discriminate]). subst s'. rewrite Rsum_app. cbn. unR. rewrite IH. lra.
Qed.
Lemma parts_R k (ls : list (list (R * (R * R)))) :
  Rsum (map (@part RNum k) (filter nonempty ls)) = Rsum (map (fun s : R * (R * R) => if k : bool then snd (snd s) else fst (snd s)) (concat ls)).
Proof.
  induction ls as [|l ls IH]; [reflexivity|]. cbn [filter concat]. rewrite map_app, Rsum_app, <- IH.
  unfold nonempty at 1. destruct (Nat.eqb_spec (List.length l) 0) as [E|E]; cbn [negb].
  - destruct l; [|discriminate]. cbn. lra.
  - cbn [map]. cbn [Rsum]. f_equal. unfold part. apply nsum_R.
Qed.
