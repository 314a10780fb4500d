From Coq Require Import List Arith Bool Lia Permutation.
From Verif Require Import Base.ListX Model.ChunkPar Spec.ChunkPar.
Import ListNotations.

Section P.
  Context {R E : Type}.
  Variables (c cap nw : nat).
  Hypothesis Hc : 1 <= c.
  Variable rows : list R.
  Notation n := (length rows).
  Implicit Types s t : st R E.

  Lemma nth_firstn {A} i k (l : list A) : i < k -> nth_error (firstn k l) i = nth_error l i.
  Proof. revert k l. induction i as [|i IH]; intros [|k] [|x l] H; try lia; cbn; auto. apply IH. lia. Qed.
  Lemma nth_skipn {A} k i (l : list A) : nth_error (skipn k l) i = nth_error l (k + i).
  Proof. revert l. induction k as [|k IH]; intros [|x l]; cbn; auto. now destruct i. Qed.
  Lemma nodup_left {A} (a b : list A) : NoDup (a ++ b) -> NoDup a.
  Proof. induction a as [|x a IH]; [constructor|]. cbn. inversion 1; subst. constructor; [intros K; apply H2; apply in_or_app; now left|auto]. Qed.
  Definition held (ws : list worker) : list nat := flat_map (fun w => match w with WHolds k _ => [k] | _ => [] end) ws.
  Lemma held_app a b : held (a ++ b) = held a ++ held b.
  Proof. apply flat_map_app. Qed.
  Definition cell_ok (p : nat) (m : list (option R)) : Prop :=
    length m = c /\ forall i, i < c -> if i <? p then exists q, nth_error m i = Some (nth_error rows q) /\ q < p /\ q mod c = i /\ p <= q + c else nth_error m i = Some None.
  Definition call_ok (e : nat * list (option R) * option E) : Prop :=
    let '(k, l, _) := e in length l = size c n k /\ k * c < n /\ forall i, i < length l -> exists q, nth_error l i = Some (nth_error rows q) /\ q mod c = i /\ k * c + i <= q < n.
  Definition item_ok (s : st R E) (k len : nat) : Prop := len = size c n k /\ k < sent s /\ k * c < n.
  Record inv (s : st R E) : Prop := mkinv {
    i_rows : exists done, rows = done ++ unread s /\ length done = Nat.min n (sent s * c + fill s);
    i_fill : fill s <= c /\ (fill s <> 0 -> sent s * c + fill s <= n);
    i_sent : sent s = 0 \/ (sent s - 1) * c < n;
    i_prod : match prod s with Reading => fill s < c | Sending => fill s <> 0 /\ (fill s = c \/ unread s = []) | Closed => unread s = [] /\ fill s = 0 /\ n <= sent s * c end;
    i_queue : forall k len, In (k, len) (chunks s) -> item_ok s k len;
    i_held : forall k len, In (WHolds k len) (workers s) -> item_ok s k len;
    i_perm : Permutation (called s ++ held (workers s) ++ map fst (chunks s)) (seq 0 (sent s));
    i_cells : cell_ok (Nat.min n (sent s * c + fill s)) (cells s);
    i_calls : Forall call_ok (calls s);
    i_errs : errs s = failures s;
    i_done : errs s = [] -> In WDone (workers s) -> prod s = Closed /\ chunks s = [];
    i_nw : length (workers s) = nw }.

  Lemma start_inv : inv (start c rows nw).
  Proof.
    split; cbn; auto; try lia; try easy.
    - exists []. split; [reflexivity|]. cbn. lia.
    - intros k len H. apply repeat_spec in H. discriminate.
    - rewrite app_nil_r. induction nw; cbn; auto.
    - rewrite Nat.min_0_r. split; [apply repeat_length|]. intros i Hi. cbn. rewrite nth_error_repeat by exact Hi. reflexivity.
    - intros _ H. apply repeat_spec in H. discriminate.
    - apply repeat_length.
  Qed.

  Lemma item_mono k len s t : sent s <= sent t -> item_ok s k len -> item_ok t k len.
  Proof. unfold item_ok. intuition lia. Qed.

  Lemma step_inv s t : step c cap s t -> inv s -> inv t.
  Proof.
    intros H I. destruct H; destruct I as [(done & Hr & Hl) (Hf & Hf') Hs Hp Hq Hh Hperm Hcells Hcalls Herr Hdone Hnw]; cbn [unread fill cells prod sent chunks workers calls errs] in *.
    - (* p_row *)
      assert (Hn : length done < n) by (rewrite Hr, app_length; cbn; lia). assert (Hl' : length done = s * c + f) by lia. rewrite Hl' in Hn.
      split; cbn [unread fill cells prod sent chunks workers calls errs]; auto; try lia.
      + exists (done ++ [r]). split; [now rewrite <- app_assoc|]. rewrite app_length. cbn. lia.
      + destruct (Nat.leb_spec c (S f)); [split; [lia|]; left; lia|lia].
      + destruct Hcells as [Hcl Hcv]. split; [now rewrite upd_length|]. intros i Hi. specialize (Hcv i Hi). replace (Nat.min n (s * c + f)) with (s * c + f) in Hcv by lia. replace (Nat.min n (s * c + S f)) with (S (s * c + f)) by lia.
        assert (Hrow : nth_error rows (s * c + f) = Some r) by (rewrite Hr, <- Hl', nth_error_app2, Nat.sub_diag by lia; reflexivity).
        assert (Hmod : (s * c + f) mod c = f) by (rewrite Nat.add_comm, Nat.mod_add by lia; apply Nat.mod_small; lia).
        destruct (Nat.eq_dec i f) as [->|Hne].
        * replace (f <? S (s * c + f)) with true by (symmetry; apply Nat.ltb_lt; lia). exists (s * c + f). rewrite Hrow, nth_error_upd_same.
          destruct (nth_error m f) eqn:Em; [|apply nth_error_None in Em; lia]. cbn. repeat split; auto; lia.
        * rewrite nth_error_upd_other by congruence. destruct (Nat.ltb_spec i (s * c + f)), (Nat.ltb_spec i (S (s * c + f))); try lia; [|destruct s; [lia|cbn in *; lia]|exact Hcv].
          destruct Hcv as (j & Q1 & Q2 & Q3 & Q4). exists j. repeat split; auto; try lia. destruct (Nat.eq_dec (j + c) (s * c + f)) as [Eq|]; [|lia].
          exfalso. apply Hne. rewrite <- Q3, <- Hmod, <- Eq. rewrite <- (Nat.mul_1_l c) at 2. rewrite Nat.mod_add by lia. reflexivity.
      + intros He Hd. destruct (Hdone He Hd). discriminate.
    - (* p_rest *)
      split; cbn [unread fill cells prod sent chunks workers calls errs]; auto.
      + exists done. auto.
      + intros He Hd. destruct (Hdone He Hd). discriminate.
    - (* p_send *)
      destruct Hp as [Hp1 Hp2]. specialize (Hf' Hp1).
      assert (Hlen : f = size c n s).
      { unfold size. destruct Hp2 as [-> | ->]; [lia|]. rewrite app_nil_r in Hr. subst done. lia. }
      assert (Hmin : Nat.min n (s * c + f) = Nat.min n (S s * c + 0)).
      { destruct Hp2 as [-> | ->]; [f_equal; lia|]. rewrite app_nil_r in Hr. subst done. lia. }
      split; cbn [unread fill cells prod sent chunks workers calls errs]; auto; try lia.
      + exists done. split; [exact Hr|]. lia.
      + intros k len Hin. apply in_app_or in Hin as [Hin|[[= <- <-]|[]]].
        * destruct (Hq k len Hin) as (A1 & A2 & A3). cbn [sent] in *. unfold item_ok. cbn [sent]. repeat split; auto; lia.
        * unfold item_ok. cbn [sent]. repeat split; auto; lia.
      + intros k len Hin. destruct (Hh k len Hin) as (A1 & A2 & A3). unfold item_ok. cbn [sent] in *. repeat split; auto; lia.
      + rewrite seq_S, map_app, !app_assoc. cbn [map fst]. apply Permutation_app_tail. rewrite <- app_assoc. exact Hperm.
      + rewrite <- Hmin. exact Hcells.
      + intros He Hd. destruct (Hdone He Hd). discriminate.
    - (* p_close *)
      split; cbn [unread fill cells prod sent chunks workers calls errs]; auto.
      + exists done. auto.
      + rewrite app_nil_r in Hr. subst done. repeat split; lia.
      + intros He Hd. destruct (Hdone He Hd). discriminate.
    - (* w_take *)
      split; cbn [unread fill cells prod sent chunks workers calls errs]; auto.
      + exists done. auto.
      + intros k' len' Hin. apply Hq. now right.
      + intros k' len' Hin. apply in_app_or in Hin as [Hin|[[= <- <-]|Hin]]; [apply Hh, in_or_app; auto|apply Hq; now left|apply Hh, in_or_app; right; now right].
      + rewrite <- Hperm. unfold called. cbn [calls]. apply Permutation_app_head. rewrite !held_app. cbn [held flat_map map fst app]. rewrite <- !app_assoc. apply Permutation_app_head. apply Permutation_middle.
      + intros He Hd. apply in_app_or in Hd as [Hd|[Hd|Hd]]; [|discriminate|]; (destruct (Hdone He) as [_ K]; [apply in_or_app; auto; right; now right|discriminate]).
      + rewrite app_length in *. cbn in *. exact Hnw.
    - (* w_call *)
      assert (Hit : item_ok (mkst u f m p s q (a ++ WHolds k len :: b) cs es) k len) by (apply Hh, in_or_app; right; now left). destruct Hit as (L1 & L2 & L3). cbn [sent] in L2.
      split; cbn [unread fill cells prod sent chunks workers calls errs]; auto.
      + exists done. auto.
      + intros k' len' Hin. apply in_app_or in Hin as [Hin|[Hin|Hin]]; [apply Hh, in_or_app; auto|destruct o; discriminate|apply Hh, in_or_app; right; now right].
      + rewrite <- Hperm. unfold called. cbn [calls]. rewrite map_app. cbn [map fst snd]. rewrite <- !app_assoc. apply Permutation_app_head. rewrite !held_app. cbn [held flat_map map fst app].
        destruct o; cbn [app]; rewrite <- ?app_assoc; apply Permutation_middle.
      + apply Forall_app. split; [exact Hcalls|]. constructor; [|constructor]. destruct Hcells as [Hcl Hcv].
        assert (Hle : len <= c) by (rewrite L1; unfold size; lia). cbn [call_ok]. rewrite firstn_length, Hcl. split; [lia|]. split; [exact L3|].
        intros i Hi. specialize (Hcv i). assert (Hpos : k * c + len <= Nat.min n (s * c + f)).
        { rewrite L1. unfold size. assert (k * c + c <= s * c) by (rewrite <- (Nat.mul_1_l c) at 2; rewrite <- Nat.mul_add_distr_r; apply Nat.mul_le_mono_r; lia). lia. }
        replace (i <? Nat.min n (s * c + f)) with true in Hcv by (symmetry; apply Nat.ltb_lt; lia). destruct Hcv as (j & Q1 & Q2 & Q3 & Q4); [lia|].
        exists j. rewrite nth_firstn by lia. split; [exact Q1|]. split; [exact Q3|]. split; [|lia].
        (* j = i mod c, and j > k c + i - c *)
        pose proof (Nat.div_mod j c ltac:(lia)) as D. rewrite Q3 in D. assert (Hge : k <= j / c); [|nia].
        destruct (le_lt_dec k (j / c)); [assumption|exfalso]. assert (c * (j / c) + c <= k * c) by nia. lia.
      + unfold failures in *. cbn [calls] in *. rewrite flat_map_app. cbn [flat_map snd]. rewrite app_nil_r, <- Herr. destruct o; reflexivity.
      + intros He Hd. apply app_eq_nil in He as [He1 He2]. destruct o; [discriminate|]. apply Hdone; [exact He1|].
        apply in_app_or in Hd as [Hd|[Hd|Hd]]; [apply in_or_app; auto|discriminate|apply in_or_app; right; now right].
      + rewrite app_length in *. cbn in *. exact Hnw.
    - (* w_end *)
      split; cbn [unread fill cells prod sent chunks workers calls errs]; auto.
      + exists done. auto.
      + intros k' len' Hin. apply in_app_or in Hin as [Hin|[Hin|Hin]]; [apply Hh, in_or_app; auto|discriminate|apply Hh, in_or_app; right; now right].
      + rewrite held_app in *. exact Hperm.
      + rewrite app_length in *. cbn in *. exact Hnw.
  Qed.
  Lemma steps_inv s : steps c cap (start c rows nw) s -> inv s.
  Proof. induction 1; [apply start_inv|eapply step_inv; eauto]. Qed.

  Lemma count_spec k : (k - 1) * c < n -> n <= k * c -> k = count c n.
  Proof.
    intros H1 H2. unfold count. apply (Nat.div_unique _ _ k (n + c - 1 - c * k)); [nia|]. nia.
  Qed.
  Lemma returned_held s : returned s = true -> held (workers s) = [].
  Proof.
    unfold returned. induction (workers s) as [|w ws IH]; [reflexivity|]. cbn. destruct w; try discriminate. exact IH.
  Qed.
  Lemma returned_done s w : returned s = true -> In w (workers s) -> w = WDone.
  Proof. unfold returned. rewrite forallb_forall. intros H Hin. specialize (H w Hin). destruct w; congruence. Qed.

  Lemma all_called s : 1 <= nw -> steps c cap (start c rows nw) s -> returned s = true -> failures s = [] ->
    prod s = Closed /\ unread s = [] /\ Permutation (called s) (seq 0 (count c n)).
  Proof.
    intros Hn H Hr Hf. pose proof (steps_inv s H) as I. destruct (workers s) as [|w ws] eqn:Ew; [pose proof (i_nw s I) as K; rewrite Ew in K; cbn in K; lia|].
    assert (Hin : In WDone (workers s)) by (rewrite Ew; left; apply (returned_done s w Hr); rewrite Ew; now left).
    destruct (i_done s I) as [Hp Hq]; [rewrite (i_errs s I); exact Hf|exact Hin|]. pose proof (i_prod s I) as K. rewrite Hp in K. destruct K as (K1 & K2 & K3).
    split; [exact Hp|]. split; [exact K1|]. pose proof (i_perm s I) as P. rewrite Hq, (returned_held s Hr), !app_nil_r in P.
    destruct (i_sent s I) as [Z|Z].
    - rewrite Z in *. cbn in K3. assert (n = 0) by lia. unfold count. rewrite H0. cbn [Nat.add]. rewrite Nat.div_small by lia. exact P.
    - rewrite (count_spec (sent s) Z K3) in P. exact P.
  Qed.

  (** Progress and termination *)
  Lemma progress s : 1 <= cap -> returned s = false -> exists t, step c cap s t.
  Proof.
    intros Hcap Hr. destruct s as [u f m p sn q ws cs es]. unfold returned in Hr. cbn [workers] in Hr.
    assert (Hw : exists a w b, ws = a ++ w :: b /\ w <> WDone).
    { clear - Hr. induction ws as [|w ws IH]; [discriminate|]. cbn in Hr. destruct w; [exists [], WIdle, ws; split; [reflexivity|discriminate]|exists [], (WHolds k len), ws; split; [reflexivity|discriminate]|].
      destruct (IH Hr) as (a & w & b & -> & N). exists (WDone :: a), w, b. auto. }
    destruct Hw as (a & w & b & -> & Hw). destruct w as [|k len|]; [|eexists; apply (w_call c cap u f m p sn q k len a b cs es None)|contradiction].
    destruct q as [|[k len] q]; [|eexists; apply w_take]. destruct p.
    - destruct u as [|r u]; [|eexists; apply p_row]. destruct f as [|f]; [eexists; apply p_close|eexists; apply p_rest; discriminate].
    - eexists. apply p_send. cbn. lia.
    - eexists. apply w_end.
  Qed.
  Definition weight (w : worker) : nat := match w with WIdle => 1 | WHolds _ _ => 2 | WDone => 0 end.
  Definition total (ws : list worker) : nat := list_sum (map weight ws).
  Lemma total_app a b : total (a ++ b) = total a + total b.
  Proof. unfold total. now rewrite map_app, list_sum_app. Qed.
  Lemma total_idle k : total (repeat WIdle k) = k.
  Proof. induction k as [|k IH]; [reflexivity|]. change (S (total (repeat WIdle k)) = S k). now rewrite IH. Qed.
  Definition measure (s : st R E) : nat :=
    5 * length (unread s) + 4 * fill s + 2 * length (chunks s) + total (workers s) + match prod s with Reading => 2 | Sending => 1 | Closed => 0 end.
  Lemma step_measure s t : inv s -> step c cap s t -> measure t < measure s.
  Proof.
    intros I H. destruct H; unfold measure; cbn [unread fill cells prod sent chunks workers]; rewrite ?total_app, ?app_length; cbn [length total map weight list_sum fold_right]; unfold total; cbn [map weight list_sum fold_right]; try lia.
    - destruct (c <=? S f); lia.
    - pose proof (i_prod _ I) as [K _]. cbn [fill] in K. lia.
    - destruct o; cbn [weight]; lia.
  Qed.
  Lemma nsteps_steps k s t : nsteps c cap s k t -> steps c cap s t.
  Proof. induction 1; [apply s_refl|eapply s_next; eauto]. Qed.
  Lemma bounded k s : nsteps c cap (start c rows nw) k s -> k + measure s <= 5 * n + nw + 2.
  Proof.
    induction 1 as [|k t u H IH Hs].
    - unfold measure, start. cbn [unread fill chunks workers prod length]. pose proof (total_idle nw). lia.
    - pose proof (step_measure _ _ (steps_inv _ (nsteps_steps _ _ _ H)) Hs). lia.
  Qed.

  Definition alive (ws : list worker) : nat := length (filter (fun w => match w with WDone => false | _ => true end) ws).
  Lemma alive_app a b : alive (a ++ b) = alive a + alive b.
  Proof. unfold alive. now rewrite filter_app, app_length. Qed.
  Lemma errs_bound s : steps c cap (start c rows nw) s -> length (errs s) + alive (workers s) <= nw.
  Proof.
    induction 1 as [|t u H IH Hs].
    - cbn. clear. induction nw as [|k IH]; cbn in *; [lia|]. unfold alive in *. cbn. lia.
    - destruct Hs; cbn [errs workers] in *; auto; rewrite !alive_app in *; cbn in *; try lia. destruct o; rewrite app_length; cbn; lia.
  Qed.
  Lemma contents s k l o : steps c cap (start c rows nw) s -> In (k, l, o) (calls s) ->
    k < count c n /\ length l = size c n k /\ forall i, i < length l -> exists q, nth_error l i = Some (nth_error rows q) /\ q mod c = i /\ k * c + i <= q < n.
  Proof.
    intros H Hin. pose proof (proj1 (Forall_forall _ _) (i_calls s (steps_inv s H)) _ Hin) as (H1 & H2 & H3). split; [|auto]. unfold count. apply Nat.div_le_lower_bound; nia.
  Qed.
  Lemma last_chunk s k l o : steps c cap (start c rows nw) s -> In (k, l, o) (calls s) -> S k = count c n -> l = map Some (chunk c rows k).
  Proof.
    intros H Hin Hk. destruct (contents s k l o H Hin) as (K0 & K1 & K2). assert (Hn : n <= (k + 1) * c). { unfold count in Hk. pose proof (Nat.div_mod (n + c - 1) c ltac:(lia)) as D. pose proof (Nat.mod_upper_bound (n + c - 1) c ltac:(lia)). rewrite <- Hk in D. nia. }
    assert (Hl : length (map Some (chunk c rows k)) = length l) by (rewrite map_length, K1; unfold chunk, size; now rewrite firstn_length, skipn_length).
    apply nth_error_ext. intros i. destruct (Nat.lt_ge_cases i (length l)) as [Hi|Hi].
    - destruct (K2 i Hi) as (q & E1 & E2 & E3). assert (Hs : length l <= c) by (rewrite K1; unfold size; lia).
      assert (q = k * c + i). { pose proof (Nat.div_mod q c ltac:(lia)) as D. assert (q / c = k) by (assert (k <= q / c) by (apply Nat.div_le_lower_bound; nia); assert (q / c < k + 1) by (apply Nat.div_lt_upper_bound; nia); lia). nia. }
      rewrite E1, nth_error_map. unfold chunk. rewrite nth_firstn by lia. rewrite nth_skipn, <- H0. destruct (nth_error rows q) eqn:Eq; [reflexivity|]. apply nth_error_None in Eq. lia.
    - rewrite (proj2 (nth_error_None l i) Hi). symmetry. apply nth_error_None. lia.
  Qed.

  (** Executions *)
  Lemma steps_trans s t u : steps c cap s t -> steps c cap t u -> steps c cap s u.
  Proof. intros H. induction 1; [exact H|eapply s_next; eauto]. Qed.
  Lemma one s t : step c cap s t -> steps c cap s t.
  Proof. intros H. eapply s_next; [apply s_refl|exact H]. Qed.
  Lemma upd_at {A} (g : A -> A) pre x post : upd (length pre) g (pre ++ x :: post) = pre ++ g x :: post.
  Proof. induction pre as [|y pre IH]; cbn; [reflexivity|]. now rewrite IH. Qed.
  Lemma fill_chunk (A : list R) : forall (u : list R) (pre post : list (option R)) sn q ws cs (es : list E), A <> [] -> length pre + length A = c -> length post = length A ->
    steps c cap (mkst (A ++ u) (length pre) (pre ++ post) Reading sn q ws cs es) (mkst u c (pre ++ map Some A) Sending sn q ws cs es).
  Proof.
    induction A as [|r A IH]; intros u pre post sn q ws cs es Hne Hl Hp; [contradiction|]. destruct post as [|x post]; [discriminate|]. cbn [length] in Hp, Hl.
    eapply steps_trans; [apply one; cbn [app]; apply p_row|]. rewrite upd_at. destruct A as [|r' A].
    - destruct post; [|discriminate]. cbn [length app map] in *. replace (S (length pre)) with c by lia. rewrite Nat.leb_refl. apply s_refl.
    - cbn [length] in Hl. destruct (Nat.leb_spec c (S (length pre))); [lia|]. replace (S (length pre)) with (length (pre ++ [Some r])) by (rewrite app_length; cbn; lia).
      replace (pre ++ Some r :: post) with ((pre ++ [Some r]) ++ post) by now rewrite <- app_assoc. eapply steps_trans; [apply (IH u (pre ++ [Some r]) post); [discriminate|rewrite app_length; cbn [length]; lia|cbn [length] in Hp |- *; lia]|].
      rewrite <- app_assoc. apply s_refl.
  Qed.
  Lemma send_chunk (A u : list R) m sn q ws cs (es : list E) : length A = c -> length m = c -> length q < cap ->
    steps c cap (mkst (A ++ u) 0 m Reading sn q ws cs es) (mkst u 0 (map Some A) Reading (S sn) (q ++ [(sn, c)]) ws cs es).
  Proof.
    intros HA Hm Hq. eapply steps_trans; [apply (fill_chunk A u [] m); [intros ->; cbn in HA; lia|exact HA|congruence]|]. cbn [app]. apply one. now apply p_send.
  Qed.
  Lemma end_all k : forall a (m : list (option R)) sn cs (es : list E), steps c cap (mkst [] 0 m Closed sn [] (a ++ repeat WIdle k) cs es) (mkst [] 0 m Closed sn [] (a ++ repeat WDone k) cs es).
  Proof.
    induction k as [|k IH]; intros a m sn cs es; [apply s_refl|]. cbn [repeat]. eapply steps_trans; [apply one; apply w_end|].
    replace (a ++ WDone :: repeat WIdle k) with ((a ++ [WDone]) ++ repeat WIdle k) by now rewrite <- app_assoc. replace (a ++ WDone :: repeat WDone k) with ((a ++ [WDone]) ++ repeat WDone k) by now rewrite <- app_assoc. apply IH.
  Qed.
End P.

Section Runs.
  Context {R E : Type}.
  Variables (c cap nw : nat).
  Hypothesis Hc : 1 <= c.
  (** Both chunks are in the channel before the first is looked at *)
  Lemma second_twice (A B : list R) : 1 <= nw -> 2 <= cap -> length A = c -> length B = c ->
    exists s : st R E, steps c cap (start c (A ++ B) nw) s /\ returned s = true /\ calls s = [(0, map Some B, None); (1, map Some B, None)] /\ errs s = [].
  Proof.
    intros Hn Hcap HA HB. eexists. split.
    - unfold start. eapply steps_trans; [apply (send_chunk c cap Hc A B); [exact HA|apply repeat_length|cbn; lia]|]. cbn [app].
      eapply steps_trans; [rewrite <- (app_nil_r B) at 1; apply (send_chunk c cap Hc B []); [exact HB|now rewrite map_length|cbn; lia]|]. cbn [app].
      eapply steps_trans; [apply one, p_close|]. destruct nw as [|k]; [lia|]. cbn [repeat].
      eapply steps_trans; [apply one, (w_take _ _ _ _ _ _ _ _ _ _ [])|]. eapply steps_trans; [apply one, (w_call _ _ _ _ _ _ _ _ _ _ [] _ _ _ None)|]. cbn [app].
      eapply steps_trans; [apply one, (w_take _ _ _ _ _ _ _ _ _ _ [])|]. eapply steps_trans; [apply one, (w_call _ _ _ _ _ _ _ _ _ _ [] _ _ _ None)|]. cbn [app].
      apply (end_all c cap (S k) []).
    - cbn [calls errs app]. replace (firstn c (map Some B)) with (map Some B) by (symmetry; rewrite <- HB, <- (map_length Some B); apply firstn_all).
      split; [|auto]. unfold returned. cbn [workers app]. apply forallb_forall. intros x Hx. apply repeat_spec in Hx. now subst x.
  Qed.

  (** All workers fail at once *)
  Lemma fail_all (e : E) k : forall (rows : list R) u a m sn cs es, length rows = k * c -> length m = c -> 1 <= cap ->
    exists m' cs', steps c cap (mkst (rows ++ u) 0 m Reading sn [] (a ++ repeat WIdle k) cs es) (mkst u 0 m' Reading (sn + k) [] (a ++ repeat WDone k) cs' (es ++ repeat e k)) /\ length m' = c.
  Proof.
    induction k as [|k IH]; intros rows u a m sn cs es Hl Hm Hcap.
    - destruct rows; [|discriminate]. exists m, cs. cbn [repeat app]. rewrite Nat.add_0_r, !app_nil_r. split; [apply s_refl|exact Hm].
    - rewrite <- (firstn_skipn c rows), <- app_assoc. assert (HA : length (firstn c rows) = c) by (rewrite firstn_length, Hl; cbn; lia).
      assert (HB : length (skipn c rows) = k * c) by (rewrite skipn_length, Hl; cbn; lia).
      destruct (IH (skipn c rows) u (a ++ [WDone]) (map Some (firstn c rows)) (S sn) (cs ++ [(sn, firstn c (map Some (firstn c rows)), Some e)]) (es ++ [e]) HB) as (m' & cs' & H & Hm'); [now rewrite map_length|exact Hcap|].
      exists m', cs'. split; [|exact Hm']. cbn [repeat]. eapply steps_trans; [apply (send_chunk c cap Hc (firstn c rows)); [exact HA|exact Hm|cbn; lia]|]. cbn [app].
      eapply steps_trans; [apply one, w_take|]. eapply steps_trans; [apply one, (w_call _ _ _ _ _ _ _ _ _ _ a _ _ _ (Some e))|]. rewrite <- !app_assoc in H. cbn [app] in H. rewrite Nat.add_succ_r. exact H.
  Qed.
  Lemma fill_channel k : forall (rows : list R) u m sn q ws cs (es : list E), length rows = k * c -> length m = c -> length q + k <= cap ->
    exists m' q', steps c cap (mkst (rows ++ u) 0 m Reading sn q ws cs es) (mkst u 0 m' Reading (sn + k) q' ws cs es) /\ length m' = c /\ length q' = length q + k.
  Proof.
    induction k as [|k IH]; intros rows u m sn q ws cs es Hl Hm Hq.
    - destruct rows; [|discriminate]. exists m, q. rewrite !Nat.add_0_r. split; [apply s_refl|auto].
    - rewrite <- (firstn_skipn c rows), <- app_assoc. assert (HA : length (firstn c rows) = c) by (rewrite firstn_length, Hl; cbn; lia).
      assert (HB : length (skipn c rows) = k * c) by (rewrite skipn_length, Hl; cbn; lia).
      destruct (IH (skipn c rows) u (map Some (firstn c rows)) (S sn) (q ++ [(sn, c)]) ws cs es HB) as (m' & q' & H & Hm' & Hq'); [now rewrite map_length|rewrite app_length; cbn; lia|].
      exists m', q'. rewrite app_length in Hq'. cbn in Hq'. split; [|split; [exact Hm'|lia]]. eapply steps_trans; [apply (send_chunk c cap Hc (firstn c rows)); [exact HA|exact Hm|lia]|]. rewrite Nat.add_succ_r. exact H.
  Qed.
  Lemma leak (e : E) (rows : list R) : 1 <= nw -> 1 <= cap -> (nw + cap + 1) * c <= length rows ->
    exists s : st R E, steps c cap (start c rows nw) s /\ returned s = true /\ stuck c cap s /\ prod s = Sending /\ result s = Some e.
  Proof.
    intros Hn Hcap Hl. set (A := firstn (nw * c) rows). set (B := firstn (cap * c) (skipn (nw * c) rows)). set (D := firstn c (skipn (cap * c) (skipn (nw * c) rows))). set (u := skipn c (skipn (cap * c) (skipn (nw * c) rows))).
    assert (Hr : rows = A ++ B ++ D ++ u) by (unfold A, B, D, u; now rewrite !firstn_skipn).
    assert (HA : length A = nw * c) by (unfold A; rewrite firstn_length; nia). assert (HB : length B = cap * c) by (unfold B; rewrite firstn_length, skipn_length; nia).
    assert (HD : length D = c) by (unfold D; rewrite firstn_length, !skipn_length; nia). clearbody A B D u. subst rows.
    destruct (fail_all e nw A (B ++ D ++ u) [] (repeat None c) 0 [] []) as (m1 & cs1 & S1 & L1); [exact HA|apply repeat_length|exact Hcap|].
    destruct (fill_channel cap B (D ++ u) m1 (0 + nw) [] (repeat WDone nw) cs1 (repeat e nw) HB L1) as (m2 & q2 & S2 & L2 & L3); [cbn; lia|].
    eexists. split; [unfold start; eapply steps_trans; [exact S1|]; cbn [app]; eapply steps_trans; [exact S2|]; apply (fill_chunk c cap Hc D u [] m2); [intros ->; cbn in HD; lia|exact HD|congruence]|].
    split; [unfold returned; cbn [workers]; apply forallb_forall; intros x Hx; apply repeat_spec in Hx; now subst x|]. split.
    - intros t H. inversion H; subst.
      + cbn in L3. lia.
      + match goal with K : _ ++ WIdle :: _ = repeat WDone nw |- _ => assert (I : In WIdle (repeat WDone nw)) by (rewrite <- K; apply in_or_app; right; now left) end. apply repeat_spec in I. discriminate.
      + match goal with K : _ ++ WHolds ?x ?y :: _ = repeat WDone nw |- _ => assert (I : In (WHolds x y) (repeat WDone nw)) by (rewrite <- K; apply in_or_app; right; now left) end. apply repeat_spec in I. discriminate.
    - split; [reflexivity|]. unfold result. cbn [errs]. destruct nw; [lia|]. reflexivity.
  Qed.
End Runs.
