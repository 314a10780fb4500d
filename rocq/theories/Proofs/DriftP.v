(** Lemmas about the drift detectors. *)
From Coq Require Import List Arith ZArith Bool Lia Reals Lra.
From Verif Require Import Base.Num Base.RTac Model.Drift Spec.Stats Spec.Drift.
Import ListNotations.
Local Open Scope R_scope.

(** * DDM *)
Lemma errors_snoc h b : errors (h ++ [b]) = (errors h + if b then 0 else 1)%nat.
Proof. unfold errors. rewrite count_occ_app. destruct b; reflexivity. Qed.
Lemma errors_le h : (errors h <= length h)%nat.
Proof. apply count_occ_bound. Qed.
Lemma rate_range h : 0 <= rate h <= 1.
Proof.
  unfold rate. destruct h as [|b h]; [cbn; split; [lra|]; unfold Rdiv; rewrite Rmult_0_l; lra|].
  assert (Hp : 0 < INR (length (b :: h))) by (apply lt_0_INR; cbn; lia).
  pose proof (le_INR _ _ (errors_le (b :: h))) as Hle. pose proof (pos_INR (errors (b :: h))).
  split.
  - apply Rmult_le_pos; [assumption|]. apply Rlt_le, Rinv_0_lt_compat, Hp.
  - apply (Rmult_le_reg_r (INR (length (b :: h)))); [exact Hp|]. unfold Rdiv.
    rewrite Rmult_assoc, Rinv_l; lra.
Qed.
Lemma dev_nonneg h : 0 <= dev h.
Proof. apply sqrt_pos. Qed.

Lemma prefix_snoc {A} (p h : list A) b : prefix p (h ++ [b]) <-> prefix p h \/ p = h ++ [b].
Proof.
  split.
  - intros [t E]. destruct t as [|c t] using rev_ind.
    + right. now rewrite app_nil_r in E.
    + left. rewrite app_assoc in E. apply app_inj_tail in E as [-> _]. now exists t.
  - intros [[t ->]| ->]; [exists (t ++ [b]); now rewrite app_assoc|exists []; now rewrite app_nil_r].
Qed.
Lemma prefix_refl {A} (h : list A) : prefix h h.
Proof. exists []. now rewrite app_nil_r. Qed.
Lemma prefix_len {A} (p h : list A) : prefix p h -> (length p <= length h)%nat.
Proof. intros [t ->]. rewrite app_length. lia. Qed.

Lemma examined_dec m h : {examined m h} + {~ examined m h}.
Proof.
  unfold examined. destruct h as [|b h]; [right; intros [? _]; easy|].
  destruct (Z_le_dec m (Z.of_nat (length (b :: h)))); [left; split; easy|right; intros [_ ?]; easy].
Qed.
Lemma examined_snoc m h b : examined m (h ++ [b]) <-> (m <= Z.of_nat (S (length h)))%Z.
Proof.
  unfold examined. rewrite app_length, Nat.add_1_r. split; [easy|]. intros H. split; [|exact H].
  destruct h; discriminate.
Qed.

Definition min_ok (m : Z) (h : list bool) (o : option (R * R)) : Prop :=
  (~ examined m h -> o = None) /\
  (examined m h -> exists p, reference m h p /\ o = Some (rate p, dev p)).

Lemma min_ok_step m h b o : min_ok m h o -> examined m (h ++ [b]) ->
  min_ok m (h ++ [b]) (@ddm_min RNum o (rate (h ++ [b])) (dev (h ++ [b]))).
Proof.
  intros [H1 H2] He. split; [easy|]. intros _. unfold ddm_min. cbn -[rate dev]. unR.
  destruct (examined_dec m h) as [Hh|Hh].
  - destruct (H2 Hh) as (p & [Hp1 [Hp2 Hp3]] & ->). cbn -[rate dev].
    fold (level (h ++ [b])). fold (level p).
    destruct (Rltb_spec (level (h ++ [b])) (level p)) as [Hlt|Hge].
    + exists (h ++ [b]). split; [|reflexivity]. split; [apply prefix_refl|split; [exact He|]].
      intros q Hq Heq. apply prefix_snoc in Hq as [Hq| ->].
      * destruct (Hp3 q Hq Heq) as [Hq1 _]. split; intros; lra.
      * split; [lra|lia].
    + exists p. split; [|reflexivity]. split; [apply prefix_snoc; now left|split; [exact Hp2|]].
      intros q Hq Heq. apply prefix_snoc in Hq as [Hq| ->]; [auto|].
      split; [lra|]. intros Hl. apply prefix_len in Hp1. rewrite app_length in Hl. cbn in Hl. lia.
  - rewrite (H1 Hh). cbn -[rate dev]. exists (h ++ [b]). split; [|reflexivity].
    split; [apply prefix_refl|split; [exact He|]].
    intros q Hq Heq. apply prefix_snoc in Hq as [Hq| ->]; [|split; [lra|lia]].
    exfalso. apply Hh. destruct Heq as [Hn Hm]. pose proof (prefix_len _ _ Hq) as Hl.
    unfold examined. split; [|lia]. intros ->. cbn in Hl. destruct q; [easy|cbn in Hl; lia].
Qed.

Record ddm_inv (m : Z) (wl ol : R) (d : ddm RNum) (h : list bool) : Prop := {
  di_m : d_minn d = m; di_wl : d_warn_level d = wl; di_ol : d_out_level d = ol;
  di_n : d_n d = length h; di_e : d_errs d = errors h;
  di_min : min_ok m h (d_min d);
  di_rate : examined m h -> d_rate d = rate h /\ d_dev d = dev h;
  di_unexam : ~ examined m h -> d_rate d = 0 /\ d_dev d = 0;
  di_drift : d_drift d = false }.

Lemma not_examined_nil m : ~ examined m [].
Proof. intros [H _]. easy. Qed.

Lemma ddm_inv_nil m wl ol : ddm_inv m wl ol (@ddm_new RNum m wl ol) [].
Proof.
  constructor; try reflexivity; cbn.
  - split; [reflexivity|]. intros H. now apply not_examined_nil in H.
  - intros H. now apply not_examined_nil in H.
  - easy.
Qed.
Lemma ddm_reset_new (d : ddm RNum) m wl ol h : ddm_inv m wl ol d h -> ddm_reset d = @ddm_new RNum m wl ol.
Proof. intros []. unfold ddm_reset, ddm_new. congruence. Qed.

Lemma ddm_update_R m wl ol d h b : ddm_inv m wl ol d h ->
  let h' := h ++ [b] in
  exists d' r, ddm_update d b = (d', r) /\
  ddm_inv m wl ol d' (if r_drift r then [] else h') /\
  (~ examined m h' -> r = @mkres RNum false false 0 0) /\
  (examined m h' -> exists p, reference m h' p /\ r_rate r = rate h' /\
     (r_warning r = true <-> level h' > rate p + wl * dev p) /\
     (r_drift r = true <-> level h' > rate p + ol * dev p) /\
     r_conf r = if Rltb 0 (dev p) then level h' / level p else 1).
Proof.
  intros I h'. pose proof I as [E1 E2 E3 E4 E5 Emin Er Eu Ed].
  unfold ddm_update. rewrite E1, E4.
  destruct (Z.ltb_spec (Z.of_nat (S (length h))) m) as [Hlt|Hge].
  - assert (Hne : ~ examined m h') by (unfold h'; rewrite examined_snoc; lia).
    assert (Hne0 : ~ examined m h) by (intros [_ Hx]; lia).
    eexists _, _. split; [reflexivity|]. cbn [r_drift]. split; [|split; [easy|easy]].
    constructor; cbn; try assumption; try reflexivity.
    + unfold h'. rewrite app_length. cbn. lia.
    + unfold h'. rewrite errors_snoc, E5. destruct b; lia.
    + split; [|easy]. intros _. now apply Emin.
    + easy.
    + intros _. now apply Eu.
  - assert (He : examined m h') by (unfold h'; rewrite examined_snoc; lia).
    assert (Hr : @ndiv RNum (nofnat (if b then d_errs d else S (d_errs d))) (nofnat (S (length h))) = rate h').
    { rewrite !nofnat_R. unfold rate, h'. rewrite errors_snoc, app_length, Nat.add_1_r, E5.
      cbn [ndiv RNum]. f_equal. f_equal. destruct b; lia. }
    assert (Hd : @ddm_dev RNum (rate h') (S (length h)) = dev h').
    { unfold ddm_dev, dev. rewrite nofnat_R.
      replace (length h') with (S (length h)) by (unfold h'; rewrite app_length; cbn; lia). reflexivity. }
    rewrite Hr, Hd.
    pose proof (min_ok_step m h b (d_min d) Emin He) as Hm. fold h' in Hm.
    set (mm := @ddm_min RNum (d_min d) (rate h') (dev h')) in *.
    destruct (proj2 Hm He) as (p & Hp & Emm).
    set (dr := ddm_exceeds mm (d_out_level d) (rate h') (dev h')).
    assert (Hdr : dr = true <-> level h' > rate p + ol * dev p).
    { unfold dr. rewrite Emm, E3. cbn -[rate dev]. rewrite Rltb_true. unfold level. split; intros; lra. }
    eexists _, _. split; [reflexivity|]. cbn [r_drift].
    split; [|split; [easy|]].
    + destruct dr eqn:Edr.
      * replace (ddm_reset _) with (@ddm_new RNum m wl ol); [apply ddm_inv_nil|].
        unfold ddm_reset, ddm_new. cbn. congruence.
      * constructor; cbn; try assumption; try reflexivity; try easy.
        -- unfold h'. rewrite app_length. cbn. lia.
        -- unfold h'. rewrite errors_snoc, E5. destruct b; lia.
    + intros _. exists p. split; [exact Hp|]. cbn [r_rate r_warning r_conf]. split; [reflexivity|].
      split; [|split; [exact Hdr|]].
      * rewrite Emm, E2. cbn -[rate dev]. rewrite Rltb_true. unfold level. split; intros; lra.
      * rewrite Emm. reflexivity.
Qed.

(** * ADWIN *)
Lemma list_ind2 {A} (P : list A -> Prop) :
  P [] -> (forall x, P [x]) -> (forall x y r, P r -> P (x :: y :: r)) -> forall l, P l.
Proof.
  intros H0 H1 H2. fix IH 1. intros [|x [|y r]]; [exact H0|apply H1|apply H2, IH].
Qed.

Section Adwin.
  Context {N : Num}.
  Fixpoint chunks (w : list N) : list (bucket N) :=
    match w with
    | [] => []
    | [x] => [mkbucket x 1]
    | x :: y :: r => mkbucket (nadd x y) 2 :: chunks r
    end.
  Lemma chunks_cons2 x y r : chunks (x :: y :: r) = mkbucket (nadd x y) 2 :: chunks r.
  Proof. reflexivity. Qed.

  Lemma chunks_nil_inv w : chunks w = [] -> w = [].
  Proof. destruct w as [|x [|y r]]; easy. Qed.

  Lemma add_chunks v w : add_bucket (chunks w) v = chunks (w ++ [v]).
  Proof.
    induction w as [|x|x y r IH] using list_ind2; [reflexivity|reflexivity|].
    rewrite chunks_cons2. cbn [app]. rewrite chunks_cons2, <- IH.
    destruct (chunks r) as [|b bs] eqn:E; reflexivity.
  Qed.
  Lemma chunks_skip w : forall i, skipn i (chunks w) = chunks (skipn (2 * i) w).
  Proof.
    induction w as [|x|x y r IH] using list_ind2; intros [|i]; try reflexivity.
    - replace (2 * S i)%nat with (S (S (2 * i))) by lia. cbn. now rewrite !skipn_nil.
    - rewrite chunks_cons2. replace (2 * S i)%nat with (S (S (2 * i))) by lia. cbn [skipn]. apply IH.
  Qed.
  Lemma chunks_first w : forall i, firstn i (chunks w) = chunks (firstn (2 * i) w).
  Proof.
    induction w as [|x|x y r IH] using list_ind2; intros [|i]; try reflexivity.
    - replace (2 * S i)%nat with (S (S (2 * i))) by lia. cbn. now rewrite !firstn_nil.
    - rewrite chunks_cons2. replace (2 * S i)%nat with (S (S (2 * i))) by lia. cbn [firstn].
      rewrite chunks_cons2. now rewrite IH.
  Qed.
  Lemma chunks_tl w b bs : chunks w = b :: bs -> bs = chunks (skipn 2 w) /\
    b_count b = Z.of_nat (length (firstn 2 w)).
  Proof. destruct w as [|x [|y r]]; cbn; intros H; [easy| |]; injection H as <- <-; auto. Qed.
  Lemma chunks_len w : length (chunks w) = pairs_of (length w).
  Proof.
    induction w as [|x|x y r IH] using list_ind2; [reflexivity|reflexivity|].
    rewrite chunks_cons2. cbn [length]. rewrite IH. reflexivity.
  Qed.
  Lemma bcount_from (bs : list (bucket N)) : forall c,
    fold_left (fun c b => (c + b_count b)%Z) bs c = (c + bcount bs)%Z.
  Proof.
    unfold bcount. induction bs as [|b bs IH]; intros c; cbn [fold_left]; [lia|].
    rewrite IH, (IH (0 + b_count b)%Z). lia.
  Qed.
  Lemma bcount_chunks w : bcount (chunks w) = Z.of_nat (length w).
  Proof.
    induction w as [|x|x y r IH] using list_ind2; [reflexivity|reflexivity|].
    rewrite chunks_cons2. unfold bcount. cbn [fold_left b_count]. rewrite bcount_from, IH.
    cbn [length]. lia.
  Qed.

  (** The integer part of the state; any arithmetic. *)
  Record adwin_shape (delta : N) (maxb : Z) (a : adwin N) (w : list N) : Prop := {
    as_d : a_delta a = delta; as_m : a_max a = maxb;
    as_b : a_buckets a = chunks w;
    as_c : a_count a = Z.of_nat (length w); as_w : a_width a = Z.of_nat (length w) }.

  Definition nappended (maxb : Z) (w : list N) (v : N) : list N :=
    if Z.ltb maxb (Z.of_nat (pairs_of (length (w ++ [v])))) then skipn 2 (w ++ [v]) else w ++ [v].

  Lemma add_shape delta maxb a w v : adwin_shape delta maxb a w ->
    adwin_shape delta maxb (add_element a v) (nappended maxb w v).
  Proof.
    intros [E1 E2 E3 E4 E5]. unfold add_element, nappended.
    cbn [a_max a_buckets]. rewrite E1, E2, E3, E4, E5, add_chunks, chunks_len.
    destruct (Z.ltb maxb _).
    - unfold remove_oldest. cbn [a_buckets].
      destruct (chunks (w ++ [v])) as [|b bs] eqn:E.
      { apply chunks_nil_inv in E. destruct w; discriminate. }
      apply chunks_tl in E as [-> Hb].
      assert (Hl : (Z.of_nat (length w) + 1 - b_count b = Z.of_nat (length (skipn 2 (w ++ [v]))))%Z).
      { rewrite Hb, firstn_length, skipn_length, app_length. cbn [length]. lia. }
      constructor; cbn; try assumption; reflexivity.
    - constructor; cbn; try reflexivity; rewrite app_length; cbn; lia.
  Qed.

  Lemma detect_shape delta maxb a w : adwin_shape delta maxb a w ->
    exists w', adwin_shape delta maxb (fst (detect a)) w' /\ suffix w' w /\ (snd (detect a) = false -> w' = w).
  Proof.
    intros I. pose proof I as [E1 E2 E3 E4 E5]. unfold detect.
    destruct (Nat.ltb _ 2); [exists w; split; [exact I|split; [exists []; reflexivity|reflexivity]]|].
    destruct (Z.ltb _ 5); [exists w; split; [exact I|split; [exists []; reflexivity|reflexivity]]|].
    destruct (find _ _) as [i|]; [|exists w; split; [exact I|split; [exists []; reflexivity|reflexivity]]].
    exists (skipn (2 * i) w). cbn [fst snd]. split; [|split; [|discriminate]].
    - rewrite E3, chunks_skip. constructor; cbn; try assumption; try reflexivity; apply bcount_chunks.
    - exists (firstn (2 * i) w). symmetry. apply firstn_skipn.
  Qed.
End Adwin.

Lemma pairs_bound n : (n <= 2 * pairs_of n)%nat /\ (2 * pairs_of n <= n + 1)%nat.
Proof.
  unfold pairs_of. pose proof (Nat.div2_odd (S n)) as H. destruct (Nat.odd (S n)); cbn [Nat.b2n] in H; lia.
Qed.
Lemma pairs_lt n i : (i < pairs_of n)%nat <-> (2 * i < n)%nat.
Proof. pose proof (pairs_bound n). lia. Qed.

(** Exact arithmetic. *)
Lemma bsum_R (bs : list (bucket RNum)) : @bsum RNum bs = Rsum (map (@b_sum RNum) bs).
Proof. unfold bsum. cbn [nadd RNum n0]. rewrite (fold_left_sum (@b_sum RNum)). apply Rplus_0_l. Qed.
Lemma bsum_chunks (w : list R) : @bsum RNum (@chunks RNum w) = Rsum w.
Proof.
  rewrite bsum_R. induction w as [|x|x y r IH] using list_ind2; [reflexivity|cbn; lra|].
  change (@chunks RNum (x :: y :: r)) with (@mkbucket RNum (x + y) 2 :: @chunks RNum r).
  cbn [map Rsum b_sum]. rewrite IH. lra.
Qed.
Lemma bmean_chunks (w : list R) : w <> [] -> @bmean RNum (@chunks RNum w) = mean_of w.
Proof.
  intros H. unfold bmean. rewrite (bcount_chunks (N := RNum)), bsum_chunks, nofZ_R.
  destruct (Z.ltb_spec 0 (Z.of_nat (length (w : list RNum)))) as [_|Hl].
  - unfold mean_of. unR. rewrite INR_IZR_INZ. reflexivity.
  - destruct w; [easy|cbn in Hl; lia].
Qed.

Record adwin_inv (delta : R) (maxb : Z) (a : adwin RNum) (w : list R) : Prop := {
  ai_shape : @adwin_shape RNum delta maxb a w; ai_sum : a_sum a = Rsum w }.

Lemma add_inv delta maxb a w v : adwin_inv delta maxb a w ->
  adwin_inv delta maxb (@add_element RNum a v) (appended maxb w v).
Proof.
  intros [S Hs]. constructor; [exact (add_shape (N := RNum) delta maxb a w v S)|].
  pose proof S as [E1 E2 E3 E4 E5]. unfold add_element, appended.
  cbn [a_max a_buckets]. rewrite E2, E3, (add_chunks (N := RNum)), (chunks_len (N := RNum)). unR.
  destruct (Z.ltb maxb _).
  - unfold remove_oldest. cbn [a_buckets].
    destruct (@chunks RNum (w ++ [v])) as [|b bs] eqn:E.
    { apply (chunks_nil_inv (N := RNum)) in E. destruct w; discriminate. }
    cbn [a_sum nsub nadd RNum]. rewrite Hs. clear -E.
    assert (H : Rsum w + v = Rsum (w ++ [v])) by (rewrite Rsum_app; cbn; lra). rewrite H.
    destruct (w ++ [v]) as [|x [|y r]]; cbn in E; [easy| |]; injection E as <- <-; cbn; lra.
  - cbn [a_sum nadd RNum]. rewrite Hs, Rsum_app. cbn. lra.
Qed.

Lemma splits_R delta maxb a w i : adwin_inv delta maxb a w -> (0 < i)%nat -> (2 * i < length w)%nat ->
  (@splits_at RNum a i = true <-> cut_differs delta w (2 * i)).
Proof.
  intros [S Hs] Hi Hlt. pose proof S as [E1 E2 E3 E4 E5]. unfold splits_at.
  rewrite E3, (chunks_first (N := RNum)), (chunks_skip (N := RNum)), !(bcount_chunks (N := RNum)).
  rewrite firstn_length, skipn_length, Nat.min_l by (unR; lia).
  replace (Z.leb (Z.of_nat (2 * i)) 0) with false by (symmetry; apply Z.leb_gt; lia).
  replace (Z.leb (Z.of_nat (@length RNum w - 2 * i)) 0) with false
    by (symmetry; apply Z.leb_gt; unR; lia). cbn [orb].
  rewrite !bmean_chunks.
  - unfold cut_differs, hoeffding. rewrite !nofZ_R, E1.
    cbn [nlt nabs nsub nsqrt nmul nadd ndiv nlog n1 nlit RNum]. rewrite Rltb_true.
    unR. rewrite !INR_IZR_INZ.
    replace (1 / 2) with (/ 2) by lra.
    replace (2 / 1 / delta) with (2 / delta) by (unfold Rdiv; rewrite Rinv_1; ring).
    unfold Rdiv. rewrite !Rmult_1_l. split; intros H; exact H.
  - intros H. apply (f_equal (@length R)) in H. rewrite skipn_length in H. cbn in H. lia.
  - intros H. apply (f_equal (@length R)) in H. rewrite firstn_length in H. cbn in H. lia.
Qed.

Lemma find_first {A} (g : A -> bool) l x : find g l = Some x ->
  exists l1 l2, l = l1 ++ x :: l2 /\ g x = true /\ forall y, In y l1 -> g y = false.
Proof.
  induction l as [|a l IH]; cbn; intros H; [easy|]. destruct (g a) eqn:E.
  - injection H as ->. exists [], l. easy.
  - destruct (IH H) as (l1 & l2 & -> & Hx & Hl). exists (a :: l1), l2. split; [reflexivity|].
    split; [exact Hx|]. intros y [<-|Hy]; auto.
Qed.

Lemma seq_split_lt l1 l2 i : forall s n, seq s n = l1 ++ i :: l2 -> forall j, (s <= j < i)%nat -> In j l1.
Proof.
  induction l1 as [|a l1 IH]; intros s n E j Hj; destruct n; cbn in E; try discriminate.
  - injection E as -> _. lia.
  - injection E as <- E. destruct (Nat.eq_dec j s); [now left|right]. apply (IH (S s) n E). lia.
Qed.

Lemma detect_R delta maxb a x : adwin_inv delta maxb a x ->
  exists w', adwin_inv delta maxb (fst (@detect RNum a)) w' /\
  (if snd (@detect RNum a) then
     exists k, candidate x k /\ cut_differs delta x k /\
       (forall j, (j < k)%nat -> candidate x j -> ~ cut_differs delta x j) /\ w' = skipn k x
   else w' = x /\ forall k, candidate x k -> ~ cut_differs delta x k).
Proof.
  intros I. pose proof I as [S Hs]. pose proof S as [E1 E2 E3 E4 E5]. unfold detect.
  rewrite E3, (chunks_len (N := RNum)), E4. unR.
  destruct (Nat.ltb_spec (pairs_of (length x)) 2) as [H2|H2].
  { exists x. cbn. split; [exact I|split; [reflexivity|]]. intros k [H5 _].
    pose proof (pairs_bound (length x)). lia. }
  destruct (Z.ltb_spec (Z.of_nat (length x)) 5) as [H5|H5].
  { exists x. cbn. split; [exact I|split; [reflexivity|]]. intros k [H5' _]. lia. }
  destruct (find (@splits_at RNum a) (seq 1 (pairs_of (length x) - 1))) as [i|] eqn:Ef; cbn [fst snd].
  - destruct (find_first _ _ _ Ef) as (l1 & l2 & El & Hi & Hl).
    assert (Hin : In i (seq 1 (pairs_of (length x) - 1))) by (rewrite El; apply in_or_app; right; now left).
    apply in_seq in Hin. assert (Hlt : (2 * i < length x)%nat) by (apply pairs_lt; lia).
    exists (skipn (2 * i) x). split.
    + rewrite (chunks_skip (N := RNum)). constructor.
      * constructor; cbn [with_buckets a_delta a_max a_buckets a_count a_width]; try assumption; try reflexivity;
          apply (bcount_chunks (N := RNum)).
      * cbn [with_buckets a_sum]. apply bsum_chunks.
    + exists (2 * i)%nat. split; [split; [lia|split; [lia|exists i; lia]]|].
      split; [apply (splits_R delta maxb a x i I); [lia|lia|exact Hi]|]. split; [|reflexivity].
      intros j Hj (_ & Hj2 & j' & ->) Hc.
      apply (splits_R delta maxb a x j' I) in Hc; [|lia|lia].
      rewrite Hl in Hc; [discriminate|]. apply (seq_split_lt l1 l2 i _ _ El). lia.
  - exists x. split; [exact I|split; [reflexivity|]]. intros k (_ & Hk & i & ->) Hc.
    apply (splits_R delta maxb a x i I) in Hc; [|lia|lia].
    assert (Hin : In i (seq 1 (pairs_of (length x) - 1))).
    { apply in_seq. assert (i < pairs_of (length x))%nat by (apply pairs_lt; lia). lia. }
    pose proof (find_none _ _ Ef i Hin). congruence.
Qed.

Lemma mean_inv delta maxb a w : adwin_inv delta maxb a w ->
  @adwin_mean RNum a = match w with [] => 0 | _ => mean_of w end.
Proof.
  intros [[E1 E2 E3 E4 E5] Hs]. unfold adwin_mean. rewrite E4, Hs, nofZ_R. unR.
  destruct w as [|x w]; [reflexivity|].
  destruct (Z.eqb_spec (Z.of_nat (length (x :: w))) 0) as [H|_]; [cbn in H; lia|].
  unfold mean_of. rewrite INR_IZR_INZ. reflexivity.
Qed.
