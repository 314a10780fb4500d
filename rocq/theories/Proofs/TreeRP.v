(** Decision trees over the reals: impurities, best splits, importances. *)
From Coq Require Import String List Arith ZArith Bool Lia Reals Lra Permutation Sorted.
From Verif Require Import Base.Num Base.GoRes Base.Mat Base.ListX Base.GoSort Base.RTac
  Model.NaiveBayes Model.Tree Spec.Tree Proofs.TreeP.
Import ListNotations.
Local Open Scope list_scope.
Local Open Scope R_scope.

Definition crit (o : topts RNum) (S : list (tsample RNum Z)) : R :=
  if String.eqb (p_criterion o) "entropy" then entropy S else gini S.

(** Sums over all classes and over the labels that occur. *)
Lemma Rsum_filter {A} (p : A -> bool) (g : A -> R) l :
  (forall x, In x l -> p x = false -> g x = 0) -> Rsum (map g l) = Rsum (map g (filter p l)).
Proof.
  induction l as [|a l IH]; intros H; [reflexivity|]. cbn [filter map Rsum]. rewrite IH by (intros; apply H; [now right|assumption]).
  destruct (p a) eqn:E; cbn [map Rsum]; [reflexivity|]. rewrite (H a (or_introl eq_refl) E). lra.
Qed.
Lemma labels_perm {B} (S : list (B * Z)) classes : NoDup classes -> (forall s, In s S -> In (snd s) classes) ->
  Permutation (filter (fun c => if in_dec Z.eq_dec c (map snd S) then true else false) classes) (labels_in S).
Proof.
  intros Hnd Hl. apply NoDup_Permutation; [now apply NoDup_filter|apply NoDup_nodup|].
  intros c. rewrite filter_In. unfold labels_in. rewrite nodup_In.
  destruct (in_dec Z.eq_dec c (map snd S)) as [H|H]; split; intros Hc; try tauto; try easy.
  split; [|reflexivity]. apply in_map_iff in Hc. destruct Hc as [s [<- Hs]]. auto.
Qed.
Lemma occurs_zero {B} (S : list (B * Z)) c : ~ In c (map snd S) -> occurs S c = 0%nat.
Proof.
  intros H. unfold occurs. induction S as [|s S IH]; [reflexivity|]. cbn [filter map] in *.
  destruct (Z.eqb_spec (snd s) c); [exfalso; apply H; now left|]. apply IH. intros Hc. apply H. now right.
Qed.
Lemma Rsum_classes {B} (g : Z -> R) (S : list (B * Z)) classes : NoDup classes ->
  (forall s, In s S -> In (snd s) classes) -> (forall c, occurs S c = 0%nat -> g c = 0) ->
  Rsum (map g classes) = Rsum (map g (labels_in S)).
Proof.
  intros Hnd Hl Hg.
  rewrite (Rsum_filter (fun c => if in_dec Z.eq_dec c (map snd S) then true else false)).
  - apply Rsum_perm, Permutation_map. now apply labels_perm.
  - intros c _. destruct (in_dec Z.eq_dec c (map snd S)); [discriminate|]. intros _. apply Hg. now apply occurs_zero.
Qed.

Lemma impurity_R (o : topts RNum) (S : list (tsample RNum Z)) classes : NoDup classes ->
  (forall s, In s S -> In (snd s) classes) -> S <> [] ->
  @impurity RNum Rlog2 o (map (occurs S) classes) = crit o S.
Proof.
  intros Hnd Hl Hne. unfold impurity. rewrite (total_occurs (N := RNum) classes Hnd S Hl).
  destruct (Nat.eqb_spec (List.length S) 0) as [E|_]; [apply length_zero_iff_nil in E; contradiction|].
  unfold crit. destruct (String.eqb (p_criterion o) "entropy").
  - unfold entropy. rewrite <- (Rsum_classes _ S classes Hnd Hl).
    2:{ intros c E. unfold share. rewrite E. unfold Rdiv. cbn [INR]. now rewrite !Rmult_0_l. }
    cbn [n0 nsub nmul ndiv RNum num]. rewrite !nofnat_R.
    assert (G : forall cl a, fold_left (fun (s : R) (c : nat) => if Nat.ltb 0 c
        then s - @nofnat RNum c / INR (List.length S) * Rlog2 (@nofnat RNum c / INR (List.length S)) else s) (map (occurs S) cl) a
        = a + - Rsum (map (fun c => share S c * Rlog2 (share S c)) cl)).
    { induction cl as [|c cl IH]; intros a; cbn [map fold_left Rsum]; [lra|]. rewrite IH. rewrite !nofnat_R.
      assert (Esh : INR (occurs S c) / INR (List.length S) = share S c) by reflexivity. rewrite !Esh.
      destruct (Nat.ltb_spec 0 (occurs S c)) as [Hc|Hc]; [lra|].
      assert (E : share S c = 0) by (unfold share; replace (occurs S c) with 0%nat by lia; unfold Rdiv; cbn [INR]; now rewrite Rmult_0_l).
      rewrite E. lra. }
    etransitivity; [apply G|]. apply Rplus_0_l.
  - unfold gini. rewrite <- (Rsum_classes _ S classes Hnd Hl).
    2:{ intros c E. unfold share. rewrite E. unfold Rdiv. cbn [INR]. now rewrite !Rmult_0_l. }
    cbn [n0 n1 nsub nadd nmul ndiv RNum num]. rewrite !nofnat_R.
    assert (G : forall cl a, fold_left (fun (s : R) (c : nat) => if Nat.ltb 0 c
        then s + @nofnat RNum c / INR (List.length S) * (@nofnat RNum c / INR (List.length S)) else s) (map (occurs S) cl) a
        = a + Rsum (map (fun c => share S c * share S c) cl)).
    { induction cl as [|c cl IH]; intros a; cbn [map fold_left Rsum]; [lra|]. rewrite IH. rewrite !nofnat_R.
      assert (Esh : INR (occurs S c) / INR (List.length S) = share S c) by reflexivity. rewrite !Esh.
      destruct (Nat.ltb_spec 0 (occurs S c)) as [Hc|Hc]; [lra|].
      assert (E : share S c = 0) by (unfold share; replace (occurs S c) with 0%nat by lia; unfold Rdiv; cbn [INR]; now rewrite Rmult_0_l).
      rewrite E. lra. }
    apply (f_equal (fun z => 1 - z)). etransitivity; [apply G|]. apply Rplus_0_l.
Qed.

(** ** Candidate thresholds *)
Definition consec (vs : list R) (a b : R) : Prop := exists l1 l2, vs = l1 ++ a :: b :: l2.
Lemma consec_cons x vs a b : consec vs a b -> consec (x :: vs) a b.
Proof. intros [l1 [l2 ->]]. exists (x :: l1), l2. reflexivity. Qed.

(** Every threshold that separates the values separates them like some midpoint. *)
Lemma midpoint_exists vs t : ordered Rltb vs -> (exists u, In u vs /\ u <= t) -> (exists w, In w vs /\ t < w) ->
  exists a b, consec vs a b /\ a <> b /\ forall x, In x vs -> (x <= (a + b) / 2 <-> x <= t).
Proof.
  intros Hs Hu Hw.
  assert (H : exists a b, consec vs a b /\ a <= t < b /\ forall x, In x vs -> x <= a \/ b <= x).
  { induction Hs as [|x vs Hs IH Hf]; [destruct Hu as [? [[] _]]|].
    rewrite Forall_forall in Hf.
    assert (Hx : forall y, In y vs -> x <= y) by (intros y Hy; specialize (Hf y Hy); now apply Rltb_false in Hf).
    destruct (Rle_dec x t) as [Hxt|Hxt].
    2:{ destruct Hu as [u [[<-|Hu] Hut]]; [lra|]. specialize (Hx u Hu). lra. }
    destruct vs as [|y vs]; [destruct Hw as [w [[<-|[]] Hw]]; lra|].
    destruct (Rle_dec y t) as [Hyt|Hyt].
    - destruct IH as [a [b [H1 [H2 H3]]]].
      + exists y. split; [now left|exact Hyt].
      + destruct Hw as [w [[<-|Hw] Hw']]; [lra|]. now exists w.
      + exists a, b. split; [now apply consec_cons|]. split; [exact H2|]. intros z [<-|Hz]; [|auto].
        destruct (H3 y (or_introl eq_refl)) as [H4|H4]; specialize (Hx y (or_introl eq_refl)); lra.
    - exists x, y. split; [exists [], vs; reflexivity|]. split; [lra|]. intros z [<-|[<-|Hz]]; [lra|lra|].
      right. inversion Hs as [|? ? _ Hf']; subst. rewrite Forall_forall in Hf'. specialize (Hf' z Hz). now apply Rltb_false in Hf'. }
  destruct H as [a [b [H1 [H2 H3]]]]. exists a, b. split; [exact H1|]. split; [lra|].
  intros x Hx. destruct (H3 x Hx); lra.
Qed.

Section Best.
  Context (sortv : list R -> list R) (o : topts RNum) (k nf : nat).
  Hypothesis Hsort : go_sort Rltb sortv.

  Definition decr (rows : list (trow RNum)) (parent : R) (f : nat) (t : R) : R :=
    parent - (INR (List.length (@lrows RNum f t rows)) * @impurity RNum Rlog2 o (class_counts k (@lrows RNum f t rows))
              + INR (List.length (@rrows RNum f t rows)) * @impurity RNum Rlog2 o (class_counts k (@rrows RNum f t rows)))
             / INR (List.length rows).
  Definition adm (rows : list (trow RNum)) (f : nat) (t : R) : Prop :=
    small o (@lrows RNum f t rows) = false /\ small o (@rrows RNum f t rows) = false.

  Lemma try_threshold_R rows parent f t (st : option nat * R * R) :
    exists st', @try_threshold RNum Rlog2 o k rows parent f t st = st' /\ snd st <= snd st'
     /\ (adm rows f t -> decr rows parent f t <= snd st')
     /\ (st' = st \/ st' = (Some f, t, decr rows parent f t) /\ adm rows f t /\ snd st < decr rows parent f t).
  Proof.
    eexists. split; [reflexivity|]. unfold try_threshold. fold (@lrows RNum f t rows) (@rrows RNum f t rows).
    fold (small o (@lrows RNum f t rows)) (small o (@rrows RNum f t rows)). unfold adm.
    destruct (small o (@lrows RNum f t rows)) eqn:E1; cbn [orb]; [split; [apply Rle_refl|]; split; [easy|now left]|].
    destruct (small o (@rrows RNum f t rows)) eqn:E2; [split; [apply Rle_refl|]; split; [easy|now left]|].
    rewrite !nofnat_R. cbn [nlt nsub nadd nmul ndiv RNum num]. fold (decr rows parent f t).
    destruct (Rltb_spec (snd st) (decr rows parent f t)) as [Hlt|Hge]; cbn [snd].
    - split; [now left|]. split; [intros _; apply Rle_refl|]. right. auto.
    - split; [apply Rle_refl|]. split; [auto|now left].
  Qed.
  Definition good rows parent (st : option nat * R * R) : Prop :=
    (fst (fst st) = None /\ snd st = 0)
    \/ exists f t, st = (Some f, t, decr rows parent f t) /\ (f < nf)%nat /\ 0 < decr rows parent f t /\ adm rows f t.
  Lemma try_good rows parent f t st : (f < nf)%nat -> good rows parent st ->
    good rows parent (@try_threshold RNum Rlog2 o k rows parent f t st).
  Proof.
    intros Hf H. destruct (try_threshold_R rows parent f t st) as [st' [-> [Hle [_ [->|[-> [Ha Hlt]]]]]]]; [exact H|].
    right. exists f, t. split; [reflexivity|]. split; [exact Hf|]. split; [|exact Ha].
    destruct H as [[_ H0]|[f1 [t1 [-> [_ [H1 _]]]]]]; [rewrite H0 in Hlt; exact Hlt|cbn [snd] in Hlt; lra].
  Qed.
  Lemma try_values_R rows parent f vs : forall st : option nat * R * R,
    let st' := @try_values RNum Rlog2 o k rows parent f vs st in
    snd st <= snd st' /\ forall a b, consec vs a b -> a <> b -> adm rows f ((a + b) / 2) -> decr rows parent f ((a + b) / 2) <= snd st'.
  Proof.
    induction vs as [|a [|b r] IH]; intros st; cbn zeta; [cbn [try_values]..|].
    - split; [apply Rle_refl|]. intros a b [[|? l1] [l2 E]]; discriminate.
    - split; [apply Rle_refl|]. intros a' b' [[|? [|? l1]] [l2 E]]; discriminate.
    - change (@try_values RNum Rlog2 o k rows parent f (a :: b :: r) st) with
        (@try_values RNum Rlog2 o k rows parent f (b :: r)
          (if neqb a b then st else @try_threshold RNum Rlog2 o k rows parent f ((a + b) / nlit 2 1)%num st)).
      set (st1 := if neqb a b then st else @try_threshold RNum Rlog2 o k rows parent f ((a + b) / nlit 2 1)%num st). destruct (IH st1) as [H1 H2].
      assert (Hst : snd st <= snd st1 /\ (a <> b -> adm rows f ((a + b) / 2) -> decr rows parent f ((a + b) / 2) <= snd st1)).
      { unfold st1. cbn [neqb RNum]. destruct (Reqb_spec a b) as [E|E]; [split; [apply Rle_refl|contradiction]|].
        assert (E2 : @ndiv RNum (@nadd RNum a b) (nlit 2 1) = (a + b) / 2) by (cbn; lra). rewrite E2.
        destruct (try_threshold_R rows parent f ((a + b) / 2) st) as [st2 [-> [G1 [G2 _]]]]. auto. }
      match goal with |- context [try_values _ _ _ _ _ _ (b :: r) ?z] => change z with st1 end.
      clearbody st1. destruct Hst as [Hst1 Hst2]. split; [eapply Rle_trans; eassumption|].
      intros a' b' [l1 [l2 E]] Hne Ha. destruct l1 as [|x l1].
      + injection E as <- <- _. specialize (Hst2 Hne Ha). eapply Rle_trans; eassumption.
      + injection E as _ E. apply H2; auto. now exists l1, l2.
  Qed.
  (** The state found by findBestSplit. *)
  Lemma best_split_R rows parent : let st := @best_split RNum Rlog2 sortv o k nf rows parent in
    good rows parent st /\ forall f t, (f < nf)%nat -> adm rows f t ->
      @lrows RNum f t rows <> [] -> @rrows RNum f t rows <> [] -> decr rows parent f t <= snd st.
  Proof.
    cbn zeta. split.
    { apply best_split_inv; [left; auto|]. intros. now apply try_good. }
    unfold best_split.
    assert (Hmono : forall fs st, snd st <= snd (fold_left (fun st f => @try_values RNum Rlog2 o k rows parent f (sortv (map (cell f) rows)) st) fs st)).
    { induction fs as [|f fs IH]; intros st; cbn [fold_left]; [apply Rle_refl|].
      destruct (try_values_R rows parent f (sortv (map (cell f) rows)) st) as [H _].
      specialize (IH (@try_values RNum Rlog2 o k rows parent f (sortv (map (cell f) rows)) st)). cbn zeta in H. eapply Rle_trans; eassumption. }
    intros f t Hf Ha HL HR.
    assert (G : forall fs st, In f fs -> decr rows parent f t <=
      snd (fold_left (fun st f => @try_values RNum Rlog2 o k rows parent f (sortv (map (cell f) rows)) st) fs st)).
    2:{ apply G. apply in_seq. lia. }
    induction fs as [|g fs IH]; intros st Hin; [easy|]. cbn [fold_left]. destruct Hin as [->|Hin]; [|now apply IH].
    destruct (try_values_R rows parent f (sortv (map (cell f) rows)) st) as [_ Hc]. cbn zeta in Hc.
    destruct (Hsort (map (@cell RNum f) rows)) as [Hp Ho].
    destruct (midpoint_exists (sortv (map (@cell RNum f) rows)) t Ho) as [a [b [H1 [H2 H3]]]].
    { destruct (@lrows RNum f t rows) as [|r l] eqn:E; [congruence|].
      assert (Hr : In r (@lrows RNum f t rows)) by (rewrite E; now left). apply filter_In in Hr. destruct Hr as [Hr Hl].
      exists (@cell RNum f r). split; [eapply Permutation_in; [exact Hp|now apply in_map]|]. unfold is_left in Hl. cbn in Hl. now apply Rleb_true in Hl. }
    { destruct (@rrows RNum f t rows) as [|r l] eqn:E; [congruence|].
      assert (Hr : In r (@rrows RNum f t rows)) by (rewrite E; now left). apply filter_In in Hr. destruct Hr as [Hr Hl].
      exists (@cell RNum f r). split; [eapply Permutation_in; [exact Hp|now apply in_map]|].
      apply negb_true_iff in Hl. unfold is_left in Hl. cbn in Hl. now apply Rleb_false in Hl. }
    assert (Eleft : forall r, In r rows -> @is_left RNum f ((a + b) / 2) r = @is_left RNum f t r).
    { intros r Hr. assert (Hi : In (@cell RNum f r) (sortv (map (@cell RNum f) rows))) by (eapply Permutation_in; [exact Hp|now apply in_map]).
      specialize (H3 _ Hi). unfold is_left. cbn [nle RNum].
      destruct (Rleb_spec (@cell RNum f r) ((a + b) / 2)), (Rleb_spec (@cell RNum f r) t); try reflexivity; exfalso; unR; tauto || lra. }
    assert (EL : @lrows RNum f ((a + b) / 2) rows = @lrows RNum f t rows) by (apply filter_ext_in; exact Eleft).
    assert (ER : @rrows RNum f ((a + b) / 2) rows = @rrows RNum f t rows).
    { apply filter_ext_in. intros r Hr. now rewrite Eleft. }
    assert (Ed : decr rows parent f ((a + b) / 2) = decr rows parent f t) by (unfold decr; now rewrite EL, ER).
    specialize (Hc a b H1 H2). rewrite Ed in Hc. unfold adm in Hc, Ha. rewrite EL, ER in Hc. specialize (Hc Ha).
    eapply Rle_trans; [exact Hc|]. apply Hmono.
  Qed.
End Best.

(** ** In terms of labelled samples *)
Lemma indexed_left classes nf f (t : R) (S : list (tsample RNum Z)) : rows_ok (N := RNum) nf S -> (f < nf)%nat ->
  @lrows RNum f t (indexed classes S) = indexed classes (@left_of RNum Z f t S).
Proof.
  intros H Hf. unfold lrows, left_of, indexed. induction S as [|s S IH]; [reflexivity|].
  cbn [map filter]. rewrite IH by (intros z Hz; apply H; now right).
  assert (E : @is_left RNum f t (fst s, label_index classes (snd s)) = @goes_left RNum Z f t s).
  { unfold is_left, cell, goes_left. cbn [fst]. rewrite (nth_error_nth' (fst s) (@n0 RNum)); [reflexivity|].
    rewrite (H s (or_introl eq_refl)). exact Hf. }
  rewrite E. destruct (@goes_left RNum Z f t s); reflexivity.
Qed.
Lemma indexed_right classes nf f (t : R) (S : list (tsample RNum Z)) : rows_ok (N := RNum) nf S -> (f < nf)%nat ->
  @rrows RNum f t (indexed classes S) = indexed classes (@right_of RNum Z f t S).
Proof.
  intros H Hf. unfold rrows, right_of, indexed. induction S as [|s S IH]; [reflexivity|].
  cbn [map filter]. rewrite IH by (intros z Hz; apply H; now right).
  assert (E : @is_left RNum f t (fst s, label_index classes (snd s)) = @goes_left RNum Z f t s).
  { unfold is_left, cell, goes_left. cbn [fst]. rewrite (nth_error_nth' (fst s) (@n0 RNum)); [reflexivity|].
    rewrite (H s (or_introl eq_refl)). exact Hf. }
  rewrite E. destruct (@goes_left RNum Z f t s); reflexivity.
Qed.
Lemma labelled_left classes f (t : R) (S : list (tsample RNum Z)) : labelled classes S -> labelled classes (@left_of RNum Z f t S).
Proof. intros H s Hs. apply filter_In in Hs. now apply H. Qed.
Lemma labelled_right classes f (t : R) (S : list (tsample RNum Z)) : labelled classes S -> labelled classes (@right_of RNum Z f t S).
Proof. intros H s Hs. apply filter_In in Hs. now apply H. Qed.
Lemma weighted_imp (o : topts RNum) classes (S : list (tsample RNum Z)) : NoDup classes -> labelled classes S ->
  INR (List.length (indexed classes S)) * @impurity RNum Rlog2 o (class_counts (List.length classes) (indexed classes S))
  = INR (List.length S) * crit o S.
Proof.
  intros Hnd Hl. rewrite indexed_length. destruct S as [|s S]; [cbn [List.length INR]; lra|].
  rewrite counts_occurs by assumption. now rewrite (impurity_R o (s :: S) classes Hnd Hl).
Qed.
Lemma div_gain (a n c : R) : n <> 0 -> a - c / n = (n * a - c) / n.
Proof. intros. now field. Qed.
Lemma decr_gain (o : topts RNum) classes nf f (t : R) (S : list (tsample RNum Z)) : NoDup classes -> labelled classes S ->
  rows_ok (N := RNum) nf S -> (f < nf)%nat -> S <> [] ->
  decr o (List.length classes) (indexed classes S)
     (@impurity RNum Rlog2 o (class_counts (List.length classes) (indexed classes S))) f t
  = gain (crit o) S f t / INR (List.length S).
Proof.
  intros Hnd Hl Hr Hf Hne. unfold decr. rewrite (indexed_left _ nf), (indexed_right _ nf) by assumption.
  rewrite !weighted_imp by auto using labelled_left, labelled_right.
  rewrite indexed_length. rewrite counts_occurs, impurity_R by assumption. unfold gain, split_cost.
  assert (0 < INR (List.length S)) by (apply lt_0_INR; destruct S; [congruence|cbn; lia]).
  apply (div_gain (crit o S)). lra.
Qed.
Lemma gain_trivial (o : topts RNum) f (t : R) (S : list (tsample RNum Z)) :
  @left_of RNum Z f t S = [] \/ @right_of RNum Z f t S = [] -> gain (crit o) S f t = 0.
Proof.
  assert (A : forall (p : tsample RNum Z -> bool) l, filter p l = [] -> filter (fun x => negb (p x)) l = l).
  { intros p l. induction l as [|a l IH]; [reflexivity|]. cbn [filter]. destruct (p a); [discriminate|]. cbn [negb].
    intros H. now rewrite IH. }
  assert (B : forall (p : tsample RNum Z -> bool) l, filter (fun x => negb (p x)) l = [] -> filter p l = l).
  { intros p l. induction l as [|a l IH]; [reflexivity|]. cbn [filter]. destruct (p a); cbn [negb]; [|discriminate].
    intros H. now rewrite IH. }
  unfold gain, split_cost, left_of, right_of. intros [H|H].
  - rewrite H, (A _ _ H). assert (E : forall a b c : R, a * b - (0 * c + a * b) = 0) by (intros; lra). apply E.
  - rewrite H, (B _ _ H). assert (E : forall a b c : R, a * b - (a * b + 0 * c) = 0) by (intros; lra). apply E.
Qed.

(** Importances accumulated while building. *)
Lemma build_imps (sortv : list R -> list R) (o : topts RNum) classes nf fuel : NoDup classes ->
  go_sort Rltb sortv -> forall (S : list (tsample RNum Z)) depth (imps : list R) t imps',
  labelled classes S -> rows_ok (N := RNum) nf S -> S <> [] ->
  @build RNum Rlog2 sortv fuel o (List.length classes) nf (indexed classes S) depth imps = Some (Ok (t, imps')) ->
  imps' = mapi (fun f v => v + total_gain (crit o) t S f) imps
  /\ (forall f, 0 <= total_gain (crit o) t S f) /\ (forall f, (nf <= f)%nat -> total_gain (crit o) t S f = 0)
  /\ match t with Leaf _ => True | Split _ f _ _ _ => 0 < total_gain (crit o) t S f end.
Proof.
  intros Hnd Hsort. induction fuel as [|fuel IH]; intros S depth imps t imps' Hl Hr Hne H; [discriminate|].
  assert (Hleaf : imps = mapi (fun f v => v + 0) imps).
  { apply nth_error_ext. intros i. unfold mapi. rewrite nth_error_mapi_from. destruct (nth_error imps i); [|reflexivity]. cbn. f_equal. unR. lra. }
  cbn [build] in H. fold (@rinfo RNum Rlog2 o (List.length classes) (indexed classes S) depth) in H.
  destruct (should_stop o (List.length (indexed classes S)) (i_imp (@rinfo RNum Rlog2 o (List.length classes) (indexed classes S) depth)) depth).
  { injection H as <- <-. cbn [total_gain]. split; [exact Hleaf|]. split; [intros; lra|]. split; [reflexivity|exact I]. }
  destruct (best_split_R sortv o (List.length classes) nf Hsort (indexed classes S)
     (i_imp (@rinfo RNum Rlog2 o (List.length classes) (indexed classes S) depth))) as [Hg _].
  destruct (@best_split RNum Rlog2 sortv o (List.length classes) nf (indexed classes S) (i_imp (@rinfo RNum Rlog2 o (List.length classes) (indexed classes S) depth))) as [[[f|] thr] dec] eqn:Eb.
  2:{ injection H as <- <-. cbn [total_gain]. split; [exact Hleaf|]. split; [intros; lra|]. split; [reflexivity|exact I]. }
  destruct (nlt dec (p_mindec o)).
  { injection H as <- <-. cbn [total_gain]. split; [exact Hleaf|]. split; [intros; lra|]. split; [reflexivity|exact I]. }
  destruct Hg as [[Hg _]|[f1 [t1 [E1 [Hf [Hpos Hadm]]]]]]; [discriminate|]. injection E1 as -> -> ->.
  fold (@lrows RNum f1 t1 (indexed classes S)) (@rrows RNum f1 t1 (indexed classes S)) in H.
  fold (small o (@lrows RNum f1 t1 (indexed classes S))) (small o (@rrows RNum f1 t1 (indexed classes S))) in H.
  destruct Hadm as [Ha1 Ha2]. rewrite Ha1, Ha2 in H. cbn [orb] in H.
  assert (Hd := decr_gain o classes nf f1 t1 S Hnd Hl Hr Hf Hne).
  change (i_imp (@rinfo RNum Rlog2 o (List.length classes) (indexed classes S) depth)) with
    (@impurity RNum Rlog2 o (class_counts (List.length classes) (indexed classes S))) in *.
  rewrite Hd in Hpos, H. rewrite (indexed_left _ nf), (indexed_right _ nf) in H by assumption.
  assert (Hp : 0 < INR (List.length S)) by (apply lt_0_INR; destruct S; [congruence|cbn; lia]).
  assert (Hgain : 0 < gain (crit o) S f1 t1).
  { apply Rmult_lt_compat_r with (r := INR (List.length S)) in Hpos; [|exact Hp]. unfold Rdiv in Hpos. rewrite Rmult_assoc, Rinv_l in Hpos; lra. }
  assert (HL0 : @left_of RNum Z f1 t1 S <> []) by (intros E; rewrite (gain_trivial o) in Hgain; [lra|now left]).
  assert (HR0 : @right_of RNum Z f1 t1 S <> []) by (intros E; rewrite (gain_trivial o) in Hgain; [lra|now right]).
  rewrite !indexed_length in H. unfold newdense in H.
  destruct (Nat.eqb_spec (List.length (@left_of RNum Z f1 t1 S)) 0) as [E|_]; [apply length_zero_iff_nil in E; contradiction|].
  destruct (Nat.eqb_spec (List.length (@right_of RNum Z f1 t1 S)) 0) as [E|_]; [apply length_zero_iff_nil in E; contradiction|].
  destruct (Nat.eqb_spec nf 0); [lia|]. cbn [orb] in H.
  match type of H with context [upd f1 ?g imps] => set (imps1 := upd f1 g imps) in H end.
  destruct (@build RNum Rlog2 sortv fuel o (List.length classes) nf (indexed classes (@left_of RNum Z f1 t1 S)) (Datatypes.S depth) imps1) as [[[lt imps2]|?|]|] eqn:EL; try discriminate.
  destruct (@build RNum Rlog2 sortv fuel o (List.length classes) nf (indexed classes (@right_of RNum Z f1 t1 S)) (Datatypes.S depth) imps2) as [[[rt imps3]|?|]|] eqn:ER; try discriminate.
  injection H as <- <-.
  destruct (IH _ _ _ _ _ (labelled_left _ _ _ _ Hl) (rows_ok_left _ _ _ _ Hr) HL0 EL) as [I1 [I2 [I3 _]]].
  destruct (IH _ _ _ _ _ (labelled_right _ _ _ _ Hl) (rows_ok_right _ _ _ _ Hr) HR0 ER) as [J1 [J2 [J3 _]]].
  cbn [total_gain]. split; [|split; [|split]].
  - rewrite J1, I1. unfold imps1. apply nth_error_ext. intros i. unfold mapi. rewrite !nth_error_mapi_from. cbn [Nat.add].
    destruct (Nat.eqb_spec f1 i) as [->|Hne'].
    + rewrite nth_error_upd_same. destruct (nth_error imps i) as [v|]; [|reflexivity]. cbn [option_map]. f_equal.
      rewrite nofnat_R. cbn [nadd nmul RNum]. unfold Rdiv. rewrite Rmult_assoc, Rinv_l by lra. unR. lra.
    + rewrite nth_error_upd_other by congruence. destruct (nth_error imps i) as [v|]; [|reflexivity]. cbn [option_map]. f_equal. unR. lra.
  - intros f. specialize (I2 f). specialize (J2 f). destruct (Nat.eqb f1 f); lra.
  - intros f Hf'. rewrite (I3 f Hf'), (J3 f Hf'). destruct (Nat.eqb_spec f1 f); [lia|lra].
  - rewrite Nat.eqb_refl. specialize (I2 f1). specialize (J2 f1). lra.
Qed.
