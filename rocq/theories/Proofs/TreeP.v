(** Proofs about decision trees. *)
From Coq Require Import String List Arith ZArith Bool Lia Permutation.
From Verif Require Import Base.Num Base.GoRes Base.Mat Base.ListX Base.GoSort Model.NaiveBayes Model.Tree Spec.Tree.
Import ListNotations.
Local Open Scope list_scope.

Lemma mapM_Forall2 {A B} (P : A -> B -> Prop) (f : A -> res B) l :
  (forall x, In x l -> exists y, f x = Ok y /\ P x y) -> exists ys, mapM f l = Ok ys /\ Forall2 P l ys.
Proof.
  induction l as [|a l IH]; intros H; [exists []; split; [reflexivity|constructor]|].
  destruct (H a (or_introl eq_refl)) as [b [Eb Pb]]. destruct IH as [ys [E F]]; [intros; apply H; now right|].
  exists (b :: ys). cbn [mapM]. rewrite Eb, E. split; [reflexivity|now constructor].
Qed.

(** ** Counting *)
Definition ncount {B} (rows : list (B * nat)) (c : nat) : nat := List.length (filter (fun r => Nat.eqb (snd r) c) rows).

Lemma class_counts_fold {N : Num} (rows : list (trow N)) cs :
  fold_left (fun cs r => upd (snd r) S cs) rows cs
  = mapi (fun c v => v + ncount rows c) cs.
Proof.
  revert cs. induction rows as [|r rows IH]; intros cs; cbn [fold_left].
  - apply nth_error_ext. intros i. unfold mapi. rewrite nth_error_mapi_from. destruct (nth_error cs i); [|reflexivity].
    unfold ncount; cbn. now rewrite Nat.add_0_r.
  - rewrite IH. apply nth_error_ext. intros i. unfold mapi. rewrite !nth_error_mapi_from. cbn [Nat.add].
    unfold ncount. cbn [filter]. destruct (Nat.eqb_spec (snd r) i) as [->|Hne].
    + rewrite nth_error_upd_same. destruct (nth_error cs i); [|reflexivity]. cbn. f_equal. lia.
    + rewrite nth_error_upd_other by congruence. reflexivity.
Qed.
Lemma class_counts_spec {N : Num} k (rows : list (trow N)) :
  class_counts k rows = map (ncount rows) (seq 0 k).
Proof.
  unfold class_counts. rewrite class_counts_fold. apply nth_error_ext. intros i.
  unfold mapi. rewrite nth_error_mapi_from. cbn [Nat.add].
  destruct (lt_dec i k) as [H|H].
  - rewrite nth_error_repeat by assumption. cbn.
    rewrite nth_error_map. rewrite (nth_error_nth' _ 0) by (rewrite seq_length; lia). rewrite seq_nth by lia. reflexivity.
  - rewrite (proj2 (nth_error_None (repeat 0 k) i)) by (rewrite repeat_length; lia).
    rewrite (proj2 (nth_error_None (map (ncount rows) (seq 0 k)) i)) by (rewrite map_length, seq_length; lia). reflexivity.
Qed.
Lemma class_counts_length {N : Num} k (rows : list (trow N)) : List.length (class_counts k rows) = k.
Proof. now rewrite class_counts_spec, map_length, seq_length. Qed.

Lemma total_sum cs a : fold_left Nat.add cs a = a + total cs.
Proof.
  unfold total. revert a. induction cs as [|c cs IH]; intros a; cbn; [lia|]. rewrite (IH (a + c)), (IH c). lia.
Qed.
Lemma total_cons c cs : total (c :: cs) = c + total cs.
Proof. unfold total. cbn. now rewrite total_sum. Qed.
Lemma total_counts {B} (rows : list (B * nat)) k :
  (forall r, In r rows -> snd r < k) -> total (map (ncount rows) (seq 0 k)) = List.length rows.
Proof.
  intros H.
  assert (G : forall m s, total (map (ncount rows) (seq s m))
     = List.length (filter (fun r => Nat.leb s (snd r) && Nat.ltb (snd r) (s + m)) rows)).
  { induction m as [|m IH]; intros s.
    - cbn [seq map]. change (total []) with 0. induction rows as [|r l IHl]; [reflexivity|]. cbn [filter].
      assert (E : Nat.leb s (snd r) && Nat.ltb (snd r) (s + 0) = false).
      { destruct (Nat.leb_spec s (snd r)), (Nat.ltb_spec (snd r) (s + 0)); try reflexivity; lia. }
      rewrite E. apply IHl. intros; apply H; now right.
    - cbn [seq map]. rewrite total_cons, IH. clear IH. unfold ncount. clear H.
      induction rows as [|r l IHl]; [reflexivity|]. cbn [filter].
      destruct (Nat.eqb_spec (snd r) s), (Nat.leb_spec (S s) (snd r)), (Nat.ltb_spec (snd r) (S s + m)),
        (Nat.leb_spec s (snd r)), (Nat.ltb_spec (snd r) (s + S m)); cbn [andb List.length]; lia. }
  rewrite G. clear G. f_equal. induction rows as [|r l IHl]; [reflexivity|]. cbn [filter].
  destruct (Nat.ltb_spec (snd r) (0 + k)) as [|Hc]; [|specialize (H r (or_introl eq_refl)); lia].
  cbn. f_equal. apply IHl; intros; apply H; now right.
Qed.

(** ** Majority *)
Lemma majority_from_spec i cs mx at_ :
  (forall j c, nth_error cs j = Some c -> c <= mx) /\ majority_from i cs mx at_ = at_
  \/ exists j c, nth_error cs j = Some c /\ mx < c /\ majority_from i cs mx at_ = i + j
     /\ (forall j' c', nth_error cs j' = Some c' -> c' <= c /\ (j' < j -> c' < c)).
Proof.
  revert i mx at_. induction cs as [|c cs IH]; intros i mx at_; cbn [majority_from].
  - left. split; [|reflexivity]. intros [|j] c; discriminate.
  - destruct (Nat.ltb_spec mx c) as [H|H].
    + right. destruct (IH (S i) c i) as [[Hle E]|[j [d [E1 [E2 [E3 E4]]]]]].
      * exists 0, c. rewrite E. split; [reflexivity|]. split; [lia|]. split; [lia|].
        intros [|j'] c' E'; cbn in E'; [injection E' as <-; split; [lia|lia]|]. split; [eauto|lia].
      * exists (S j), d. split; [exact E1|]. split; [lia|]. split; [rewrite E3; lia|].
        intros [|j'] c' E'; cbn in E'; [injection E' as <-; split; lia|].
        destruct (E4 _ _ E'). split; [assumption|]. intros; auto with arith.
    + destruct (IH (S i) mx at_) as [[Hle E]|[j [d [E1 [E2 [E3 E4]]]]]].
      * left. split; [|exact E]. intros [|j] c' E'; cbn in E'; [injection E' as <-; lia|eauto].
      * right. exists (S j), d. split; [exact E1|]. split; [lia|]. split; [rewrite E3; lia|].
        intros [|j'] c' E'; cbn in E'; [injection E' as <-; split; lia|].
        destruct (E4 _ _ E'). split; [assumption|]. intros; auto with arith.
Qed.
Lemma majority_spec cs : 0 < total cs ->
  exists c, nth_error cs (majority cs) = Some c /\ 0 < c
   /\ (forall j' c', nth_error cs j' = Some c' -> c' <= c /\ (j' < majority cs -> c' < c)).
Proof.
  intros H. unfold majority. destruct (majority_from_spec 0 cs 0 0) as [[Hle _]|[j [c [E1 [E2 [E3 E4]]]]]].
  - exfalso. revert H. clear - Hle. induction cs as [|c cs IH]; [cbn; lia|]. rewrite total_cons.
    intros H. apply IH; [intros j c' E; exact (Hle (S j) c' E)|]. specialize (Hle 0 c eq_refl). lia.
  - rewrite E3. cbn. exists c. auto.
Qed.

Section Grow.
  Context {N : Num} (log2 : N -> N) (sortv : list N -> list N) (o : topts N) (k nf : nat).

  Definition rinfo (rows : list (trow N)) (depth : nat) : ninfo N :=
    let cs := class_counts k rows in
    mkinfo cs (majority cs) (impurity log2 o cs) (List.length rows) depth.
  Definition lrows f t (rows : list (trow N)) := filter (is_left f t) rows.
  Definition rrows f t (rows : list (trow N)) := filter (fun r => negb (is_left f t r)) rows.
  Definition small (rows : list (trow N)) : bool := (Z.of_nat (List.length rows) <? p_minleaf o)%Z.

  (** What a tree built from [rows] at [depth] looks like. *)
  Fixpoint shape (rows : list (trow N)) (depth : nat) (t : tree N) : Prop :=
    let i := rinfo rows depth in
    match t with
    | Leaf j => j = i /\
        (should_stop o (List.length rows) (i_imp i) depth = true
         \/ exists bf thr dec, best_split log2 sortv o k nf rows (i_imp i) = (bf, thr, dec)
             /\ (bf = None \/ nlt dec (p_mindec o) = true))
    | Split j f thr l r => j = i /\ should_stop o (List.length rows) (i_imp i) depth = false
        /\ (exists dec, best_split log2 sortv o k nf rows (i_imp i) = (Some f, thr, dec) /\ nlt dec (p_mindec o) = false)
        /\ f < nf /\ small (lrows f thr rows) = false /\ small (rrows f thr rows) = false
        /\ lrows f thr rows <> [] /\ rrows f thr rows <> []
        /\ shape (lrows f thr rows) (S depth) l /\ shape (rrows f thr rows) (S depth) r
    end.

  Lemma try_threshold_cases rows parent f t st :
    try_threshold log2 o k rows parent f t st = st
    \/ exists dec, try_threshold log2 o k rows parent f t st = (Some f, t, dec)
       /\ small (lrows f t rows) = false /\ small (rrows f t rows) = false /\ nlt (snd st) dec = true.
  Proof.
    unfold try_threshold, small, lrows, rrows.
    destruct (Z.of_nat (List.length (filter (is_left f t) rows)) <? p_minleaf o)%Z; [now left|].
    destruct (Z.of_nat (List.length (filter (fun r => negb (is_left f t r)) rows)) <? p_minleaf o)%Z; [now left|].
    cbn [orb]. match goal with |- context [if ?e then _ else _] => destruct e eqn:E end; [|now left].
    right. eexists. eauto.
  Qed.
  Lemma try_values_inv (P : bstate -> Prop) rows parent f vs st :
    P st -> (forall t st', P st' -> P (try_threshold log2 o k rows parent f t st')) ->
    P (try_values log2 o k rows parent f vs st).
  Proof.
    intros H0 H. revert st H0. induction vs as [|a [|b r] IH]; intros st H0; cbn [try_values]; auto.
    apply IH. destruct (neqb a b); auto.
  Qed.
  Lemma best_split_inv (P : bstate -> Prop) rows parent :
    P (None, n0, n0) -> (forall f t st', f < nf -> P st' -> P (try_threshold log2 o k rows parent f t st')) ->
    P (best_split log2 sortv o k nf rows parent).
  Proof.
    intros H0 H. unfold best_split.
    assert (G : forall fs, (forall f, In f fs -> f < nf) -> forall st, P st ->
      P (fold_left (fun st f => try_values log2 o k rows parent f (sortv (map (cell f) rows)) st) fs st)).
    { induction fs as [|f fs IH]; intros Hf st Hst; cbn [fold_left]; [exact Hst|].
      apply IH; [intros; apply Hf; now right|]. apply try_values_inv; [exact Hst|].
      intros. apply H; [apply Hf; now left|assumption]. }
    apply G; [|exact H0]. intros f Hf. apply in_seq in Hf. lia.
  Qed.
  Lemma best_split_some rows parent f t dec :
    best_split log2 sortv o k nf rows parent = (Some f, t, dec) ->
    f < nf /\ small (lrows f t rows) = false /\ small (rrows f t rows) = false.
  Proof.
    pose (P := fun st : bstate => forall f t dec, st = (Some f, t, dec) ->
      f < nf /\ small (lrows f t rows) = false /\ small (rrows f t rows) = false).
    intros E. assert (HP : P (best_split log2 sortv o k nf rows parent)); [|exact (HP f t dec E)].
    apply best_split_inv; unfold P; [intros; discriminate|].
    intros f' t' st Hf' IH f1 t1 d1. destruct (try_threshold_cases rows parent f' t' st) as [->|[d [-> [H1 [H2 _]]]]]; [apply IH|].
    intros E1. injection E1 as <- <- <-. auto.
  Qed.

  Lemma build_shape fuel : forall rows depth imps t imps',
    build log2 sortv fuel o k nf rows depth imps = Some (Ok (t, imps')) -> shape rows depth t.
  Proof.
    induction fuel as [|fuel IH]; intros rows depth imps t imps' H; [discriminate|].
    cbn [build] in H. fold (rinfo rows depth) in H.
    destruct (should_stop o (List.length rows) (i_imp (rinfo rows depth)) depth) eqn:Es.
    { injection H as <- _. cbn [shape]. split; [reflexivity|]. now left. }
    destruct (best_split log2 sortv o k nf rows (i_imp (rinfo rows depth))) as [[[f|] thr] dec] eqn:Eb.
    2:{ injection H as <- _. cbn [shape]. split; [reflexivity|]. right. eauto 6. }
    destruct (nlt dec (p_mindec o)) eqn:Ed.
    { injection H as <- _. cbn [shape]. split; [reflexivity|]. right. eauto 6. }
    destruct (best_split_some _ _ _ _ _ Eb) as [Hf [HL HR]].
    fold (lrows f thr rows) (rrows f thr rows) in H. fold (small (lrows f thr rows)) (small (rrows f thr rows)) in H.
    rewrite HL, HR in H. cbn [orb] in H.
    unfold newdense in H.
    destruct (Nat.eqb_spec (List.length (lrows f thr rows)) 0) as [|HL0]; [discriminate|].
    destruct (Nat.eqb_spec (List.length (rrows f thr rows)) 0) as [|HR0];
      [cbn [orb] in H; destruct (Nat.eqb nf 0); discriminate|].
    cbn [orb] in H. destruct (Nat.eqb nf 0); [discriminate|].
    destruct (build log2 sortv fuel o k nf (lrows f thr rows) (S depth) _) as [[[lt imps2]|?|]|] eqn:EL; try discriminate.
    destruct (build log2 sortv fuel o k nf (rrows f thr rows) (S depth) imps2) as [[[rt imps3]|?|]|] eqn:ER; try discriminate.
    injection H as <- _. cbn [shape]. split; [reflexivity|]. split; [exact Es|]. split; [eauto|].
    split; [exact Hf|]. split; [exact HL|]. split; [exact HR|]. split; [intros E0; apply HL0; now rewrite E0|]. split; [intros E0; apply HR0; now rewrite E0|]. eauto.
  Qed.

  Lemma rrows_length f t rows : List.length (lrows f t rows) + List.length (rrows f t rows) = List.length rows.
  Proof.
    unfold lrows, rrows. induction rows as [|r l IH]; [reflexivity|]. cbn [filter].
    destruct (is_left f t r); cbn [negb List.length]; lia.
  Qed.
  (** Enough fuel: the recursion ends by itself. *)
  Lemma build_some fuel : forall rows depth imps, List.length rows < fuel ->
    exists r, build log2 sortv fuel o k nf rows depth imps = Some r
     /\ ((1 <= p_minleaf o)%Z -> exists t imps', r = Ok (t, imps')).
  Proof.
    induction fuel as [|fuel IH]; intros rows depth imps Hl; [lia|].
    cbn [build]. fold (rinfo rows depth).
    destruct (should_stop o (List.length rows) (i_imp (rinfo rows depth)) depth) eqn:Es; [eauto 6|].
    destruct (best_split log2 sortv o k nf rows (i_imp (rinfo rows depth))) as [[[f|] thr] dec] eqn:Eb; [|eauto 6].
    destruct (nlt dec (p_mindec o)) eqn:Ed; [eauto 6|].
    destruct (best_split_some _ _ _ _ _ Eb) as [Hf [HL HR]].
    fold (lrows f thr rows) (rrows f thr rows). fold (small (lrows f thr rows)) (small (rrows f thr rows)).
    rewrite HL, HR. cbn [orb]. pose proof (rrows_length f thr rows) as Hsum. unfold newdense.
    destruct (Nat.eqb_spec (List.length (lrows f thr rows)) 0) as [HL0|HL0].
    { cbn [orb]. eexists. split; [reflexivity|]. intros Hm. unfold small in HL. rewrite HL0 in HL. apply Z.ltb_ge in HL. lia. }
    destruct (Nat.eqb_spec (List.length (rrows f thr rows)) 0) as [HR0|HR0].
    { cbn [orb]. destruct (Nat.eqb_spec nf 0); (eexists; split; [reflexivity|]; intros Hm; unfold small in HR; rewrite HR0 in HR; apply Z.ltb_ge in HR; lia). }
    cbn [orb]. destruct (Nat.eqb_spec nf 0); [lia|].
    destruct (IH (lrows f thr rows) (S depth) (upd f (fun v => nadd v (nmul dec (nofnat (List.length rows)))) imps)) as [r1 [-> G1]]; [lia|].
    destruct r1 as [[lt imps2]|e|].
    - destruct (IH (rrows f thr rows) (S depth) imps2) as [r2 [-> G2]]; [lia|].
      destruct r2 as [[rt imps3]|e|]; eexists; (split; [reflexivity|]); intros Hm; eauto.
      destruct (G2 Hm) as [? [? ?]]; discriminate.
    - eexists. split; [reflexivity|]. intros Hm. destruct (G1 Hm) as [? [? ?]]; discriminate.
    - eexists. split; [reflexivity|]. intros Hm. destruct (G1 Hm) as [? [? ?]]; discriminate.
  Qed.
End Grow.

(** ** Regions *)
Lemma region_map {N : Num} {A B} (g : A -> B) (t : tree N) S d sub S' d' :
  region t S d sub S' d' ->
  region t (map (fun s => (fst s, g (snd s))) S) d sub (map (fun s => (fst s, g (snd s))) S') d'.
Proof.
  assert (F : forall (p : list N -> bool) (l : list (tsample N A)),
    filter (fun s => p (fst s)) (map (fun s => (fst s, g (snd s))) l)
    = map (fun s => (fst s, g (snd s))) (filter (fun s => p (fst s)) l)).
  { intros p l. induction l as [|s l IH]; [reflexivity|]. cbn. rewrite IH. destruct (p (fst s)); reflexivity. }
  induction 1 as [|i f thr l r S d sub S' d' _ IH|i f thr l r S d sub S' d' _ IH].
  - constructor.
  - apply region_left. unfold left_of in *.
    change (goes_left (A := B) f thr) with (fun s : tsample N B => (fun x => match nth_error x f with Some v => nle v thr | None => false end) (fst s)).
    now rewrite F.
  - apply region_right. unfold right_of in *.
    change (fun s => negb (goes_left (A := B) f thr s)) with (fun s : tsample N B => (fun x => negb (match nth_error x f with Some v => nle v thr | None => false end)) (fst s)).
    now rewrite F.
Qed.

Definition rows_ok {N : Num} {A} (nf : nat) (S : list (tsample N A)) : Prop := forall s, In s S -> List.length (fst s) = nf.
Lemma left_rows {N : Num} nf f thr (S : list (trow N)) : rows_ok nf S -> f < nf -> left_of f thr S = lrows f thr S.
Proof.
  intros H Hf. unfold left_of, lrows. apply filter_ext_in. intros s Hs. unfold goes_left, is_left, cell.
  rewrite (nth_error_nth' _ n0); [reflexivity|]. rewrite (H s Hs). exact Hf.
Qed.
Lemma right_rows {N : Num} nf f thr (S : list (trow N)) : rows_ok nf S -> f < nf -> right_of f thr S = rrows f thr S.
Proof.
  intros H Hf. unfold right_of, rrows. apply filter_ext_in. intros s Hs. unfold goes_left, is_left, cell.
  rewrite (nth_error_nth' _ n0); [reflexivity|]. rewrite (H s Hs). exact Hf.
Qed.
Lemma rows_ok_left {N : Num} {A} nf f thr (S : list (tsample N A)) : rows_ok nf S -> rows_ok nf (left_of f thr S).
Proof. intros H s Hs. apply filter_In in Hs. now apply H. Qed.
Lemma rows_ok_right {N : Num} {A} nf f thr (S : list (tsample N A)) : rows_ok nf S -> rows_ok nf (right_of f thr S).
Proof. intros H s Hs. apply filter_In in Hs. now apply H. Qed.

Lemma region_rows_ok {N : Num} {A} nf (t : tree N) (S : list (tsample N A)) d sub S' d' :
  region t S d sub S' d' -> rows_ok nf S -> rows_ok nf S'.
Proof. induction 1; auto using rows_ok_left, rows_ok_right. Qed.
Lemma region_incl {N : Num} {A} (t : tree N) (S : list (tsample N A)) d sub S' d' :
  region t S d sub S' d' -> forall s, In s S' -> In s S.
Proof.
  induction 1; auto; intros s Hs; specialize (IHregion s Hs); apply filter_In in IHregion; tauto.
Qed.
Lemma region_depth {N : Num} {A} (t : tree N) (S : list (tsample N A)) d sub S' d' :
  region t S d sub S' d' -> d <= d'.
Proof. induction 1; lia. Qed.

Section GrowRegion.
  Context {N : Num} (log2 : N -> N) (sortv : list N -> list N) (o : topts N) (k nf : nat).
  Notation shape := (shape log2 sortv o k nf).

  Lemma shape_region t S d sub S' d' : region t S d sub S' d' -> rows_ok nf S -> shape S d t ->
    shape S' d' sub /\ (S <> [] -> S' <> []) /\ (small o S = false -> small o S' = false).
  Proof.
    induction 1 as [|i f thr l r S d sub S' d' _ IH|i f thr l r S d sub S' d' _ IH]; intros Hr Hs; [tauto| |].
    - destruct Hs as [_ [_ [_ [Hf [HL [HR [HL0 [HR0 [H1 H2]]]]]]]]].
      rewrite <- (left_rows nf) in * by assumption. destruct (IH (rows_ok_left _ _ _ _ Hr) H1) as [G1 [G2 G3]]. tauto.
    - destruct Hs as [_ [_ [_ [Hf [HL [HR [HL0 [HR0 [H1 H2]]]]]]]]].
      rewrite <- (right_rows nf) in * by assumption. destruct (IH (rows_ok_right _ _ _ _ Hr) H2) as [G1 [G2 G3]]. tauto.
  Qed.
  Lemma shape_info S d t : shape S d t -> info t = rinfo log2 o k S d.
  Proof. destruct t; cbn [shape info]; intros [H _]; exact H. Qed.
  (** Depth below the limit. *)
  Lemma shape_depth t : forall S d, shape S d t -> (0 < p_maxdepth o)%Z -> (Z.of_nat d <= p_maxdepth o)%Z ->
    (Z.of_nat (max_depth t) <= p_maxdepth o)%Z.
  Proof.
    induction t as [i|i f thr l IHl r IHr]; intros S d H Hm Hd; cbn [shape max_depth] in *.
    - destruct H as [-> _]. exact Hd.
    - destruct H as [_ [Hst [_ [_ [_ [_ [_ [_ [H1 H2]]]]]]]]].
      assert (Hlt : (Z.of_nat (Datatypes.S d) <= p_maxdepth o)%Z).
      { unfold should_stop in Hst. apply orb_false_iff in Hst. destruct Hst as [Hst _]. apply orb_false_iff in Hst. destruct Hst as [Hst _].
        apply andb_false_iff in Hst. destruct Hst as [Hst|Hst]; [apply Z.ltb_ge in Hst; lia|apply Z.leb_gt in Hst; lia]. }
      specialize (IHl _ _ H1 Hm Hlt). specialize (IHr _ _ H2 Hm Hlt). destruct (max_depth r <? max_depth l); assumption.
  Qed.
  Lemma max_depth_region t : forall S d, rows_ok nf S -> shape S d t ->
    (exists i S', region t S d (Leaf i) S' (max_depth t)) /\ (forall sub S' d', region t S d sub S' d' -> d' <= max_depth t).
  Proof.
    induction t as [i|i f thr l IHl r IHr]; intros S d Hr H.
    - destruct H as [Hi _]. cbn [max_depth]. assert (i_depth i = d) as -> by (rewrite Hi; reflexivity).
      split; [exists i, S; constructor|]. intros sub S' d' HR. inversion HR; subst. lia.
    - destruct H as [_ [_ [_ [Hf [_ [_ [_ [_ [H1 H2]]]]]]]]].
      rewrite <- (left_rows nf) in H1 by assumption. rewrite <- (right_rows nf) in H2 by assumption.
      destruct (IHl _ _ (rows_ok_left _ _ _ _ Hr) H1) as [[i1 [S1 E1]] B1].
      destruct (IHr _ _ (rows_ok_right _ _ _ _ Hr) H2) as [[i2 [S2 E2]] B2].
      cbn [max_depth]. destruct (Nat.ltb_spec (max_depth r) (max_depth l)) as [Hc|Hc].
      + split; [exists i1, S1; now apply region_left|]. intros sub S' d' HR. inversion HR; subst.
        * pose proof (region_depth _ _ _ _ _ _ E1). lia.
        * eauto.
        * assert (d' <= max_depth r) by eauto. lia.
      + split; [exists i2, S2; now apply region_right|]. intros sub S' d' HR. inversion HR; subst.
        * pose proof (region_depth _ _ _ _ _ _ E2). lia.
        * assert (d' <= max_depth l) by eauto. lia.
        * eauto.
  Qed.
  Lemma leaves_bound t : forall S d, shape S d t -> S <> [] -> count_leaves t <= List.length S.
  Proof.
    induction t as [i|i f thr l IHl r IHr]; intros S d H H0; cbn [shape count_leaves] in *.
    - destruct S; [congruence|cbn; lia].
    - destruct H as [_ [_ [_ [_ [_ [_ [HL [HR [H1 H2]]]]]]]]].
      specialize (IHl _ _ H1 HL). specialize (IHr _ _ H2 HR). pose proof (rrows_length f thr S). lia.
  Qed.
  (** Traversal *)
  Lemma descend_lands t : forall S d x, shape S d t -> nf <= List.length x -> exists i, descend t x = Ok i /\ lands t x i.
  Proof.
    induction t as [i|i f thr l IHl r IHr]; intros S d x H Hx; cbn [shape descend] in *.
    - exists i. split; [reflexivity|constructor].
    - destruct H as [_ [_ [_ [Hf [_ [_ [_ [_ [H1 H2]]]]]]]]].
      destruct (nth_error x f) as [v|] eqn:Ev; [|apply nth_error_None in Ev; lia].
      destruct (nle v thr) eqn:Ele.
      + destruct (IHl _ _ x H1 Hx) as [j [E L]]. exists j. split; [exact E|]. eapply lands_left; eauto.
      + destruct (IHr _ _ x H2 Hx) as [j [E L]]. exists j. split; [exact E|]. eapply lands_right; eauto.
  Qed.
End GrowRegion.
Lemma lands_region {N : Num} {A} (t : tree N) x i : lands t x i -> forall (S : list (tsample N A)) d,
  exists S' d', region t S d (Leaf i) S' d' /\ forall a, In (x, a) S -> In (x, a) S'.
Proof.
  induction 1 as [i x|i f thr l r x v j Ev Ele _ IH|i f thr l r x v j Ev Ele _ IH]; intros S d.
  - exists S, d. split; [constructor|auto].
  - destruct (IH (left_of f thr S) (Datatypes.S d)) as [S' [d' [H1 H2]]]. exists S', d'. split; [now apply region_left|].
    intros a Ha. apply H2. apply filter_In. split; [exact Ha|]. unfold goes_left. cbn [fst]. now rewrite Ev.
  - destruct (IH (right_of f thr S) (Datatypes.S d)) as [S' [d' [H1 H2]]]. exists S', d'. split; [now apply region_right|].
    intros a Ha. apply H2. apply filter_In. split; [exact Ha|]. unfold goes_left. cbn [fst]. now rewrite Ev, Ele.
Qed.
Lemma lands_fun {N : Num} (t : tree N) x i : lands t x i -> descend t x = Ok i.
Proof. induction 1 as [|? ? ? ? ? ? ? ? E1 E2 _ IH|? ? ? ? ? ? ? ? E1 E2 _ IH]; cbn [descend]; [reflexivity| |]; now rewrite E1, E2. Qed.

(** ** Classes *)
Lemma class_index_from_nth k c l j : class_index_from k c l = Some j ->
  k <= j /\ nth_error l (j - k) = Some c.
Proof.
  revert k. induction l as [|x l IH]; intros k H; [discriminate|]. cbn in H. destruct (Z.eqb_spec x c) as [->|Hn].
  - injection H as <-. rewrite Nat.sub_diag. auto.
  - apply IH in H. destruct H as [H1 H2]. split; [lia|]. destruct j as [|j]; [lia|].
    replace (S j - k) with (S (S j - S k)) by lia. exact H2.
Qed.
Lemma class_index_from_in k c l : In c l -> exists j, class_index_from k c l = Some j.
Proof.
  revert k. induction l as [|x l IH]; intros k H; [easy|]. cbn. destruct (Z.eqb_spec x c); [eauto|].
  destruct H as [H|H]; [congruence|]. apply IH, H.
Qed.
Lemma label_index_nth classes c : In c classes -> nth_error classes (label_index classes c) = Some c.
Proof.
  intros H. unfold label_index, class_index. destruct (class_index_from_in 0 c classes H) as [j E]. rewrite E.
  apply class_index_from_nth in E. now rewrite Nat.sub_0_r in E.
Qed.
Lemma tree_classes_perm labels : Permutation (nodup Z.eq_dec labels) (tree_classes labels).
Proof. apply isort_perm. Qed.
Lemma tree_classes_in labels c : In c labels <-> In c (tree_classes labels).
Proof.
  rewrite <- (nodup_In Z.eq_dec). split; intros H.
  - eapply Permutation_in; [apply tree_classes_perm|exact H].
  - eapply Permutation_in; [symmetry; apply tree_classes_perm|exact H].
Qed.
Lemma tree_classes_nodup labels : NoDup (tree_classes labels).
Proof. eapply Permutation_NoDup; [apply tree_classes_perm|apply NoDup_nodup]. Qed.
Lemma nth_error_sorted {A} (P : A -> A -> Prop) (l : list A) i j a b :
  Sorted.StronglySorted P l -> i < j -> nth_error l i = Some a -> nth_error l j = Some b -> P a b.
Proof.
  intros H. revert i j. induction H as [|x l Hs IH Hf]; intros [|i] [|j] Hij Ea Eb; try lia; try discriminate.
  - cbn in Ea, Eb. injection Ea as <-. rewrite Forall_forall in Hf. apply Hf. eapply nth_error_In; eauto.
  - cbn in Ea, Eb. eapply (IH i j); eauto; lia.
Qed.
Lemma tree_classes_sorted labels i j a b : nth_error (tree_classes labels) i = Some a ->
  nth_error (tree_classes labels) j = Some b -> i <= j -> (a <= b)%Z.
Proof.
  intros Ha Hb Hij. destruct (Nat.eq_dec i j) as [->|Hne]; [rewrite Ha in Hb; injection Hb as ->; lia|].
  assert (Ho : ordered Z.ltb (tree_classes labels)).
  { apply isort_ordered; unfold asym, negtrans; intros; rewrite ?Z.ltb_lt, ?Z.ltb_ge in *; lia. }
  assert (H := nth_error_sorted _ _ i j a b Ho ltac:(lia) Ha Hb). cbn in H. apply Z.ltb_ge in H. exact H.
Qed.

(** ** From class indices to labels *)
Section Labels.
  Context {N : Num} (classes : list Z) (Hnd : NoDup classes).
  Definition indexed (S : list (tsample N Z)) : list (trow N) := map (fun s => (fst s, label_index classes (snd s))) S.
  Definition labelled (S : list (tsample N Z)) : Prop := forall s, In s S -> In (snd s) classes.

  Lemma indexed_length S : List.length (indexed S) = List.length S.
  Proof. apply map_length. Qed.
  Lemma indexed_range S : labelled S -> forall r, In r (indexed S) -> snd r < List.length classes.
  Proof.
    intros H r Hr. apply in_map_iff in Hr. destruct Hr as [s [<- Hs]]. cbn [snd].
    apply nth_error_Some. rewrite (label_index_nth _ _ (H s Hs)). discriminate.
  Qed.
  Lemma ncount_occurs S j c : labelled S -> nth_error classes j = Some c -> ncount (indexed S) j = occurs S c.
  Proof.
    intros H E. unfold ncount, occurs, indexed. induction S as [|s S IH]; [reflexivity|].
    assert (Hs := label_index_nth _ _ (H s (or_introl eq_refl))).
    cbn [map filter snd]. destruct (Nat.eqb_spec (label_index classes (snd s)) j) as [Ej|Ej].
    - rewrite Ej, E in Hs. injection Hs as ->. rewrite Z.eqb_refl. cbn [List.length]. f_equal. apply IH.
      intros s' Hs'. apply H. now right.
    - destruct (Z.eqb_spec (snd s) c) as [Ec|Ec].
      + exfalso. apply Ej. rewrite <- Ec in E. rewrite NoDup_nth_error in Hnd. apply Hnd.
        * apply nth_error_Some. rewrite Hs. discriminate.
        * now rewrite Hs, E.
      + apply IH. intros s' Hs'. apply H. now right.
  Qed.
  Lemma occurs_none S c : labelled S -> ~ In c classes -> occurs S c = 0.
  Proof.
    intros H Hc. unfold occurs. induction S as [|s S IH]; [reflexivity|]. cbn [filter].
    destruct (Z.eqb_spec (snd s) c) as [E|E].
    - exfalso. apply Hc. rewrite <- E. apply H. now left.
    - apply IH. intros s' Hs'. apply H. now right.
  Qed.
  Lemma counts_occurs S : labelled S ->
    class_counts (List.length classes) (indexed S) = map (occurs S) classes.
  Proof.
    intros H. rewrite class_counts_spec. apply nth_error_ext. intros i. rewrite !nth_error_map.
    destruct (nth_error classes i) as [c|] eqn:E.
    - assert (i < List.length classes) by (apply nth_error_Some; congruence).
      rewrite (nth_error_nth' _ 0) by (now rewrite seq_length). rewrite seq_nth by assumption. cbn.
      f_equal. now apply ncount_occurs.
    - apply nth_error_None in E. rewrite (proj2 (nth_error_None (seq 0 (List.length classes)) i)) by (now rewrite seq_length).
      reflexivity.
  Qed.
  Lemma total_occurs S : labelled S -> total (map (occurs S) classes) = List.length S.
  Proof.
    intros H. rewrite <- counts_occurs, class_counts_spec by assumption.
    rewrite total_counts by (now apply indexed_range). apply indexed_length.
  Qed.
  Lemma majority_label S : labelled S -> S <> [] ->
    (forall i j a b, nth_error classes i = Some a -> nth_error classes j = Some b -> i <= j -> (a <= b)%Z) ->
    exists c, nth_error classes (majority (map (occurs S) classes)) = Some c /\ most_frequent S c.
  Proof.
    intros H H0 Hsort. destruct (majority_spec (map (occurs S) classes)) as [m [E [Hm Hmax]]].
    { rewrite total_occurs by assumption. destruct S; [congruence|cbn; lia]. }
    rewrite nth_error_map in E. destruct (nth_error classes (majority (map (occurs S) classes))) as [c|] eqn:Ec; [|discriminate].
    cbn in E. injection E as Em. exists c. split; [reflexivity|]. split; [lia|].
    intros c'. destruct (in_dec Z.eq_dec c' classes) as [Hin|Hin].
    - apply In_nth_error in Hin. destruct Hin as [j Ej].
      assert (Ej' : nth_error (map (occurs S) classes) j = Some (occurs S c')) by (now rewrite nth_error_map, Ej).
      destruct (Hmax _ _ Ej') as [Hle Hlt]. rewrite Em.
      destruct (le_lt_dec (majority (map (occurs S) classes)) j) as [Hj|Hj].
      + destruct (Nat.eq_dec (occurs S c') m); [right|left; lia]. split; [assumption|]. eapply Hsort; eauto.
      + left. apply Hlt, Hj.
    - left. rewrite (occurs_none _ _ H Hin). lia.
  Qed.
End Labels.

Definition training {N : Num} (toint : N -> Z) (X y : matrix N) : list (tsample N Z) :=
  combine (mrows X) (map (fun r => toint (nth 0 r n0)) (mrows y)).

Lemma combine_map_r {A B C} (g : B -> C) (l : list A) (l' : list B) :
  combine l (map g l') = map (fun s => (fst s, g (snd s))) (combine l l').
Proof. revert l'. induction l as [|a l IH]; intros [|b l']; cbn; [reflexivity..|]. now rewrite IH. Qed.

Definition classes_of {N : Num} (toint : N -> Z) (y : matrix N) : list Z :=
  tree_classes (map (fun r => toint (nth 0 r n0)) (mrows y)).

Lemma training_labelled {N : Num} toint (X y : matrix N) : labelled (classes_of toint y) (training toint X y).
Proof.
  intros [x c] H. unfold training in H. apply in_combine_r in H. unfold classes_of. cbn [snd]. apply (proj1 (tree_classes_in _ c)). exact H.
Qed.
Lemma training_rows_ok {N : Num} toint (X y : matrix N) : wf X -> rows_ok (mcols X) (training toint X y).
Proof. intros H [x c] Hs. unfold training in Hs. apply in_combine_l in Hs. apply H, Hs. Qed.
Lemma training_length {N : Num} toint (X y : matrix N) : nrows X = nrows y -> List.length (training toint X y) = nrows X.
Proof. intros H. unfold training. etransitivity; [apply combine_length|]. rewrite map_length. unfold nrows in *. lia. Qed.

Lemma fit_build {N : Num} toint log2 sortv (o : topts N) (X y : matrix N) s :
  nrows X = nrows y -> mcols y = 1 ->
  dt_fit toint log2 sortv o X y s =
    match build log2 sortv (S (nrows X)) o (List.length (classes_of toint y)) (mcols X)
            (indexed (classes_of toint y) (training toint X y)) 0 (repeat n0 (mcols X)) with
    | Some (Ok (t, imps)) => (mkdt (Some t) (classes_of toint y) (mcols X) (Some (normalize_imps imps)) true, Ok tt)
    | _ => (mkdt (t_tree s) (classes_of toint y) (mcols X) (Some (repeat n0 (mcols X))) (t_fitted s), Panic)
    end.
Proof.
  intros H1 H2. unfold dt_fit. rewrite H1, H2, !Nat.eqb_refl. cbn [negb]. rewrite combine_map_r. reflexivity.
Qed.
Lemma fit_inv {N : Num} toint log2 sortv (o : topts N) (X y : matrix N) s s' :
  dt_fit toint log2 sortv o X y s = (s', Ok tt) ->
  nrows X = nrows y /\ mcols y = 1 /\ exists t imps,
    build log2 sortv (S (nrows X)) o (List.length (classes_of toint y)) (mcols X)
            (indexed (classes_of toint y) (training toint X y)) 0 (repeat n0 (mcols X)) = Some (Ok (t, imps))
    /\ s' = mkdt (Some t) (classes_of toint y) (mcols X) (Some (normalize_imps imps)) true.
Proof.
  intros H. destruct (Nat.eq_dec (nrows X) (nrows y)) as [E1|E1].
  2:{ unfold dt_fit in H. destruct (Nat.eqb_spec (nrows X) (nrows y)); [congruence|discriminate]. }
  destruct (Nat.eq_dec (mcols y) 1) as [E2|E2].
  2:{ unfold dt_fit in H. destruct (Nat.eqb_spec (nrows X) (nrows y)); [|discriminate]. destruct (Nat.eqb_spec (mcols y) 1); [congruence|discriminate]. }
  rewrite fit_build in H by assumption. split; [assumption|]. split; [assumption|].
  destruct (build log2 sortv (S (nrows X)) o (List.length (classes_of toint y)) (mcols X)
      (indexed (classes_of toint y) (training toint X y)) 0 (repeat n0 (mcols X))) as [[[t imps]|?|]|]; try discriminate.
  injection H as <-. eauto.
Qed.

(** The state after a successful Fit. *)
Lemma fit_region {N : Num} toint log2 sortv (o : topts N) (X y : matrix N) s s' :
  wf X -> dt_fit toint log2 sortv o X y s = (s', Ok tt) ->
  exists T, t_tree s' = Some T /\ t_fitted s' = true /\ t_classes s' = classes_of toint y /\ t_nfeat s' = mcols X
  /\ nrows X = nrows y
  /\ shape log2 sortv o (List.length (classes_of toint y)) (mcols X) (indexed (classes_of toint y) (training toint X y)) 0 T
  /\ forall sub S d, region T (training toint X y) 0 sub S d ->
      labelled (classes_of toint y) S /\ rows_ok (mcols X) S
      /\ shape log2 sortv o (List.length (classes_of toint y)) (mcols X) (indexed (classes_of toint y) S) d sub
      /\ (1 <= nrows X -> S <> [])
      /\ (small o (indexed (classes_of toint y) (training toint X y)) = false -> small o (indexed (classes_of toint y) S) = false).
Proof.
  intros Hw H. apply fit_inv in H. destruct H as [E1 [E2 [t [imps [Eb ->]]]]].
  exists t. cbn [t_tree t_fitted t_classes t_nfeat]. apply build_shape in Eb.
  split; [reflexivity|]. split; [reflexivity|]. split; [reflexivity|]. split; [reflexivity|]. split; [exact E1|]. split; [exact Eb|].
  intros sub S d HR.
  assert (Hl : labelled (classes_of toint y) S).
  { intros s0 Hs0. apply (training_labelled toint X y). eapply region_incl; eauto. }
  assert (Ho : rows_ok (mcols X) S) by (eapply region_rows_ok; [exact HR|now apply training_rows_ok]).
  assert (Hri : rows_ok (mcols X) (indexed (classes_of toint y) (training toint X y))).
  { intros r Hr. apply in_map_iff in Hr. destruct Hr as [s0 [<- Hs0]]. cbn [fst]. now apply (training_rows_ok toint X y Hw). }
  destruct (shape_region log2 sortv o (List.length (classes_of toint y)) (mcols X) _ _ _ _ _ _ (region_map (label_index (classes_of toint y)) _ _ _ _ _ _ HR) Hri Eb) as [G1 [G2 G3]].
  split; [exact Hl|]. split; [exact Ho|]. split; [exact G1|]. split; [|exact G3].
  intros Hn E0. assert (L := training_length toint X y E1). rewrite E0 in G2. cbn in G2. apply G2; [|reflexivity].
  intros E3. assert (L3 := indexed_length (classes_of toint y) (training toint X y)). unfold indexed in L3. rewrite E3 in L3. cbn in L3. lia.
Qed.

(** Leaves partition the samples. *)
Lemma filter_split_perm {A} (p : A -> bool) l : Permutation l (filter p l ++ filter (fun x => negb (p x)) l).
Proof.
  induction l as [|a l IH]; [reflexivity|]. cbn [filter]. destruct (p a); cbn [negb app].
  - now apply perm_skip.
  - rewrite IH at 1. apply Permutation_middle.
Qed.
Lemma leaves_partition {N : Num} {A} (t : tree N) : forall (S : list (tsample N A)) d,
  exists Ls : list (ninfo N * list (tsample N A) * nat),
    List.length Ls = count_leaves t
    /\ (forall i S' d', In (i, S', d') Ls -> region t S d (Leaf i) S' d')
    /\ Permutation S (concat (map (fun x => snd (fst x)) Ls)).
Proof.
  induction t as [i|i f thr l IHl r IHr]; intros S d.
  - exists [(i, S, d)]. cbn. rewrite app_nil_r. split; [reflexivity|]. split; [|reflexivity].
    intros i' S' d' [E|[]]. injection E as <- <- <-. constructor.
  - destruct (IHl (left_of f thr S) (Datatypes.S d)) as [L1 [E1 [R1 P1]]].
    destruct (IHr (right_of f thr S) (Datatypes.S d)) as [L2 [E2 [R2 P2]]].
    exists (L1 ++ L2). split; [rewrite app_length; cbn; lia|]. split.
    + intros i' S' d' H. apply in_app_iff in H. destruct H; [apply region_left|apply region_right]; auto.
    + rewrite map_app, concat_app, <- P1, <- P2. apply filter_split_perm.
Qed.

(** Prediction follows the regions. *)
Fixpoint features_ok {N : Num} (nf : nat) (t : tree N) : Prop :=
  match t with Leaf _ => True | Split _ f _ l r => f < nf /\ features_ok nf l /\ features_ok nf r end.
Lemma shape_features {N : Num} log2 sortv (o : topts N) k nf t : forall rows d,
  shape log2 sortv o k nf rows d t -> features_ok nf t.
Proof.
  induction t as [i|i f thr l IHl r IHr]; intros rows d H; cbn [shape features_ok] in *; [exact I|].
  destruct H as [_ [_ [_ [Hf [_ [_ [_ [_ [H1 H2]]]]]]]]]. eauto.
Qed.
Lemma descend_region {N : Num} {A} nf (t : tree N) (S : list (tsample N A)) d i S' d' :
  region t S d (Leaf i) S' d' -> features_ok nf t -> rows_ok nf S ->
  forall x c, In (x, c) S' -> descend t x = Ok i.
Proof.
  intros Hreg. remember (Leaf i) as sub eqn:Esub.
  induction Hreg as [t S d|j f thr l r S d sub S' d' Hreg IH|j f thr l r S d sub S' d' Hreg IH]; intros Hf Hrow x c Hx; subst.
  - reflexivity.
  - cbn [descend features_ok] in *. assert (Hin := region_incl _ _ _ _ _ _ Hreg _ Hx). apply filter_In in Hin. destruct Hin as [Hin Hg].
    unfold goes_left in Hg. cbn [fst] in Hg. destruct (nth_error x f) as [v|] eqn:Ev; [|discriminate]. rewrite Hg.
    eapply IH; eauto; [tauto|]. now apply rows_ok_left.
  - cbn [descend features_ok] in *. assert (Hin := region_incl _ _ _ _ _ _ Hreg _ Hx). apply filter_In in Hin. destruct Hin as [Hin Hg].
    unfold goes_left in Hg. cbn [fst] in Hg. destruct (nth_error x f) as [v|] eqn:Ev.
    + apply negb_true_iff in Hg. rewrite Hg. eapply IH; eauto; [tauto|]. now apply rows_ok_right.
    + apply nth_error_None in Ev. specialize (Hrow _ Hin). cbn [fst] in Hrow. lia.
Qed.
Lemma descend_features {N : Num} nf (t : tree N) x : features_ok nf t -> nf <= List.length x ->
  exists i, descend t x = Ok i /\ lands t x i.
Proof.
  induction t as [i|i f thr l IHl r IHr]; intros H Hx; cbn [features_ok descend] in *.
  - exists i. split; [reflexivity|constructor].
  - destruct (nth_error x f) as [v|] eqn:Ev; [|apply nth_error_None in Ev; lia].
    destruct (nle v thr) eqn:Ele.
    + destruct IHl as [j [E L]]; try tauto. exists j. split; [exact E|]. eapply lands_left; eauto.
    + destruct IHr as [j [E L]]; try tauto. exists j. split; [exact E|]. eapply lands_right; eauto.
Qed.

(** ** SetParams *)
Definition key_value {N : Num} (o : topts N) (k : string) : option (pval N) :=
  option_map snd (find (fun kv => String.eqb (fst kv) k) (get_params o)).
Definition same_type {N : Num} (a b : pval N) : Prop :=
  match a, b with
  | VStr _, VStr _ | VInt _, VInt _ | VInt64 _, VInt64 _ | VFloat _, VFloat _ => True
  | _, _ => False
  end.
(** A known name with a value of the expected type. *)
Definition entry_ok {N : Num} (kv : string * pval N) : Prop :=
  exists v0, key_value topts_default (fst kv) = Some v0 /\ same_type (snd kv) v0.

Lemma key_value_eq {N : Num} (o : topts N) k : key_value o k =
  if String.eqb k "criterion" then Some (VStr (p_criterion o))
  else if String.eqb k "max_depth" then Some (VInt (p_maxdepth o))
  else if String.eqb k "min_samples_split" then Some (VInt (p_minsplit o))
  else if String.eqb k "min_samples_leaf" then Some (VInt (p_minleaf o))
  else if String.eqb k "max_features" then Some (VStr (p_maxfeatures o))
  else if String.eqb k "max_leaf_nodes" then Some (VInt (p_maxleafs o))
  else if String.eqb k "min_impurity_decrease" then Some (VFloat (p_mindec o))
  else if String.eqb k "random_state" then Some (VInt64 (p_seed o))
  else None.
Proof.
  unfold key_value, get_params. cbn [find fst].
  rewrite (String.eqb_sym "criterion" k), (String.eqb_sym "max_depth" k), (String.eqb_sym "min_samples_split" k),
    (String.eqb_sym "min_samples_leaf" k), (String.eqb_sym "max_features" k), (String.eqb_sym "max_leaf_nodes" k),
    (String.eqb_sym "min_impurity_decrease" k), (String.eqb_sym "random_state" k).
  repeat match goal with |- context [if ?b then _ else _] => destruct b; [reflexivity|] end. reflexivity.
Qed.
Lemma key_value_ext {N : Num} (o o' : topts N) : (forall k, key_value o k = key_value o' k) -> o = o'.
Proof.
  intros H.
  assert (H1 := H "criterion"%string). assert (H2 := H "max_depth"%string). assert (H3 := H "min_samples_split"%string).
  assert (H4 := H "min_samples_leaf"%string). assert (H5 := H "max_features"%string). assert (H6 := H "max_leaf_nodes"%string).
  assert (H7 := H "min_impurity_decrease"%string). assert (H8 := H "random_state"%string).
  rewrite !key_value_eq in *. cbn in H1, H2, H3, H4, H5, H6, H7, H8.
  destruct o, o'. cbn in *. congruence.
Qed.
Lemma set_param_ok {N : Num} (o : topts N) kv : entry_ok kv -> exists o', set_param o kv = Ok o'
  /\ forall k, key_value o' k = if String.eqb k (fst kv) then Some (snd kv) else key_value o k.
Proof.
  destruct kv as [key v]. destruct o as [cr md ms ml mf mx mi sd]. intros [v0 [E T]]. cbn [fst snd] in *. rewrite key_value_eq in E.
  unfold set_param.
  Ltac one key name E T v :=
    destruct (String.eqb_spec key name) as [->|];
    [injection E as <-; destruct v; try contradiction; eexists; split; [reflexivity|];
     let k := fresh in intros k; destruct (String.eqb_spec k name) as [->|]; [reflexivity|];
     rewrite !key_value_eq; cbn [p_criterion p_maxdepth p_minsplit p_minleaf p_maxfeatures p_maxleafs p_mindec p_seed];
     repeat match goal with |- context [String.eqb k ?s] => destruct (String.eqb_spec k s) as [->|]; [try reflexivity; contradiction|] end;
     reflexivity|].
  one key "criterion"%string E T v.
  one key "max_depth"%string E T v.
  one key "min_samples_split"%string E T v.
  one key "min_samples_leaf"%string E T v.
  one key "max_features"%string E T v.
  one key "max_leaf_nodes"%string E T v.
  one key "min_impurity_decrease"%string E T v.
  one key "random_state"%string E T v.
  discriminate.
Qed.
Lemma set_params_ok {N : Num} (es : list (string * pval N)) : forall o, Forall entry_ok es -> NoDup (map fst es) ->
  exists o', set_params es o = (o', Ok tt)
  /\ forall k, key_value o' k = match find (fun kv => String.eqb k (fst kv)) es with Some kv => Some (snd kv) | None => key_value o k end.
Proof.
  induction es as [|kv es IH]; intros o H Hnd; cbn [set_params find map] in *.
  - exists o. auto.
  - inversion H as [|? ? H1 H2]; subst. inversion Hnd as [|? ? N1 N2]; subst.
    destruct (set_param_ok o kv H1) as [o1 [E1 K1]]. rewrite E1. destruct (IH o1 H2 N2) as [o' [E' K']].
    exists o'. split; [exact E'|]. intros k. rewrite K', K1. destruct (String.eqb_spec k (fst kv)) as [->|]; [|reflexivity].
    destruct (find (fun kv0 => String.eqb (fst kv) (fst kv0)) es) as [kv'|] eqn:Ef; [|reflexivity].
    exfalso. apply find_some in Ef. destruct Ef as [Hin Heq]. apply String.eqb_eq in Heq. apply N1. rewrite Heq. now apply in_map.
Qed.

(** ** Options without effect *)
Definition same_used {N : Num} (o o' : topts N) : Prop :=
  p_criterion o = p_criterion o' /\ p_maxdepth o = p_maxdepth o' /\ p_minsplit o = p_minsplit o'
  /\ p_minleaf o = p_minleaf o' /\ p_mindec o = p_mindec o'.
Lemma build_same_used {N : Num} log2 sortv (o o' : topts N) k nf fuel : same_used o o' -> forall rows depth imps,
  build log2 sortv fuel o k nf rows depth imps = build log2 sortv fuel o' k nf rows depth imps.
Proof.
  destruct o as [cr md ms ml mf mx mi sd], o' as [cr' md' ms' ml' mf' mx' mi' sd']. unfold same_used. cbn [p_criterion p_maxdepth p_minsplit p_minleaf p_mindec].
  intros [<- [<- [<- [<- <-]]]]. induction fuel as [|fuel IH]; intros rows depth imps; [reflexivity|].
  cbn [build].
  assert (Eb : forall parent, best_split log2 sortv (mktopts cr md ms ml mf mx mi sd) k nf rows parent
     = best_split log2 sortv (mktopts cr md ms ml mf' mx' mi sd') k nf rows parent).
  { intros parent. unfold best_split. generalize (seq 0 nf), (@None nat, @n0 N, @n0 N). induction l as [|f l IHl]; intros p; [reflexivity|].
    cbn [fold_left]. rewrite IHl. f_equal. generalize (sortv (map (cell f) rows)). clear. intros vs. revert p.
    induction vs as [|a [|b r] IHv]; intros p; [reflexivity..|]. cbn [try_values]. apply IHv. }
  assert (Ei : forall cs, impurity log2 (mktopts cr md ms ml mf mx mi sd) cs = impurity log2 (mktopts cr md ms ml mf' mx' mi sd') cs) by reflexivity.
  assert (Es : forall n i d, should_stop (mktopts cr md ms ml mf mx mi sd) n i d = should_stop (mktopts cr md ms ml mf' mx' mi sd') n i d) by reflexivity.
  cbn [i_imp p_mindec p_minleaf]. rewrite Ei, Es, Eb.
  destruct (should_stop _ _ _ _); [reflexivity|]. destruct (best_split _ _ _ _ _ _ _) as [[[f|] t] dec]; [|reflexivity].
  destruct (nlt dec mi); [reflexivity|]. destruct (_ || _); [reflexivity|]. destruct (newdense _ _); try reflexivity.
  destruct (newdense _ _); try reflexivity. rewrite IH. destruct (build _ _ _ _ _ _ _ _ _) as [[[? ?]|?|]|]; try reflexivity.
  now rewrite IH.
Qed.
