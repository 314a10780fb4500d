From Coq Require Import List Arith ZArith Bool Lia Permutation.
From Verif Require Import Base.GoInt Model.Streaming Spec.Streaming.
Import ListNotations.

Lemma Forall2_at {A B} (P : A -> B -> Prop) l l' : Forall2 P l l' -> forall i a b, nth_error l i = Some a -> nth_error l' i = Some b -> P a b.
Proof. induction 1; intros [|i] a b E1 E2; try discriminate; cbn in *; [congruence|eauto]. Qed.
Lemma Forall2_at_r {A B} (P : A -> B -> Prop) l l' : Forall2 P l l' -> forall i b, nth_error l' i = Some b -> exists a, P a b.
Proof. induction 1; intros [|i] b E; try discriminate; cbn in *; [injection E as <-; eauto|eauto]. Qed.

Section S.
Context {item : Type}.
Variables rows cols : item -> Z.
Implicit Types (ss : list (stage item)) (c : chan item).

(** ** What is still to come *)
Fixpoint rest (q : list item) ss : list item :=
  match ss with [] => q | s :: r => rest (queue (out s) ++ pending s ++ flat_map (fn s) q) r end.
Fixpoint ffun (fs : list (item -> list item)) (l : list item) : list item := match fs with [] => l | f :: r => ffun r (flat_map f l) end.
Lemma ffun_app fs l1 l2 : ffun fs (l1 ++ l2) = ffun fs l1 ++ ffun fs l2.
Proof. revert l1 l2. induction fs as [|f fs IH]; intros; cbn; auto. now rewrite flat_map_app, IH. Qed.
Lemma rest_app ss : forall q l, rest (q ++ l) ss = rest q ss ++ ffun (map fn ss) l.
Proof. induction ss as [|s ss IH]; intros; cbn; auto. rewrite flat_map_app, !app_assoc, IH. reflexivity. Qed.

Lemma cstep_rest c ss l c' ss' : cstep c ss l c' ss' -> rest (queue c) ss = rest (queue c') ss' /\ map fn ss = map fn ss'.
Proof.
  induction 1; cbn [rest queue out pending fn map flat_map app].
  - now rewrite <- ?app_assoc.
  - now rewrite <- !app_assoc.
  - auto.
  - rewrite <- ?app_assoc. cbn [app]. split; auto.
  - destruct IHcstep as [I1 I2]. split; [|congruence]. rewrite !rest_app. congruence.
Qed.
Lemma receive_rest ss a ss' : receive ss a ss' -> forall q, rest q ss = a :: rest q ss' /\ map fn ss = map fn ss'.
Proof. induction 1; intros q0; cbn [rest queue out pending fn map app]; auto. destruct (IHreceive (queue (out s) ++ pending s ++ flat_map (fn s) q0)) as [I1 I2]. split; auto. congruence. Qed.

(** ** Order of closing, capacities, the last stage *)
Fixpoint ordered c ss : Prop :=
  match ss with
  | [] => True
  | s :: r => (closed (out s) = true -> c = mkch [] true /\ pending s = []) /\ length (queue (out s)) <= cap s /\ ordered (out s) r
  end.
Lemma cstep_closed c ss l c' ss' : cstep c ss l c' ss' -> closed c' = closed c /\ (c = mkch [] true -> c' = mkch [] true).
Proof. induction 1; cbn; auto. split; auto. discriminate. Qed.
Lemma ordered_weaken c c' ss : (c = mkch [] true -> c' = mkch [] true) -> ordered c ss -> ordered c' ss.
Proof. destruct ss; cbn; auto. intros H (A & B & C). split; auto. intros K. destruct (A K). auto. Qed.
Lemma cstep_ordered c ss l c' ss' : cstep c ss l c' ss' -> ordered c ss -> ordered c' ss'.
Proof.
  induction 1; cbn [ordered out closed queue pending cap]; intros (A & B & C); (split; [|split]); auto.
  - intros K. destruct (A K). discriminate.
  - discriminate.
  - rewrite app_length. cbn. lia.
  - eapply ordered_weaken; [|exact C]. discriminate.
  - eapply ordered_weaken; [|exact C]. discriminate.
  - discriminate.
  - destruct C as (C1 & C2 & C3). cbn [ordered out closed queue pending cap] in *. split; auto. intros K. destruct (C1 K). discriminate.
  - destruct (cstep_closed _ _ _ _ _ H) as [K _]. rewrite K. auto.
  - destruct (cstep_closed _ _ _ _ _ H) as [K _]. inversion H; subst; cbn in *; auto; lia.
Qed.
Lemma receive_ordered ss a ss' : receive ss a ss' -> forall c, ordered c ss -> ordered c ss'.
Proof.
  induction 1; intros c0; cbn [ordered out closed queue pending cap].
  - intros (A & B & _). cbn in B. repeat split; auto; try lia; now apply A.
  - intros (A & B & _). repeat split; auto; discriminate.
  - intros (A & B & C). repeat split; auto; now apply A.
Qed.

(** The last stage sends what it receives. *)
Definition tail_items ss : list item := let s := last ss (meter 0) in queue (out s) ++ pending s.
Fixpoint metered ss : Prop :=
  match ss with
  | [] => False
  | [s] => (forall a, fn s a = [a]) /\ length (pending s) <= 1
  | _ :: r => metered r
  end.
Lemma metered_cons s ss : ss <> [] -> metered (s :: ss) = metered ss.
Proof. destruct ss; [congruence|reflexivity]. Qed.
Lemma last_cons (s d : stage item) ss : ss <> [] -> last (s :: ss) d = last ss d.
Proof. destruct ss; [congruence|reflexivity]. Qed.
Lemma cstep_nonempty c ss l c' ss' : cstep c ss l c' ss' -> ss <> [] /\ ss' <> [].
Proof. destruct 1; split; discriminate. Qed.
Definition olist (l : option item) : list item := match l with Some a => [a] | None => [] end.
Lemma cstep_metered c ss l c' ss' : cstep c ss l c' ss' -> metered ss ->
  metered ss' /\ tail_items ss' = tail_items ss ++ olist l /\ cap (last ss' (meter 0)) = cap (last ss (meter 0)).
Proof.
  induction 1; intros M.
  - destruct ss as [|s ss].
    + cbn in M. destruct M as [M1 M2]. unfold tail_items. cbn. rewrite M1. cbn. rewrite app_nil_r. auto.
    + rewrite metered_cons in * by discriminate. unfold tail_items. rewrite !last_cons by discriminate. cbn [counted olist]. rewrite app_nil_r. auto.
  - destruct ss as [|s ss].
    + cbn in M. destruct M as [M1 M2]. unfold tail_items. cbn. rewrite <- app_assoc. cbn. rewrite app_nil_r. repeat split; auto; lia.
    + rewrite metered_cons in * by discriminate. unfold tail_items. rewrite !last_cons by discriminate. cbn [olist]. rewrite app_nil_r. auto.
  - destruct ss as [|s ss].
    + cbn in M. unfold tail_items. cbn. rewrite !app_nil_r. auto.
    + rewrite metered_cons in * by discriminate. unfold tail_items. rewrite !last_cons by discriminate. cbn [olist]. rewrite app_nil_r. auto.
  - rewrite metered_cons in M by discriminate. rewrite metered_cons by discriminate. unfold tail_items. rewrite !(last_cons (mkstage f 0 _ _)) by discriminate.
    destruct ss as [|s ss].
    + cbn in M. destruct M as [M1 M2]. cbn. rewrite M1. cbn. rewrite app_nil_r. auto.
    + rewrite metered_cons in * by discriminate. rewrite !last_cons by discriminate. cbn [counted olist]. rewrite app_nil_r. auto.
  - destruct (cstep_nonempty _ _ _ _ _ H) as [N1 N2]. rewrite metered_cons in * by auto. unfold tail_items. rewrite !last_cons by auto. now apply IHcstep.
Qed.
Lemma receive_nonempty ss a ss' : receive ss a ss' -> ss <> [] /\ ss' <> [].
Proof. destruct 1; split; discriminate. Qed.
Lemma receive_metered ss a ss' : receive ss a ss' -> metered ss ->
  metered ss' /\ tail_items ss = a :: tail_items ss' /\ cap (last ss' (meter 0)) = cap (last ss (meter 0)).
Proof.
  induction 1; intros M.
  - cbn in M. unfold tail_items. cbn. auto.
  - cbn in M. unfold tail_items. cbn. destruct M. repeat split; auto; lia.
  - destruct (receive_nonempty _ _ _ H) as [N1 N2]. rewrite metered_cons in * by auto. unfold tail_items. rewrite !last_cons by auto. now apply IHreceive.
Qed.

(** ** A call *)
Definition sound (cl : call) (r : run item) : Prop :=
  received r ++ rest (queue (source r)) (chain r) = expected cl /\ closed (source r) = true /\ ordered (source r) (chain r)
  /\ metered (chain r) /\ cap (last (chain r) (meter 0)) = snd (fst cl).
Lemma rest_new (fs : list ((item -> list item) * nat)) k : forall q,
  rest q (map (fun f => new_stage (fst f) (snd f)) fs ++ [meter k]) = through fs q.
Proof.
  induction fs as [|f fs IH]; intros q; cbn.
  - unfold through. cbn. induction q; cbn; auto. now f_equal.
  - rewrite IH. reflexivity.
Qed.
Lemma sound_fresh cl : sound cl (fresh cl).
Proof.
  destruct cl as [[fs k] l]. unfold sound, fresh, start_run. cbn. rewrite rest_new. split; auto. split; auto.
  assert (E : last (map (fun f : (item -> list item) * nat => new_stage (fst f) (snd f)) fs ++ [meter k]) (meter 0) = meter k) by apply last_last.
  rewrite E. split; [|split; auto].
  - assert (G : forall c (gs : list (stage item)), Forall (fun s => out s = mkch [] false) gs -> ordered c gs).
    { intros c gs H. revert c. induction H as [|s gs Hs H IH]; intros c; cbn; auto. rewrite Hs. cbn. repeat split; auto; try discriminate. lia. }
    apply G. apply Forall_app. split; [|repeat constructor]. apply Forall_forall. intros s Hs. apply in_map_iff in Hs. destruct Hs as (f & <- & _). reflexivity.
  - clear E. induction fs as [|f fs IH]; cbn [map app]; [cbn; auto|]. rewrite metered_cons; auto. destruct fs; discriminate.
Qed.
Lemma sound_internal cl c ss g l c' ss' : cstep c ss l c' ss' -> sound cl (mkrun c ss g) ->
  sound cl (mkrun c' ss' g) /\ tail_items ss' = tail_items ss ++ olist l.
Proof.
  intros H (A & B & C & D & E). cbn [source chain received] in *. destruct (cstep_metered _ _ _ _ _ H D) as (D1 & D2 & D3).
  split; auto. unfold sound. cbn [source chain received]. rewrite <- (proj1 (cstep_rest _ _ _ _ _ H)), (proj1 (cstep_closed _ _ _ _ _ H)), D3.
  repeat split; auto. eapply cstep_ordered; eauto.
Qed.
Lemma sound_receive cl c ss g a ss' : receive ss a ss' -> sound cl (mkrun c ss g) ->
  sound cl (mkrun c ss' (g ++ [a])) /\ tail_items ss = a :: tail_items ss'.
Proof.
  intros H (A & B & C & D & E). cbn [source chain received] in *. destruct (receive_metered _ _ _ H D) as (D1 & D2 & D3).
  split; auto. unfold sound. cbn [source chain received]. rewrite D3. rewrite (proj1 (receive_rest _ _ _ H _)) in A. rewrite <- app_assoc. repeat split; auto.
  eapply receive_ordered; eauto.
Qed.

(** ** The metrics *)
Definition taken (r : run item) : list item := received r ++ tail_items (chain r).
Notation upd_met := (update_metrics item rows cols).
Lemma upd_comm m a b : upd_met (upd_met m a) b = upd_met (upd_met m b) a.
Proof.
  unfold update_metrics. destruct ((rows a <? 0)%Z || (cols a <? 0)%Z), ((rows b <? 0)%Z || (cols b <? 0)%Z); auto.
  unfold u64. cbn. f_equal; rewrite !Z.add_mod_idemp_l by lia; f_equal; lia.
Qed.
Lemma fold_perm l l' : Permutation l l' -> forall m, fold_left upd_met l m = fold_left upd_met l' m.
Proof. induction 1; intros m; cbn; auto. - now rewrite upd_comm. - rewrite IHPermutation1. auto. Qed.
Definition all_taken (rs : list (run item)) : list item := flat_map taken rs.
Lemma flat_map_split {A B} (f : A -> list B) pre x post : flat_map f (pre ++ x :: post) = flat_map f pre ++ f x ++ flat_map f post.
Proof. now rewrite flat_map_app. Qed.

Definition inv (m0 : metrics) (cls : list call) (s : state item) : Prop :=
  Forall2 sound cls (runs s) /\ met s = fold_left upd_met (all_taken (runs s)) m0.
Lemma inv_step m0 cls s s' : pstep item rows cols s s' -> inv m0 cls s -> inv m0 cls s'.
Proof.
  destruct 1 as [m pre c ss g post l c' ss' H|m pre c ss g post a ss' H]; intros [F M]; cbn [runs met] in *;
    apply Forall2_app_inv_r in F; destruct F as (c1 & c2 & F1 & F2 & ->); revert M; inversion F2 as [|cl r c3 r3 S F3]; subst; intros M.
  - destruct (sound_internal _ _ _ _ _ _ _ H S) as [S' T]. split; [apply Forall2_app; auto|]. cbn [runs met].
    unfold all_taken. rewrite !flat_map_split. destruct l as [a|]; cbn [count_item].
    + rewrite M. unfold all_taken. rewrite flat_map_split. unfold taken at 2 5. cbn [received chain]. rewrite T. cbn [olist].
      transitivity (fold_left upd_met ((flat_map taken pre ++ (g ++ tail_items ss) ++ flat_map taken post) ++ [a]) m0); [rewrite (fold_left_app _ _ [a]); reflexivity|].
      apply fold_perm. rewrite <- !app_assoc. do 3 apply Permutation_app_head. apply Permutation_app_comm.
    + rewrite M. unfold all_taken. rewrite flat_map_split. unfold taken at 2 5. cbn [received chain]. rewrite T. cbn [olist]. now rewrite app_nil_r.
  - destruct (sound_receive _ _ _ _ _ _ H S) as [S' T]. split; [apply Forall2_app; auto|]. cbn [runs met].
    rewrite M. unfold all_taken. rewrite !flat_map_split. unfold taken at 2 5. cbn [received chain]. rewrite T, <- !app_assoc. reflexivity.
Qed.
Lemma tail_fresh cl : taken (fresh cl) = [].
Proof. destruct cl as [[fs k] l]. unfold taken, tail_items, fresh, start_run. cbn. rewrite last_last. reflexivity. Qed.
Lemma inv_start m0 cls : inv m0 cls (mkstate m0 (map fresh cls)).
Proof.
  split; cbn [runs met].
  - induction cls; constructor; auto. apply sound_fresh.
  - unfold all_taken. rewrite flat_map_concat_map, map_map, (map_ext _ (fun _ => [])) by (intros; apply tail_fresh).
    induction cls; cbn; auto.
Qed.
Lemma inv_reach m0 cls s : psteps item rows cols (mkstate m0 (map fresh cls)) s -> inv m0 cls s.
Proof.
  remember (mkstate m0 (map fresh cls)) as s0. induction 1 as [s|s s' s'' H IH K]; subst; [apply inv_start|]. eapply inv_step; eauto.
Qed.

(** ** Somebody can always continue *)
Lemma last_out_cons s ss : ss <> [] -> last_out (s :: ss) = last_out ss.
Proof. intros H. unfold last_out. now rewrite last_cons. Qed.
Lemma progress_chain ss : forall c, ss <> [] -> ordered c ss ->
  (exists l c' ss', cstep c ss l c' ss') \/ (exists a ss', receive ss a ss') \/ last_out ss = mkch [] true
  \/ (exists s r, ss = s :: r /\ pending s = [] /\ queue c = [] /\ closed c = false).
Proof.
  induction ss as [|s ss IH]; intros c N O; [congruence|]. destruct O as (O1 & O2 & O3). destruct s as [f k p [q cl]]. cbn [out closed queue pending cap] in *.
  destruct p as [|a p].
  - destruct c as [[|b cq] cc]; [|left; do 3 eexists; apply c_take]. destruct cc; [|right; right; right; do 2 eexists; cbn; auto].
    destruct cl; [|left; do 3 eexists; apply c_close].
    destruct ss as [|t ss].
    + destruct q as [|b q]; [right; right; left; reflexivity|]. right. left. do 2 eexists. apply r_queue.
    + destruct (IH (mkch q true) ltac:(discriminate) O3) as [(l & c' & ss' & H)|[(b & ss' & H)|[H|(s & r & _ & _ & _ & H)]]].
      * left. do 3 eexists. apply c_down. exact H.
      * right. left. do 2 eexists. apply r_down. exact H.
      * right. right. left. rewrite last_out_cons by discriminate. exact H.
      * discriminate.
  - destruct cl. { destruct (O1 eq_refl). discriminate. }
    destruct (lt_dec (length q) k) as [L|L]; [left; do 3 eexists; now apply c_put|].
    destruct ss as [|t ss].
    + right. left. destruct q as [|b q]; [|do 2 eexists; apply r_queue]. cbn in L. replace k with 0 by lia. do 2 eexists. apply r_meet.
    + destruct (IH (mkch q false) ltac:(discriminate) O3) as [(l & c' & ss' & H)|[(b & ss' & H)|[H|(s & r & H1 & H2 & H3 & H4)]]].
      * left. do 3 eexists. apply c_down. exact H.
      * right. left. do 2 eexists. apply r_down. exact H.
      * right. right. left. rewrite last_out_cons by discriminate. exact H.
      * injection H1 as <- <-. cbn in H3. subst q. cbn in L. replace k with 0 by lia. destruct t as [g k' p' o]. cbn in H2. subst p'. left. do 3 eexists. apply c_meet.
Qed.

(** ** Executions end *)
Definition tot {A} (f : A -> nat) : list A -> nat := fix go l := match l with [] => 0 | a :: r => f a + go r end.
Lemma tot_app {A} (f : A -> nat) l1 l2 : tot f (l1 ++ l2) = tot f l1 + tot f l2.
Proof. induction l1; cbn; lia. Qed.
Fixpoint cost (fs : list (item -> list item)) (a : item) : nat :=
  match fs with [] => 1 | f :: r => S (tot (fun b => S (cost r b)) (f a)) end.
Fixpoint work c ss : nat :=
  tot (cost (map fn ss)) (queue c) +
  match ss with
  | [] => 0
  | s :: r => tot (fun b => S (cost (map fn r) b)) (pending s) + (if closed (out s) then 0 else 1) + work (out s) r
  end.
Lemma cstep_work c ss l c' ss' : cstep c ss l c' ss' -> work c' ss' < work c ss.
Proof.
  induction 1; cbn [work map fn queue out pending closed].
  - cbn. destruct (closed o); lia.
  - destruct ss; cbn [work map fn queue out pending closed]; rewrite tot_app; cbn; lia.
  - cbn. destruct ss; cbn; lia.
  - cbn. destruct (closed o); lia.
  - rewrite <- (proj2 (cstep_rest _ _ _ _ _ H)), (proj1 (cstep_closed _ _ _ _ _ H)). destruct (closed o); lia.
Qed.
Lemma receive_work ss a ss' : receive ss a ss' -> forall c, work c ss' < work c ss.
Proof.
  induction 1; intros c0; cbn [work map fn queue out pending closed].
  - cbn. destruct cl; lia.
  - cbn. lia.
  - rewrite <- (proj2 (receive_rest _ _ _ H [])). specialize (IHreceive (out s)). destruct (closed (out s)); lia.
Qed.
Definition total (s : state item) : nat := tot (fun r => work (source r) (chain r)) (runs s).
Lemma pstep_total s s' : pstep item rows cols s s' -> total s' < total s.
Proof.
  destruct 1 as [m pre c ss g post l c' ss' H|m pre c ss g post a ss' H]; unfold total; cbn [runs]; rewrite !tot_app; cbn.
  - apply cstep_work in H. lia.
  - pose proof (receive_work _ _ _ H c). lia.
Qed.
Lemma ends : well_founded (fun s' s => pstep item rows cols s s').
Proof. apply (well_founded_lt_compat _ total). intros s' s H. now apply pstep_total. Qed.

(** ** A drained call *)
Lemma drained_all ss : forall c, ss <> [] -> ordered c ss -> last_out ss = mkch [] true -> rest (queue c) ss = [] /\ tail_items ss = [].
Proof.
  intros c N O D.
  assert (G : forall ss c, ss <> [] -> ordered c ss -> last_out ss = mkch [] true -> c = mkch [] true /\ rest (queue c) ss = [] /\ tail_items ss = []).
  { clear. induction ss as [|s ss IH]; intros c N O D; [congruence|]. destruct O as (O1 & O2 & O3). destruct ss as [|t ss].
    - unfold last_out in D. cbn in D. rewrite D in O1. destruct (O1 eq_refl) as [-> P]. unfold tail_items. cbn. rewrite D, P. auto.
    - rewrite last_out_cons in D by discriminate. destruct (IH (out s) ltac:(discriminate) O3 D) as (E & R & T). rewrite E in O1. destruct (O1 eq_refl) as [-> P].
      split; auto. cbn [rest queue]. rewrite E, P. cbn [queue flat_map app]. rewrite E in R. split; [exact R|]. unfold tail_items in *. rewrite last_cons by discriminate. exact T. }
  destruct (G ss c N O D) as (_ & A & B). auto.
Qed.
Lemma metered_nonempty ss : metered ss -> ss <> [].
Proof. destruct ss; [intros []|discriminate]. Qed.
Lemma tail_bound cl r : sound cl r -> length (taken r) <= length (received r) + snd (fst cl) + 1.
Proof.
  intros (_ & _ & O & M & K). unfold taken, tail_items. rewrite !app_length. rewrite <- K.
  assert (G : forall ss c, metered ss -> ordered c ss -> length (queue (out (last ss (meter 0)))) <= cap (last ss (meter 0)) /\ length (pending (last ss (meter 0))) <= 1).
  { clear. induction ss as [|s ss IH]; intros c M O; [destruct M|]. destruct O as (O1 & O2 & O3). destruct ss as [|t ss]; [destruct M; cbn; auto|].
    rewrite last_cons by discriminate. apply (IH (out s)); auto. }
  destruct (G _ _ M O). lia.
Qed.
Lemma prefix_of cl r : sound cl r -> exists more, taken r ++ more = expected cl.
Proof.
  intros (A & _ & _ & M & _). 
  assert (G : forall ss q, metered ss -> exists more, tail_items ss ++ more = rest q ss).
  { clear. induction ss as [|s ss IH]; intros q M; [destruct M|]. destruct ss as [|t ss].
    - exists (flat_map (fn s) q). unfold tail_items. cbn. now rewrite <- app_assoc.
    - unfold tail_items. rewrite last_cons by discriminate. apply IH. exact M. }
  destruct (G (chain r) (queue (source r)) M) as [more E]. exists more. rewrite <- A, <- E. unfold taken. now rewrite <- app_assoc.
Qed.

(** ** Values of the metrics *)
Definition in_rows (a : item) : Z := if (rows a <? 0)%Z || (cols a <? 0)%Z then 0%Z else rows a.
Definition in_bytes (a : item) : Z := if (rows a <? 0)%Z || (cols a <? 0)%Z then 0%Z else item_bytes item rows cols a.
Lemma metrics_fold l : forall m, (0 <= samples m < 2 ^ 64)%Z -> (0 <= bytes m < 2 ^ 64)%Z ->
  fold_left upd_met l m = mkmet (u64 (samples m + zsum (map in_rows l))) (u64 (bytes m + zsum (map in_bytes l))).
Proof.
  induction l as [|a l IH]; intros [sm by_] H1 H2; cbn [samples bytes] in *.
  - cbn. unfold u64. rewrite !Z.add_0_r, !Z.mod_small by lia. reflexivity.
  - cbn [fold_left map]. unfold update_metrics at 2. cbn [samples bytes].
    change (zsum (in_rows a :: map in_rows l)) with (in_rows a + zsum (map in_rows l))%Z.
    change (zsum (in_bytes a :: map in_bytes l)) with (in_bytes a + zsum (map in_bytes l))%Z. unfold in_rows at 1, in_bytes at 1.
    destruct ((rows a <? 0)%Z || (cols a <? 0)%Z).
    + rewrite IH by (cbn; auto). cbn [samples bytes]. now rewrite !Z.add_0_l.
    + rewrite IH by (cbn; unfold u64; apply Z.mod_pos_bound; lia). cbn [samples bytes]. unfold u64. f_equal; rewrite Z.add_mod_idemp_l by lia; f_equal; lia.
Qed.
Lemma fine_bytes a : fine rows cols a -> in_bytes a = (rows a * cols a * 8)%Z /\ in_rows a = rows a.
Proof.
  intros (A & B & C). unfold in_bytes, in_rows, item_bytes.
  destruct (Z.ltb_spec (rows a) 0); [lia|]. destruct (Z.ltb_spec (cols a) 0); [lia|]. cbn [orb].
  assert (0 <= rows a * cols a)%Z by (apply Z.mul_nonneg_nonneg; auto).
  rewrite (wrap_id (rows a * cols a)) by (unfold int64; lia). rewrite wrap_id by (unfold int64; lia).
  destruct (Z.ltb_spec (rows a * cols a * 8) 0); [lia|]. auto.
Qed.
End S.
