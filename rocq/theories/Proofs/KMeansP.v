(** Proofs about mini-batch k-means. *)
From Coq Require Import List Arith Bool Lia Reals Lra Permutation.
From Verif Require Import Base.Num Base.GoRes Base.Mat Base.ListX Base.Inf Base.RTac
  Model.KMeans Spec.Order Spec.KMeans Proofs.OrderP.
Import ListNotations.

Lemma fold_left_map_nadd {N : Num} {A} (h : A -> N) l : forall a,
  fold_left nadd (map h l) a = fold_left (fun s x => nadd s (h x)) l a.
Proof. induction l as [|x l IH]; intros a; cbn; auto. Qed.

Lemma euclid_dist {N : Num} (a b : list N) : length a = length b -> euclid a b = Some (dist a b).
Proof.
  intros H. unfold euclid, dist, nsum. rewrite H, Nat.eqb_refl. do 2 f_equal.
  now rewrite fold_left_map_nadd.
Qed.

(** * The nearest centre *)
Section Nearest.
  Context {N : Num} (laws : lt_laws N).

  Lemma lt_best_trans (a b : N) best : nlt a b = true -> lt_best b best = true -> lt_best a best = true.
  Proof.
    intros H1 H2. destruct best as [v|]; cbn in *.
    - now apply (lt_trans N laws) with b.
    - destruct (lt_not_nan N laws _ _ H1) as [Ha _]. destruct (lt_inf N laws _ _ H1) as [Hi _].
      now rewrite Ha, Hi.
  Qed.

  Lemma nearest_from_spec (x : list N) : forall C c best at_, (forall ctr, In ctr C -> length ctr = length x) ->
    (nearest_from c x C best at_ = at_ /\ forall ctr, In ctr C -> lt_best (dist x ctr) best = false) \/
    (exists k ctr, nearest_from c x C best at_ = c + k /\ nth_error C k = Some ctr /\
       lt_best (dist x ctr) best = true /\
       forall e ctr', nth_error C e = Some ctr' ->
         nlt (dist x ctr') (dist x ctr) = false /\
         (e < k -> usable (dist x ctr') = true -> nlt (dist x ctr) (dist x ctr') = true)).
  Proof.
    induction C as [|c0 C IH]; intros c best at_ Hw.
    - left. split; [reflexivity|]. intros ctr [].
    - cbn [nearest_from]. rewrite (euclid_dist x c0) by (symmetry; apply Hw; now left).
      assert (HwC : forall ctr, In ctr C -> length ctr = length x) by (intros; apply Hw; now right).
      destruct (lt_best (dist x c0) best) eqn:E0.
      + right. destruct (IH (S c) (Some (dist x c0)) c HwC) as [[E H]|(k & ctr & E & Hk & Hlt & H)].
        * exists 0, c0. rewrite E, Nat.add_0_r. split; [reflexivity|]. split; [reflexivity|]. split; [exact E0|].
          intros [|e] ctr' He; simpl in He.
          -- injection He as <-. split; [apply (lt_irrefl N laws)|lia].
          -- split; [|lia]. apply (H ctr'). eapply nth_error_In; eauto.
        * exists (S k), ctr. split; [rewrite E; lia|]. split; [exact Hk|]. cbn [lt_best] in Hlt.
          split; [eapply lt_best_trans; eauto|].
          intros [|e] ctr' He; simpl in He.
          -- injection He as <-. split; [|auto].
             destruct (nlt (dist x c0) (dist x ctr)) eqn:Ec; [|reflexivity].
             pose proof (lt_trans N laws _ _ _ Hlt Ec) as Hc. now rewrite (lt_irrefl N laws) in Hc.
          -- destruct (H e ctr' He) as [H1 H2]. split; [exact H1|]. intros; apply H2; [lia|assumption].
      + destruct (IH (S c) best at_ HwC) as [[E H]|(k & ctr & E & Hk & Hlt & H)].
        * left. split; [exact E|]. intros ctr [<-|Hin]; auto.
        * right. exists (S k), ctr. split; [rewrite E; lia|]. split; [exact Hk|]. split; [exact Hlt|].
          intros [|e] ctr' He; simpl in He.
          -- injection He as <-. split.
             ++ destruct (nlt (dist x c0) (dist x ctr)) eqn:Ec; [|reflexivity].
                pose proof (lt_best_trans _ _ _ Ec Hlt). congruence.
             ++ intros _ Hu. destruct best as [b|]; cbn in E0, Hlt; [|unfold usable in Hu; congruence].
                destruct (nlt (dist x ctr) (dist x c0)) eqn:Ec; [reflexivity|].
                destruct (lt_not_nan N laws _ _ Hlt) as [Hn1 Hn2].
                assert (Hn0 : nisnan (dist x c0) = false).
                { unfold usable in Hu. destruct (nisnan (dist x c0)); [discriminate|reflexivity]. }
                pose proof (lt_negtrans N laws _ _ _ Hn1 Hn0 Hn2 Ec E0). congruence.
          -- destruct (H e ctr' He) as [H1 H2]. split; [exact H1|]. intros; apply H2; [lia|assumption].
  Qed.

  Lemma nearest_closest (x : list N) C : (forall ctr, In ctr C -> length ctr = length x) -> closest x C (nearest x C).
  Proof.
    intros Hw. unfold nearest. destruct (nearest_from_spec x C 0 None 0 Hw) as [[E H]|(k & ctr & E & Hk & Hlt & H)].
    - right. split; [exact E|]. exact H.
    - left. rewrite E. exists ctr. split; [exact Hk|]. split; [exact Hlt|]. exact H.
  Qed.
End Nearest.

Lemma nearest_bound {N : Num} (x : list N) C : C <> [] -> nearest x C < length C.
Proof.
  assert (G : forall C c best at_, at_ < c + length C -> nearest_from c x C best at_ < c + length C).
  { induction C0 as [|c0 C0 IH]; intros c best at_ H; cbn [nearest_from]; [exact H|].
    cbn [length] in *. destruct (euclid x c0) as [d|]; [destruct (lt_best d best)|];
      rewrite <- Nat.add_succ_comm in *; apply IH; lia. }
  intros Hne. apply (G C 0 None 0). destruct C; [easy|simpl; lia].
Qed.

(** The closest centre is unique. *)
Lemma closest_unique_R x C c c' : C <> [] ->
  closest (N := RNum) x C c -> closest (N := RNum) x C c' -> c = c'.
Proof.
  assert (A : forall c c' ctr ctr', c < c' -> nth_error C c = Some ctr -> nth_error C c' = Some ctr' ->
     (forall e ct, nth_error C e = Some ct -> @nlt RNum (@dist RNum x ct) (@dist RNum x ctr) = false) ->
     (forall e ct, nth_error C e = Some ct -> @nlt RNum (@dist RNum x ct) (@dist RNum x ctr') = false /\
        (e < c' -> @usable RNum (@dist RNum x ct) = true -> @nlt RNum (@dist RNum x ctr') (@dist RNum x ct) = true)) -> False).
  { intros a a' ctr ctr' Hlt H1 H2 Ha Ha'. specialize (Ha a' ctr' H2).
    destruct (Ha' a ctr H1) as [_ H]. specialize (H Hlt eq_refl). congruence. }
  intros Hne [(ctr & H1 & _ & H2)|[-> H]].
  2:{ destruct C as [|c0 C]; [easy|]. specialize (H c0 (or_introl eq_refl)). discriminate. }
  intros [(ctr' & H1' & _ & H2')|[-> H]].
  2:{ destruct C as [|c0 C]; [easy|]. specialize (H c0 (or_introl eq_refl)). discriminate. }
  destruct (Nat.lt_trichotomy c c') as [Hl|[->|Hl]]; [exfalso|reflexivity|exfalso].
  - apply (A c c' ctr ctr' Hl H1 H1'); [|exact H2']. intros; now apply H2 with e.
  - apply (A c' c ctr' ctr Hl H1' H1); [|exact H2]. intros; now apply H2' with e.
Qed.

(** * No panics while the shapes agree, for any arithmetic *)
Section Any.
  Context {N : Num}.
  Variable d k : nat.

  Definition okcc (cc : list (list N) * list nat) : Prop :=
    length (fst cc) = k /\ length (snd cc) = k /\ (forall ctr, In ctr (fst cc) -> length ctr = d).

  Lemma upd_In {A} (g : A -> A) l : forall i x, In x (upd i g l) -> In x l \/ exists y, nth_error l i = Some y /\ x = g y.
  Proof.
    induction l as [|a l IH]; intros [|i] x H; simpl in H; try contradiction.
    - destruct H as [<-|H]; [right; exists a; auto|left; now right].
    - destruct H as [<-|H]; [left; now left|]. destruct (IH i x H) as [H'|(y & Hy & ->)]; [left; now right|right; eauto].
  Qed.

  Lemma mapi_length {A B} (g : nat -> A -> B) l : length (mapi g l) = length l.
  Proof. apply mapi_from_length. Qed.

  Lemma kstep_ok cc x : 1 <= k -> okcc cc -> length x = d -> exists cc', kstep cc x = Ok cc' /\ okcc cc'.
  Proof.
    intros Hk (H1 & H2 & H3) Hx. destruct cc as [C ns]. cbn [fst snd] in *. unfold kstep.
    assert (Hb : nearest x C < k).
    { rewrite <- H1. apply nearest_bound. destruct C; [simpl in H1; lia|discriminate]. }
    destruct (nth_error ns (nearest x C)) as [n|] eqn:En; [|apply nth_error_None in En; lia].
    destruct (nth_error C (nearest x C)) as [ctr|] eqn:Ec; [|apply nth_error_None in Ec; lia].
    pose proof (H3 ctr (nth_error_In _ _ Ec)) as Hc. unfold blend. rewrite Hc, Hx, Nat.ltb_irrefl. cbn [bind].
    eexists. split; [reflexivity|]. split; [|split]; cbn [fst snd].
    - now rewrite upd_length.
    - now rewrite upd_length.
    - intros c Hin. apply upd_In in Hin as [Hin|(y & _ & ->)]; [auto|]. now rewrite mapi_length.
  Qed.

  Lemma ksteps_ok xs : 1 <= k -> (forall x, In x xs -> length x = d) -> forall cc, okcc cc ->
    exists cc', foldM kstep cc xs = Ok cc' /\ okcc cc'.
  Proof.
    intros Hk. induction xs as [|x xs IH]; intros Hx cc Hcc; cbn [foldM].
    - eauto.
    - destruct (kstep_ok cc x Hk Hcc (Hx x (or_introl eq_refl))) as (cc1 & -> & H1). cbn [bind].
      apply IH; auto. intros; apply Hx; now right.
  Qed.

  (** The inertia, as a sum over the samples. *)
  Lemma inertia_ok (X : matrix N) C : C <> [] -> (forall ctr, In ctr C -> length ctr = d) ->
    (forall r, In r (mrows X) -> length r = d) ->
    compute_inertia X C =
      Ok (nsum (map (fun x => nmul (dist x (nth (nearest x C) C [])) (dist x (nth (nearest x C) C []))) (mrows X))).
  Proof.
    intros Hne Hw Hr. unfold compute_inertia, nsum. rewrite fold_left_map_nadd. generalize (@n0 N).
    revert Hr. induction (mrows X) as [|x l IH]; intros Hr a; cbn [foldM fold_left]; [reflexivity|].
    pose proof (nearest_bound x C Hne) as Hb.
    destruct (nth_error C (nearest x C)) as [ctr|] eqn:Ec; [|apply nth_error_None in Ec; lia].
    rewrite (nth_error_nth _ _ [] Ec). pose proof (Hw ctr (nth_error_In _ _ Ec)) as Hc.
    rewrite (euclid_dist x ctr) by (rewrite Hc; apply Hr; now left). cbn [min_value bind].
    apply IH. intros; apply Hr; now right.
  Qed.
End Any.

(** * Random choices *)
Section Random.
  Context {N : Num} (G : Type) (intn : nat -> G -> nat * G) (float01 : G -> N * G).
  Hypothesis intn_ok : forall n g, 0 < n -> fst (intn n g) < n.

  Lemma swap_perm i j l : i < length l -> j < length l -> Permutation (swap i j l) l.
  Proof.
    intros Hi Hj. unfold swap.
    destruct (nth_error l i) as [a|] eqn:Ea; [|reflexivity].
    destruct (nth_error l j) as [b|] eqn:Eb; [|reflexivity].
    assert (H : forall i j l (a b : nat), nth_error l i = Some a -> nth_error l j = Some b ->
              Permutation (upd i (fun _ => b) (upd j (fun _ => a) l)) l).
    { clear. intros i. induction i as [|i IH]; intros [|j] [|x l] a b Ha Hb; simpl in *; try discriminate.
      - injection Ha as ->. injection Hb as ->. reflexivity.
      - injection Ha as ->. clear - Hb. revert a l Hb. induction j as [|j IHj]; intros a [|y l] Hb; simpl in *; try discriminate.
        + injection Hb as ->. apply perm_swap.
        + rewrite perm_swap. rewrite (perm_swap y a l). constructor. now apply IHj.
      - injection Hb as ->. clear - Ha. revert b l Ha. induction i as [|i IHi]; intros b [|y l] Ha; simpl in *; try discriminate.
        + injection Ha as ->. apply perm_swap.
        + rewrite perm_swap. rewrite (perm_swap y b l). constructor. now apply IHi.
      - constructor. now apply IH. }
    now apply H.
  Qed.
  Lemma shuffle_perm i : forall l g, i < length l -> Permutation (fst (shuffle G intn i l g)) l.
  Proof.
    induction i as [|i IH]; intros l g Hi; cbn [shuffle]; [reflexivity|].
    pose proof (intn_ok (S (S i)) g ltac:(lia)) as Hj. destruct (intn (S (S i)) g) as [j g1]. cbn [fst] in Hj.
    pose proof (swap_perm (S i) j l Hi ltac:(lia)) as HP.
    rewrite IH by (rewrite (Permutation_length HP); lia). exact HP.
  Qed.
  Lemma batch_range (o : options N) n g i : 1 <= n -> In i (fst (select_batch G intn o n g)) -> i < n.
  Proof.
    intros Hn H. unfold select_batch in H.
    pose proof (shuffle_perm (n - 1) (seq 0 n) g ltac:(rewrite seq_length; lia)) as HP.
    destruct (shuffle G intn (n - 1) (seq 0 n) g) as [l g1]. cbn [fst] in *.
    assert (Hi : In i l) by (rewrite <- (firstn_skipn (Nat.min (o_batch o) n) l); apply in_app_iff; now left).
    apply (Permutation_in _ HP), in_seq in Hi. lia.
  Qed.

  Lemma rows_at (X : matrix N) idx : (forall i, In i idx -> i < nrows X) ->
    exists rows, mapM (row_at X) idx = Ok rows /\ forall r, In r rows -> In r (mrows X).
  Proof.
    induction idx as [|i idx IH]; intros H; cbn [mapM].
    - exists []. split; [reflexivity|]. intros r [].
    - unfold row_at at 1. destruct (nth_error (mrows X) i) as [r|] eqn:E.
      + cbn [bind]. destruct IH as (rows & -> & HR); [intros; apply H; now right|]. cbn [bind].
        exists (r :: rows). split; [reflexivity|]. intros q [<-|Hq]; [eapply nth_error_In; eauto|auto].
      + apply nth_error_None in E. specialize (H i (or_introl eq_refl)). unfold nrows in H. lia.
  Qed.

  Lemma select_bound target : forall (ds : list N) i cum n, i + length ds <= n -> 0 < n -> select i cum target ds < n.
  Proof.
    induction ds as [|x ds IH]; intros i cum n H1 H2; cbn [select]; [exact H2|]. cbn [length] in H1.
    destruct (nle target (nadd cum x)); [lia|]. apply IH; lia.
  Qed.

  Lemma pp_loop_ok (X : matrix N) : 1 <= nrows X -> forall k C g, (forall c, In c C -> In c (mrows X)) ->
    exists C' g', pp_loop G float01 k X C g = Ok (C', g') /\ length C' = length C + k /\
      (forall c, In c C' -> In c (mrows X)).
  Proof.
    intros Hn. induction k as [|k IH]; intros C g HC; cbn [pp_loop].
    - exists C, g. split; [reflexivity|]. split; [lia|exact HC].
    - destruct (float01 g) as [u g1]. set (ds := map _ (mrows X)).
      assert (Hs : select 0 n0 (nmul u (nsum ds)) ds < nrows X).
      { apply select_bound; [unfold ds; rewrite map_length; unfold nrows; lia|exact Hn]. }
      unfold row_at. destruct (nth_error (mrows X) _) as [r|] eqn:E; [|apply nth_error_None in E; unfold nrows in Hs; lia].
      cbn [bind]. destruct (IH (C ++ [r]) g1) as (C' & g' & -> & HL & HI).
      { intros c Hc. apply in_app_iff in Hc as [Hc|[<-|[]]]; [auto|eapply nth_error_In; eauto]. }
      exists C', g'. split; [reflexivity|]. split; [rewrite HL, app_length; simpl; lia|exact HI].
  Qed.

  Lemma init_ok (o : options N) (X : matrix N) g : 1 <= nrows X -> 1 <= o_clusters o ->
    exists C g', init_centers G intn float01 o X g = Ok (C, g') /\ length C = o_clusters o /\
      (forall c, In c C -> In c (mrows X)).
  Proof.
    intros Hn Hk. assert (Hdraw : forall g, exists i g1, draw G intn (nrows X) g = Ok (i, g1) /\ i < nrows X).
    { intros h. unfold draw. destruct (Nat.eqb_spec (nrows X) 0); [lia|].
      pose proof (intn_ok (nrows X) h ltac:(lia)) as Hi. destruct (intn (nrows X) h) as [i g1]. eauto. }
    assert (Hrow : forall i, i < nrows X -> exists r, row_at X i = Ok r /\ In r (mrows X)).
    { intros i Hi. unfold row_at. destruct (nth_error (mrows X) i) as [r|] eqn:E.
      - exists r. split; [reflexivity|]. eapply nth_error_In; eauto.
      - apply nth_error_None in E. unfold nrows in Hi. lia. }
    unfold init_centers. destruct (o_plusplus o).
    - unfold init_pp. destruct (o_clusters o) as [|k]; [lia|].
      destruct (Hdraw g) as (i & g1 & -> & Hi). cbn [bind fst snd]. destruct (Hrow i Hi) as (r & -> & Hr). cbn [bind].
      destruct (pp_loop_ok X Hn k [r] g1) as (C' & g' & -> & HL & HI).
      { intros c [<-|[]]. exact Hr. }
      exists C', g'. split; [reflexivity|]. split; [simpl in HL; lia|exact HI].
    - clear Hk. revert g. induction (o_clusters o) as [|k IH]; intros g; cbn [init_random].
      + exists [], g. split; [reflexivity|]. split; [reflexivity|]. intros c [].
      + destruct (Hdraw g) as (i & g1 & -> & Hi). cbn [bind fst snd]. destruct (Hrow i Hi) as (r & -> & Hr). cbn [bind].
        destruct (IH g1) as (C & g' & -> & HL & HI). cbn [bind fst snd].
        exists (r :: C), g'. split; [reflexivity|]. split; [simpl; lia|]. intros c [<-|Hc]; auto.
  Qed.
End Random.

(** * Running means *)
Section Real.
  Local Open Scope R_scope.
  Variable d : nat.

  Lemma mean_rows_length l : length (mean_rows d l) = d.
  Proof. unfold mean_rows. now rewrite map_length, seq_length. Qed.
  Lemma mean_rows_nth l j : (j < d)%nat -> nth_error (mean_rows d l) j = Some (Rsum (map (fun r => nth j r 0) l) / INR (length l)).
  Proof.
    intros H. unfold mean_rows. rewrite nth_error_map, (nth_error_nth' _ 0%nat) by (now rewrite seq_length).
    now rewrite seq_nth.
  Qed.
  Lemma centre_length cl : length (fst cl) = d -> length (centre d cl) = d.
  Proof. intros H. unfold centre. destruct (snd cl); [exact H|apply mean_rows_length]. Qed.

  Lemma blend_mean (cl : cluster) (x : list R) : length (fst cl) = d -> length x = d ->
    @blend RNum (1 / @nofnat RNum (S (length (snd cl)))) (centre d cl) x = Ok (mean_rows d (snd cl ++ [x])).
  Proof.
    intros H1 H2. unfold blend. pose proof (centre_length cl H1) as Hc.
    unR. replace (Nat.ltb (length (centre d cl)) (length x)) with false
      by (symmetry; rewrite Hc, H2; apply Nat.ltb_irrefl).
    f_equal. apply nth_error_ext. intros j. unfold mapi. rewrite nth_error_mapi_from.
    destruct (Nat.lt_ge_cases j d) as [Hj|Hj].
    2:{ rewrite (proj2 (nth_error_None (mean_rows d _) j)) by (now rewrite mean_rows_length).
        rewrite (proj2 (nth_error_None (centre d cl) j)) by (now rewrite Hc). reflexivity. }
    rewrite mean_rows_nth by exact Hj.
    rewrite (nth_error_nth' x 0) by (rewrite H2; exact Hj). rewrite nofnat_R.
    rewrite map_app, Rsum_app, app_length. cbn [map Rsum length].
    unfold centre. destruct (snd cl) as [|m ms] eqn:El.
    - rewrite (nth_error_nth' (fst cl) 0) by (rewrite H1; exact Hj). cbn. f_equal. field.
    - rewrite mean_rows_nth by exact Hj. cbn [option_map]. f_equal. rewrite <- El.
      replace (length (snd cl) + 1)%nat with (S (length (snd cl))) by lia.
      rewrite S_INR. assert (0 < INR (length (snd cl))) by (rewrite El; apply lt_0_INR; simpl; lia).
      cbn. field. lra.
  Qed.

  Definition widths (cls : list cluster) : Prop := forall cl, In cl cls -> length (fst cl) = d.
  Definition size (cl : cluster) : nat := length (snd cl).
  Definition view (cls : list cluster) : list (list R) * list nat :=
    (map (centre d) cls, map size cls).
  Definition join (x : list R) (cl : cluster) : cluster := (fst cl, snd cl ++ [x]).

  Lemma upd_map {A B} (h : A -> B) (g : A -> A) (g' : B -> B) l : forall i,
    (forall a, nth_error l i = Some a -> g' (h a) = h (g a)) -> upd i g' (map h l) = map h (upd i g l).
  Proof.
    induction l as [|a l IH]; intros [|i] H; simpl; auto.
    - f_equal. now apply H.
    - f_equal. now apply IH.
  Qed.

  Lemma kstep_R cls (x : list R) : cls <> [] -> widths cls -> length x = d ->
    exists k, closest (N := RNum) x (map (centre d) cls) k /\ (k < length cls)%nat /\
      @kstep RNum (view cls) x = Ok (view (upd k (join x) cls)).
  Proof.
    intros Hne Hw Hx. set (C := map (centre d) cls).
    assert (HC : forall ctr, In ctr C -> length ctr = length x).
    { intros ctr Hin. apply in_map_iff in Hin as (cl & <- & Hcl). rewrite Hx. apply centre_length, Hw, Hcl. }
    assert (HCne : C <> []) by (unfold C; destruct cls; [easy|discriminate]).
    set (k := @nearest RNum x C). exists k. split; [apply (nearest_closest lt_laws_R); exact HC|].
    assert (Hk : (k < length cls)%nat).
    { pose proof (@nearest_bound RNum x C HCne) as H. fold k in H. unfold C in H. rewrite map_length in H. exact H. }
    split; [exact Hk|].
    destruct (nth_error cls k) as [cl|] eqn:Ecl; [|apply nth_error_None in Ecl; lia].
    unfold view. fold C. unfold kstep. fold k.
    rewrite (map_nth_error size k cls Ecl). unfold size at 1.
    assert (EC : nth_error C k = Some (centre d cl)) by (apply map_nth_error; exact Ecl).
    unR. rewrite EC. change (@ndiv RNum n1 (@nofnat RNum (S (length (snd cl))))) with (1 / @nofnat RNum (S (length (snd cl)))).
    pose proof (blend_mean cl x (Hw cl (nth_error_In _ _ Ecl)) Hx) as EB. unR. rewrite EB. cbn [bind].
    f_equal. f_equal.
    - unfold C. apply upd_map. intros a Ha. assert (a = cl) by congruence. subst a.
      unfold centre, join. cbn [fst snd]. destruct (snd cl ++ [x]) eqn:E; [|reflexivity].
      apply app_eq_nil in E as [_ E]. discriminate.
    - apply upd_map. intros a Ha. unfold join, size. cbn [snd]. rewrite app_length. simpl. lia.
  Qed.

  Lemma upd_join_fst x cls k : map fst (upd k (join x) cls) = map fst cls.
  Proof. revert k. induction cls as [|c cls IH]; intros [|k]; simpl; congruence. Qed.
  Lemma widths_fst cls cls' : map fst cls = map fst cls' -> widths cls -> widths cls'.
  Proof.
    intros E H cl Hcl. assert (Hin : In (fst cl) (map fst cls)) by (rewrite E; now apply in_map).
    apply in_map_iff in Hin as (c & Ec & Hc). rewrite <- Ec. now apply H.
  Qed.

  Lemma ksteps_R xs : forall cls, cls <> [] -> widths cls -> (forall x, In x xs -> length x = d) ->
    exists cls', grows d cls xs cls' /\ foldM (@kstep RNum) (view cls) xs = Ok (view cls') /\
      map fst cls' = map fst cls.
  Proof.
    induction xs as [|x xs IH]; intros cls Hne Hw Hx.
    - exists cls. split; [constructor|]. split; reflexivity.
    - destruct (kstep_R cls x Hne Hw (Hx x (or_introl eq_refl))) as (k & Hcl & Hk & E).
      destruct (IH (upd k (join x) cls)) as (cls' & Hg & E' & Hf).
      + intros H0. apply (f_equal (@length _)) in H0. rewrite upd_length in H0. destruct cls; [easy|discriminate].
      + apply (widths_fst cls); [symmetry; apply upd_join_fst|exact Hw].
      + intros; apply Hx; now right.
      + exists cls'. split; [econstructor; eauto|]. split.
        * cbn [foldM]. unR. rewrite E. cbn [bind]. exact E'.
        * rewrite Hf. apply upd_join_fst.
  Qed.

  Lemma grows_app cls xs cls1 ys cls2 : grows d cls xs cls1 -> grows d cls1 ys cls2 -> grows d cls (xs ++ ys) cls2.
  Proof. induction 1; simpl; intros H2; [exact H2|]. econstructor; eauto. Qed.

  (** Members come from the samples. *)
  Lemma grows_members cls xs cls' : grows d cls xs cls' -> forall cl m, In cl cls' -> In m (snd cl) ->
    In m xs \/ exists cl0, In cl0 cls /\ In m (snd cl0).
  Proof.
    induction 1 as [cs|cs x xs k cs' _ _ IH]; intros cl m Hcl Hm; [right; eauto|].
    destruct (IH cl m Hcl Hm) as [Hin|(cl0 & Hin & Hm0)]; [left; now right|].
    apply upd_In in Hin as [Hin|(y & Hy & ->)]; [right; eauto|]. cbn [snd] in Hm0.
    apply in_app_iff in Hm0 as [Hm0|[<-|[]]]; [|left; now left].
    right. exists y. split; [eapply nth_error_In; eauto|exact Hm0].
  Qed.
  Lemma grows_length cls xs cls' : grows d cls xs cls' -> length cls' = length cls.
  Proof. induction 1; [reflexivity|]. now rewrite IHgrows, upd_length. Qed.
End Real.

(** * Fit *)
Section Fit.
  Context {N : Num} (G : Type) (intn : nat -> G -> nat * G) (float01 : G -> N * G).
  Hypothesis intn_ok : forall n g, 0 < n -> fst (intn n g) < n.
  Variable o : options N.
  Variable X : matrix N.
  Hypothesis (HX : wf X) (Hk : 1 <= o_clusters o) (Hn : 1 <= nrows X).

  (** A property of centres and counts kept by every step. *)
  Variable P : list (list N) * list nat -> Prop.
  Hypothesis (Pok : forall cc, P cc -> okcc (mcols X) (o_clusters o) cc).
  Hypothesis (Pstep : forall cc cc' x, P cc -> In x (mrows X) -> kstep cc x = Ok cc' -> P cc').
  Hypothesis (Pinit : forall C, length C = o_clusters o -> (forall c, In c C -> In c (mrows X)) ->
    P (C, repeat 0 (o_clusters o))).

  Lemma ksteps_P xs : (forall x, In x xs -> In x (mrows X)) -> forall cc, P cc ->
    exists cc', foldM kstep cc xs = Ok cc' /\ P cc'.
  Proof.
    induction xs as [|x xs IH]; intros Hx cc Hcc; cbn [foldM]; [eauto|].
    destruct (kstep_ok (mcols X) (o_clusters o) cc x Hk (Pok _ Hcc)) as (cc1 & E & _).
    { apply HX, Hx. now left. }
    rewrite E. cbn [bind]. apply IH; [intros; apply Hx; now right|].
    eapply Pstep; eauto. apply Hx. now left.
  Qed.

  Lemma okcc_ne cc : okcc (N := N) (mcols X) (o_clusters o) cc -> fst cc <> [].
  Proof. intros (H & _) E. rewrite E in H. simpl in H. lia. Qed.

  Lemma run_loop_P : forall fuel iter last cc prev noimp g, P cc ->
    exists C ns last' g', run_loop G intn o X fuel iter last cc prev noimp g = Ok (C, last', g') /\ P (C, ns).
  Proof.
    induction fuel as [|fuel IH]; intros iter last cc prev noimp g Hcc; cbn [run_loop].
    - exists (fst cc), (snd cc), last, g. split; [reflexivity|]. now destruct cc.
    - pose proof (fun i => batch_range G intn intn_ok o (nrows X) g i Hn) as HB.
      destruct (select_batch G intn o (nrows X) g) as [idx g1]. cbn [fst] in HB.
      destruct (rows_at X idx HB) as (rows & -> & HR). cbn [bind].
      destruct (ksteps_P rows HR cc Hcc) as (cc' & -> & HP). cbn [bind].
      destruct (Pok _ HP) as (H1 & H2 & H3).
      rewrite (inertia_ok (mcols X) X (fst cc') (okcc_ne _ (Pok _ HP)) H3 (fun r Hr => HX r Hr)). cbn [bind].
      destruct (match prev with None => false | Some p => _ end).
      + destruct (Nat.leb _ _); [|apply IH; exact HP].
        exists (fst cc'), (snd cc'), iter, g1. split; [reflexivity|]. now destruct cc'.
      + apply IH. exact HP.
  Qed.

  Definition inertia_of (C : list (list N)) : N :=
    nsum (map (fun x => nmul (dist x (nth (nearest x C) C [])) (dist x (nth (nearest x C) C []))) (mrows X)).

  Lemma single_run_P g : exists C ns last g', P (C, ns) /\
    single_run G intn float01 o X g =
      Ok (C, if o_labels o then Some (map (fun s => nearest s C) (mrows X)) else None, inertia_of C, last, g').
  Proof.
    unfold single_run. destruct (init_ok G intn float01 intn_ok o X g Hn Hk) as (C0 & g1 & -> & HL & HI).
    cbn [bind fst snd].
    destruct (run_loop_P (o_maxiter o) 0 0 (C0, repeat 0 (o_clusters o)) None 0 g1 (Pinit C0 HL HI)) as (C & ns & last & g2 & -> & HP).
    cbn [bind]. destruct (Pok _ HP) as (H1 & H2 & H3).
    rewrite (inertia_ok (mcols X) X C (okcc_ne _ (Pok _ HP)) H3 (fun r Hr => HX r Hr)). cbn [bind].
    exists C, ns, last, g2. split; [exact HP|reflexivity].
  Qed.

  (** What Fit leaves behind: nothing, or the best run. *)
  Definition fitted_by (cts : option (list nat)) (s : km N) : Prop :=
    k_nfeat s = mcols X /\ k_counts s = cts /\ k_fitted s = true /\
    ((k_centers s = None /\ k_labels s = None /\ k_inertia s = None) \/
     exists C ns, P (C, ns) /\ k_centers s = Some C /\
       k_labels s = (if o_labels o then Some (map (fun x => nearest x C) (mrows X)) else None) /\
       k_inertia s = Some (inertia_of C) /\ usable (inertia_of C) = true).

  (** [not_worse a b]: the inertia [a] is at least as good as [b]. *)
  Definition not_worse (a b : option N) : Prop :=
    match b with
    | None => True
    | Some vb => match a with None => False | Some va => nlt vb va = false end
    end.

  Lemma best_run_P (laws : lt_laws N) : forall runs cts best g, fitted_by cts best ->
    exists s g', best_run G intn float01 o X runs best g = Ok (s, g') /\ fitted_by cts s /\
      not_worse (k_inertia s) (k_inertia best) /\
      (1 <= runs -> (forall C ns, P (C, ns) -> usable (inertia_of C) = true) -> k_centers s <> None) /\
      ((forall C ns, P (C, ns) -> usable (inertia_of C) = false) -> k_centers best = None -> k_centers s = None).
  Proof.
    induction runs as [|runs IH]; intros cts best g Hb; cbn [best_run].
    - exists best, g. split; [reflexivity|]. split; [exact Hb|]. split.
      { destruct (k_inertia best) as [v|]; cbn; [apply (lt_irrefl N laws)|exact I]. }
      split; [lia|]. auto.
    - destruct (single_run_P g) as (C & ns & last & g1 & HP & ->). cbn [bind].
      set (best' := if lt_best (inertia_of C) (k_inertia best) then _ else best).
      assert (Hb' : fitted_by cts best').
      { unfold best'. destruct (lt_best (inertia_of C) (k_inertia best)) eqn:E; [|exact Hb].
        destruct Hb as (H1 & H2 & H3 & Hb). split; [exact H1|]. split; [exact H2|]. split; [reflexivity|].
        right. exists C, ns. split; [exact HP|]. do 3 (split; [reflexivity|]).
        destruct (k_inertia best) as [v|]; [|exact E]. cbn in E. unfold usable.
        destruct (lt_not_nan N laws _ _ E) as [-> _]. destruct (lt_inf N laws _ _ E) as [-> _]. reflexivity. }
      destruct (IH cts best' g1 Hb') as (s & g' & E & Hs & Hw & HS & HF). exists s, g'.
      split; [exact E|]. split; [exact Hs|]. split; [|split].
      + unfold best' in Hw. destruct (lt_best (inertia_of C) (k_inertia best)) eqn:El; [|exact Hw].
        cbn [k_inertia] in Hw. destruct (k_inertia best) as [vb|]; [|exact I]. cbn in El, Hw |- *.
        destruct (k_inertia s) as [va|]; [|contradiction].
        destruct (nlt vb va) eqn:Ev; [|reflexivity].
        pose proof (lt_trans N laws _ _ _ El Ev). congruence.
      + intros _ Hu. destruct runs as [|runs']; [|apply HS; [lia|exact Hu]].
        cbn [best_run] in E. injection E as <- <-. unfold best'.
        destruct (lt_best (inertia_of C) (k_inertia best)) eqn:El; [discriminate|].
        destruct Hb as (_ & _ & _ & [(_ & _ & Hi)|(C1 & ns1 & _ & H2 & _)]); [|congruence].
        rewrite Hi in El. cbn in El. specialize (Hu C ns HP). unfold usable in Hu. congruence.
      + intros Hu Hc. apply HF; [exact Hu|]. unfold best'.
        destruct (lt_best (inertia_of C) (k_inertia best)) eqn:El; [|exact Hc].
        exfalso. specialize (Hu C ns HP). destruct (k_inertia best) as [v|]; cbn in El.
        * unfold usable in Hu. destruct (lt_not_nan N laws _ _ El) as [En _]. destruct (lt_inf N laws _ _ El) as [Ei _].
          rewrite En, Ei in Hu. discriminate.
        * unfold usable in Hu. congruence.
  Qed.

  Lemma fit_P (laws : lt_laws N) s g : o_clusters o <= nrows X ->
    exists s' g', km_fit G intn float01 o X s g = (s', Ok g') /\ fitted_by (k_counts s) s' /\
      (1 <= o_ninit o -> (forall C ns, P (C, ns) -> usable (inertia_of C) = true) -> k_centers s' <> None) /\
      ((forall C ns, P (C, ns) -> usable (inertia_of C) = false) -> k_centers s' = None).
  Proof.
    intros HL. unfold km_fit. rewrite (proj2 (Nat.ltb_ge _ _) HL).
    destruct (best_run_P laws (o_ninit o) (k_counts s) (mkkm None None None 0 (mcols X) (k_counts s) true) g) as (s' & g' & -> & H1 & _ & H2 & H3).
    { split; [reflexivity|]. split; [reflexivity|]. split; [reflexivity|]. left. auto. }
    exists s', g'. split; [reflexivity|]. split; [exact H1|]. split; [exact H2|]. auto.
  Qed.

  (** One more run is never worse. *)
  Lemma best_run_more (laws : lt_laws N) : forall runs cts best g s s' g1 g1', fitted_by cts best ->
    best_run G intn float01 o X runs best g = Ok (s, g1) ->
    best_run G intn float01 o X (S runs) best g = Ok (s', g1') ->
    not_worse (k_inertia s') (k_inertia s).
  Proof.
    induction runs as [|runs IH]; intros cts best g s s' g1 g1' Hb E E'.
    - cbn [best_run] in E. injection E as <- <-.
      destruct (best_run_P laws 1 cts best g Hb) as (s2 & g2 & E2 & _ & Hw & _).
      rewrite E' in E2. injection E2 as <- <-. exact Hw.
    - cbn [best_run] in E. change (best_run G intn float01 o X (S (S runs)) best g) with
        (let* r := single_run G intn float01 o X g in
         let '(centers, labels, inertia, last, g1) := r in
         best_run G intn float01 o X (S runs)
          (if lt_best inertia (k_inertia best)
                     then mkkm (Some centers) labels (Some inertia) last (k_nfeat best) (k_counts best) true
                     else best) g1) in E'.
      destruct (best_run_P laws 1 cts best g Hb) as (s2 & g2 & E2 & Hf & _). cbn [best_run] in E2.
      destruct (single_run G intn float01 o X g) as [[[[[C lab] i] last] g0]|e|] eqn:Er; cbn [bind] in *; try discriminate.
      injection E2 as E2 _. rewrite E2 in E, E'. eapply IH; eauto.
  Qed.
End Fit.
