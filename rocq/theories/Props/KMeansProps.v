(** C31, C32, C65, C66 - sklearn/cluster/minibatch_kmeans.go. *)
From Coq Require Import List Arith Bool Lia Reals Lra.
From Flocq Require Import Core.Core IEEE754.BinarySingleNaN.
From Verif Require Import Base.Num Base.GoRes Base.Mat Base.ListX Base.Inf Base.RTac
  Model.KMeans Spec.Order Spec.KMeans Proofs.OrderP Proofs.KMeansP.
Import ListNotations.

Local Notation intn_in_range intn := (forall n g, 0 < n -> fst (intn n g) < n).

(** ** C31.  Nearest centres *)

(** Predict returns for every row the closest centre, the first one on ties (real
    numbers and IEEE doubles, see [lt_laws]). *)
Theorem C31_predict : forall (N : Num), lt_laws N -> forall (s : km N) (X : matrix N) C,
  k_fitted s = true -> k_centers s = Some C -> (forall ctr, In ctr C -> length ctr = k_nfeat s) ->
  wf X -> mcols X = k_nfeat s -> 1 <= nrows X ->
  exists labels, km_predict s X = Ok labels /\ Forall2 (fun x c => closest x C c) (mrows X) labels.
Proof.
  intros N laws s X C Hf HC Hw HX Hc Hn. unfold km_predict, km_check. rewrite Hf, Hc, Nat.eqb_refl. cbn [negb bind].
  unfold newdense. destruct (Nat.eqb_spec (nrows X) 0); [lia|]. cbn [orb Nat.eqb bind]. rewrite HC.
  eexists. split; [reflexivity|].
  assert (H : forall r, In r (mrows X) -> closest r C (nearest r C)).
  { intros r Hr. apply (nearest_closest laws). intros ctr Hctr. rewrite (Hw ctr Hctr), (HX r Hr). now symmetry. }
  clear - H. induction (mrows X) as [|r l IH]; cbn [map]; constructor; [apply H; now left|].
  apply IH. intros; apply H; now right.
Qed.

(** Transform returns all distances (any arithmetic). *)
Theorem C31_transform : forall (N : Num) (o : options N) (s : km N) (X : matrix N) C,
  k_fitted s = true -> k_centers s = Some C -> (forall ctr, In ctr C -> length ctr = k_nfeat s) ->
  o_clusters o = length C -> 1 <= length C -> wf X -> mcols X = k_nfeat s -> 1 <= nrows X ->
  km_transform o s X = Ok (map (fun r => map (dist r) C) (mrows X)).
Proof.
  intros N o s X C Hf HC Hw Ho HL HX Hc Hn. unfold km_transform, km_check. rewrite Hf, Hc, Nat.eqb_refl. cbn [negb bind].
  unfold newdense. destruct (Nat.eqb_spec (nrows X) 0); [lia|]. rewrite Ho.
  destruct (Nat.eqb_spec (length C) 0); [lia|]. cbn [orb bind]. rewrite HC.
  assert (Hrow : forall r, In r (mrows X) ->
     mapM (fun c => match nth_error C c with Some ctr => Ok (min_value (euclid r ctr)) | None => Panic end)
          (seq 0 (length C)) = Ok (map (dist r) C)).
  { intros r Hr. specialize (HX r Hr).
    assert (G : forall pre C1, C = pre ++ C1 ->
      mapM (fun c => match nth_error C c with Some ctr => Ok (min_value (euclid r ctr)) | None => Panic end)
          (seq (length pre) (length C1)) = Ok (map (dist r) C1)).
    { intros pre C1. revert pre. induction C1 as [|c C1 IH]; intros pre E; [reflexivity|].
      cbn [length seq mapM map]. rewrite E, nth_error_app2, Nat.sub_diag by lia. cbn [nth_error bind].
      rewrite (euclid_dist r c).
      2:{ rewrite HX, Hc. symmetry. apply Hw. rewrite E. apply in_app_iff. right. now left. }
      cbn [min_value bind]. rewrite <- E. specialize (IH (pre ++ [c])). rewrite app_length in IH. simpl in IH.
      rewrite Nat.add_1_r in IH. rewrite IH by (rewrite <- app_assoc; exact E). reflexivity. }
    exact (G [] C eq_refl). }
  clear - Hrow. induction (mrows X) as [|r l IH]; [reflexivity|]. cbn [mapM map].
  rewrite Hrow by (now left). cbn [bind]. rewrite IH by (intros; apply Hrow; now right). reflexivity.
Qed.

(** A successful Fit: unless no run had a usable inertia, the labels are the closest
    centres, Predict on the training data returns them, and the inertia is the sum of
    the squared distances to them. *)
Theorem C31_fit : forall (N : Num), lt_laws N -> forall G intn float01 (o : options N) (X : matrix N) s g,
  intn_in_range intn -> wf X -> 1 <= o_clusters o -> o_clusters o <= nrows X ->
  exists s' g', km_fit G intn float01 o X s g = (s', Ok g') /\ k_fitted s' = true /\ k_nfeat s' = mcols X /\
    (k_centers s' = None \/
     exists C labels, k_centers s' = Some C /\ length C = o_clusters o /\
       (forall ctr, In ctr C -> length ctr = mcols X) /\
       Forall2 (fun x c => closest x C c) (mrows X) labels /\
       km_predict s' X = Ok labels /\
       (o_labels o = true -> k_labels s' = Some labels) /\
       k_inertia s' = Some (nsum (map (fun xc => nmul (dist (fst xc) (nth (snd xc) C []))
                                                      (dist (fst xc) (nth (snd xc) C [])))
                                      (combine (mrows X) labels)))).
Proof.
  intros N laws G intn float01 o X s g Hi HX Hk HL.
  destruct (fit_P G intn float01 Hi o X HX Hk ltac:(lia) (okcc (mcols X) (o_clusters o))) with (s := s) (g := g)
    as (s' & g' & E & (F1 & F2 & F3 & F4) & _); auto.
  - intros cc cc' x Hcc Hx E. destruct (kstep_ok (mcols X) (o_clusters o) cc x Hk Hcc (HX x Hx)) as (c2 & E2 & H2). congruence.
  - intros C HC Hin. split; [exact HC|]. split; [apply repeat_length|]. intros c Hc. apply HX, Hin, Hc.
  - exists s', g'. split; [exact E|]. split; [exact F3|]. split; [exact F1|].
    destruct F4 as [(H & _)|(C & ns & (P1 & _ & P3) & HC & Hlab & Hin & _)]; [left; exact H|right].
    cbn [fst] in P1, P3.
    destruct (C31_predict N laws s' X C F3 HC) as (labels & EP & HF); auto.
    { intros ctr Hc. rewrite F1. now apply P3. }
    { lia. }
    assert (El : labels = map (fun x => nearest x C) (mrows X)).
    { unfold km_predict, km_check in EP. rewrite F3, F1, Nat.eqb_refl in EP. cbn [negb bind] in EP.
      unfold newdense in EP. destruct (Nat.eqb_spec (nrows X) 0); [lia|]. cbn [orb Nat.eqb bind] in EP.
      rewrite HC in EP. now injection EP as <-. }
    exists C, labels. split; [exact HC|]. split; [exact P1|]. split; [exact P3|]. split; [exact HF|]. split; [exact EP|].
    split; [intros Ho; rewrite Ho in Hlab; rewrite Hlab, El; reflexivity|].
    rewrite Hin. unfold inertia_of. do 2 f_equal. rewrite El. clear. induction (mrows X) as [|x l IH]; [reflexivity|].
    cbn [map combine fst snd]. f_equal. exact IH.
Qed.

(** Over the reals Fit always finds centres, and each is the mean of training rows. *)
Theorem C31_means : forall G intn float01 (o : options RNum) (X : matrix R) s g,
  intn_in_range intn -> wf X -> 1 <= o_clusters o -> o_clusters o <= nrows X -> 1 <= o_ninit o ->
  exists C, k_centers (fst (km_fit (N := RNum) G intn float01 o X s g)) = Some C /\
    length C = o_clusters o /\
    forall ctr, In ctr C -> exists l, l <> [] /\ (forall r, In r l -> In r (mrows X)) /\ ctr = mean_rows (mcols X) l.
Proof.
  intros G intn float01 o X s g Hi HX Hk HL Hnin. set (d := mcols X).
  assert (Hn : 1 <= nrows X) by lia.
  set (P := fun cc : list (list R) * list nat => exists cls : list cluster, cc = view d cls /\ length cls = o_clusters o /\
     forall cl, In cl cls -> In (fst cl) (mrows X) /\ forall m, In m (snd cl) -> In m (mrows X)).
  assert (HW : forall cls, (forall cl, In cl cls -> In (fst cl) (mrows X) /\ forall m, In m (snd cl) -> In m (mrows X)) ->
            widths d cls) by (intros cls H cl Hcl; apply HX; exact (proj1 (H cl Hcl))).
  destruct (fit_P (N := RNum) G intn float01 Hi o X HX Hk Hn P) with (s := s) (g := g)
    as (s' & g' & E & (F1 & F2 & F3 & F4) & F5 & _); auto.
  - intros cc (cls & -> & Hlen & Hin). unfold okcc, view. cbn [fst snd].
    split; [etransitivity; [apply map_length|exact Hlen]|].
    split; [etransitivity; [apply map_length|exact Hlen]|].
    intros ctr Hc. apply in_map_iff in Hc as (cl & <- & Hcl). apply centre_length. apply (HW cls Hin cl Hcl).
  - intros cc cc' x (cls & -> & Hlen & Hin) Hx Es.
    assert (Hne : cls <> []) by (intros ->; simpl in Hlen; lia).
    destruct (kstep_R d cls x Hne (HW cls Hin) (HX x Hx)) as (k & _ & Hkb & E2).
    exists (upd k (join x) cls). split; [congruence|]. split; [now rewrite upd_length|].
    intros cl Hcl. apply upd_In in Hcl as [Hcl|(y & Hy & ->)]; [auto|]. apply nth_error_In in Hy. cbn [join fst snd].
    destruct (Hin y Hy) as [H1 H2]. split; [exact H1|]. intros m Hm. apply in_app_iff in Hm as [Hm|[<-|[]]]; auto.
  - intros C HC Hin. exists (map (fun c => (c, [])) C). split.
    + unfold view. rewrite !map_map. f_equal.
      * symmetry. etransitivity; [|apply map_id]. apply map_ext. reflexivity.
      * rewrite <- HC. clear. induction C as [|c C IH]; [reflexivity|]. cbn [length repeat map]. f_equal. exact IH.
    + split; [rewrite map_length; exact HC|]. intros cl Hcl. apply in_map_iff in Hcl as (c & <- & Hc). cbn [fst snd].
      split; [auto|]. intros m [].
  - apply lt_laws_R.
  - rewrite E. cbn [fst]. assert (Hc : k_centers s' <> None) by (apply F5; [exact Hnin|reflexivity]).
    destruct F4 as [(H & _)|(C & ns & HP & HC & _)]; [congruence|]. exists C. split; [exact HC|].
    destruct HP as (cls & Ev & Hlen & Hin). injection Ev as -> _. split; [etransitivity; [apply map_length|exact Hlen]|].
    intros ctr Hctr. apply in_map_iff in Hctr as (cl & <- & Hcl). destruct (Hin cl Hcl) as [H1 H2].
    unfold centre. destruct (snd cl) as [|m ms] eqn:El.
    + exists [fst cl]. split; [discriminate|]. split; [intros r [<-|[]]; exact H1|].
      pose proof (HX _ H1) as Hlen1. apply nth_error_ext. intros j. destruct (Nat.lt_ge_cases j d) as [Hj|Hj].
      * rewrite mean_rows_nth by exact Hj. rewrite (nth_error_nth' (fst cl) 0%R) by (fold d in Hlen1; lia).
        f_equal. simpl. field.
      * transitivity (@None R); [|symmetry]; apply nth_error_None; [fold d in Hlen1; lia|rewrite mean_rows_length; exact Hj].
    + exists (m :: ms). split; [discriminate|]. split; [exact H2|reflexivity].
Qed.

(** More initialisations never give a larger inertia. *)
Definition with_ninit {N : Num} (o : options N) (n : nat) : options N :=
  mkopts (o_clusters o) (o_plusplus o) (o_maxiter o) (o_batch o) (o_labels o) (o_tol o) (o_maxnoimp o) n.
Lemma best_run_ninit {N : Num} G intn float01 (o : options N) X n : forall runs best g,
  best_run G intn float01 (with_ninit o n) X runs best g = best_run G intn float01 o X runs best g.
Proof.
  assert (L : forall fuel iter last cc prev noimp g,
    run_loop G intn (with_ninit o n) X fuel iter last cc prev noimp g = run_loop G intn o X fuel iter last cc prev noimp g).
  { induction fuel as [|fuel IH]; intros; [reflexivity|]. cbn [run_loop].
    change (select_batch G intn (with_ninit o n)) with (select_batch G intn o).
    destruct (select_batch G intn o (nrows X) g) as [idx g1]. destruct (mapM _ _) as [rows|e|]; [|reflexivity|reflexivity].
    cbn [bind]. destruct (foldM _ _ _) as [cc'|e|]; [|reflexivity|reflexivity]. cbn [bind].
    destruct (compute_inertia _ _) as [i|e|]; [|reflexivity|reflexivity]. cbn [bind o_tol with_ninit o_maxnoimp].
    rewrite !IH. reflexivity. }
  induction runs as [|runs IH]; intros best g; [reflexivity|]. cbn [best_run].
  assert (E : single_run G intn float01 (with_ninit o n) X g = single_run G intn float01 o X g).
  { unfold single_run, init_centers. cbn [with_ninit o_plusplus o_clusters o_maxiter o_labels].
    destruct (if o_plusplus o then _ else _) as [[C g1]|e|]; [|reflexivity|reflexivity]. cbn [bind]. now rewrite L. }
  rewrite E. destruct (single_run G intn float01 o X g) as [[[[[C lab] i] last] g0]|e|]; [|reflexivity|reflexivity]. cbn [bind]. apply IH.
Qed.
Theorem C31_more_runs : forall G intn float01 (o : options RNum) (X : matrix R) s g n,
  intn_in_range intn -> wf X -> 1 <= o_clusters o -> o_clusters o <= nrows X -> 1 <= n ->
  exists i i', k_inertia (fst (km_fit (N := RNum) G intn float01 (with_ninit o n) X s g)) = Some i /\
    k_inertia (fst (km_fit (N := RNum) G intn float01 (with_ninit o (S n)) X s g)) = Some i' /\ (i' <= i)%R.
Proof.
  intros G intn float01 o X s g n Hi HX Hk HL Hn1.
  assert (Hn : 1 <= nrows X) by lia.
  assert (Hbase : fitted_by (N := RNum) o X (okcc (mcols X) (o_clusters o)) (k_counts s)
            (mkkm None None None 0 (mcols X) (k_counts s) true)).
  { split; [reflexivity|]. split; [reflexivity|]. split; [reflexivity|]. left. auto. }
  assert (HP : forall cc cc' x, okcc (N := RNum) (mcols X) (o_clusters o) cc -> In x (mrows X) ->
            kstep cc x = Ok cc' -> okcc (mcols X) (o_clusters o) cc').
  { intros cc cc' x Hcc Hx E. destruct (kstep_ok (N := RNum) (mcols X) (o_clusters o) cc x Hk Hcc (HX x Hx)) as (c2 & E2 & H2). congruence. }
  assert (HP0 : forall C, length C = o_clusters o -> (forall c, In c C -> In c (mrows X)) ->
            okcc (N := RNum) (mcols X) (o_clusters o) (C, repeat 0 (o_clusters o))).
  { intros C HC Hin. split; [exact HC|]. split; [apply repeat_length|]. intros c Hc. apply HX, Hin, Hc. }
  pose proof (best_run_P (N := RNum) G intn float01 Hi o X HX Hk Hn (okcc (mcols X) (o_clusters o))
    (fun cc H => H) HP HP0 lt_laws_R) as B.
  destruct (B n (k_counts s) _ g Hbase) as (s1 & g1 & E1 & F1 & _ & S1 & _).
  destruct (B (S n) (k_counts s) _ g Hbase) as (s2 & g2 & E2 & F2 & _).
  pose proof (best_run_more (N := RNum) G intn float01 Hi o X HX Hk Hn (okcc (mcols X) (o_clusters o))
    (fun cc H => H) HP HP0 lt_laws_R n (k_counts s) _ g s1 s2 g1 g2 Hbase E1 E2) as Hw.
  specialize (S1 Hn1 ltac:(reflexivity)).
  destruct F1 as (_ & _ & _ & [(H & _)|(C & ns & _ & _ & _ & I1 & _)]); [congruence|].
  unfold km_fit. cbn [o_clusters o_ninit with_ninit]. unR. rewrite (proj2 (Nat.ltb_ge _ _) HL).
  rewrite !best_run_ninit, E1, E2. cbn [fst]. rewrite I1 in Hw |- *. cbn [not_worse] in Hw.
  destruct (k_inertia s2) as [i'|]; [|contradiction]. eexists _, _. split; [reflexivity|]. split; [reflexivity|].
  now apply Rltb_false in Hw.
Qed.

(** ** C32.  Incremental training *)

(** Successive PartialFit calls. *)
Fixpoint feed {N : Num} (G : Type) intn float01 (o : options N) (bs : list (matrix N)) (s : km N) (g : G) : km N * res G :=
  match bs with
  | [] => (s, Ok g)
  | X :: r => match km_partial_fit G intn float01 o X s g with
              | (s', Ok g') => feed G intn float01 o r s' g'
              | other => other
              end
  end.

(** The centres are the running means of the samples assigned to them, over all calls
    since the first; they start at rows of the first batch. *)
Theorem C32_running_means : forall G intn float01 (o : options RNum) (X : matrix R) bs s g,
  intn_in_range intn -> 1 <= o_clusters o -> 1 <= nrows X -> k_centers s = None ->
  (forall Y, In Y (X :: bs) -> wf Y /\ mcols Y = mcols X) ->
  exists s' g' start cls, feed G intn float01 o (X :: bs) s g = (s', Ok g') /\
    length start = o_clusters o /\
    (forall cl, In cl start -> In (fst cl) (mrows X) /\ snd cl = []) /\
    grows (mcols X) start (concat (map mrows (X :: bs))) cls /\
    k_centers s' = Some (map (centre (mcols X)) cls) /\
    k_counts s' = Some (map (fun cl => length (snd cl)) cls) /\
    k_fitted s' = true /\ k_nfeat s' = mcols X.
Proof.
  intros G intn float01 o X bs s g Hi Hk Hn Hs Hbs. set (d := mcols X).
  (* later calls *)
  assert (Hlater : forall bs (s : km RNum) g cls, (forall Y : matrix R, In Y bs -> wf Y /\ mcols Y = d) ->
    cls <> [] -> widths d cls -> k_centers s = Some (map (centre d) cls) -> k_counts s = Some (map size cls) ->
    k_fitted s = true -> k_nfeat s = d ->
    exists s' g' cls', feed G intn float01 o bs s g = (s', Ok g') /\ grows d cls (concat (map mrows bs)) cls' /\
      k_centers s' = Some (map (centre d) cls') /\ k_counts s' = Some (map size cls') /\
      k_fitted s' = true /\ k_nfeat s' = d).
  { clear. induction bs as [|Y bs IH]; intros s g cls HB Hne Hw HC Hc Hf Hnf; cbn [feed].
    - exists s, g, cls. split; [reflexivity|]. split; [constructor|]. auto.
    - destruct (HB Y (or_introl eq_refl)) as [HY HYc].
      destruct (ksteps_R d (mrows Y) cls Hne Hw) as (cls1 & Hg & E & Hfst).
      { intros x Hx. rewrite <- HYc. now apply HY. }
      unfold km_partial_fit. rewrite HC. cbn [bind]. unR. rewrite Hnf, HYc, Nat.eqb_refl. cbn [negb].
      rewrite Hc, HC. unfold view in E. unR. rewrite E. 
      destruct (IH (mkkm (N := RNum) (Some (map (centre d) cls1)) (k_labels s) (k_inertia s) (k_niter s) d (Some (map size cls1)) true) g cls1)
        as (s' & g' & cls' & E' & Hg' & H'); auto.
      { intros; apply HB; now right. }
      { intros ->. apply (f_equal (@length _)) in Hfst. rewrite !map_length in Hfst. destruct cls; [easy|discriminate]. }
      { apply (widths_fst d cls); [now symmetry|exact Hw]. }
      exists s', g', cls'. split; [exact E'|]. split; [cbn [map concat]; eapply grows_app; eauto|exact H']. }
  destruct (Hbs X (or_introl eq_refl)) as [HX _].
  destruct (init_ok (N := RNum) G intn float01 Hi o X g Hn Hk) as (C & g1 & EI & HL & HI).
  set (start := map (fun c : list R => (c, [] : list (list R))) C).
  assert (Hst : start <> []) by (unfold start; destruct C; [simpl in HL; lia|discriminate]).
  assert (HWs : widths d start).
  { intros cl Hcl. unfold start in Hcl. apply in_map_iff in Hcl as (c & <- & Hc). cbn [fst]. apply HX, HI, Hc. }
  destruct (ksteps_R d (mrows X) start Hst HWs (fun x Hx => HX x Hx)) as (cls1 & Hg & E & Hfst).
  assert (Ev : view d start = (C, repeat 0 (o_clusters o))).
  { unfold view, start. rewrite !map_map. apply (f_equal2 (@pair (list (list R)) (list nat))).
    - etransitivity; [|apply map_id]. apply map_ext. reflexivity.
    - rewrite <- HL. clear. induction C as [|c C IH]; [reflexivity|]. cbn [length repeat map]. f_equal. exact IH. }
  destruct (Hlater bs (mkkm (N := RNum) (Some (map (centre d) cls1)) (k_labels s) (k_inertia s) (k_niter s) d (Some (map size cls1)) true) g1 cls1)
    as (s' & g' & cls & E' & Hg' & H1 & H2 & H3 & H4); auto.
  { intros; apply Hbs; now right. }
  { intros ->. apply (f_equal (@length _)) in Hfst. rewrite !map_length in Hfst. destruct start; [easy|discriminate]. }
  { apply (widths_fst d start); [now symmetry|exact HWs]. }
  exists s', g', start, cls. split.
  { cbn [feed]. unfold km_partial_fit. rewrite Hs, EI. cbn [bind fst snd k_nfeat k_centers k_counts k_labels k_inertia k_niter].
    unR. rewrite Nat.eqb_refl. cbn [negb]. rewrite <- Ev. unR. rewrite E. exact E'. }
  split; [unfold start; rewrite map_length; exact HL|]. split.
  { intros cl Hcl. apply in_map_iff in Hcl as (c & <- & Hc). split; [cbn; auto|reflexivity]. }
  split; [cbn [map concat]; eapply grows_app; eauto|]. split; [exact H1|]. split; [exact H2|]. auto.
Qed.

(** After Fit (without any earlier PartialFit) the first non-empty PartialFit panics. *)
Theorem C32_partial_fit_after_fit_panics : forall (N : Num) G intn float01 (o o' : options N) (X Y : matrix N) s g g1 g2,
  k_counts s = None -> km_fit G intn float01 o X s g = (fst (km_fit G intn float01 o X s g), Ok g1) ->
  k_centers (fst (km_fit G intn float01 o X s g)) <> None ->
  mcols Y = mcols X -> 1 <= nrows Y ->
  snd (km_partial_fit G intn float01 o' Y (fst (km_fit G intn float01 o X s g)) g2) = Panic.
Proof.
  intros N G intn float01 o o' X Y s g g1 g2 Hs Hf Hc HY Hn.
  assert (B : forall runs best g, match best_run G intn float01 o X runs best g with
            | Ok (s', _) => k_counts s' = k_counts best /\ k_nfeat s' = k_nfeat best | _ => True end).
  { induction runs as [|runs IH]; intros best h; cbn [best_run]; [auto|].
    destruct (single_run G intn float01 o X h) as [[[[[C lab] i] last] g0]|e|]; cbn [bind]; auto.
    specialize (IH (if lt_best i (k_inertia best) then mkkm (Some C) lab (Some i) last (k_nfeat best) (k_counts best) true else best) g0).
    destruct (best_run _ _ _ _ _ _ _ _) as [[s' g']|e|]; auto.
    destruct IH as [-> ->]. now destruct (lt_best i (k_inertia best)). }
  unfold km_fit in *. destruct (Nat.ltb (nrows X) (o_clusters o)); [discriminate|].
  specialize (B (o_ninit o) (mkkm None None None 0 (mcols X) (k_counts s) true) g).
  destruct (best_run _ _ _ _ _ _ _ _) as [[s' g']|e|]; cbn [fst] in *; try discriminate.
  cbn [k_counts k_nfeat] in B. destruct B as [B1 B2]. unfold km_partial_fit.
  destruct (k_centers s') as [C|] eqn:EC; [|congruence]. rewrite B2, HY, Nat.eqb_refl. cbn [negb].
  rewrite B1, Hs, EC. destruct (mrows Y) as [|r l] eqn:Er; [unfold nrows in Hn; rewrite Er in Hn; simpl in Hn; lia|].
  cbn [foldM]. unfold kstep at 1. destruct (nearest r C); reflexivity.
Qed.

(** Counts survive Fit: if PartialFit was used before, the next sample moves the
    nearest centre of the new fit by 1/(old count + 1). *)
Theorem C32_stale_counts : forall G intn float01 (o : options RNum) (X Y : matrix R) s g ns x,
  intn_in_range intn -> wf X -> 1 <= o_clusters o -> o_clusters o <= nrows X -> 1 <= o_ninit o ->
  k_counts s = Some ns -> length ns = o_clusters o ->
  mcols Y = mcols X -> mrows Y = [x] -> length x = mcols X ->
  exists s1 C k n ctr, fst (km_fit (N := RNum) G intn float01 o X s g) = s1 /\ k_centers s1 = Some C /\
    closest (N := RNum) x C k /\ nth_error ns k = Some n /\ nth_error C k = Some ctr /\
    k_centers (fst (km_partial_fit (N := RNum) G intn float01 o Y s1 g)) =
      Some (upd k (fun _ => map (fun j => nth j ctr 0 + (nth j x 0 - nth j ctr 0) / (INR n + 1))%R (seq 0 (mcols X))) C).
Proof.
  intros G intn float01 o X Y s g ns x Hi HX Hk HL Hnin Hns Hlen HYc HY Hx.
  assert (Hn : 1 <= nrows X) by lia.
  destruct (fit_P (N := RNum) G intn float01 Hi o X HX Hk Hn (okcc (mcols X) (o_clusters o))) with (s := s) (g := g)
    as (s' & g' & E & (F1 & F2 & F3 & F4) & F5 & _); auto.
  { intros cc cc' y Hcc Hy E. destruct (kstep_ok (N := RNum) (mcols X) (o_clusters o) cc y Hk Hcc (HX y Hy)) as (c2 & E2 & H2). congruence. }
  { intros C HC Hin. split; [exact HC|]. split; [apply repeat_length|]. intros c Hc. apply HX, Hin, Hc. }
  { apply lt_laws_R. }
  rewrite E. cbn [fst]. assert (Hc : k_centers s' <> None) by (apply F5; [exact Hnin|reflexivity]).
  destruct F4 as [(H & _)|(C & ns' & (P1 & P2 & P3) & HC & _)]; [congruence|]. cbn [fst snd] in P1, P3.
  assert (HCne : C <> []) by (intros ->; simpl in P1; lia).
  set (k := @nearest RNum x C). pose proof (@nearest_bound RNum x C HCne) as Hb. fold k in Hb. rewrite P1 in Hb.
  destruct (nth_error ns k) as [n|] eqn:En; [|apply nth_error_None in En; lia].
  destruct (nth_error C k) as [ctr|] eqn:Ec; [|apply nth_error_None in Ec; unR; lia].
  pose proof (P3 ctr (nth_error_In _ _ Ec)) as Hctr.
  exists s', C, k, n, ctr. split; [reflexivity|]. split; [exact HC|]. split.
  { apply (nearest_closest lt_laws_R). intros c Hcin. rewrite (P3 c Hcin). now symmetry. }
  split; [exact En|]. split; [exact Ec|].
  unfold km_partial_fit. rewrite HC. cbn [bind]. unR. rewrite F1, HYc, Nat.eqb_refl. cbn [negb].
  rewrite F2, Hns, HC, HY. cbn [foldM]. unfold kstep. fold k. unR. rewrite En, Ec. unfold blend. unR.
  rewrite Hctr, Hx, Nat.ltb_irrefl. cbn [bind fst k_centers]. f_equal.
  assert (Em : mapi (fun j (v : R) => match nth_error x j with
              | Some x0 => @nadd RNum (@nmul RNum (@nsub RNum n1 (@ndiv RNum n1 (@nofnat RNum (S n)))) v) (@nmul RNum (@ndiv RNum n1 (@nofnat RNum (S n))) x0)
              | None => v end) ctr =
          map (fun j => nth j ctr 0 + (nth j x 0 - nth j ctr 0) / (INR n + 1))%R (seq 0 (mcols X))).
  { apply nth_error_ext. intros j. unfold mapi. rewrite nth_error_mapi_from, nth_error_map.
    destruct (Nat.lt_ge_cases j (mcols X)) as [Hj|Hj].
    - rewrite (nth_error_nth' (seq 0 (mcols X)) 0) by (now rewrite seq_length). rewrite seq_nth by exact Hj.
      unR. rewrite (nth_error_nth' ctr 0%R) by lia. rewrite (nth_error_nth' x 0%R) by (unR; lia). cbn [option_map plus].
      f_equal. rewrite nofnat_R, S_INR. pose proof (pos_INR n). cbn. field. lra.
    - rewrite (proj2 (nth_error_None (seq 0 (mcols X)) j)) by (rewrite seq_length; exact Hj).
      rewrite (proj2 (nth_error_None ctr j)) by (unR; lia). reflexivity. }
  clearbody k. clear - Em. revert k. induction C as [|c C IH]; intros [|k]; cbn [upd]; [reflexivity|reflexivity| |].
  - f_equal. exact Em.
  - f_equal. apply IH.
Qed.

(** ** C65.  Failing calls *)
Theorem C65_failed_fit : forall (N : Num) G intn float01 (o : options N) (X Y : matrix N) s g,
  nrows X < o_clusters o -> mcols X <> mcols Y -> k_fitted s = true -> 
  (exists e, snd (km_fit G intn float01 o X s g) = Err e) /\
  k_fitted (fst (km_fit G intn float01 o X s g)) = true /\
  km_predict (fst (km_fit G intn float01 o X s g)) Y = Err (EDimension (mcols X) (mcols Y)) /\
  km_transform o (fst (km_fit G intn float01 o X s g)) Y = Err (EDimension (mcols X) (mcols Y)).
Proof.
  intros N G intn float01 o X Y s g HL Hc Hf. unfold km_fit. rewrite (proj2 (Nat.ltb_lt _ _) HL). cbn [fst snd].
  split; [eauto|]. split; [exact Hf|]. unfold km_predict, km_transform, km_check. cbn [k_fitted k_nfeat]. rewrite Hf. cbn [negb].
  destruct (Nat.eqb_spec (mcols Y) (mcols X)); [congruence|]. auto.
Qed.
Theorem C65_failed_partial_fit : forall (N : Num) G intn float01 (o : options N) (X : matrix N) s g C,
  k_centers s = Some C -> mcols X <> k_nfeat s ->
  km_partial_fit G intn float01 o X s g = (s, Err (EDimension (k_nfeat s) (mcols X))).
Proof.
  intros N G intn float01 o X s g C HC Hc. unfold km_partial_fit. rewrite HC.
  destruct (Nat.eqb_spec (mcols X) (k_nfeat s)); [congruence|]. reflexivity.
Qed.

(** ** C66.  NaN in the training data *)
Section C66.
  Context (fe fl : F64 -> F64).
  Let FN := FNum fe fl.

  Lemma plus_nan_l (b : F64) : f64_plus f64_nan b = f64_nan. Proof. now destruct b. Qed.
  Lemma plus_nan_r (b : F64) : f64_plus b f64_nan = f64_nan. Proof. now destruct b. Qed.
  Lemma minus_nan_l (b : F64) : f64_minus f64_nan b = f64_nan. Proof. now destruct b. Qed.
  Lemma fold_nan (l : list F64) : forall a, a = f64_nan \/ In f64_nan l -> fold_left f64_plus l a = f64_nan.
  Proof.
    induction l as [|x l IH]; intros a H; cbn [fold_left].
    - destruct H as [->|[]]. reflexivity.
    - apply IH. destruct H as [->|[->|H]]; [left; apply plus_nan_l|left; apply plus_nan_r|now right].
  Qed.
  Lemma dist_nan (x ctr : list F64) : length x = length ctr -> In f64_nan x -> @dist FN x ctr = f64_nan.
  Proof.
    intros HL Hin. unfold dist, nsum.
    assert (E : fold_left f64_plus (map (fun ab => f64_mult (f64_minus (fst ab) (snd ab)) (f64_minus (fst ab) (snd ab))) (combine x ctr)) f64_zero = f64_nan).
    { apply fold_nan. right. revert ctr HL. induction x as [|a x IH]; intros [|b ctr] HL; simpl in HL; try discriminate; [easy|].
      cbn [combine map fst snd]. destruct Hin as [->|Hin]; [left; now rewrite minus_nan_l|right]. apply IH; auto. }
    exact (f_equal f64_sqrt E).
  Qed.

  Theorem C66_nan_fit : forall G intn float01 (o : options FN) (X Y : matrix F64) s g row,
    intn_in_range intn -> wf X -> 1 <= o_clusters o -> o_clusters o <= nrows X ->
    In row (mrows X) -> In f64_nan row ->
    exists s' g', km_fit (N := FN) G intn float01 o X s g = (s', Ok g') /\
      k_fitted s' = true /\ k_centers s' = None /\ k_labels s' = None /\
      (mcols Y = mcols X -> 1 <= nrows Y ->
        km_predict (N := FN) s' Y = Ok (repeat 0 (nrows Y)) /\ km_transform (N := FN) o s' Y = Panic).
  Proof.
    intros G intn float01 o X Y s g row Hi HX Hk HL Hr Hnan.
    destruct (fit_P (N := FN) G intn float01 Hi o X HX Hk) with (P := okcc (N := FN) (mcols X) (o_clusters o)) (s := s) (g := g)
      as (s' & g' & E & (F1 & F2 & F3 & F4) & _ & F6); auto.
    { unfold nrows in *. change (num FN) with F64 in *. lia. }
    { intros cc cc' y Hcc Hy E. destruct (kstep_ok (N := FN) (mcols X) (o_clusters o) cc y Hk Hcc (HX y Hy)) as (c2 & E2 & H2). congruence. }
    { intros C HC Hin. split; [exact HC|]. split; [apply repeat_length|]. intros c Hc. apply HX, Hin, Hc. }
    { apply lt_laws_F. }
    assert (HN : k_centers s' = None).
    { apply F6. intros C ns (P1 & _ & P3). cbn [fst] in P1, P3.
      assert (HCne : C <> []) by (intros ->; simpl in P1; lia).
      replace (inertia_of (N := FN) X C) with (f64_nan : FN); [reflexivity|]. symmetry.
      unfold inertia_of, nsum. apply fold_nan. right.
      pose proof (@nearest_bound FN row C HCne) as Hb.
      set (k := @nearest FN row C) in *.
      assert (Hd : @dist FN row (nth k C []) = f64_nan).
      { apply dist_nan; [|exact Hnan]. transitivity (mcols X); [exact (HX row Hr)|].
        symmetry. apply P3. now apply nth_In. }
      apply in_map_iff. exists row. split; [|exact Hr]. fold k. now rewrite Hd. }
    exists s', g'. split; [exact E|]. split; [exact F3|]. split; [exact HN|].
    split; [destruct F4 as [(_ & H & _)|(C & ns & _ & H & _)]; [exact H|congruence]|].
    intros HY Hn. unfold km_predict, km_transform, km_check. rewrite F3, F1.
    change (num FN) with F64. rewrite HY, Nat.eqb_refl. cbn [negb bind]. unfold newdense.
    destruct (Nat.eqb_spec (nrows Y) 0); [lia|]. destruct (Nat.eqb_spec (o_clusters o) 0); [lia|]. cbn [Nat.eqb orb bind].
    rewrite HN. split.
    - f_equal. unfold nearest, nrows. cbn [nearest_from]. clear. induction (mrows Y); [reflexivity|]. cbn. now f_equal.
    - destruct (mrows Y) as [|r l] eqn:Er; [unfold nrows in Hn; rewrite Er in Hn; simpl in Hn; lia|].
      destruct (o_clusters o) as [|k]; [lia|]. reflexivity.
  Qed.
End C66.

(** ** Concrete cases *)
Section Cases.
  Let q (z : Z) : QNum := @nofZ QNum z.
  (* a generator that counts up *)
  Let intn (n : nat) (g : nat) : nat * nat := (g mod n, S g).
  Let fl (g : nat) : QNum * nat := (n0, g).
  Let o : options QNum := mkopts 2 false 3 2 true (q 0) 1 2.
  Let X := mkmat 1 [[q 1]; [q 3]; [q 11]; [q 13]].

  Example intn_case : intn_in_range intn.
  Proof. intros n g H. unfold intn. cbn [fst]. apply Nat.mod_upper_bound. lia. Qed.

  Example C31_case :
    let s := fst (km_fit nat intn fl o X (km_new (N := QNum)) 0) in
    k_centers s = Some [[q 13]; [q 2]] /\ k_labels s = Some [1; 1; 0; 0] /\ km_predict s X = Ok [1; 1; 0; 0] /\
    snd (km_partial_fit nat intn fl o X s 0) = Panic.
  Proof. repeat split; vm_compute; reflexivity. Qed.
  Example C32_case :
    let s := fst (feed nat intn fl o [mkmat 1 [[q 1]; [q 11]]; mkmat 1 [[q 3]; [q 13]]] (km_new (N := QNum)) 0) in
    k_centers s = Some [[q 2]; [q 12]] /\ k_counts s = Some [2; 2].
  Proof. split; vm_compute; reflexivity. Qed.
  Example C65_case :
    let s := fst (km_fit nat intn fl o X (km_new (N := QNum)) 0) in
    let r := km_fit nat intn fl o (mkmat 2 [[q 1; q 2]]) s 0 in
    snd r = Err (EOther 1) /\ km_predict (fst r) X = Err (EDimension 2 1).
  Proof. split; vm_compute; reflexivity. Qed.
  Example C66_case :
    let Y := mkmat 1 [[@nnan F0]; [f 1 1]; [f 2 1]] in
    let p := mkopts (N := F0) 2 true 3 2 true (f 0 1) 1 2 in
    let r := km_fit (N := F0) nat intn (fun g => (f 1 2, g)) p Y (km_new (N := F0)) 0 in
    is_ok (snd r) = true /\ k_centers (fst r) = None /\ km_predict (fst r) Y = Ok [0; 0; 0].
  Proof. repeat split; vm_compute; reflexivity. Qed.
End Cases.

Print Assumptions C31_predict.
Print Assumptions C31_transform.
Print Assumptions C31_fit.
Print Assumptions C31_means.
Print Assumptions C31_more_runs.
Print Assumptions C32_running_means.
Print Assumptions C32_partial_fit_after_fit_panics.
Print Assumptions C32_stale_counts.
Print Assumptions C65_failed_fit.
Print Assumptions C65_failed_partial_fit.
Print Assumptions C66_nan_fit.
