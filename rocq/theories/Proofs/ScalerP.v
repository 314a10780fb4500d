(** Lemmas about the scaler models. *)
From Coq Require Import List Arith Bool Lia Reals Lra.
From Verif Require Import Base.Num Base.GoRes Base.Mat Base.RTac Base.ListX Model.Scaler Spec.Stats.
Import ListNotations.

Lemma recovered_ok {A} (r : res A) y : recovered r = Ok y -> r = Ok y.
Proof. destruct r; cbn; congruence. Qed.

(** * Shape, any arithmetic *)
Section Shape.
  Context {N : Num}.
  Fixpoint zrow {P} (g : N -> P -> N) (row : list N) (ps : list P) : list N :=
    match row, ps with
    | v :: r, p :: ps' => g v p :: zrow g r ps'
    | _, _ => []
    end.
  Lemma zip_row_ok {P} (g : N -> P -> N) row ps :
    length row <= length ps -> zip_row g row ps = Ok (zrow g row ps).
  Proof.
    revert ps; induction row as [|v r IH]; intros [|p ps] H; cbn in *; try easy; try lia.
    rewrite IH by lia. reflexivity.
  Qed.
  Lemma zrow_length {P} (g : N -> P -> N) row ps : length row <= length ps -> length (zrow g row ps) = length row.
  Proof. revert ps; induction row as [|v r IH]; intros [|p ps] H; cbn in *; try easy; try lia. rewrite IH; lia. Qed.
  Lemma zrow_nth {P} (g : N -> P -> N) row ps d j : j < length row -> length row <= length ps ->
    nth j (zrow g row ps) n0 = g (nth j row n0) (nth j ps d).
  Proof.
    revert ps j; induction row as [|v r IH]; intros [|p ps] [|j] H1 H2; cbn in *; try lia; auto.
    apply IH; lia.
  Qed.
  Lemma mapM_ok {A B} (g : A -> res B) (h : A -> B) l :
    (forall x, In x l -> g x = Ok (h x)) -> mapM g l = Ok (map h l).
  Proof.
    induction l as [|x l IH]; intros H; [reflexivity|]. cbn. rewrite H by now left.
    cbn. rewrite IH by (intros; apply H; now right). reflexivity.
  Qed.
  Lemma map_matrix_ok {P} (g : N -> P -> N) nf ps X :
    wf X -> mcols X = nf -> length ps = nf -> mrows X <> [] -> 0 < nf ->
    map_matrix g nf ps X = Ok (mkmat nf (map (fun row => zrow g row ps) (mrows X))).
  Proof.
    intros Hwf Hc Hp Hr Hn. unfold map_matrix, newdense, nrows.
    rewrite Hc, Nat.eqb_refl. cbn [negb].
    destruct (mrows X) as [|r0 rs] eqn:E; [easy|]. rewrite <- E.
    replace (Nat.eqb (length (mrows X)) 0) with false by now rewrite E.
    replace (Nat.eqb nf 0) with false by (symmetry; apply Nat.eqb_neq; lia). cbn [orb bind].
    rewrite (mapM_ok _ (fun row => zrow g row ps)).
    - reflexivity.
    - intros row Hin. apply zip_row_ok. rewrite (Hwf row Hin). lia.
  Qed.
  Lemma map_matrix_wf {P} (g : N -> P -> N) nf ps X :
    wf X -> mcols X = nf -> length ps = nf ->
    wf (mkmat nf (map (fun row => zrow g row ps) (mrows X))).
  Proof.
    intros Hwf Hc Hp row Hin. cbn in *. apply in_map_iff in Hin as (r & <- & Hr).
    rewrite zrow_length; rewrite (Hwf r Hr); lia.
  Qed.
  Lemma map_matrix_dim {P} (g : N -> P -> N) nf ps X : mcols X <> nf ->
    map_matrix g nf ps X = Err (EDimension nf (mcols X)).
  Proof. intros H. unfold map_matrix. apply Nat.eqb_neq in H. now rewrite H. Qed.
  Lemma map_matrix_empty {P} (g : N -> P -> N) nf ps X : mcols X = nf -> mrows X = [] ->
    map_matrix g nf ps X = Panic.
  Proof. intros H1 H2. unfold map_matrix, newdense, nrows. rewrite H1, H2, Nat.eqb_refl. reflexivity. Qed.

  Lemma column_zrow {P} (g : N -> P -> N) nf ps rows d j :
    (forall row, In row rows -> length row = nf) -> length ps = nf -> j < nf ->
    column j (map (fun row => zrow g row ps) rows) = map (fun v => g v (nth j ps d)) (column j rows).
  Proof.
    intros Hr Hp Hj. unfold column. rewrite !map_map. apply map_ext_in. intros row Hin.
    apply zrow_nth; rewrite ?(Hr row Hin); lia.
  Qed.

  Lemma zrow_inverse {P} (g h : N -> P -> N) row ps :
    length row <= length ps -> (forall v p, In v row -> In p ps -> h (g v p) p = v) ->
    zrow h (zrow g row ps) ps = row.
  Proof.
    revert ps; induction row as [|v r IH]; intros [|p ps] Hl H; cbn in *; try easy; try lia.
    f_equal; [apply H; auto|]. apply IH; [lia|]. intros; apply H; auto.
  Qed.
  Lemma map_matrix_inverse {P} (g h : N -> P -> N) nf ps X :
    wf X -> length ps = nf -> (forall v p, In p ps -> h (g v p) p = v) ->
    forall Y, map_matrix g nf ps X = Ok Y -> map_matrix h nf ps Y = Ok X.
  Proof.
    intros Hwf Hp Hgh Y HY.
    destruct (Nat.eq_dec (mcols X) nf) as [Hc|Hc]; [|rewrite map_matrix_dim in HY by easy; discriminate].
    destruct (mrows X) as [|r0 rs] eqn:E; [rewrite map_matrix_empty in HY by easy; discriminate|].
    assert (Hn : 0 < nf).
    { destruct nf; [|lia]. exfalso. unfold map_matrix, newdense, nrows in HY. rewrite Hc, E in HY. discriminate. }
    rewrite map_matrix_ok in HY by (try rewrite E; easy). injection HY as <-.
    rewrite map_matrix_ok; try easy; try lia.
    - cbn [mrows]. rewrite map_map. destruct X as [c rows]. cbn in *. subst c.
      f_equal. f_equal. rewrite <- (map_id rows) at 2. apply map_ext_in. intros row Hin.
      apply zrow_inverse; [pose proof (Hwf row Hin) as Hl; cbn in Hl; lia|]. auto.
    - now apply map_matrix_wf.
    - cbn. rewrite E. easy.
  Qed.
  Lemma zip_row_len {P} (g : N -> P -> N) row : forall ps out, zip_row g row ps = Ok out -> length out = length row.
  Proof.
    induction row as [|v r IH]; intros [|p ps] out H; cbn in H; try discriminate;
      try (injection H as <-; reflexivity).
    - destruct (zip_row g r ps) as [r'| |] eqn:E; cbn in H; try congruence. injection H as <-.
      cbn. now rewrite (IH ps r' E).
  Qed.
  Lemma mapM_ok_inv {A B} (g : A -> res B) l : forall ys, mapM g l = Ok ys -> Forall2 (fun x y => g x = Ok y) l ys.
  Proof.
    induction l as [|x l IH]; intros ys H; cbn in H; [injection H as <-; constructor|].
    destruct (g x) as [y| |] eqn:E; cbn in H; try discriminate.
    destruct (mapM g l) as [r| |] eqn:E2; cbn in H; try discriminate. injection H as <-.
    constructor; auto.
  Qed.
  Lemma map_matrix_wf_out {P} (g : N -> P -> N) nf (ps : list P) X Y : wf X -> map_matrix g nf ps X = Ok Y -> wf Y.
  Proof.
    intros Hwf H. unfold map_matrix in H. destruct (negb _); [discriminate|].
    destruct (newdense _ _); cbn [bind] in H; try discriminate.
    destruct (mapM _ _) as [rows| |] eqn:E; cbn in H; try discriminate. injection H as <-.
    apply mapM_ok_inv in E. unfold wf in *. cbn. intros row Hin.
    destruct X as [c rs]. cbn in *. clear -E Hwf Hin. induction E as [|r0 o0 rs os E0 E IH]; [easy|].
    destruct Hin as [<-|Hin].
    - rewrite (zip_row_len g r0 ps o0 E0). apply Hwf. now left.
    - apply IH; [|exact Hin]. intros r Hr. apply Hwf. now right.
  Qed.
  Lemma ss_transform_wf (s : sscaler N) X Y : wf X -> ss_transform s X = Ok Y -> wf Y.
  Proof.
    unfold ss_transform. intros Hw H. destruct (negb (ss_fitted s)); [cbn in H; discriminate|].
    apply recovered_ok in H. eapply map_matrix_wf_out; eauto.
  Qed.
  Lemma mm_transform_wf (s : mmscaler N) X Y : wf X -> mm_transform s X = Ok Y -> wf Y.
  Proof.
    unfold mm_transform. intros Hw H. destruct (negb (mm_fitted s)); [cbn in H; discriminate|].
    apply recovered_ok in H. eapply map_matrix_wf_out; eauto.
  Qed.
End Shape.

(** * Histories *)
Section Hist.
  Context {N : Num}.
  Definition fit_valid (X : matrix N) : bool := negb (Nat.eqb (nrows X) 0 || Nat.eqb (mcols X) 0).

  Definition ss_inv (o : option nat) (s : sscaler N) : Prop :=
    match o with
    | None => ss_fitted s = false
    | Some c => ss_fitted s = true /\ ss_nf s = c /\ 0 < c /\ length (ss_params s) = c
    end.
  Definition mm_inv (o : option nat) (s : mmscaler N) : Prop :=
    match o with
    | None => mm_fitted s = false
    | Some c => mm_fitted s = true /\ mm_nf s = c /\ 0 < c /\ length (mm_params s) = c
    end.

  Definition fit_effect (X : matrix N) (o : option nat) : option nat :=
    if fit_valid X then Some (mcols X) else o.
  Definition effect (o : option nat) (c : scall N) : option nat :=
    match c with
    | CFit X | CFitTransform X => fit_effect X o
    | CTransform _ | CInverse _ => o
    | CReset => None
    end.

  Lemma ss_fit_inv o s X : ss_inv o s -> ss_inv (fit_effect X o) (fst (ss_fit s X)).
  Proof.
    intros H. unfold ss_fit, fit_effect, fit_valid. destruct (_ || _)%bool eqn:E; [exact H|].
    apply orb_false_iff in E as [_ E]. apply Nat.eqb_neq in E.
    repeat split; cbn; [lia|]. unfold ss_params. cbn. now rewrite combine_length, !map_length, seq_length, Nat.min_id.
  Qed.
  Lemma mm_fit_inv o s X : mm_inv o s -> mm_inv (fit_effect X o) (fst (mm_fit s X)).
  Proof.
    intros H. unfold mm_fit, fit_effect, fit_valid. destruct (_ || _)%bool eqn:E; [exact H|].
    apply orb_false_iff in E as [_ E]. apply Nat.eqb_neq in E.
    repeat split; cbn; [lia|]. unfold mm_params. cbn. now rewrite combine_length, !map_length, seq_length, Nat.min_id.
  Qed.
  Lemma ss_ft_fst (s : sscaler N) X : fst (ss_fit_transform s X) = fst (ss_fit s X).
  Proof. unfold ss_fit_transform. destruct (ss_fit s X) as [s' [| |]]; reflexivity. Qed.
  Lemma mm_ft_fst (s : mmscaler N) X : fst (mm_fit_transform s X) = fst (mm_fit s X).
  Proof. unfold mm_fit_transform. destruct (mm_fit s X) as [s' [| |]]; reflexivity. Qed.
  Lemma ss_step_inv o s c : ss_inv o s -> ss_inv (effect o c) (ss_step s c).
  Proof.
    intros H. destruct c; cbn [ss_step effect]; rewrite ?ss_ft_fst; auto using ss_fit_inv; reflexivity.
  Qed.
  Lemma mm_step_inv o s c : mm_inv o s -> mm_inv (effect o c) (mm_step s c).
  Proof.
    intros H. destruct c; cbn [mm_step effect]; rewrite ?mm_ft_fst; auto using mm_fit_inv; reflexivity.
  Qed.
  Lemma ss_run_inv cs o s : ss_inv o s -> ss_inv (fold_left effect cs o) (fold_left ss_step cs s).
  Proof. revert o s; induction cs as [|c cs IH]; intros o s H; cbn; auto using ss_step_inv. Qed.
  Lemma mm_run_inv cs o s : mm_inv o s -> mm_inv (fold_left effect cs o) (fold_left mm_step cs s).
  Proof. revert o s; induction cs as [|c cs IH]; intros o s H; cbn; auto using mm_step_inv. Qed.

  Definition answers (o : option nat) (tr : matrix N -> res (matrix N)) : Prop :=
    match o with
    | None => forall X, tr X = Err ENotFitted
    | Some c => forall X,
        (mcols X <> c -> tr X = Err (EDimension c (mcols X))) /\
        (wf X -> mcols X = c -> mrows X <> [] ->
           exists Y, tr X = Ok Y /\ wf Y /\ mcols Y = c /\ nrows Y = nrows X) /\
        (mcols X = c -> mrows X = [] -> tr X = Err EPanic)
    end.
  Lemma answers_map {P} (g : N -> P -> N) c ps : 0 < c -> length ps = c ->
    answers (Some c) (fun X => recovered (map_matrix g c ps X)).
  Proof.
    intros Hc Hp X. repeat split.
    - intros H. now rewrite map_matrix_dim.
    - intros Hwf H1 H2. rewrite map_matrix_ok by easy. eexists. split; [reflexivity|].
      split; [now apply map_matrix_wf|]. cbn. unfold nrows; cbn. now rewrite map_length.
    - intros H1 H2. now rewrite map_matrix_empty.
  Qed.
  Lemma ss_answers o s : ss_inv o s -> answers o (ss_transform s) /\ answers o (ss_inverse s).
  Proof.
    destruct o as [c|]; cbn -[answers]; intros H.
    - destruct H as (H1 & H2 & H3 & H4). unfold ss_transform, ss_inverse. rewrite H1, H2. cbn [negb].
      split; apply answers_map; assumption.
    - split; intros X; unfold ss_transform, ss_inverse; rewrite H; reflexivity.
  Qed.
  Lemma mm_answers o s : mm_inv o s -> answers o (mm_transform s) /\ answers o (mm_inverse s).
  Proof.
    destruct o as [c|]; cbn -[answers]; intros H.
    - destruct H as (H1 & H2 & H3 & H4). unfold mm_transform, mm_inverse. rewrite H1, H2. cbn [negb].
      split; apply answers_map; assumption.
    - split; intros X; unfold mm_transform, mm_inverse; rewrite H; reflexivity.
  Qed.
End Hist.

(** * Real arithmetic *)
Local Open Scope R_scope.

Lemma mean_map_affine a b l : l <> [] -> mean_of (map (fun x => a * x + b) l) = a * mean_of l + b.
Proof.
  intros H. unfold mean_of. rewrite map_length.
  assert (E : Rsum (map (fun x => a * x + b) l) = a * Rsum l + INR (length l) * b).
  { clear H. induction l as [|x l IH]; [cbn; lra|]. cbn [map Rsum length]. rewrite IH, S_INR. lra. }
  rewrite E. field. apply not_0_INR. destruct l; easy.
Qed.
Lemma mean_scal {A} c (g : A -> R) l : mean_of (map (fun x => c * g x) l) = c * mean_of (map g l).
Proof. unfold mean_of. rewrite Rsum_map_scal, !map_length. unfold Rdiv. ring. Qed.
Lemma var_map_affine a b l : l <> [] -> var_of (map (fun x => a * x + b) l) = a * a * var_of l.
Proof.
  intros H. unfold var_of at 1. rewrite mean_map_affine by easy. rewrite map_map.
  unfold var_of. rewrite (map_ext _ (fun x => (a * a) * ((x - mean_of l) * (x - mean_of l)) )) by (intros; ring).
  apply mean_scal.
Qed.
Lemma mean_nonneg l : (forall x, In x l -> 0 <= x) -> 0 <= mean_of l.
Proof.
  intros H. unfold mean_of. destruct l as [|x l]; [cbn; unfold Rdiv; lra|].
  apply Rmult_le_pos; [now apply Rsum_nonneg|]. left. apply Rinv_0_lt_compat, lt_0_INR. cbn; lia.
Qed.
Lemma var_nonneg l : 0 <= var_of l.
Proof.
  apply mean_nonneg. intros x Hx. apply in_map_iff in Hx as (y & <- & _). apply sq_nonneg.
Qed.

Lemma ss_col_mean_R X j : @ss_col_mean RNum true X j = mean_of (col j (mrows X)).
Proof.
  unfold ss_col_mean, mean_of. rewrite nsum_R, nofnat_R. unfold column, col, nrows.
  unR. rewrite map_length. reflexivity.
Qed.
Lemma ss_col_scale_R X j (m : R) :
  @ss_col_scale RNum true X j m =
  let sd := sqrt (mean_of (map (fun v => (v - m) * (v - m)) (col j (mrows X)))) in
  if Rltb sd (1 / 100000000) then 1 else sd.
Proof.
  unfold ss_col_scale. cbv zeta. cbn [nsub nadd nmul n0 ndiv nsqrt nabs n1 nlt RNum].
  change (@column RNum j (mrows X)) with (col j (mrows X)). unR.
  rewrite (fold_left_sum (fun v => (v - m) * (v - m)) (col j (mrows X)) 0), nofnat_R, Rplus_0_l.
  replace (INR (nrows X)) with (INR (length (map (fun v => (v - m) * (v - m)) (col j (mrows X)))))
    by (unfold col, nrows; now rewrite !map_length).
  fold (mean_of (map (fun v => (v - m) * (v - m)) (col j (mrows X)))).
  rewrite Rabs_pos_eq by apply sqrt_pos. unfold nthreshold. reflexivity.
Qed.

Definition ss_mean_at (wm : bool) (X : matrix R) j : R := if wm then mean_of (col j (mrows X)) else 0.
Definition ss_scale_at (wm ws : bool) (X : matrix R) j : R :=
  if ws then
    let m := ss_mean_at wm X j in
    let sd := sqrt (mean_of (map (fun v => (v - m) * (v - m)) (col j (mrows X)))) in
    if Rltb sd (1 / 100000000) then 1 else sd
  else 1.
Lemma ss_scale_at_pos wm ws X j : 0 < ss_scale_at wm ws X j.
Proof. unfold ss_scale_at. destruct ws; [|lra]. cbv zeta. rcase; lra. Qed.

Lemma combine_map_seq {A B} (g : nat -> A) (h : nat -> B) l :
  combine (map g l) (map h l) = map (fun j => (g j, h j)) l.
Proof. induction l; cbn; congruence. Qed.
Lemma nth_map_seq {A} (g : nat -> A) n j d : (j < n)%nat -> nth j (map g (seq 0 n)) d = g j.
Proof.
  intros H. rewrite (nth_indep _ d (g 0%nat)) by now rewrite map_length, seq_length.
  rewrite map_nth, seq_nth by easy. reflexivity.
Qed.

Lemma ss_fit_R (s : sscaler RNum) (X : matrix R) s' :
  ss_fit s X = (s', Ok tt) ->
  ss_fitted s' = true /\ ss_nf s' = mcols X /\ mrows X <> [] /\ (0 < mcols X)%nat /\
  ss_params s' = map (fun j => (ss_mean_at (ss_with_mean s) X j,
                                ss_scale_at (ss_with_mean s) (ss_with_std s) X j)) (seq 0 (mcols X)).
Proof.
  unfold ss_fit. destruct (_ || _)%bool eqn:E; [intros H; discriminate|].
  apply orb_false_iff in E as [E1 E2]. apply Nat.eqb_neq in E1, E2.
  intros H. injection H as <-. cbn [ss_fitted ss_nf]. unR.
  repeat split; auto; try lia.
  - intros Hr. apply E1. unfold nrows. unR. rewrite Hr. reflexivity.
  - unfold ss_params. cbn [ss_mean ss_scale]. unR.
    rewrite combine_map_seq. apply map_ext_in.
    intros j Hj. apply in_seq in Hj. f_equal.
    + destruct (ss_with_mean s); [apply ss_col_mean_R|reflexivity].
    + unfold ss_scale_at. destruct (ss_with_std s); [|reflexivity].
      rewrite ss_col_scale_R. change (@n0 RNum) with 0. unR. rewrite nth_map_seq by lia.
      unfold ss_mean_at. destruct (ss_with_mean s); [|reflexivity]. now rewrite ss_col_mean_R.
Qed.

Lemma ss_ft_R (s : sscaler RNum) (X : matrix R) : wf X -> mrows X <> [] -> (0 < mcols X)%nat ->
  exists s' Y, ss_fit_transform s X = (s', Ok Y) /\ ss_fitted s' = true /\
  mcols Y = mcols X /\ wf Y /\ nrows Y = nrows X /\
  forall j, (j < mcols X)%nat ->
    col j (mrows Y) = map (fun v => (v - ss_mean_at (ss_with_mean s) X j) /
                                    ss_scale_at (ss_with_mean s) (ss_with_std s) X j) (col j (mrows X)).
Proof.
  intros Hwf Hr Hc.
  destruct (ss_fit s X) as [s' r] eqn:E.
  assert (r = Ok tt).
  { unfold ss_fit in E. destruct (_ || _)%bool eqn:E1.
    - apply orb_true_iff in E1 as [E1|E1]; apply Nat.eqb_eq in E1; unR; [|lia].
      unfold nrows in E1. destruct (mrows X); [easy|discriminate].
    - now injection E. }
  subst r. destruct (ss_fit_R _ _ _ E) as (H1 & H2 & _ & _ & Hp).
  unfold ss_fit_transform. rewrite E. unfold ss_transform. rewrite H1, H2. cbn [negb].
  assert (Hl : length (ss_params s') = mcols X) by (rewrite Hp, map_length, seq_length; reflexivity).
  rewrite map_matrix_ok; try easy.
  exists s'. eexists. split; [reflexivity|]. split; [exact H1|]. split; [reflexivity|].
  split; [now apply map_matrix_wf|]. split; [unfold nrows; cbn; now rewrite map_length|].
  intros j Hj. cbn [mrows]. pose proof (@column_zrow RNum _ ss_elem (mcols X) (ss_params s') (mrows X) (0, 0) j) as Hcz.
  unfold column in Hcz. unfold col. cbn in *. rewrite Hcz by (auto; lia). rewrite Hp, nth_map_seq by easy.
  reflexivity.
Qed.

Lemma ss_inverse_R (s : sscaler RNum) X s' : ss_fit s X = (s', Ok tt) ->
  forall Z Y, wf Z -> ss_transform s' Z = Ok Y -> ss_inverse s' Y = Ok Z.
Proof.
  intros E Z Y Hwf H. destruct (ss_fit_R _ _ _ E) as (H1 & H2 & _ & _ & Hp).
  unfold ss_transform, ss_inverse in *. rewrite H1, H2 in *. cbn [negb] in *.
  apply recovered_ok in H.
  rewrite (map_matrix_inverse ss_elem ss_inv_elem (mcols X) (ss_params s') Z Hwf); try easy.
  - rewrite Hp, map_length, seq_length. reflexivity.
  - intros v p Hin. rewrite Hp in Hin. apply in_map_iff in Hin as (j & <- & _).
    unfold ss_elem, ss_inv_elem. cbn. pose proof (ss_scale_at_pos (ss_with_mean s) (ss_with_std s) X j).
    field. lra.
Qed.

(** ** Min-max *)
Lemma fold_min_R (l : list R) x : let m := fold_left (fun m v => if Rltb v m then v else m) l x in
  (m = x \/ In m l) /\ m <= x /\ forall v, In v l -> m <= v.
Proof.
  revert x; induction l as [|a l IH]; intros x; cbn; [repeat split; auto; try lra; easy|].
  destruct (IH (if Rltb a x then a else x)) as ([H1|H1] & H2 & H3); repeat split.
  - rewrite H1. destruct (Rltb a x); auto.
  - destruct (Rltb_spec a x); lra.
  - intros v [<-|Hv]; [destruct (Rltb_spec a x); lra|auto].
  - auto.
  - destruct (Rltb_spec a x); lra.
  - intros v [<-|Hv]; [destruct (Rltb_spec a x); lra|auto].
Qed.
Lemma fold_max_R (l : list R) x : let m := fold_left (fun m v => if Rltb m v then v else m) l x in
  (m = x \/ In m l) /\ x <= m /\ forall v, In v l -> v <= m.
Proof.
  revert x; induction l as [|a l IH]; intros x; cbn; [repeat split; auto; try lra; easy|].
  destruct (IH (if Rltb x a then a else x)) as ([H1|H1] & H2 & H3); repeat split.
  - rewrite H1. destruct (Rltb x a); auto.
  - destruct (Rltb_spec x a); lra.
  - intros v [<-|Hv]; [destruct (Rltb_spec x a); lra|auto].
  - auto.
  - destruct (Rltb_spec x a); lra.
  - intros v [<-|Hv]; [destruct (Rltb_spec x a); lra|auto].
Qed.
Lemma col_min_R (c : list R) : c <> [] -> In (@col_min RNum c) c /\ forall v, In v c -> @col_min RNum c <= v.
Proof.
  destruct c as [|x l]; [easy|]. intros _. cbn. destruct (fold_min_R l x) as ([H|H] & H2 & H3); split; auto.
  - intros v [<-|Hv]; auto.
  - intros v [<-|Hv]; auto.
Qed.
Lemma col_max_R (c : list R) : c <> [] -> In (@col_max RNum c) c /\ forall v, In v c -> v <= @col_max RNum c.
Proof.
  destruct c as [|x l]; [easy|]. intros _. cbn. destruct (fold_max_R l x) as ([H|H] & H2 & H3); split; auto.
  - intros v [<-|Hv]; auto.
  - intros v [<-|Hv]; auto.
Qed.

Definition mm_lo_at (X : matrix R) j : R := @col_min RNum (col j (mrows X)).
Definition mm_hi_at (X : matrix R) j : R := @col_max RNum (col j (mrows X)).
Definition mm_sc_at (X : matrix R) j : R := @mm_col_scale RNum (mm_lo_at X j) (mm_hi_at X j).

Lemma mm_sc_at_val X j : mrows X <> [] ->
  mm_lo_at X j <= mm_hi_at X j /\
  ((mm_hi_at X j - mm_lo_at X j < 1 / 100000000 /\ mm_sc_at X j = 1) \/
   (1 / 100000000 <= mm_hi_at X j - mm_lo_at X j /\ mm_sc_at X j = mm_hi_at X j - mm_lo_at X j)).
Proof.
  intros Hr. assert (Hc : col j (mrows X) <> []) by (unfold col; destruct (mrows X); easy).
  destruct (col_min_R _ Hc) as [H1 H2]. destruct (col_max_R _ Hc) as [H3 H4].
  fold (mm_lo_at X j) in *. fold (mm_hi_at X j) in *.
  specialize (H4 _ H1). split; [exact H4|].
  unfold mm_sc_at, mm_col_scale, nthreshold. cbn. rewrite Rabs_pos_eq by lra.
  change (1 / 100000000) with (IZR 1 / IZR 100000000). rcase; [left|right]; split; auto; lra.
Qed.
Lemma mm_sc_at_pos X j : mrows X <> [] -> 0 < mm_sc_at X j.
Proof. intros H. destruct (mm_sc_at_val X j H) as [_ [[_ ->]|[? ->]]]; lra. Qed.

Lemma mm_fit_R (s : mmscaler RNum) (X : matrix R) s' :
  mm_fit s X = (s', Ok tt) ->
  mm_fitted s' = true /\ mm_nf s' = mcols X /\ mm_lo s' = mm_lo s /\ mm_hi s' = mm_hi s /\
  mrows X <> [] /\ (0 < mcols X)%nat /\
  mm_params s' = map (fun j => (mm_lo_at X j, mm_sc_at X j)) (seq 0 (mcols X)).
Proof.
  unfold mm_fit. destruct (_ || _)%bool eqn:E; [intros H; discriminate|].
  apply orb_false_iff in E as [E1 E2]. apply Nat.eqb_neq in E1, E2.
  intros H. injection H as <-. cbn [mm_fitted mm_nf mm_lo mm_hi]. unR.
  repeat split; auto; try lia.
  - intros Hr. apply E1. unfold nrows. unR. rewrite Hr. reflexivity.
  - unfold mm_params. cbn [mm_dmin mm_scale]. unR. rewrite combine_map_seq. reflexivity.
Qed.
Lemma mm_ft_R (s : mmscaler RNum) (X : matrix R) : wf X -> mrows X <> [] -> (0 < mcols X)%nat ->
  exists s' Y, mm_fit_transform s X = (s', Ok Y) /\ mm_fitted s' = true /\
  mcols Y = mcols X /\ wf Y /\ nrows Y = nrows X /\
  forall j, (j < mcols X)%nat ->
    col j (mrows Y) = map (fun v => (v - mm_lo_at X j) / mm_sc_at X j * (mm_hi s - mm_lo s) + mm_lo s)
                          (col j (mrows X)).
Proof.
  intros Hwf Hr Hc.
  destruct (mm_fit s X) as [s' r] eqn:E.
  assert (r = Ok tt).
  { unfold mm_fit in E. destruct (_ || _)%bool eqn:E1.
    - apply orb_true_iff in E1 as [E1|E1]; apply Nat.eqb_eq in E1; unR; [|lia].
      unfold nrows in E1. destruct (mrows X); [easy|discriminate].
    - now injection E. }
  subst r. destruct (mm_fit_R _ _ _ E) as (H1 & H2 & H3 & H4 & _ & _ & Hp).
  unfold mm_fit_transform. rewrite E. unfold mm_transform. rewrite H1, H2, H3, H4. cbn [negb].
  assert (Hl : length (mm_params s') = mcols X) by (rewrite Hp, map_length, seq_length; reflexivity).
  rewrite map_matrix_ok; try easy.
  exists s'. eexists. split; [reflexivity|]. split; [exact H1|]. split; [reflexivity|].
  split; [now apply map_matrix_wf|]. split; [unfold nrows; cbn; now rewrite map_length|].
  intros j Hj. cbn [mrows].
  pose proof (@column_zrow RNum _ (mm_elem (mm_lo s) (mm_hi s)) (mcols X) (mm_params s') (mrows X) (0, 0) j) as Hcz.
  unfold column in Hcz. unfold col. cbn in *. rewrite Hcz by (auto; lia). rewrite Hp, nth_map_seq by easy.
  reflexivity.
Qed.
Lemma mm_inverse_R (s : mmscaler RNum) X s' : mm_fit s X = (s', Ok tt) -> mm_lo s <> mm_hi s ->
  forall Z Y, wf Z -> mm_transform s' Z = Ok Y -> mm_inverse s' Y = Ok Z.
Proof.
  intros E Hlh Z Y Hwf H. destruct (mm_fit_R _ _ _ E) as (H1 & H2 & H3 & H4 & Hne & _ & Hp).
  unfold mm_transform, mm_inverse in *. rewrite H1, H2, H3, H4 in *. cbn [negb] in *.
  apply recovered_ok in H.
  rewrite (map_matrix_inverse (mm_elem (mm_lo s) (mm_hi s)) (mm_inv_elem (mm_lo s) (mm_hi s)) (mcols X) (mm_params s') Z Hwf); try easy.
  - rewrite Hp, map_length, seq_length. reflexivity.
  - intros v p Hin. rewrite Hp in Hin. apply in_map_iff in Hin as (j & <- & _).
    unfold mm_elem, mm_inv_elem. cbn. pose proof (mm_sc_at_pos X j Hne). cbn in *.
    field. split; [lra|]. lra.
Qed.
