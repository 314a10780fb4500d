(** Lemmas behind the least squares theorems. *)
From Coq Require Import List Arith Bool Reals Lra Lia Permutation ZArith.
From Verif Require Import Base.Num Base.GoRes Base.Mat Base.RTac Model.Linear Spec.Linear.
Import ListNotations.
Local Open Scope list_scope.
Local Open Scope R_scope.

(** Σ_{k<m} x_k f(k) *)
Definition rdot (m : nat) (x : list R) (f : nat -> R) : R := Rsum (map (fun k => nth k x 0 * f k) (seq 0 m)).
Notation vec v := (fun k => nth k v 0).

Lemma seq_map_S {B} (g : nat -> B) m : map g (seq 1 m) = map (fun k => g (S k)) (seq 0 m).
Proof. rewrite <- seq_shift, map_map. reflexivity. Qed.
Lemma rdot_cons m x r f : rdot (S m) (x :: r) f = x * f O + rdot m r (fun k => f (S k)).
Proof. unfold rdot. cbn [seq map Rsum]. rewrite seq_map_S. reflexivity. Qed.
Lemma rdot_ext m x f g : (forall k, (k < m)%nat -> f k = g k) -> rdot m x f = rdot m x g.
Proof. intros H. apply Rsum_map_ext. intros k Hk. apply in_seq in Hk. rewrite H by lia. reflexivity. Qed.
Lemma rdot_minus m x f g : rdot m x (fun k => f k - g k) = rdot m x f - rdot m x g.
Proof. unfold rdot. rewrite <- Rsum_map_minus. apply Rsum_map_ext. intros; ring. Qed.

Lemma dot_sum (a b : list R) : @dot RNum a b = Rsum (map (fun p => fst p * snd p) (combine a b)).
Proof. unfold dot. transitivity (0 + Rsum (map (fun p : R * R => fst p * snd p) (combine a b))); [exact (fold_left_sum (fun p : R * R => fst p * snd p) (combine a b) 0)|apply Rplus_0_l]. Qed.
Lemma dot_rdot m (a b : list R) : length a = m -> length b = m -> @dot RNum a b = rdot m a (vec b).
Proof.
  rewrite dot_sum. revert m b. induction a as [|x a IH]; intros [|m] [|y b] Ha Hb; cbn in Ha, Hb; try discriminate.
  - reflexivity.
  - rewrite rdot_cons. cbn [combine map Rsum fst snd nth]. rewrite (IH m b) by congruence. reflexivity.
Qed.
Lemma linear_value_rdot m b w x : length w = m -> length x = m -> linear_value b w x = b + rdot m x (vec w).
Proof.
  revert m x. induction w as [|wj w IH]; intros [|m] [|xj x] Hw Hx; cbn in Hw, Hx; try discriminate.
  - cbn. unfold rdot. cbn. ring.
  - cbn [linear_value]. rewrite rdot_cons, (IH m x) by congruence. cbn [nth]. ring.
Qed.

Lemma Rsum_zero {A} (g : A -> R) l : (forall x, In x l -> g x = 0) -> Rsum (map g l) = 0.
Proof. intros H. rewrite (Rsum_map_ext g (fun _ => 0)) by exact H. clear. induction l; cbn; [reflexivity|rewrite IHl; ring]. Qed.
Lemma Rsum_swap {A B} (f : A -> B -> R) la lb :
  Rsum (map (fun a => Rsum (map (fun b => f a b) lb)) la) = Rsum (map (fun b => Rsum (map (fun a => f a b) la)) lb).
Proof.
  induction la as [|a la IH]; cbn [map Rsum].
  - symmetry. apply Rsum_zero. reflexivity.
  - rewrite IH, <- Rsum_map_plus. reflexivity.
Qed.
Lemma Rsum_scal_r {A} c (g : A -> R) l : Rsum (map (fun x => g x * c) l) = Rsum (map g l) * c.
Proof. induction l; cbn; [ring|rewrite IHl; ring]. Qed.
Lemma Rsum_delta (g : nat -> R) j m : (j < m)%nat -> Rsum (map (fun k => (if Nat.eqb j k then 1 else 0) * g k) (seq 0 m)) = g j.
Proof.
  revert j g. induction m as [|m IH]; intros j g H; [lia|]. cbn [seq map Rsum]. rewrite seq_map_S. destruct j as [|j].
  - cbn [Nat.eqb]. rewrite Rsum_zero; [ring|]. intros; ring.
  - cbn [Nat.eqb]. rewrite (IH j (fun k => g (S k))) by lia. ring.
Qed.

(** The residual of the rows [L] (with their targets) at a coefficient vector. *)
Definition ssr (m : nat) (L : list (list R * R)) (f : nat -> R) : R :=
  Rsum (map (fun p => (snd p - rdot m (fst p) f) * (snd p - rdot m (fst p) f)) L).
Definition normal (m : nat) (L : list (list R * R)) (f : nat -> R) : Prop :=
  forall j, (j < m)%nat -> Rsum (map (fun p => nth j (fst p) 0 * (snd p - rdot m (fst p) f)) L) = 0.

Lemma ssr_split m L f g : normal m L f ->
  ssr m L g = ssr m L f + Rsum (map (fun p => rdot m (fst p) (fun k => f k - g k) * rdot m (fst p) (fun k => f k - g k)) L).
Proof.
  intros H. unfold ssr.
  assert (Z : Rsum (map (fun p => (snd p - rdot m (fst p) f) * rdot m (fst p) (fun k => f k - g k)) L) = 0).
  { transitivity (Rsum (map (fun k => Rsum (map (fun p => nth k (fst p) 0 * (snd p - rdot m (fst p) f)) L) * (f k - g k)) (seq 0 m))).
    - transitivity (Rsum (map (fun p : list R * R => Rsum (map (fun k => nth k (fst p) 0 * (snd p - rdot m (fst p) f) * (f k - g k)) (seq 0 m))) L)).
      + apply Rsum_map_ext. intros p _. unfold rdot at 2. rewrite <- Rsum_map_scal. apply Rsum_map_ext. intros; ring.
      + rewrite Rsum_swap. apply Rsum_map_ext. intros k _. rewrite <- Rsum_scal_r. reflexivity.
    - apply Rsum_zero. intros k Hk. apply in_seq in Hk. rewrite H by lia. ring. }
  transitivity (Rsum (map (fun p => (snd p - rdot m (fst p) f) * (snd p - rdot m (fst p) f)) L)
     + 2 * Rsum (map (fun p => (snd p - rdot m (fst p) f) * rdot m (fst p) (fun k => f k - g k)) L)
     + Rsum (map (fun p => rdot m (fst p) (fun k => f k - g k) * rdot m (fst p) (fun k => f k - g k)) L)); [|rewrite Z; ring].
  rewrite <- Rsum_map_scal, <- !Rsum_map_plus. apply Rsum_map_ext. intros p _. rewrite rdot_minus. ring.
Qed.
Lemma normal_optimal m L f g : normal m L f -> ssr m L f <= ssr m L g.
Proof.
  intros H. rewrite (ssr_split m L f g H).
  assert (0 <= Rsum (map (fun p => rdot m (fst p) (fun k => f k - g k) * rdot m (fst p) (fun k => f k - g k)) L)); [|lra].
  apply Rsum_nonneg. intros x Hx. apply in_map_iff in Hx as (p & <- & _). apply sq_nonneg.
Qed.
(** Equality only if the difference is mapped to zero by every row. *)
Lemma normal_equal m L f g : normal m L f -> ssr m L g = ssr m L f -> forall p, In p L -> rdot m (fst p) (fun k => f k - g k) = 0.
Proof.
  intros H E p Hp. rewrite (ssr_split m L f g H) in E.
  assert (Z : Rsum (map (fun p => rdot m (fst p) (fun k => f k - g k) * rdot m (fst p) (fun k => f k - g k)) L) = 0) by lra.
  apply sq_zero. eapply (Rsum_nonneg_eq0 _).
  - intros x Hx. apply in_map_iff in Hx as (q & <- & _). apply sq_nonneg.
  - exact Z.
  - apply in_map_iff. exists p. split; [reflexivity|exact Hp].
Qed.

(** The Gram matrix. *)
Definition gram (m : nat) (D : list (list R)) (i j : nat) : R := Rsum (map (fun row => nth i row 0 * nth j row 0) D).
Lemma gram_rdot m D f i : Rsum (map (fun k => gram m D i k * f k) (seq 0 m)) = Rsum (map (fun row => nth i row 0 * rdot m row f) D).
Proof.
  transitivity (Rsum (map (fun k => Rsum (map (fun row => nth i row 0 * nth k row 0 * f k) D)) (seq 0 m))).
  - apply Rsum_map_ext. intros k _. unfold gram. rewrite <- Rsum_scal_r. reflexivity.
  - rewrite <- Rsum_swap. apply Rsum_map_ext. intros row _. unfold rdot. rewrite <- Rsum_map_scal. apply Rsum_map_ext. intros; ring.
Qed.

Lemma nth_map_seq {B} (g : nat -> B) m i d : (i < m)%nat -> nth i (map g (seq 0 m)) d = g i.
Proof.
  intros H. rewrite (nth_indep _ d (g O)) by (rewrite map_length, seq_length; lia). rewrite (map_nth g). f_equal. rewrite seq_nth; lia.
Qed.
Lemma column_length (j : nat) (A : list (list R)) : length (@column RNum j A) = length A.
Proof. apply map_length. Qed.
Lemma dot_column (i j : nat) (D : list (list R)) : @dot RNum (@column RNum i D) (@column RNum j D) = gram 0 D i j.
Proof.
  rewrite dot_sum. unfold gram, column. induction D as [|row D IH]; [reflexivity|]. cbn [map combine Rsum fst snd]. rewrite IH. reflexivity.
Qed.
Lemma entry_gram m (D : list (list R)) i j : (i < m)%nat -> (j < m)%nat ->
  entry (@mmul RNum (@transpose RNum m D) m D) i j = gram m D i j.
Proof.
  intros Hi Hj. unfold entry, mmul, transpose. rewrite map_map. change (num RNum) with R. rewrite (nth_map_seq _ m i []) by exact Hi.
  rewrite (nth_map_seq _ m j 0) by exact Hj. apply dot_column.
Qed.
Lemma square_gram m (D : list (list R)) : square m (@mmul RNum (@transpose RNum m D) m D).
Proof.
  split; [unfold mmul, transpose; now rewrite !map_length, seq_length|].
  intros row H. unfold mmul in H. apply in_map_iff in H as (r' & <- & _). now rewrite map_length, seq_length.
Qed.

Lemma map_fst_combine {A B C} (g : A -> C) (D : list A) (ys : list B) : length ys = length D -> map (fun p => g (fst p)) (combine D ys) = map g D.
Proof. revert ys. induction D as [|row D IH]; intros [|y ys] Hl; cbn in Hl; try discriminate; [reflexivity|]. cbn [map combine fst snd]. rewrite IH by congruence. reflexivity. Qed.
(** What the fit computes satisfies the normal equations. *)
Lemma fit_normal m (D : list (list R)) (ys : list R) inv :
  length ys = length D ->
  is_inverse m (@mmul RNum (@transpose RNum m D) m D) inv ->
  normal m (combine D ys) (vec (@mvmul RNum inv (@mvmul RNum (@transpose RNum m D) ys))).
Proof.
  intros Hl ((Hi1 & Hi2) & Hr & _).
  set (t := @mvmul RNum (@transpose RNum m D) ys). set (w := @mvmul RNum inv t).
  assert (Lt : length t = m) by (unfold t, mvmul, transpose; now rewrite !map_length, seq_length).
  assert (Ht : forall j, (j < m)%nat -> nth j t 0 = Rsum (map (fun p => nth j (fst p) 0 * snd p) (combine D ys))).
  { intros j Hj. unfold t, mvmul, transpose. rewrite map_map. change (num RNum) with R. rewrite (nth_map_seq _ m j 0) by exact Hj.
    rewrite dot_sum. unfold column. clear - Hl. revert ys Hl. induction D as [|row D IH]; intros [|y ys] Hl; cbn in Hl; try discriminate; [reflexivity|].
    cbn [map combine Rsum fst snd]. rewrite IH by congruence. reflexivity. }
  assert (Hw : forall k, (k < m)%nat -> nth k w 0 = Rsum (map (fun l => entry inv k l * nth l t 0) (seq 0 m))).
  { intros k Hk. unfold w, mvmul. change (num RNum) with R. rewrite (nth_indep _ 0 (@dot RNum [] t)) by (rewrite map_length, Hi1; exact Hk).
    rewrite (map_nth (fun row => @dot RNum row t)). rewrite (dot_rdot m); [reflexivity| |exact Lt].
    apply Hi2. apply nth_In. apply (Nat.lt_le_trans _ _ _ Hk), Nat.eq_le_incl. symmetry. exact Hi1. }
  assert (E : forall i, (i < m)%nat -> Rsum (map (fun k => gram m D i k * nth k w 0) (seq 0 m)) = nth i t 0).
  { intros i Hi. transitivity (Rsum (map (fun l => (if Nat.eqb i l then 1 else 0) * nth l t 0) (seq 0 m))); [|apply (Rsum_delta (fun l => nth l t 0)); exact Hi].
    transitivity (Rsum (map (fun k => Rsum (map (fun l => gram m D i k * entry inv k l * nth l t 0) (seq 0 m))) (seq 0 m))).
    - apply Rsum_map_ext. intros k Hk. apply in_seq in Hk. rewrite Hw by lia. rewrite <- Rsum_map_scal. apply Rsum_map_ext. intros; ring.
    - rewrite Rsum_swap. apply Rsum_map_ext. intros l Hl'. apply in_seq in Hl'. rewrite <- (Hr i l) by lia. unfold prod_entry. rewrite Rsum_scal_r. f_equal.
      apply Rsum_map_ext. intros k Hk. apply in_seq in Hk. rewrite entry_gram by lia. reflexivity. }
  intros j Hj. transitivity (nth j t 0 - Rsum (map (fun row => nth j row 0 * rdot m row (vec w)) D)).
  - rewrite Ht by exact Hj. replace (map (fun row => nth j row 0 * rdot m row (vec w)) D) with (map (fun p : list R * R => nth j (fst p) 0 * rdot m (fst p) (vec w)) (combine D ys)).
    + rewrite <- Rsum_map_minus. apply Rsum_map_ext. intros; ring.
    + apply (map_fst_combine (fun row => nth j row 0 * rdot m row (vec w))). exact Hl.
  - rewrite <- (gram_rdot m D (vec w) j), E by exact Hj. ring.
Qed.

(** A vector mapped to zero by every row vanishes if the Gram matrix has a left inverse. *)
Lemma kernel_zero m (D : list (list R)) inv f :
  is_inverse m (@mmul RNum (@transpose RNum m D) m D) inv ->
  (forall row, In row D -> rdot m row f = 0) -> forall k, (k < m)%nat -> f k = 0.
Proof.
  intros (_ & _ & Hl) Hz k Hk. rewrite <- (Rsum_delta f k m Hk).
  transitivity (Rsum (map (fun j => prod_entry m inv (@mmul RNum (@transpose RNum m D) m D) k j * f j) (seq 0 m))).
  { apply Rsum_map_ext. intros j Hj. apply in_seq in Hj. rewrite Hl by lia. reflexivity. }
  transitivity (Rsum (map (fun i => entry inv k i * Rsum (map (fun j => gram m D i j * f j) (seq 0 m))) (seq 0 m))).
  - transitivity (Rsum (map (fun j => Rsum (map (fun i => entry inv k i * gram m D i j * f j) (seq 0 m))) (seq 0 m))).
    + apply Rsum_map_ext. intros j Hj. apply in_seq in Hj. unfold prod_entry. rewrite <- Rsum_scal_r. apply Rsum_map_ext. intros i Hi. apply in_seq in Hi. rewrite entry_gram by lia. ring.
    + rewrite Rsum_swap. apply Rsum_map_ext. intros i _. rewrite <- Rsum_map_scal. apply Rsum_map_ext. intros; ring.
  - apply Rsum_zero. intros i _. rewrite gram_rdot, Rsum_zero; [ring|]. intros row Hr. rewrite Hz by exact Hr. ring.
Qed.

(** The residual of the specification. *)
Lemma residual_ssr c rows ys b w : (forall row, In row rows -> length row = c) -> length w = c ->
  residual rows ys b w = ssr (S c) (combine (@with_ones RNum rows) ys) (vec (b :: w)).
Proof.
  intros Hr Hw. unfold residual, ssr, with_ones. revert ys. induction rows as [|row rows IH]; intros [|y ys]; try reflexivity.
  cbn [map combine Rsum fst snd]. rewrite IH by (intros; apply Hr; now right). rewrite rdot_cons. cbn [nth].
  rewrite (linear_value_rdot c) by (try exact Hw; apply Hr; now left). change (@n1 RNum) with 1. rewrite Rmult_1_l. reflexivity.
Qed.
Lemma residual_ssr0 c rows ys w : (forall row, In row rows -> length row = c) -> length w = c ->
  residual rows ys 0 w = ssr c (combine rows ys) (vec w).
Proof.
  intros Hr Hw. unfold residual, ssr. apply Rsum_map_ext. intros [row y] H. apply in_combine_l in H. cbn [fst snd].
  rewrite (linear_value_rdot c) by (try exact Hw; now apply Hr). rewrite Rplus_0_l. reflexivity.
Qed.
Lemma with_ones_length (rows : list (list R)) : length (@with_ones RNum rows) = length rows.
Proof. apply map_length. Qed.

(** More columns than rows: some non-zero vector is mapped to zero. *)
Lemma kernel_exists n : forall rows : list (list R), (length rows < n)%nat -> (forall row, In row rows -> length row = n) ->
  exists f, (exists k, (k < n)%nat /\ f k <> 0) /\ forall row, In row rows -> rdot n row f = 0.
Proof.
  induction n as [|n IH]; intros rows Hlen Hrow; [lia|].
  destruct (Exists_dec (fun row => nth 0 row 0 <> 0) rows) as [Ex|Nex].
  { intros x. destruct (Req_EM_T (nth 0 x 0) 0); [right; tauto|left; assumption]. }
  - apply Exists_exists in Ex as (p & Hp & Hp0). destruct (in_split p rows Hp) as (l1 & l2 & ->).
    set (a := nth 0 p 0) in *.
    set (red := map (fun row => map (fun k => nth (S k) row 0 - nth 0 row 0 / a * nth (S k) p 0) (seq 0 n)) (l1 ++ l2)).
    destruct (IH red) as (f & (k & Hk & Hf) & Hz).
    { unfold red. rewrite map_length. rewrite !app_length in *. cbn in Hlen. lia. }
    { intros row H. unfold red in H. apply in_map_iff in H as (r' & <- & _). now rewrite map_length, seq_length. }
    set (s := rdot n (tl p) f).
    exists (fun k => match k with O => - s / a | S k' => f k' end). split; [exists (S k); split; [lia|exact Hf]|].
    assert (Hexp : forall row, length row = S n -> rdot (S n) row (fun k => match k with O => - s / a | S k' => f k' end) = nth 0 row 0 * (- s / a) + rdot n (tl row) f).
    { intros [|x row] L; [discriminate|]. rewrite rdot_cons. reflexivity. }
    intros row H. rewrite Hexp by (apply Hrow; exact H). apply in_app_or in H.
    assert (C : row = p \/ In row (l1 ++ l2)) by (destruct H as [H|[H|H]]; [right; apply in_or_app; now left|left; now symmetry|right; apply in_or_app; now right]).
    destruct C as [-> |C]; [fold s a; field; exact Hp0|].
    assert (Z : rdot n (map (fun k => nth (S k) row 0 - nth 0 row 0 / a * nth (S k) p 0) (seq 0 n)) f = 0).
    { apply Hz. unfold red. apply in_map_iff. exists row. split; [reflexivity|exact C]. }
    assert (T : forall r' k, nth k (tl r') 0 = nth (S k) r' 0 :> R) by (intros [|x r'] k'; [destruct k'; reflexivity|reflexivity]).
    assert (E : rdot n (map (fun k => nth (S k) row 0 - nth 0 row 0 / a * nth (S k) p 0) (seq 0 n)) f = rdot n (tl row) f - nth 0 row 0 / a * s).
    { unfold s, rdot. rewrite <- Rsum_map_scal, <- Rsum_map_minus. apply Rsum_map_ext. intros k' Hk'. apply in_seq in Hk'.
      rewrite (nth_map_seq _ n k' 0) by lia. rewrite !T. ring. }
    rewrite E in Z. transitivity (rdot n (tl row) f - nth 0 row 0 / a * s); [field; exact Hp0|exact Z].
  - exists (fun k => match k with O => 1 | S _ => 0 end). split; [exists O; split; [lia|lra]|].
    intros row H. assert (Z : nth 0 row 0 = 0).
    { destruct (Req_EM_T (nth 0 row 0) 0) as [e|e]; [exact e|]. exfalso. apply Nex. apply Exists_exists. exists row. split; assumption. }
    unfold rdot. apply Rsum_zero. intros [|k'] _; [rewrite Z; ring|ring].
Qed.

(** Predictions. *)
Lemma row_loop {N : Num} (w row : list N) b k :
  foldM (fun pred p => match nth_error w (fst p) with None => Panic | Some wj => Ok (nadd pred (nmul (snd p) wj)) end)
    b (combine (seq k (length row)) row)
  = if (length row <=? length (skipn k w))%nat then Ok (fold_left (fun s p => nadd s (nmul (fst p) (snd p))) (combine row (skipn k w)) b) else Panic.
Proof.
  revert b k. induction row as [|x row IH]; intros b k; [reflexivity|].
  cbn [length seq combine foldM fst snd]. destruct (nth_error w k) as [wj|] eqn:E.
  - cbn [bind]. rewrite IH. assert (S1 : skipn k w = wj :: skipn (S k) w).
    { clear - E. revert k E. induction w as [|a w IH]; intros [|k] E; cbn in E; try discriminate; [injection E as ->; reflexivity|]. cbn [skipn]. exact (IH k E). }
    rewrite S1. cbn [length combine fold_left fst snd Nat.leb]. reflexivity.
  - apply nth_error_None in E. rewrite skipn_all2 by exact E. reflexivity.
Qed.
Lemma lr_row_eq {N : Num} (lr : linreg N) w row : lr_weights lr = Some w ->
  lr_row lr row = if (length row <=? length w)%nat then Ok (fold_left (fun s p => nadd s (nmul (fst p) (snd p))) (combine row w) (lr_icept lr)) else Panic.
Proof. intros E. unfold lr_row. rewrite E. exact (row_loop w row (lr_icept lr) 0). Qed.
Lemma sk_row_eq {N : Num} (lr : sklr N) w row : sk_coef lr = Some w ->
  sk_row lr row = if (length row <=? length w)%nat then Ok (fold_left (fun s p => nadd s (nmul (fst p) (snd p))) (combine row w) (sk_intercept lr)) else Panic.
Proof. intros E. unfold sk_row. rewrite E. exact (row_loop w row (sk_intercept lr) 0). Qed.
Lemma mapM_all_ok {A B} (f : A -> res B) (g : A -> B) l : (forall x, In x l -> f x = Ok (g x)) -> mapM f l = Ok (map g l).
Proof. induction l as [|x l IH]; intros H; [reflexivity|]. cbn [mapM map]. rewrite H by now left. cbn [bind]. rewrite IH by (intros; apply H; now right). reflexivity. Qed.
Lemma fold_linear b w x : fold_left (fun s p => s + fst p * snd p) (combine x w) b = linear_value b w x.
Proof.
  transitivity (b + Rsum (map (fun p : R * R => fst p * snd p) (combine x w))); [apply (fold_left_sum (fun p : R * R => fst p * snd p))|].
  revert x. induction w as [|wj w IH]; intros [|xj x]; cbn [combine map Rsum linear_value fst snd]; try ring.
  rewrite <- IH. ring.
Qed.

(** Scores. *)
Lemma r2_value e (ys preds : list R) : (length preds <? length ys)%nat = false ->
  Rsum (map (fun yt => (yt - Rsum ys / INR (length ys)) * (yt - Rsum ys / INR (length ys))) ys) <> 0 ->
  @r2 RNum e ys preds = Ok (1 - Rsum (map (fun p => (fst p - snd p) * (fst p - snd p)) (combine ys preds))
    / Rsum (map (fun yt => (yt - Rsum ys / INR (length ys)) * (yt - Rsum ys / INR (length ys))) ys)).
Proof.
  intros L T. unfold r2. change (num RNum) with R in *. rewrite L.
  rewrite (nsum_R ys), (nofnat_R (length ys)). cbn [ndiv RNum]. set (m := Rsum ys / INR (length ys)) in *.
  assert (E1 : fold_left (fun s yt => @nadd RNum s (@nmul RNum (@nsub RNum yt m) (@nsub RNum yt m))) ys (@n0 RNum) = Rsum (map (fun yt => (yt - m) * (yt - m)) ys)).
  { transitivity (0 + Rsum (map (fun yt => (yt - m) * (yt - m)) ys)); [exact (fold_left_sum (fun yt => (yt - m) * (yt - m)) ys 0)|apply Rplus_0_l]. }
  assert (E2 : fold_left (fun s p => @nadd RNum s (@nmul RNum (@nsub RNum (fst p) (snd p)) (@nsub RNum (fst p) (snd p)))) (combine ys preds) (@n0 RNum)
     = Rsum (map (fun p => (fst p - snd p) * (fst p - snd p)) (combine ys preds))).
  { transitivity (0 + Rsum (map (fun p => (fst p - snd p) * (fst p - snd p)) (combine ys preds))); [exact (fold_left_sum (fun p : R * R => (fst p - snd p) * (fst p - snd p)) (combine ys preds) 0)|apply Rplus_0_l]. }
  change (num RNum) with R in *. rewrite E1, E2. cbn [neqb n0 n1 nsub ndiv RNum]. destruct (Reqb_spec (Rsum (map (fun yt => (yt - m) * (yt - m)) ys)) 0); [easy|reflexivity].
Qed.
Lemma rss_residual (g : list R -> R) rows (ys : list R) :
  Rsum (map (fun p => (fst p - snd p) * (fst p - snd p)) (combine ys (map g rows))) = Rsum (map (fun p => (snd p - g (fst p)) * (snd p - g (fst p))) (combine rows ys)).
Proof. revert ys. induction rows as [|r rows IH]; intros [|y ys]; try reflexivity. cbn [map combine Rsum fst snd]. rewrite IH. reflexivity. Qed.
Lemma linear_value_zero b c x : linear_value b (repeat 0 c) x = b.
Proof. revert x. induction c as [|c IH]; intros [|y x]; try reflexivity. cbn [repeat linear_value]. rewrite IH. ring. Qed.
Lemma residual_mean rows (ys : list R) m c : length ys = length rows -> residual rows ys m (repeat 0 c) = Rsum (map (fun yt => (yt - m) * (yt - m)) ys).
Proof.
  unfold residual. revert ys. induction rows as [|r rows IH]; intros [|y ys] H; cbn in H; try discriminate; [reflexivity|].
  cbn [combine map Rsum fst snd]. rewrite IH by congruence. rewrite linear_value_zero. reflexivity.
Qed.
Lemma linear_value_affine a s b w x : linear_value (a * b + s) (map (Rmult a) w) x = a * linear_value b w x + s.
Proof. revert x. induction w as [|v w IH]; intros [|y x]; cbn [map linear_value]; try ring. rewrite IH. ring. Qed.
Lemma residual_affine rows ys b w a s :
  residual rows (map (fun v => a * v + s) ys) (a * b + s) (map (Rmult a) w) = a * a * residual rows ys b w.
Proof.
  unfold residual. revert ys. induction rows as [|r rows IH]; intros [|y ys]; cbn [combine map Rsum]; try ring.
  rewrite IH. cbn [fst snd]. rewrite linear_value_affine. ring.
Qed.
Lemma combine_ones rows (yr : list (list R)) :
  combine (@with_ones RNum rows) (@column RNum 0 yr) = map (fun p => (1 :: fst p, nth 0 (snd p) 0)) (combine rows yr).
Proof. unfold with_ones, column. revert yr. induction rows as [|r rows IH]; intros [|y yr]; try reflexivity. cbn [map combine fst snd]. rewrite IH. reflexivity. Qed.
Lemma map_fst_comb {A B} (l : list A) (l' : list B) : length l = length l' -> map fst (combine l l') = l.
Proof. revert l'. induction l as [|x l IH]; intros [|y l'] H; cbn in H; try discriminate; [reflexivity|]. cbn. rewrite IH by congruence. reflexivity. Qed.
Lemma gram_perm m (D D' : list (list R)) : Permutation D' D ->
  @mmul RNum (@transpose RNum m D) m D = @mmul RNum (@transpose RNum m D') m D'.
Proof.
  intros P. unfold mmul, transpose. rewrite !map_map. apply map_ext. intros i. apply map_ext. intros j. rewrite !dot_column. unfold gram. apply Rsum_perm. apply Permutation_map. now apply Permutation_sym.
Qed.
Lemma dot_column_vec j (D : list (list R)) ys : @dot RNum (@column RNum j D) ys = Rsum (map (fun p => nth j (fst p) 0 * snd p) (combine D ys)).
Proof. rewrite dot_sum. unfold column. revert ys. induction D as [|r D IH]; intros [|y ys]; try reflexivity. cbn [map combine Rsum fst snd]. rewrite IH. reflexivity. Qed.
Lemma moment_perm m (D D' : list (list R)) ys ys' : Permutation (combine D' ys') (combine D ys) ->
  @mvmul RNum (@transpose RNum m D) ys = @mvmul RNum (@transpose RNum m D') ys'.
Proof.
  intros P. unfold mvmul, transpose. rewrite !map_map. apply map_ext. intros i. rewrite !dot_column_vec. apply Rsum_perm. apply Permutation_map. now apply Permutation_sym.
Qed.

(** Predict as a whole. *)
Lemma mapM_panics {A B} (f : A -> res B) l : l <> [] -> (forall x, In x l -> f x = Panic) -> mapM f l = Panic.
Proof. destruct l as [|x l]; intros H1 H2; [easy|]. cbn [mapM]. rewrite H2 by now left. reflexivity. Qed.
Lemma predict_rows {N : Num} (f : list N -> res N) w b c (rows : list (list N)) : rows <> [] -> (forall row, In row rows -> length row = c) ->
  (forall row, f row = if (length row <=? length w)%nat then Ok (fold_left (fun s p => nadd s (nmul (fst p) (snd p))) (combine row w) b) else Panic) ->
  mapM f rows = if (c <=? length w)%nat then Ok (map (fun row => fold_left (fun s p => nadd s (nmul (fst p) (snd p))) (combine row w) b) rows) else Panic.
Proof.
  intros Hn Hr Hf. destruct (Nat.leb_spec c (length w)) as [L|L].
  - apply mapM_all_ok. intros row H. rewrite Hf, (Hr row H). destruct (Nat.leb_spec c (length w)); [reflexivity|lia].
  - apply mapM_panics; [exact Hn|]. intros row H. rewrite Hf, (Hr row H). destruct (Nat.leb_spec c (length w)); [lia|reflexivity].
Qed.
Lemma lr_predict_eq {N : Num} (lr : linreg N) w (X : matrix N) : lr_fitted lr = true -> lr_nfeat lr = mcols X -> lr_weights lr = Some w -> wf X -> nrows X <> O ->
  lr_predict lr X = if (mcols X <=? length w)%nat then Ok (map (fun row => fold_left (fun s p => nadd s (nmul (fst p) (snd p))) (combine row w) (lr_icept lr)) (mrows X)) else Err EPanic.
Proof.
  intros F NF E Hw Hn. unfold lr_predict. rewrite F, NF, Nat.eqb_refl. cbn [negb]. unfold newdense. destruct (Nat.eqb_spec (nrows X) 0); [easy|]. cbn [orb Nat.eqb bind].
  rewrite (predict_rows (lr_row lr) w (lr_icept lr) (mcols X)); [|unfold nrows in Hn; destruct (mrows X); [now elim Hn|discriminate]|exact Hw|intros; now apply lr_row_eq].
  destruct (mcols X <=? length w)%nat; reflexivity.
Qed.
Lemma sk_predict_eq {N : Num} (lr : sklr N) w (X : matrix N) : sk_fitted lr = true -> sk_nfeat lr = mcols X -> sk_coef lr = Some w -> wf X -> nrows X <> O ->
  sk_predict lr X = if (mcols X <=? length w)%nat then Ok (map (fun row => fold_left (fun s p => nadd s (nmul (fst p) (snd p))) (combine row w) (sk_intercept lr)) (mrows X)) else Panic.
Proof.
  intros F NF E Hw Hn. unfold sk_predict. rewrite F, NF, Nat.eqb_refl. cbn [negb]. unfold newdense. destruct (Nat.eqb_spec (nrows X) 0); [easy|]. cbn [orb Nat.eqb bind].
  apply predict_rows; [unfold nrows in Hn; destruct (mrows X); [now elim Hn|discriminate]|exact Hw|intros; now apply sk_row_eq].
Qed.
Lemma lr_predict_R (lr : linreg RNum) (w : list R) (X : matrix R) : lr_fitted lr = true -> lr_nfeat lr = mcols X -> lr_weights lr = Some w -> wf X -> nrows X <> O -> (mcols X <= length w)%nat ->
  @lr_predict RNum lr X = Ok (map (linear_value (lr_icept lr) w) (mrows X)).
Proof.
  intros F NF E Hw Hn L. rewrite (@lr_predict_eq RNum lr w X F NF E Hw Hn). apply Nat.leb_le in L. change (num RNum) with R. rewrite L. f_equal. apply map_ext. intros row. exact (fold_linear _ _ _).
Qed.
Lemma sk_predict_R (lr : sklr RNum) (w : list R) (X : matrix R) : sk_fitted lr = true -> sk_nfeat lr = mcols X -> sk_coef lr = Some w -> wf X -> nrows X <> O -> (mcols X <= length w)%nat ->
  @sk_predict RNum lr X = Ok (map (linear_value (sk_intercept lr) w) (mrows X)).
Proof.
  intros F NF E Hw Hn L. rewrite (@sk_predict_eq RNum lr w X F NF E Hw Hn). apply Nat.leb_le in L. change (num RNum) with R. rewrite L. f_equal. apply map_ext. intros row. exact (fold_linear _ _ _).
Qed.

Lemma r2_constant e (ys preds : list R) : (length preds <? length ys)%nat = false ->
  Rsum (map (fun yt => (yt - Rsum ys / INR (length ys)) * (yt - Rsum ys / INR (length ys))) ys) = 0 -> @r2 RNum e ys preds = Err e.
Proof.
  intros L T. unfold r2. change (num RNum) with R in *. rewrite L.
  rewrite (nsum_R ys), (nofnat_R (length ys)). cbn [ndiv RNum]. set (m := Rsum ys / INR (length ys)) in *.
  assert (E1 : fold_left (fun s yt => @nadd RNum s (@nmul RNum (@nsub RNum yt m) (@nsub RNum yt m))) ys (@n0 RNum) = Rsum (map (fun yt => (yt - m) * (yt - m)) ys)).
  { transitivity (0 + Rsum (map (fun yt => (yt - m) * (yt - m)) ys)); [exact (fold_left_sum (fun yt => (yt - m) * (yt - m)) ys 0)|apply Rplus_0_l]. }
  change (num RNum) with R in *. rewrite E1, T. cbn [neqb n0 RNum]. destruct (Reqb_spec 0 0); [reflexivity|easy].
Qed.
