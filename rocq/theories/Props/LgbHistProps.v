(** C44, C79, C80 - histograms, bin boundaries and the split search of sklearn/lightgbm. *)
From Coq Require Import List Arith ZArith Bool Lia Permutation Reals Lra.
From Flocq Require Import Core.Core IEEE754.BinarySingleNaN.
From Verif Require Import Base.Num Base.GoRes Base.ListX Base.RTac Base.FTac Base.GoSort Spec.Order Model.LgbTree Model.LgbHist
  Spec.LgbHist Spec.LgbSplit Proofs.OrderP Proofs.LgbArrayP Proofs.LgbHistP Proofs.LgbHistRP Proofs.LgbSplitP.
Import ListNotations.
Local Open Scope list_scope.

(** ** C44.  Histograms *)

(** Both binary searches return the bin containing the value, and there is just one. *)
Theorem C44_bin_search : forall (N : Num), lt_laws N -> cmp_laws N ->
  forall (bs : list N) (v : N) i, increasing bs -> 2 <= List.length bs -> nisnan v = false ->
  (find_bin v bs = Z.of_nat i <-> in_bin bs i v) /\ (find_bin_opt v bs = Z.of_nat i <-> in_bin bs i v).
Proof.
  intros N L C bs v i Hs H2 Hv.
  assert (K : forall z, (0 <= z)%Z /\ in_bin bs (Z.to_nat z) v -> (z = Z.of_nat i <-> in_bin bs i v)).
  { intros z [Hz Hb]. split; [intros ->; now rewrite Nat2Z.id in Hb|].
    intros Hi. rewrite (in_bin_unique L C bs v i (Z.to_nat z) Hs Hv Hi Hb). lia. }
  split; apply K; [now apply find_bin_in|now apply find_bin_opt_in].
Qed.
(** The searches end: the fuel of the model's loops is never used up, whatever the
    boundaries and the value. *)
Theorem C44_search_ends : forall (N : Num) (bs : list N) (v : N) fuel, List.length bs <= fuel ->
  find_bin_fuel fuel v bs = find_bin v bs /\ find_bin_opt_fuel fuel v bs = find_bin_opt v bs.
Proof.
  intros N bs v fuel Hf. unfold find_bin, find_bin_opt, find_bin_fuel, find_bin_opt_fuel.
  rewrite (bsearch_fuel fuel (List.length bs)), (bsearch_opt_fuel fuel (List.length bs)) by lia. split; reflexivity.
Qed.
(** Filling the bins gives the histogram of the samples. *)
Theorem C44_bins_are_sums : forall (N : Num), lt_laws N -> cmp_laws N ->
  forall (bs : list N) (ss : list (N * (N * N))), increasing bs -> 2 <= List.length bs -> no_nan_in (map fst ss) ->
  fill find_bin bs ss = histogram bs ss /\ fill find_bin_opt bs ss = histogram bs ss.
Proof.
  intros N L C bs ss Hs H2 Hn.
  assert (Hn' : forall s, In s ss -> nisnan (fst s) = false) by (intros s Hin; apply Hn, in_map, Hin).
  split; apply fill_histogram; auto; intros v Hv; [now apply find_bin_in|now apply find_bin_opt_in].
Qed.
(** Every sample is counted exactly once, NaN or not; and over the real numbers the gradient
    and hessian sums of the bins are those of the samples. *)
Theorem C44_mass : 
  (forall (N : Num) (bs : list N) ss, 2 <= List.length bs -> count_all (fill find_bin bs ss) = Z.of_nat (List.length ss))
  /\ forall (bs : list R) (ss : list (R * (R * R))), 2 <= List.length bs ->
       @grad_all RNum (@fill RNum (@find_bin RNum) bs ss) = Rsum (map (fun s => fst (snd s)) ss)
       /\ @hess_all RNum (@fill RNum (@find_bin RNum) bs ss) = Rsum (map (fun s => snd (snd s)) ss).
Proof.
  split.
  - intros N bs ss H2. apply fill_count. intros s _. now apply find_bin_range.
  - intros bs ss H2. apply fill_mass. intros s _. now apply (@find_bin_range RNum).
Qed.
(** With common boundaries, parent minus one child is the other child. *)
Theorem C44_subtraction : forall find (bs : list R) (feat : nat) (parent l r : list (R * (R * R))), Permutation parent (l ++ r) ->
  let h ss := @mkhist RNum feat (@fill RNum find bs ss) bs in
  @hist_sub RNum (h parent) (h l) = Ok (h r).
Proof.
  intros find bs feat parent l r Hp h. unfold hist_sub, h. cbn [h_bins h_feat h_bounds]. rewrite (fill_sub find bs parent l r Hp). reflexivity.
Qed.

(** The boundaries computed from values: increasing, at least one bin and at most MaxBin, all
    values strictly inside. *)
Theorem C44_boundaries : forall (sortf : list R -> list R) (maxbin : Z) (values : list R),
  go_sort (@fless RNum) sortf -> (1 <= maxbin)%Z -> values <> [] ->
  exists bs : list R, @boundaries RNum sortf maxbin values = Ok bs /\ @increasing RNum bs
    /\ 2 <= List.length bs <= S (Z.to_nat maxbin)
    /\ (forall v, In v values -> nth 0 bs 0 < v /\ v < last bs 0)%R.
Proof.
  intros sortf maxbin values Hs Hm Hne. destruct (boundaries_R sortf Hs maxbin values Hm Hne) as (bs & E & A & B & C).
  exists bs. split; [exact E|]. split; [now apply sasc_increasing|]. split; assumption.
Qed.
Lemma few_bin_of (sortf : list R -> list R) maxbin values : go_sort (@fless RNum) sortf -> values <> [] ->
  @few_values RNum values (Z.to_nat maxbin) -> apart values ->
  exists bs u, @boundaries RNum sortf maxbin values = Ok bs /\ sasc u /\ (forall v, In v u <-> In v values)
    /\ bs = fbounds u /\ sasc bs /\ (2 <= List.length bs)%nat
    /\ forall i, i < List.length u -> @find_bin RNum (nth i u 0%R) bs = Z.of_nat i.
Proof.
  intros Hs Hne Hf Ha. destruct (boundaries_few sortf Hs maxbin values Hne Hf) as (u & U1 & U2 & E).
  assert (H1 : 1 <= List.length u). { destruct values as [|v values]; [easy|]. specialize (U2 v). destruct u; [exfalso; apply U2; now left|cbn; lia]. }
  exists (fbounds u), u. split; [exact E|]. split; [exact U1|]. split; [exact U2|]. split; [reflexivity|].
  pose proof (fbounds_sasc u U1) as B. split; [exact B|].
  assert (H2 : 2 <= List.length (fbounds u)) by (unfold fbounds; cbn [List.length]; rewrite map_length; lia). split; [exact H2|].
  intros i Hi. apply (C44_bin_search RNum lt_laws_R cmp_laws_R (fbounds u) (nth i u 0%R) i (sasc_increasing _ B) H2 eq_refl).
  now apply (few_in_bin u values).
Qed.
(** At most MaxBin different values, more than 1e-10 apart: two values share a bin only when
    they are equal. *)
Theorem C44_one_value_per_bin : forall (sortf : list R -> list R) (maxbin : Z) (values : list R),
  go_sort (@fless RNum) sortf -> values <> [] -> @few_values RNum values (Z.to_nat maxbin) -> apart values ->
  exists bs : list R, @boundaries RNum sortf maxbin values = Ok bs
    /\ forall v w, In v values -> In w values -> (@find_bin RNum v bs = @find_bin RNum w bs <-> v = w).
Proof.
  intros sortf maxbin values Hs Hne Hf Ha. destruct (few_bin_of sortf maxbin values Hs Hne Hf Ha) as (bs & u & E & U1 & U2 & _ & _ & _ & Hb).
  exists bs. split; [exact E|]. intros v w Hv Hw. split; [|now intros ->].
  apply U2 in Hv, Hw. apply In_nth with (d := 0%R) in Hv as (i & Hi & <-). apply In_nth with (d := 0%R) in Hw as (j & Hj & <-).
  rewrite !Hb by assumption. intros Eq. now apply Nat2Z.inj in Eq as ->.
Qed.

(** *** Binary64 *)
Definition fsort (l : list F0) : list F0 := isort fless l.
Definition bins_of (maxbin : Z) (values : list F0) : res (list Z) :=
  rmap (fun bs => map (fun v => find_bin v bs) values) (boundaries fsort maxbin values).

Example C44_example : bins_of 255 [f 3 1; f 1 1; f 2 1; f 1 1; f 5 2] = Ok [3; 0; 1; 0; 2]%Z
  /\ bins_of 2 [f 3 1; f 1 1; f 2 1; f 1 1; f 5 2] = Ok [1; 0; 1; 0; 1]%Z
  /\ (let bs := [f 0 1; f 1 1; f 2 1; f 4 1] in
      map (fun v => find_bin v bs) [f (-7) 1; f 0 1; f 1 1; f 3 2; f 4 1; f 9 1] = [0; 0; 1; 1; 2; 2]%Z
      /\ map (@b_cnt F0) (fill find_bin bs [(f 3 1, (f 1 1, f 1 1)); (f 3 2, (f 2 1, f 1 1)); (f 7 1, (f 4 1, f 1 1))]) = [0; 1; 2]%Z).
Proof. vm_compute. repeat split; reflexivity. Qed.

(** From 2^20 on, adding 1e-10 does nothing in binary64, and different values share a bin
    however large MaxBin is. *)
Theorem C44_large_values_refuted : exists (v w : F0) (bs : list F0),
  boundaries fsort 255 [v; w] = Ok bs /\ (v <? w)%num = true /\ find_bin v bs = find_bin w bs.
Proof.
  exists (f 2097152 1), (f 4194304 1).
  assert (K : match boundaries fsort 255 [f 2097152 1; f 4194304 1] with
              | Ok bs => find_bin (f 2097152 1) bs = find_bin (f 4194304 1) bs | _ => False end) by (vm_compute; reflexivity).
  destruct (boundaries fsort 255 [f 2097152 1; f 4194304 1]) as [bs| |]; [|easy|easy].
  exists bs. split; [reflexivity|]. split; [vm_compute; reflexivity|exact K].
Qed.

(** One NaN among the values: the samples with the smallest value are counted with the
    largest, and the NaN itself is counted with the largest value. *)
Theorem C44_missing_refuted :
  bins_of 255 [@nnan F0; f 1 1; f 2 1; f 3 1] = Ok [3; 3; 2; 3]%Z
  /\ bins_of 255 [f 1 1; f 2 1; f 3 1] = Ok [0; 1; 2]%Z.
Proof. vm_compute. split; reflexivity. Qed.

(** Nodes compute boundaries from their own rows, so in general the histograms of a parent
    and a child cannot be subtracted: it panics, or gives a histogram that is not the other
    child's. *)
Definition column (vs : list F0) (i _ : nat) : F0 := nth i vs (f 0 1).
Definition hist_of (maxbin : Z) (vs : list F0) (idxs : list nat) : res (hist F0) :=
  cont_hist fsort (column vs) (fun _ => f 1 1) (fun _ => f 1 1) maxbin 0 idxs.
Definition counts (h : res (hist F0)) : res (list Z) := rmap (fun h => map (@b_cnt F0) (h_bins h)) h.
Definition minus (h1 h2 : res (hist F0)) : res (hist F0) := let* a := h1 in let* b := h2 in hist_sub a b.
Theorem C44_subtraction_refuted : exists vs : list F0,
  counts (minus (hist_of 255 vs [0; 1; 2; 3]) (hist_of 255 vs [0; 1])) = Panic
  /\ counts (minus (hist_of 2 vs [0; 1; 2; 3]) (hist_of 2 vs [0; 1])) = Ok [0; 2]%Z
  /\ counts (hist_of 2 vs [2; 3]) = Ok [1; 1]%Z.
Proof. exists [f 1 1; f 2 1; f 3 1; f 4 1]. vm_compute. repeat split; reflexivity. Qed.

(** ** C79.  The optimised histogram builder *)

(** Its quicksort returns the elements in order, for every slice, and ends; NaN included, no
    later element is smaller than an earlier one. *)
Theorem C79_quicksort : forall (N : Num), lt_laws N -> forall (l : list N),
  (forall fuel, List.length l < fuel -> quick_sort fuel l 0 (List.length l) = Some (sort_opt l))
  /\ Permutation l (sort_opt l) /\ ordered nlt (sort_opt l).
Proof.
  intros N L l. destruct (sort_opt_go_sort L l) as [P O]. split; [|split; assumption].
  assert (M : forall fuel (arr r : list N) low n, quick_sort fuel arr low n = Some r -> forall k, quick_sort (fuel + k) arr low n = Some r).
  { induction fuel as [|fuel IH]; intros arr r low n E k; [discriminate|]. cbn [quick_sort plus] in *.
    destruct (Nat.leb n 1); [exact E|]. destruct (partition arr low (low + n - 1)) as [arr1 p].
    destruct (quick_sort fuel arr1 low (p - low)) as [arr2|] eqn:E1; [|discriminate]. rewrite (IH _ _ _ _ E1). now apply IH. }
  intros fuel Hf. unfold sort_opt. destruct (quick_sort_spec L (S (List.length l)) [] l []) as (m & E & _ & _); [lia|].
  cbn [app List.length] in E. rewrite !app_nil_r in E. rewrite E. replace fuel with (S (List.length l) + (fuel - S (List.length l))) by lia.
  now apply M.
Qed.
(** Its boundaries: increasing, at least one bin and at most MaxBin, all values inside. *)
Theorem C79_boundaries : forall (toint : R -> Z) (maxbin : Z) (values : list R),
  truncates toint -> (1 <= maxbin)%Z -> values <> [] ->
  exists bs : list R, @boundaries_opt RNum toint maxbin values = Ok bs /\ @increasing RNum bs
    /\ 2 <= List.length bs <= S (Z.to_nat maxbin)
    /\ (forall v, In v values -> nth 0 bs 0 <= v /\ v < last bs 0)%R.
Proof.
  intros toint maxbin values Ht Hm Hne. destruct (opt_R toint Ht maxbin values Hm Hne) as (bs & E & A & B & C).
  exists bs. split; [exact E|]. split; [now apply sasc_increasing|]. split; assumption.
Qed.
Lemma sasc_ext : forall (u w : list R), sasc u -> sasc w -> (forall v, In v u <-> In v w) -> u = w.
Proof.
  induction u as [|a u IH]; intros w Hu Hw Hin.
  - destruct w as [|b w]; [reflexivity|]. exfalso. apply (Hin b). now left.
  - destruct w as [|b w]; [exfalso; apply (Hin a); now left|].
    inversion Hu as [|? ? Hu1 Hu2]; subst. inversion Hw as [|? ? Hw1 Hw2]; subst. rewrite Forall_forall in Hu2, Hw2.
    assert (a = b).
    { destruct (proj1 (Hin a) (or_introl eq_refl)) as [E|E]; [now symmetry|]. destruct (proj2 (Hin b) (or_introl eq_refl)) as [E2|E2]; [exact E2|].
      specialize (Hu2 b E2). specialize (Hw2 a E). lra. }
    subst b. f_equal. apply IH; [exact Hu1|exact Hw1|]. intros v. specialize (Hin v). cbn in Hin. split; intros Hv.
    + destruct (proj1 Hin (or_intror Hv)) as [<-|]; [|assumption]. specialize (Hu2 a Hv). lra.
    + destruct (proj2 Hin (or_intror Hv)) as [<-|]; [|assumption]. specialize (Hw2 a Hv). lra.
Qed.
(** Few separated values: both builders put the same samples in the same bins. *)
Theorem C79_same_bins : forall (sortf : list R -> list R) (toint : R -> Z) (X : nat -> nat -> R) (G H : nat -> R) (maxbin : Z) (feat : nat) (idxs : list nat),
  go_sort (@fless RNum) sortf -> truncates toint -> idxs <> [] ->
  let values := map (fun i => X i feat) idxs in
  @few_values RNum values (Z.to_nat maxbin) -> apart values ->
  exists h ho, @cont_hist RNum sortf X G H maxbin feat idxs = Ok h /\ @opt_hist RNum toint X G H maxbin feat idxs = Ok ho
    /\ map (@contents RNum) (h_bins h) = map (@contents RNum) (h_bins ho).
Proof.
  intros sortf toint X G H maxbin feat idxs Hs Ht Hne values Hf Ha.
  assert (Hv : values <> []) by (unfold values; now destruct idxs).
  destruct (few_bin_of sortf maxbin values Hs Hv Hf Ha) as (bs & u & E & U1 & U2 & _ & B1 & B2 & Hb).
  destruct (opt_few toint maxbin values Hv Hf) as (u' & V1 & V2 & E').
  assert (u' = u) by (apply sasc_ext; [assumption|assumption|intros v; now rewrite U2, V2]). subst u'.
  set (bo := u ++ [(last u 0 + e10)%R]) in *.
  exists (@mkhist RNum feat (@fill RNum (@find_bin RNum) bs (@samples RNum X G H feat idxs)) bs),
    (@mkhist RNum feat (@fill RNum (@find_bin_opt RNum) bo (@samples RNum X G H feat idxs)) bo).
  split; [change (@cont_hist RNum sortf X G H maxbin feat idxs) with
    (let* b := @boundaries RNum sortf maxbin values in Ok (@mkhist RNum feat (@fill RNum (@find_bin RNum) b (@samples RNum X G H feat idxs)) b)); now rewrite E|].
  split; [change (@opt_hist RNum toint X G H maxbin feat idxs) with
    (let* b := @boundaries_opt RNum toint maxbin values in Ok (@mkhist RNum feat (@fill RNum (@find_bin_opt RNum) b (@samples RNum X G H feat idxs)) b)); now rewrite E'|].
  cbn [h_bins].
  assert (H1 : 1 <= List.length u) by (destruct u; [destruct values as [|v ?]; [easy|]; exfalso; apply (U2 v); now left|cbn; lia]).
  assert (Lo : List.length bo = S (List.length u)) by (unfold bo; rewrite app_length; cbn; lia).
  assert (Lb : List.length bs = S (List.length u)).
  { destruct (boundaries_few sortf Hs maxbin values Hv Hf) as (u2 & W1 & W2 & E2).
    assert (u2 = u) by (apply sasc_ext; [assumption|assumption|intros v; now rewrite U2, W2]). subst u2.
    rewrite E in E2. injection E2 as ->. cbn [List.length]. now rewrite map_length. }
  assert (So : sasc bo).
  { apply sasc_snoc; [exact U1|]. intros x Hx. pose proof (asc_last u x 0%R (sasc_asc _ U1) Hx). pose proof e10_pos. lra. }
  assert (Ho : forall i, i < List.length u -> @find_bin_opt RNum (nth i u 0%R) bo = Z.of_nat i).
  { intros i Hi. apply (C44_bin_search RNum lt_laws_R cmp_laws_R bo (nth i u 0%R) i (sasc_increasing _ So)); [change (num RNum) with R; lia|reflexivity|].
    now apply opt_in_bin. }
  assert (Eo : forall k, @own RNum (@find_bin RNum) bs k (@samples RNum X G H feat idxs) = @own RNum (@find_bin_opt RNum) bo k (@samples RNum X G H feat idxs)).
  { intros k. apply filter_ext_in. intros s Hin. unfold samples in Hin. apply in_map_iff in Hin as (i & <- & Hi). cbn [fst].
    assert (Hin : In (X i feat) u) by (apply U2; unfold values; apply in_map_iff; now exists i).
    apply In_nth with (d := 0%R) in Hin as (j & Hj & <-). now rewrite Hb, Ho by exact Hj. }
  apply nth_error_ext. intros i. rewrite !nth_error_map.
  destruct (Nat.lt_ge_cases (S i) (List.length bs)) as [Hi|Hi].
  - rewrite (@fill_nth RNum (@find_bin RNum) bs _ i Hi). rewrite (@fill_nth RNum (@find_bin_opt RNum) bo _ i) by (change (num RNum) with R in *; lia). cbn [option_map contents]. unfold contents. cbn [b_cnt b_g b_h].
    now rewrite Eo.
  - assert (N1 : nth_error (@fill RNum (@find_bin RNum) bs (@samples RNum X G H feat idxs)) i = None)
      by (apply nth_error_None; rewrite fill_length; change (num RNum) with R in *; lia).
    assert (N2 : nth_error (@fill RNum (@find_bin_opt RNum) bo (@samples RNum X G H feat idxs)) i = None)
      by (apply nth_error_None; rewrite fill_length; change (num RNum) with R in *; lia).
    now rewrite N1, N2.
Qed.
Definition opt_bins (values : list F0) : res (list Z) :=
  rmap (fun bs => map (fun v => find_bin_opt v bs) values) (boundaries_opt (fun _ => 0%Z) 255 values).
Example C79_example : map fs (sort_opt [f 3 1; f 1 1; f 2 1; f 1 1; f 5 2]) = map fs [f 1 1; f 1 1; f 2 1; f 5 2; f 3 1]
  /\ opt_bins [f 3 1; f 1 1; f 2 1; f 1 1; f 5 2] = Ok [3; 0; 1; 0; 2]%Z.
Proof. vm_compute. split; reflexivity. Qed.
(** The two builders treat a NaN differently: the plain one counts it with the largest value,
    the optimised one in the middle; and large values, which the plain builder merges, are
    kept apart by the optimised one. *)
Theorem C79_differences_refuted :
  bins_of 255 [@nnan F0; f 1 1; f 2 1; f 3 1; f 4 1; f 5 1] = Ok [5; 5; 2; 3; 4; 5]%Z
  /\ opt_bins [@nnan F0; f 1 1; f 2 1; f 3 1; f 4 1; f 5 1] = Ok [2; 0; 1; 2; 3; 4]%Z
  /\ bins_of 255 [f 2097152 1; f 4194304 1] = Ok [1; 1]%Z
  /\ opt_bins [f 2097152 1; f 4194304 1] = Ok [0; 1]%Z.
Proof. vm_compute. repeat split; reflexivity. Qed.

(** ** C80.  The best split *)

(** The search over a bin sequence returns the split of largest gain among the cuts leaving
    enough samples on both sides, the first one on ties, if that gain is positive; otherwise
    it reports no split.  Gains that are NaN are never chosen. *)
Theorem C80_best_cut : forall (N : Num), lt_laws N -> forall (lambda alpha tg th : N) mindata (h : hist N),
  let s := num_split lambda alpha tg th mindata h in
  let gain := cut_gain lambda alpha tg th (h_bins h) in
  let ok := cut_ok mindata (h_bins h) in
  (s = no_split (h_feat h) /\ forall k, ok k -> nlt n0 (gain k) = false)
  \/ exists k, ok k /\ is_cut lambda alpha tg th (h_bins h) k s /\ s_feat s = Z.of_nat (h_feat h)
       /\ s_thr s = b_hi (nth (k - 1) (h_bins h) (mkbin n0 n0 0 n0 n0)) /\ s_cats s = []
       /\ nlt n0 (gain k) = true
       /\ (forall j, ok j -> nlt (gain k) (gain j) = false)
       /\ (forall j, ok j -> j < k -> nisnan (gain j) = true \/ nlt (gain j) (gain k) = true).
Proof.
  intros N L lambda alpha tg th mindata h s gain ok.
  pose proof (scan_spec L lambda alpha tg th mindata (fun _ b => (b_hi b, [])) (h_bins h) [] (no_split (h_feat h))) as K.
  cbn zeta in K. cbn [app List.length] in K.
  change (scan lambda alpha tg th mindata (fun _ b => (b_hi b, [])) [] (left_g (h_bins h) 0) (left_h (h_bins h) 0) (@count_all N []) (h_bins h) (no_split (h_feat h)))
    with s in K. clearbody s.
  destruct K as [[E F]|(k & [K1 K1'] & K2 & K3 & K4 & K5 & K6 & K7)].
  - left. split; [exact E|]. intros k Hk. apply F. split; [apply Hk|exact Hk].
  - right. exists k. split; [exact K1'|]. split; [exact K2|]. split; [exact K3|]. injection K4 as K4 K4'. split; [exact K4|]. split; [exact K4'|].
    split; [exact K5|]. split; [intros j Hj; apply K6; split; [apply Hj|exact Hj]|].
    intros j Hj. apply K7. split; [apply Hj|exact Hj].
Qed.
(** The same for a categorical feature, whose bins are taken in the order of their ratio of
    gradient to regularised hessian; the left categories are those of the bins before the cut. *)
Theorem C80_best_categories : forall (N : Num), lt_laws N ->
  forall toint sortr (lambda alpha tg th : N) mindata (h : hist N), 2 <= List.length (h_bins h) ->
  let s := cat_split toint sortr lambda alpha tg th mindata h in
  let bins := map snd (sortr (map (fun b => (ndiv (b_g b) (nadd (b_h b) lambda), b)) (h_bins h))) in
  let gain := cut_gain lambda alpha tg th bins in
  let ok := cut_ok mindata bins in
  (s = no_split (h_feat h) /\ forall k, ok k -> nlt n0 (gain k) = false)
  \/ exists k, ok k /\ is_cut lambda alpha tg th bins k s /\ s_feat s = Z.of_nat (h_feat h)
       /\ s_cats s = map (fun b => toint (b_lo b)) (firstn k bins)
       /\ nlt n0 (gain k) = true /\ (forall j, ok j -> nlt (gain k) (gain j) = false).
Proof.
  intros N L toint sortr lambda alpha tg th mindata h H2 s bins gain ok.
  pose proof (scan_spec L lambda alpha tg th mindata (fun left _ => (nofnat (List.length left), map (fun b => toint (b_lo b)) left)) bins []
    (no_split (h_feat h))) as K.
  cbn zeta in K. cbn [app List.length] in K.
  assert (Es : s = scan lambda alpha tg th mindata (fun left _ => (nofnat (List.length left), map (fun b => toint (b_lo b)) left)) []
     (left_g bins 0) (left_h bins 0) (@count_all N []) bins (no_split (h_feat h))).
  { unfold s, cat_split, bins. destruct (h_bins h) as [|b1 [|b2 r]]; cbn in H2; [lia|lia|]. reflexivity. }
  rewrite <- Es in K. clear Es. clearbody s.
  destruct K as [[E F]|(k & [K1 K1'] & K2 & K3 & K4 & K5 & K6 & K7)].
  - left. split; [exact E|]. intros k Hk. apply F. split; [apply Hk|exact Hk].
  - right. exists k. split; [exact K1'|]. split; [exact K2|]. split; [exact K3|]. injection K4 as K4 K4'. split; [exact K4'|].
    split; [exact K5|]. intros j Hj; apply K6; split; [apply Hj|exact Hj].
Qed.
(** Over the features: the split of largest gain, the lowest feature on ties (gains are at
    least 0, so a result always exists when there is a feature); a gain below
    min_gain_to_split is reported as 0. *)
Theorem C80_best_feature : forall (N : Num), lt_laws N -> nlt (nlit (-1) 1) (@n0 N) = true ->
  forall sortf toint X G H sortr maxbin cats (lambda alpha mingain : N) mindata cols idxs s,
  0 < cols ->
  find_best_split sortf toint X G H sortr maxbin cats lambda alpha mingain mindata cols idxs = Ok s ->
  let on j := feature_split sortf toint X G H sortr maxbin cats lambda alpha mindata idxs j in
  exists k b, k < cols /\ on k = Ok b
    /\ (forall j sj, j < cols -> on j = Ok sj -> nlt (s_gain b) (s_gain sj) = false)
    /\ (forall j sj, j < k -> on j = Ok sj -> nisnan (s_gain sj) = true \/ nlt (s_gain sj) (s_gain b) = true)
    /\ s_feat s = s_feat b /\ s_thr s = s_thr b /\ s_cats s = s_cats b /\ s_lc s = s_lc b /\ s_rc s = s_rc b
    /\ s_lg s = s_lg b /\ s_rg s = s_rg b /\ s_lh s = s_lh b /\ s_rh s = s_rh b
    /\ s_gain s = (if nlt (s_gain b) mingain then n0 else s_gain b).
Proof.
  intros N L Hneg sortf toint X G H sortr maxbin cats lambda alpha mingain mindata cols idxs s Hc Hs on.
  unfold find_best_split in Hs. match type of Hs with context [mapM ?g _] => change g with on in Hs end.
  assert (Hon : forall j, on j = feature_split sortf toint X G H sortr maxbin cats lambda alpha mindata idxs j) by reflexivity. clearbody on.
  destruct (mapM on (seq 0 cols)) as [ss| |] eqn:Em; cbn [bind] in Hs; try discriminate.
  injection Hs as <-.
  assert (F : Forall2 (fun j sj => on j = Ok sj) (seq 0 cols) ss).
  { revert ss Em. generalize (seq 0 cols). induction l as [|j l IH]; intros ss Em; cbn in Em; [injection Em as <-; constructor|].
    destruct (on j) as [y| |] eqn:E; cbn in Em; try discriminate. destruct (mapM on l) as [r| |]; cbn in Em; try discriminate.
    injection Em as <-. constructor; [exact E|]. now apply IH. }
  assert (Hl : List.length ss = cols) by (rewrite <- (LgbArrayP.Forall2_len _ _ _ F); apply seq_length).
  assert (Fn : forall j sj, nth_error ss j = Some sj -> on j = Ok sj) by (intros j sj Hj; exact (LgbArrayP.Forall2_seq _ _ _ _ F j sj Hj)).
  assert (Fc : forall j sj, j < cols -> on j = Ok sj -> nth_error ss j = Some sj).
  { intros j sj Hj Ej. destruct (nth_error ss j) as [x|] eqn:E; [apply Fn in E; congruence|]. apply nth_error_None in E. lia. }
  destruct (fold_better L ss nothing) as [[E Fa]|(i & I1 & I2 & I3 & I4)].
  - exfalso. destruct ss as [|s0 ss]; [cbn in Hl; lia|]. specialize (Fa s0 (or_introl eq_refl)). cbn [nothing s_gain] in Fa.
    specialize (Fn 0 s0 eq_refl). clear - Hneg L Fa Fn Hon. rewrite Hon in Fn. clear Hon. unfold feature_split in Fn. destruct (totals G H idxs) as [tg th].
    destruct (is_cat cats 0).
    + injection Fn as <-. set (h := cat_hist toint X G H 0 idxs) in *. clearbody h.
      destruct (Nat.lt_ge_cases (List.length (h_bins h)) 2) as [Hl|Hl].
      * unfold cat_split in Fa. destruct (h_bins h) as [|b1 [|b2 r]]; [cbn in Fa; congruence|cbn in Fa; congruence|cbn in Hl; lia].
      * destruct (C80_best_categories N L toint sortr lambda alpha tg th mindata h Hl) as [[E _]|(k & _ & (Eg & _) & _ & _ & Ep & _)].
        -- rewrite E in Fa. cbn in Fa. congruence.
        -- rewrite Eg, (lt_trans N L _ _ _ Hneg Ep) in Fa. discriminate.
    + destruct (cont_hist sortf X G H maxbin 0 idxs) as [h| |]; cbn [bind] in Fn; try discriminate. injection Fn as <-.
      destruct (C80_best_cut N L lambda alpha tg th mindata h) as [[E _]|(k & _ & (Eg & _) & _ & _ & _ & Ep & _)].
      * rewrite E in Fa. cbn in Fa. congruence.
      * rewrite Eg, (lt_trans N L _ _ _ Hneg Ep) in Fa. discriminate.
  - set (b := fold_left better ss nothing) in *. exists i, b.
    assert (Hi : i < List.length ss) by (apply nth_error_Some; congruence).
    split; [lia|]. split; [now apply Fn|]. split; [|split].
    + intros j sj Hj Ej. apply I3. exact (nth_error_In ss j (Fc j sj Hj Ej)).
    + intros j sj Hj Ej. apply (I4 j sj); [|exact Hj]. apply Fc; [lia|exact Ej].
    + destruct (nlt (s_gain b) mingain); repeat split; reflexivity.
Qed.

(** Over the real numbers, in terms of rows: with at most MaxBin different values more than
    1e-10 apart, no threshold whatever that leaves enough rows on both sides has a larger
    gain than the split found; and the split found describes exactly the rows at most its
    threshold and the others. *)
Theorem C80_best_threshold : forall (sortf : list R -> list R) (X : nat -> nat -> R) (G H : nat -> R) (maxbin mindata : Z) (feat : nat) (idxs : list nat) (lambda alpha : R),
  go_sort (@fless RNum) sortf -> idxs <> [] -> (1 <= mindata)%Z ->
  let values := map (fun i => X i feat) idxs in
  @few_values RNum values (Z.to_nat maxbin) -> apart values ->
  let enough t := (mindata <= Z.of_nat (List.length (lower X feat t idxs)))%Z /\ (mindata <= Z.of_nat (List.length (upper X feat t idxs)))%Z in
  exists h, @cont_hist RNum sortf X G H maxbin feat idxs = Ok h /\
  let s := @num_split RNum lambda alpha (sum_of G idxs) (sum_of H idxs) mindata h in
  (forall t, enough t -> (rows_gain G H lambda alpha (lower X feat t idxs) (upper X feat t idxs) <= s_gain s)%R)
  /\ (s = @no_split RNum feat
      \/ (0 < s_gain s)%R /\ enough (s_thr s) /\ s_feat s = Z.of_nat feat
         /\ divides G H lambda alpha s (lower X feat (s_thr s) idxs) (upper X feat (s_thr s) idxs)).
Proof.
  intros sortf X G H maxbin mindata feat idxs lambda alpha Hs Hne Hm values Hf Ha enough.
  assert (Hv : values <> []) by (unfold values; now destruct idxs).
  destruct (few_bin_of sortf maxbin values Hs Hv Hf Ha) as (bs & u & E & U1 & U2 & Ebs & B1 & B2 & _).
  assert (Hin : forall i, In i idxs -> In (X i feat) u) by (intros i Hi; apply U2; unfold values; apply in_map_iff; now exists i).
  assert (Hau : apart u) by (intros v w Hv1 Hw1; apply Ha; now apply U2).
  assert (Lb : List.length bs = S (List.length u)) by (subst bs; unfold fbounds; cbn [List.length]; now rewrite map_length).
  exists (@mkhist RNum feat (@fill RNum (@find_bin RNum) bs (@samples RNum X G H feat idxs)) bs).
  split; [change (@cont_hist RNum sortf X G H maxbin feat idxs) with
    (let* b := @boundaries RNum sortf maxbin values in Ok (@mkhist RNum feat (@fill RNum (@find_bin RNum) b (@samples RNum X G H feat idxs)) b)); now rewrite E|].
  intros s. destruct (num_split_rows X G H feat lambda alpha mindata bs idxs B1 B2) as [K1 K2]. fold s in K1, K2. clearbody s. change (num RNum) with R in *.
  assert (Hn : forall k, 0 < k -> S k < List.length bs -> nth k bs 0%R = (nth (k - 1) u 0 + e10)%R).
  { intros k Hk Hl. subst bs. replace k with (S (k - 1)) at 1 by lia. apply fbounds_nth. lia. }
  split.
  - intros t [T1 T2]. set (k := List.length (filter (fun x => Rleb x t) u)).
    assert (Hk0 : 0 < k).
    { destruct (lower X feat t idxs) as [|i r] eqn:El; [cbn in T1; lia|].
      assert (Hi : In i (lower X feat t idxs)) by (rewrite El; now left). apply filter_In in Hi as [Hi Ht].
      assert (Hf' : In (X i feat) (filter (fun x => Rleb x t) u)) by (apply filter_In; split; [now apply Hin|exact Ht]).
      unfold k. destruct (filter _ u); [easy|cbn; lia]. }
    assert (Hk1 : k < List.length u).
    { destruct (upper X feat t idxs) as [|i r] eqn:El; [cbn in T2; lia|].
      assert (Hi : In i (upper X feat t idxs)) by (rewrite El; now left). apply filter_In in Hi as [Hi Ht].
      apply Hin, In_nth with (d := 0%R) in Hi as (j & Hj & Ej). apply negb_true_iff, Rleb_false in Ht.
      pose proof (filter_count u t U1 j Hj) as Fc. fold k in Fc.
      destruct (Nat.lt_ge_cases j k) as [Hjk|Hjk]; [apply Fc in Hjk; lra|lia]. }
    destruct (few_lower X feat u idxs t U1 Hin Hk0) as [L1 L2]. fold k in L1, L2.
    destruct (few_cut X feat u idxs (k - 1) U1 Hau Hin ltac:(lia)) as (C1 & C2 & _ & _).
    specialize (K1 k Hk0 ltac:(lia)). rewrite Hn, C1, C2, <- L1, <- L2 in K1 by lia. apply K1. split; assumption.
  - destruct K2 as [K2|(k & Hk & Hl & Et & Ef & Eg & Ee & Ed)]; [now left|]. right. split; [exact Eg|].
    destruct (few_cut X feat u idxs (k - 1) U1 Hau Hin ltac:(lia)) as (C1 & C2 & C3 & C4).
    change (num RNum) with R in *. unfold enough. rewrite Et, Hn, C3, C4 by lia. rewrite Hn, C1, C2 in Ee, Ed by lia.
    split; [exact Ee|]. split; [exact Ef|exact Ed].
Qed.

(** With any number of values, the split found describes the rows strictly below its
    threshold; growing the tree, however, also sends the rows equal to the threshold left. *)
Theorem C80_any_binning : forall (sortf : list R -> list R) (X : nat -> nat -> R) (G H : nat -> R) (maxbin mindata : Z) (feat : nat) (idxs : list nat) (lambda alpha : R),
  go_sort (@fless RNum) sortf -> idxs <> [] -> (1 <= maxbin)%Z ->
  exists h, @cont_hist RNum sortf X G H maxbin feat idxs = Ok h /\
  let s := @num_split RNum lambda alpha (sum_of G idxs) (sum_of H idxs) mindata h in
  s = @no_split RNum feat
  \/ (0 < s_gain s)%R /\ s_feat s = Z.of_nat feat
     /\ (mindata <= s_lc s)%Z /\ (mindata <= s_rc s)%Z
     /\ divides G H lambda alpha s (below X feat (s_thr s) idxs) (upward X feat (s_thr s) idxs).
Proof.
  intros sortf X G H maxbin mindata feat idxs lambda alpha Hs Hne Hm.
  set (values := map (fun i => X i feat) idxs). assert (Hv : values <> []) by (unfold values; now destruct idxs).
  destruct (boundaries_R sortf Hs maxbin values Hm Hv) as (bs & E & A & [B _] & _).
  exists (@mkhist RNum feat (@fill RNum (@find_bin RNum) bs (@samples RNum X G H feat idxs)) bs).
  split; [change (@cont_hist RNum sortf X G H maxbin feat idxs) with
    (let* b := @boundaries RNum sortf maxbin values in Ok (@mkhist RNum feat (@fill RNum (@find_bin RNum) b (@samples RNum X G H feat idxs)) b)); now rewrite E|].
  intros s. destruct (num_split_rows X G H feat lambda alpha mindata bs idxs A B) as [_ K2]. fold s in K2. clearbody s.
  destruct K2 as [K2|(k & Hk & Hl & Et & Ef & Eg & Ee & Ed)]; [now left|]. right. split; [exact Eg|]. split; [exact Ef|].
  change (num RNum) with R in *. rewrite Et. destruct Ed as (D0 & D1 & D2 & D3). rewrite D1, D2. destruct Ee. repeat split; try assumption; apply D3.
Qed.

(** Witness for the difference: five rows in two bins.  The search reports 2 rows left and 3
    right (at least min_data_in_leaf = 2 each), but the threshold 2 sends 4 rows left and a
    single row right. *)
Definition found (maxbin mindata : Z) (vs gs : list F0) : res (split F0) :=
  rmap (num_split (f 0 1) (f 0 1) (nsum gs) (nofnat (List.length vs)) mindata)
    (cont_hist fsort (column vs) (fun i => nth i gs (f 0 1)) (fun _ => f 1 1) maxbin 0 (seq 0 (List.length vs))).
Theorem C80_min_data_refuted : exists vs gs : list F0,
  match found 2 2 vs gs with
  | Ok s => s_lc s = 2%Z /\ s_rc s = 3%Z /\ fs (s_thr s) = fs (f 2 1)
            /\ map (fun v => nle v (s_thr s)) vs = [true; true; true; true; false]
  | _ => False
  end.
Proof.
  exists [f 1 1; f 1 1; f 2 1; f 2 1; f 3 1], [f 1 1; f 1 1; f (-1) 1; f (-1) 1; f (-1) 1]. vm_compute. repeat split; reflexivity.
Qed.
(** With enough bins the same rows are divided after the 1s, as announced. *)
Example C80_example : match found 255 2 [f 1 1; f 1 1; f 2 1; f 2 1; f 3 1] [f 1 1; f 1 1; f (-1) 1; f (-1) 1; f (-1) 1] with
  | Ok s => s_lc s = 2%Z /\ s_rc s = 3%Z
            /\ map (fun v => nle v (s_thr s)) [f 1 1; f 1 1; f 2 1; f 2 1; f 3 1] = [true; true; false; false; false]
  | _ => False
  end.
Proof. vm_compute. repeat split; reflexivity. Qed.
Example C80_example_values : @few_values RNum [1; 2; 1; 3]%R 255 /\ apart [1; 2; 1; 3]%R.
Proof.
  split; [exists [1; 2; 3]%R; split; [cbn; lia|]; intros v Hv; cbn in *; tauto|].
  intros v w Hv Hw Hlt. cbn in Hv, Hw. destruct Hv as [<-|[<-|[<-|[<-|[]]]]], Hw as [<-|[<-|[<-|[<-|[]]]]]; lra.
Qed.

Print Assumptions C44_bin_search.
Print Assumptions C44_search_ends.
Print Assumptions C44_bins_are_sums.
Print Assumptions C44_mass.
Print Assumptions C44_subtraction.
Print Assumptions C44_boundaries.
Print Assumptions C44_one_value_per_bin.
Print Assumptions C44_large_values_refuted.
Print Assumptions C44_missing_refuted.
Print Assumptions C44_subtraction_refuted.
Print Assumptions C79_quicksort.
Print Assumptions C79_boundaries.
Print Assumptions C79_same_bins.
Print Assumptions C79_differences_refuted.
Print Assumptions C80_best_cut.
Print Assumptions C80_best_categories.
Print Assumptions C80_best_feature.
Print Assumptions C80_best_threshold.
Print Assumptions C80_any_binning.
Print Assumptions C80_min_data_refuted.
