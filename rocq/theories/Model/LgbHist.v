(** Feature histograms and split search of sklearn/lightgbm: histogram_optimization.go
    and the sequential parts of parallel_histogram.go.

    A data set is given by accessor functions: [X i j] is the value of feature [j] of
    row [i], [G i] and [H i] are the gradient and hessian of row [i].  The row indices
    handed to the functions are in range (they come from the trainer), so the accesses
    cannot panic.  BuildHistograms distributes the features over goroutines that write to
    distinct slots (lines 81-116); the result is the list of per-feature histograms. *)
From Coq Require Import List Arith ZArith Bool.
From Verif Require Import Base.Num Base.GoRes Base.ListX Base.GoSort Model.LgbTree.
Import ListNotations.
Local Open Scope list_scope.
Local Open Scope num_scope.

(** Exchange of two elements, [a[i], a[j] = a[j], a[i]]; the callers stay in range. *)
Definition exch {A} (i j : nat) (l : list A) : list A :=
  match nth_error l i, nth_error l j with
  | Some a, Some b => upd i (fun _ => b) (upd j (fun _ => a) l)
  | _, _ => l
  end.

Section LgbHist.
  Context {N : Num}.
  (** sort.Float64s; int(float64); sort.Slice on pairs (ratio, bin) *)
  Variable sortf : list N -> list N.
  Variable toint : N -> Z.

  (** HistogramBin and FeatureHistogram, lines 12-26 (the Missing bin is never used) *)
  Record bin := mkbin { b_lo : N; b_hi : N; b_cnt : Z; b_g : N; b_h : N }.
  Record hist := mkhist { h_feat : nat; h_bins : list bin; h_bounds : list N }.

  (** The less function of sort.Float64s: NaN comes first. *)
  Definition fless (a b : N) : bool := (a <? b) || (nisnan a && negb (nisnan b)).

  (** The loop of lines 225-230: drop the elements equal to their predecessor. *)
  Fixpoint uniq_from (prev : N) (l : list N) : list N :=
    match l with
    | [] => []
    | x :: r => if x =? prev then uniq_from x r else x :: uniq_from x r
    end.
  Definition uniq (l : list N) : list N := match l with [] => [] | x :: r => x :: uniq_from x r end.
  (** The loop of lines 254-259: keep the elements larger than the last one kept. *)
  Fixpoint rising_from (prev : N) (l : list N) : list N :=
    match l with
    | [] => []
    | x :: r => if prev <? x then x :: rising_from x r else rising_from prev r
    end.
  Definition eps10 : N := nlit 1 10000000000.
  (** findBinBoundaries, lines 214-262.  A negative MaxBin makes a slice allocation or
      the first assignment panic.  Integer overflow of [(n-1)*i] is ignored. *)
  Definition boundaries (maxbin : Z) (values : list N) : res (list N) :=
    match sortf values with
    | [] => Ok [n0; n1]
    | (s0 :: _) as sorted =>
        let u := uniq sorted in
        if (Z.of_nat (List.length u) <=? maxbin)%Z then
          Ok ((s0 - eps10) :: map (fun v => v + eps10) u)
        else if (maxbin <? 0)%Z then Panic
        else if (maxbin =? 0)%Z then Ok [last sorted n0 + eps10]
        else
          let m := Z.to_nat maxbin in
          let n := List.length sorted in
          let mid := map (fun i => nth ((n - 1) * i / m) sorted n0) (seq 1 (m - 1)) in
          Ok ((s0 - eps10) :: rising_from (s0 - eps10) (mid ++ [last sorted n0 + eps10]))
    end.

  (** The binary search loop of findBinIndex, lines 267-279: bounds [left], [right] of
      the search; [None] when the loop ends without a bin (or the fuel is used up). *)
  Fixpoint bsearch (fuel : nat) (v : N) (bs : list N) (left right : Z) : option Z :=
    match fuel with
    | 0 => None
    | S fuel' =>
        if (left <=? right)%Z then
          let mid := ((left + right) / 2)%Z in
          let lo := nth (Z.to_nat mid) bs n0 in
          let hi := nth (S (Z.to_nat mid)) bs n0 in
          if (v >=? lo) && (v <? hi) then Some mid
          else if v <? lo then bsearch fuel' v bs left (mid - 1)
          else bsearch fuel' v bs (mid + 1) right
        else None
    end.
  Definition find_bin_fuel (fuel : nat) (v : N) (bs : list N) : Z :=
    let r := (Z.of_nat (List.length bs) - 2)%Z in
    match bsearch fuel v bs 0 r with
    | Some i => i
    | None => if v <? nth 0 bs n0 then 0%Z else r
    end.
  (** findBinIndex, lines 265-286 *)
  Definition find_bin (v : N) (bs : list N) : Z := find_bin_fuel (List.length bs) v bs.

  (** findBinIndexOptimized, parallel_histogram.go lines 308-332 *)
  Fixpoint bsearch_opt (fuel : nat) (v : N) (bs : list N) (left right : Z) : option Z :=
    match fuel with
    | 0 => None
    | S fuel' =>
        if (left <=? right)%Z then
          let mid := ((left + right) / 2)%Z in
          let lo := nth (Z.to_nat mid) bs n0 in
          let hi := nth (S (Z.to_nat mid)) bs n0 in
          if v <? lo then bsearch_opt fuel' v bs left (mid - 1)
          else if v >=? hi then bsearch_opt fuel' v bs (mid + 1) right
          else Some mid
        else None
    end.
  Definition find_bin_opt_fuel (fuel : nat) (v : N) (bs : list N) : Z :=
    let r := (Z.of_nat (List.length bs) - 2)%Z in
    match bsearch_opt fuel v bs 0 r with
    | Some i => i
    | None => if v <? nth 0 bs n0 then 0%Z else if v >=? last bs n0 then r else (-1)%Z
    end.
  Definition find_bin_opt (v : N) (bs : list N) : Z := find_bin_opt_fuel (List.length bs) v bs.

  (** Lines 131-144: the empty bins between consecutive boundaries *)
  Fixpoint empty_bins (bs : list N) : list bin :=
    match bs with
    | a :: ((b :: _) as r) => mkbin a b 0 n0 n0 :: empty_bins r
    | _ => []
    end.
  Definition add_to_bin (g h : N) (b : bin) : bin :=
    mkbin (b_lo b) (b_hi b) (b_cnt b + 1)%Z (b_g b + g) (b_h b + h).
  (** One sample of lines 147-155: value, gradient, hessian *)
  Definition put (find : N -> list N -> Z) (bs : list N) (bins : list bin) (s : N * (N * N)) : list bin :=
    let i := find (fst s) bs in
    if (0 <=? i)%Z && (i <? Z.of_nat (List.length bins))%Z
    then upd (Z.to_nat i) (add_to_bin (fst (snd s)) (snd (snd s))) bins
    else bins.
  Definition fill (find : N -> list N -> Z) (bs : list N) (samples : list (N * (N * N))) : list bin :=
    fold_left (put find bs) samples (empty_bins bs).

  Variables (X : nat -> nat -> N) (G H : nat -> N).
  Definition samples (f : nat) (idxs : list nat) : list (N * (N * N)) := map (fun i => (X i f, (G i, H i))) idxs.
  (** buildContinuousHistogram, lines 119-158 *)
  Definition cont_hist (maxbin : Z) (f : nat) (idxs : list nat) : res hist :=
    let* bs := boundaries maxbin (map (fun i => X i f) idxs) in
    Ok (mkhist f (fill find_bin bs (samples f idxs)) bs).

  (** buildCategoricalHistogram, lines 161-211: one bin per category, in increasing order
      of the category (the map's keys are distinct, so the sorted order is unique) *)
  Definition cat_of (f i : nat) : Z := toint (X i f).
  Definition cat_bin (f : nat) (idxs : list nat) (c : Z) : bin :=
    let own := filter (fun i => (cat_of f i =? c)%Z) idxs in
    mkbin (nofZ c) (nofZ c + n1) (Z.of_nat (List.length own)) (nsum (map G own)) (nsum (map H own)).
  Definition cat_hist (f : nat) (idxs : list nat) : hist :=
    let cats := isort Z.ltb (nodup Z.eq_dec (map (cat_of f) idxs)) in
    mkhist f (map (cat_bin f idxs) cats)
      (match cats with [] => [n0] | _ => map nofZ cats ++ [nofZ (last cats 0%Z) + n1] end).

  (** ** Split search *)

  (** SplitInfo, trainer.go lines 171-184 (LeftValue and RightValue are never set) *)
  Record split := mksplit {
    s_feat : Z; s_thr : N; s_gain : N; s_lc : Z; s_rc : Z;
    s_lg : N; s_rg : N; s_lh : N; s_rh : N; s_cats : list Z }.

  (** calculateGain, lines 423-455 *)
  Definition calc_gain (lambda alpha lg lh rg rh tg th : N) : N :=
    let lh := lh + lambda in
    let rh := rh + lambda in
    let th := th + lambda in
    let mn := nlit 1 10000000000000000 in
    if (lh <? mn) || (rh <? mn) || (th <? mn) then n0
    else
      let gain := nlit 1 2 * (lg * lg / lh + rg * rg / rh - tg * tg / th) in
      if nisinf gain || nisnan gain then n0
      else if alpha >? n0 then gain - alpha * (nabs (lg / lh) + nabs (rg / rh)) else gain.

  (** The loop shared by lines 303-333 and 377-417; [mark left b] gives the threshold and
      the left categories for the bins [left] (in order) ending with [b]. *)
  Fixpoint scan (lambda alpha tg th : N) (mindata : Z) (mark : list bin -> bin -> N * list Z)
      (left : list bin) (lg lh : N) (lc : Z) (bins : list bin) (best : split) : split :=
    match bins with
    | b :: ((_ :: _) as rest) =>
        let lg := lg + b_g b in
        let lh := lh + b_h b in
        let lc := (lc + b_cnt b)%Z in
        let rg := tg - lg in
        let rh := th - lh in
        let rc := fold_left (fun c b => (c + b_cnt b)%Z) rest 0%Z in
        let left := left ++ [b] in
        let best :=
          if (lc <? mindata)%Z || (rc <? mindata)%Z then best
          else let gain := calc_gain lambda alpha lg lh rg rh tg th in
               if gain >? s_gain best
               then mksplit (s_feat best) (fst (mark left b)) gain lc rc lg rg lh rh (snd (mark left b))
               else best in
        scan lambda alpha tg th mindata mark left lg lh lc rest best
    | _ => best
    end.
  Definition no_split (f : nat) : split := mksplit (Z.of_nat f) n0 n0 0 0 n0 n0 n0 n0 [].
  (** FindBestSplitFromHistogram, lines 289-336 *)
  Definition num_split (lambda alpha tg th : N) (mindata : Z) (hs : hist) : split :=
    scan lambda alpha tg th mindata (fun _ b => (b_hi b, [])) [] n0 n0 0 (h_bins hs) (no_split (h_feat hs)).
  (** FindBestCategoricalSplitFromHistogram, lines 339-420; [sortr] is the sort by ratio *)
  Variable sortr : list (N * bin) -> list (N * bin).
  Definition cat_split (lambda alpha tg th : N) (mindata : Z) (hs : hist) : split :=
    match h_bins hs with
    | [] | [_] => no_split (h_feat hs)
    | bs =>
        let sorted := map snd (sortr (map (fun b => (b_g b / (b_h b + lambda), b)) bs)) in
        scan lambda alpha tg th mindata
          (fun left _ => (nofnat (List.length left), map (fun b => toint (b_lo b)) left)) [] n0 n0 0 sorted (no_split (h_feat hs))
    end.

  (** FindBestSplit, lines 497-538.  [cats]: params.CategoricalFeatures *)
  Definition is_cat (cats : list Z) (f : nat) : bool := existsb (Z.eqb (Z.of_nat f)) cats.
  Definition totals (idxs : list nat) : N * N := (nsum (map G idxs), nsum (map H idxs)).
  Definition feature_split (maxbin : Z) (cats : list Z) (lambda alpha : N) (mindata : Z) (idxs : list nat) (f : nat) : res split :=
    let (tg, th) := totals idxs in
    if is_cat cats f then Ok (cat_split lambda alpha tg th mindata (cat_hist f idxs))
    else let* h := cont_hist maxbin f idxs in Ok (num_split lambda alpha tg th mindata h).
  Definition nothing : split := mksplit (-1) n0 (nlit (-1) 1) 0 0 n0 n0 n0 n0 [].
  Definition better (best s : split) : split := if s_gain s >? s_gain best then s else best.
  Definition find_best_split (maxbin : Z) (cats : list Z) (lambda alpha mingain : N) (mindata : Z) (cols : nat) (idxs : list nat)
      : res split :=
    let* ss := mapM (feature_split maxbin cats lambda alpha mindata idxs) (seq 0 cols) in
    let best := fold_left better ss nothing in
    Ok (if s_gain best <? mingain
        then mksplit (s_feat best) (s_thr best) n0 (s_lc best) (s_rc best) (s_lg best) (s_rg best) (s_lh best) (s_rh best) (s_cats best)
        else best).

  (** HistogramSubtraction, lines 458-478; a sibling with fewer bins panics *)
  Definition sub_bin (p s : bin) : bin :=
    mkbin (b_lo p) (b_hi p) (b_cnt p - b_cnt s)%Z (b_g p - b_g s) (b_h p - b_h s).
  Fixpoint sub_bins (ps ss : list bin) : res (list bin) :=
    match ps, ss with
    | [], _ => Ok []
    | _ :: _, [] => Panic
    | p :: pr, s :: sr => let* r := sub_bins pr sr in Ok (sub_bin p s :: r)
    end.
  Definition hist_sub (p s : hist) : res hist :=
    let* bs := sub_bins (h_bins p) (h_bins s) in Ok (mkhist (h_feat p) bs (h_bounds p)).

  (** ** parallel_histogram.go *)

  (** partition, lines 344-357.  The Go variable [i] is [k - 1]. *)
  Definition part_step (pivot : N) (st : list N * nat) (j : nat) : list N * nat :=
    if nth j (fst st) n0 <? pivot then (exch (snd st) j (fst st), S (snd st)) else st.
  Definition partition (arr : list N) (low high : nat) : list N * nat :=
    let '(arr', k) := fold_left (part_step (nth high arr n0)) (seq low (high - low)) (arr, low) in
    (exch k high arr', k).
  (** quickSort, lines 335-341, on the [n] elements from [low]: high = low + n - 1 *)
  Fixpoint quick_sort (fuel : nat) (arr : list N) (low n : nat) : option (list N) :=
    match fuel with
    | 0 => None
    | S fuel' =>
        if Nat.leb n 1 then Some arr
        else
          let '(arr1, p) := partition arr low (low + n - 1) in
          match quick_sort fuel' arr1 low (p - low) with
          | Some arr2 => quick_sort fuel' arr2 (S p) (low + n - 1 - p)
          | None => None
          end
    end.
  Definition sort_opt (l : list N) : list N :=
    match quick_sort (S (List.length l)) l 0 (List.length l) with Some r => r | None => l end.
  (** findBinBoundariesOptimized, lines 267-305.  A negative maxBins panics; with maxBins
      zero only the last bound is written. *)
  Definition boundaries_opt (maxbin : Z) (values : list N) : res (list N) :=
    match sort_opt values with
    | [] => Ok [n0; n1]
    | (_ :: _) as sorted =>
        let u := uniq sorted in
        let top := last u n0 + eps10 in
        if (Z.of_nat (List.length u) <=? maxbin)%Z then Ok (u ++ [top])
        else if (maxbin <? 0)%Z then Panic
        else
          let step := nofnat (List.length u - 1) / nofZ maxbin in
          let* mid := mapM (fun i => match getZ u (toint (nofnat i * step)) with
                                     | Some v => Ok v
                                     | None => Panic
                                     end) (seq 0 (Z.to_nat maxbin)) in
          Ok (mid ++ [top])
    end.
  (** buildContinuousHistogramOptimized, lines 123-162 *)
  Definition opt_hist (maxbin : Z) (f : nat) (idxs : list nat) : res hist :=
    let* bs := boundaries_opt maxbin (map (fun i => X i f) idxs) in
    Ok (mkhist f (fill find_bin_opt bs (samples f idxs)) bs).
End LgbHist.
Arguments bin N : clear implicits.
Arguments hist N : clear implicits.
Arguments split N : clear implicits.
