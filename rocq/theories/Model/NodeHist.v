(** The trainer's own histograms, sklearn/lightgbm/trainer.go lines 608-801 and 1198-1257.
    Fit builds the bins of every feature once (buildHistograms, called at line 449), and
    buildNode fills them for the rows of every node (line 1065).  The splits of Fit are
    chosen by another search (Model/LgbTrain.v); the search on these histograms is
    findBestSplitForFeatureWithHistogram.

    A data set is given by accessor functions as in Model/LgbHist.v.  The loop of lines
    674-693 runs over rows and then features; every feature has its own bins, so the model
    fills one feature after the other. *)
From Coq Require Import List Arith ZArith Bool.
From Verif Require Import Base.Num Base.GoRes Base.ListX Model.LgbTree Model.LgbHist Model.LgbTrain Model.LgbTrainer.
Import ListNotations.
Local Open Scope list_scope.
Local Open Scope num_scope.

Section NodeHist.
  Context {N : Num}.
  (** sort.Float64s *)
  Variable sortf : list N -> list N.

  (** Half the sum of two neighbours, lines 781 and 794 *)
  Definition mid (a b : N) : N := (a + b) / nlit 2 1.
  Fixpoint mids (u : list N) : list N :=
    match u with
    | a :: ((b :: _) as r) => mid a b :: mids r
    | _ => []
    end.
  (** The loop of lines 791-798: boundary [i] of [m] of the distinct values [u].  Integer
      overflow of [(n-1)*i] is ignored. *)
  Definition quantile (u : list N) (m i : nat) : N :=
    let n := List.length u in
    let q := ((n - 1) * i / m)%nat in
    if Nat.ltb q (n - 1)%nat then mid (nth q u n0) (nth (S q) u n0) else nth q u n0.
  (** findQuantileBinBoundaries, lines 763-801 (findOptimalBinBoundaries calls it, lines
      757-760).  No values: sorted[0] panics.  A negative MaxBin makes the allocation of line
      788 or the assignment of line 789 panic; with MaxBin = 0 both assignments of the ends
      hit the same slot. *)
  Definition node_bounds (maxbin : Z) (values : list N) : res (list N) :=
    match sortf values with
    | [] => Panic
    | (s0 :: _) as sorted =>
        let u := uniq sorted in
        let top := last u n0 + eps10 in
        if (Z.of_nat (List.length u) <=? maxbin)%Z then Ok ((s0 - eps10) :: mids u ++ [top])
        else if (maxbin <? 0)%Z then Panic
        else if (maxbin =? 0)%Z then Ok [top]
        else let m := Z.to_nat maxbin in Ok ((s0 - eps10) :: map (quantile u m) (seq 1 (m - 1)%nat) ++ [top])
    end.
  (** The empty bins of one feature, buildHistograms lines 622-647 *)
  Definition node_bins (maxbin : Z) (values : list N) : res (list (bin N)) :=
    let* bs := node_bounds maxbin values in Ok (firstn (Z.to_nat maxbin) (empty_bins bs)).

  (** findBinIndex, lines 725-746: the first bin with [lo <= v < hi], or the last one when
      the value is its upper end; [None] is -1. *)
  Fixpoint node_scan (v : N) (bins : list (bin N)) (i : nat) : option nat :=
    match bins with
    | [] => None
    | b :: r => if (v >=? b_lo b) && (v <? b_hi b) then Some i else node_scan v r (S i)
    end.
  Definition node_find (v : N) (bins : list (bin N)) : option nat :=
    match node_scan v bins 0 with
    | Some i => Some i
    | None =>
        match bins with
        | [] => None
        | b :: r => if v =? b_hi (last bins b) then Some (List.length r) else None
        end
    end.

  (** kahanAdd, lines 749-755: the new sum and the new compensation.  The callers drop the
      new compensation (the fields GradCompensation and HessCompensation stay 0). *)
  Definition kahan (sum value comp : N) : N * N :=
    let y := value - comp in
    let t := sum + y in (t, (t - sum) - y).
  Definition node_add (g h : N) (b : bin N) : bin N :=
    mkbin (b_lo b) (b_hi b) (b_cnt b + 1)%Z (fst (kahan (b_g b) g n0)) (fst (kahan (b_h b) h n0)).
  (** One row of lines 682-692 for one feature: value, gradient, hessian *)
  Definition node_put (tmpl bins : list (bin N)) (s : N * (N * N)) : list (bin N) :=
    match node_find (fst s) tmpl with
    | Some i => upd i (node_add (fst (snd s)) (snd (snd s))) bins
    | None => bins
    end.

  (** NodeHistogram, lines 163-168 *)
  Record nodehist := mknh { nh_bins : list (list (bin N)); nh_g : N; nh_h : N; nh_cnt : Z }.
  Definition total (l : list N) : N := fold_left (fun s x => fst (kahan s x n0)) l n0.

  Variables (X : nat -> nat -> N) (G H : nat -> N).
  (** The bins of one feature after the loop *)
  Definition node_feature (tmpl : list (bin N)) (f : nat) (idxs : list nat) : list (bin N) :=
    fold_left (node_put tmpl) (samples X G H f idxs) tmpl.
  (** buildHistograms, lines 609-650: the bins of all features from all [rows] *)
  Definition build_hists (maxbin : Z) (rows cols : nat) : res (list (list (bin N))) :=
    mapM (fun f => node_bins maxbin (map (fun i => X i f) (seq 0 rows))) (seq 0 cols).
  (** buildNodeHistogram, lines 653-696 *)
  Definition node_hist (tmpls : list (list (bin N))) (idxs : list nat) : nodehist :=
    mknh (map (fun fb => node_feature (snd fb) (fst fb) idxs) (combine (seq 0 (List.length tmpls)) tmpls))
         (total (map G idxs)) (total (map H idxs)) (Z.of_nat (List.length idxs)).
  (** subtractHistogram, lines 699-722 *)
  Fixpoint sub_all (ps ss : list (list (bin N))) : res (list (list (bin N))) :=
    match ps, ss with
    | [], _ => Ok []
    | p :: pr, s :: sr => let* b := sub_bins p s in let* r := sub_all pr sr in Ok (b :: r)
    | p :: pr, [] => Panic
    end.
  Definition node_sub (p s : nodehist) : res nodehist :=
    let* bs := sub_all (nh_bins p) (nh_bins s) in
    Ok (mknh bs (nh_g p - nh_g s) (nh_h p - nh_h s) (nh_cnt p - nh_cnt s)%Z).

  (** The loop of lines 1216-1254.  [lg], [lh], [lc]: the sums of the bins passed. *)
  Variables (l1 l2 : N) (mono : list Z) (mindata : Z).
  Fixpoint node_loop (nh : nodehist) (f : nat) (lg lh : N) (lc : Z) (bins : list (bin N)) (best : split N) : split N :=
    match bins with
    | b :: ((_ :: _) as r) =>
        let lg := lg + b_g b in
        let lh := lh + b_h b in
        let lc := (lc + b_cnt b)%Z in
        let rg := nh_g nh - lg in
        let rh := nh_h nh - lh in
        let rc := (nh_cnt nh - lc)%Z in
        let best' :=
          if (lc <? mindata)%Z || (rc <? mindata)%Z then best
          else
            let gain := split_gain l1 l2 lg lh rg rh (nh_g nh) (nh_h nh) in
            if negb (satisfies_monotone mono f lg lh rg rh) then best
            else if gain >? s_gain best
            then mksplit (s_feat best) (b_hi b) gain lc rc lg rg lh rh []
            else best in
        node_loop nh f lg lh lc r best'
    | _ => best
    end.
  (** findBestSplitForFeatureWithHistogram, lines 1199-1257 *)
  Definition none_found (f : nat) : split N := mksplit (Z.of_nat f) n0 (nlit (-10000000000) 1) 0 0 n0 n0 n0 n0 [].
  Definition node_split (nh : nodehist) (f : nat) : split N :=
    match nth_error (nh_bins nh) f with
    | None => none_found f
    | Some bins => node_loop nh f n0 n0 0 bins (none_found f)
    end.
End NodeHist.
Arguments nodehist N : clear implicits.
