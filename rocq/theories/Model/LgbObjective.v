(** Objective functions of sklearn/lightgbm: objectives.go.  Not modelled: LambdaRank's
    group information (not used by its functions) and the goroutines of the multiclass
    gradients, which write disjoint slots. *)
From Coq Require Import String List Arith ZArith Bool.
From Verif Require Import Base.Num Base.GoRes Base.ListX Model.LgbTree Model.LgbHist.
Import ListNotations.
Local Open Scope string_scope.
Local Open Scope list_scope.
Local Open Scope num_scope.

Section Objective.
  Context {N : Num}.
  (** math.Pow; int(math.Floor), int(math.Ceil) *)
  Variable pow : N -> N -> N.
  Variables floori ceili : N -> Z.

  (** math.Min and math.Max with one finite non-zero constant argument *)
  Definition gomin (a b : N) : N := if nisnan a || nisnan b then nnan else if b <? a then b else a.
  Definition gomax (a b : N) : N := if nisnan a || nisnan b then nnan else if a <? b then b else a.
  (** ObjectiveFunction, lines 9-25 *)
  Record objective := mkobj {
    o_grad : N -> N -> N; o_hess : N -> N -> N; o_loss : N -> N -> N; o_init : list N -> res N; o_name : string }.

  Definition half : N := nlit 1 2.
  Definition two : N := nlit 2 1.
  Definition mean (ts : list N) : N := nsum ts / nofnat (List.length ts).
  (** GetInitScore of L2, Huber, LambdaRank and the multiclass adapter, lines 52-61, 168-178,
      600-610, 952-962 *)
  Definition init_mean (ts : list N) : res N := Ok (match ts with [] => n0 | _ => mean ts end).

  (** L2, lines 36-66 *)
  Definition l2_grad (p t : N) : N := p - t.
  Definition l2_hess (p t : N) : N := n1.
  Definition l2_loss (p t : N) : N := half * (p - t) * (p - t).
  Definition l2 : objective := mkobj l2_grad l2_hess l2_loss init_mean "regression".

  (** One pass of the exchange sorts, lines 630-634 and 659-663: position [i] against the
      later ones *)
  Definition pass (l : list N) (i : nat) : list N :=
    fold_left (fun l j => if nth i l n0 >? nth j l n0 then exch i j l else l)
              (seq (S i) (List.length l - S i)) l.
  (** calculateMedian, lines 616-645: passes 0, ..., min(n-2, n/2) *)
  Definition median (ts : list N) : N :=
    match ts with
    | [] => n0
    | _ => let n := List.length ts in
           let k := Nat.div n 2 in
           let s := fold_left pass (seq 0 (Nat.min (n - 1) (S k))) ts in
           if Nat.odd n then nth k s n0 else (nth (k - 1) s n0 + nth k s n0) / two
    end.
  (** calculateQuantile, lines 647-678; an index outside the slice panics *)
  Definition quantile (ts : list N) (q : N) : res N :=
    match ts with
    | [] => Ok n0
    | _ => let n := List.length ts in
           let s := fold_left pass (seq 0 (n - 1)) ts in
           let pos := q * nofnat (n - 1) in
           let lo := floori pos in
           let up := ceili pos in
           match getZ s lo, getZ s up with
           | Some a, Some b => Ok (if (lo =? up)%Z then a
                                   else let w := pos - nofZ lo in a * (n1 - w) + b * w)
           | _, _ => Panic
           end
    end.

  (** L1, lines 73-111 *)
  Definition l1_grad (p t : N) : N :=
    let d := p - t in
    if nabs d <? nlit 1 10000000 then n0 else if d >? n0 then n1 else - n1.
  Definition l1 : objective :=
    mkobj l1_grad l2_hess (fun p t => nabs (p - t)) (fun ts => Ok (median ts)) "regression_l1".

  (** Huber, lines 114-182 *)
  Definition huber_delta (d : N) : N := if d <=? n0 then n1 else d.
  Definition huber_grad (dl p t : N) : N :=
    let d := p - t in
    if nabs d <=? dl then d else if d >? n0 then dl else - dl.
  Definition huber_hess (dl p t : N) : N := if nabs (p - t) <=? dl then n1 else nlit 1 10000000.
  Definition huber_loss (dl p t : N) : N :=
    let d := p - t in
    if nabs d <=? dl then half * d * d else dl * (nabs d - half * dl).
  Definition huber (dl : N) : objective :=
    let dl := huber_delta dl in mkobj (huber_grad dl) (huber_hess dl) (huber_loss dl) init_mean "huber".

  (** Quantile, lines 185-233 *)
  Definition quantile_alpha (a : N) : N := if (a <=? n0) || (a >=? n1) then half else a.
  Definition quantile_grad (a p t : N) : N :=
    let d := p - t in if d >? n0 then a else if d <? n0 then a - n1 else n0.
  Definition quantile_loss (a p t : N) : N :=
    let d := p - t in if d >? n0 then a * d else (a - n1) * d.
  Definition quantile_obj (a : N) : objective :=
    let a := quantile_alpha a in mkobj (quantile_grad a) l2_hess (quantile_loss a) (fun ts => quantile ts a) "quantile".

  (** Fair, lines 236-276 *)
  Definition fair_c (c : N) : N := if c <=? n0 then n1 else c.
  Definition fair_grad (c p t : N) : N := let d := p - t in c * d / (nabs d + c).
  Definition fair_hess (c p t : N) : N := let b := nabs (p - t) + c in c * c / (b * b).
  Definition fair_loss (c p t : N) : N := let d := nabs (p - t) in c * c * (d / c - nlog (n1 + d / c)).
  Definition fair (c : N) : objective :=
    let c := fair_c c in mkobj (fair_grad c) (fair_hess c) (fair_loss c) (fun ts => Ok (median ts)) "fair".

  (** Poisson, lines 279-323 *)
  Definition cap : N := nlit 700 1.
  Definition poisson_hess (p t : N) : N := nexp (gomin p cap).
  Definition poisson_grad (p t : N) : N := nexp (gomin p cap) - t.
  Definition poisson_loss (p t : N) : N := nexp (gomin p cap) - t * p.
  Definition poisson_init (ts : list N) : res N :=
    Ok (match ts with [] => n0 | _ => let m := mean ts in if m <=? n0 then nlit (-10) 1 else nlog m end).
  Definition poisson : objective := mkobj poisson_grad poisson_hess poisson_loss poisson_init "poisson".

  (** Binary log loss, lines 326-400 *)
  Definition clamp (p : N) : N := gomax (- cap) (gomin p cap).
  Definition sigmoid (p : N) : N := n1 / (n1 + nexp (- clamp p)).
  Definition tiny : N := nlit 1 10000000000000000.
  Definition binary_grad (p t : N) : N := sigmoid p - t.
  Definition binary_hess (p t : N) : N := gomax tiny (sigmoid p * (n1 - sigmoid p)).
  Definition binary_loss (p t : N) : N :=
    let c := clamp p in
    if c >=? n0 then t * c + nlog (n1 + nexp (- c)) else - t * c + nlog (n1 + nexp c).
  Definition binary_init (ts : list N) : res N :=
    Ok (match ts with
        | [] => n0
        | _ => let e := nlit 1 1000000000000000 in
               let m := gomax e (gomin (n1 - e) (mean ts)) in nlog (m / (n1 - m))
        end).
  Definition binary : objective := mkobj binary_grad binary_hess binary_loss binary_init "binary".

  (** Gamma, lines 406-472; GetInitScore is shared with Tweedie (lines 537-556) *)
  Definition gamma_grad (p t : N) : N := two * (n1 - t * nexp (- clamp p)).
  Definition gamma_hess (p t : N) : N := gomax tiny (two * t * nexp (- clamp p)).
  Definition gamma_loss (p t : N) : N :=
    let mu := nexp (clamp p) in
    if t <=? n0 then n0 else two * (nlog (mu / t) + t / mu - n1).
  Definition positive_init (ts : list N) : res N :=
    let ps := filter (fun t => t >? n0) ts in
    Ok (match ps with [] => n0 | _ => nlog (mean ps) end).
  Definition gamma : objective := mkobj gamma_grad gamma_hess gamma_loss positive_init "gamma".

  (** Tweedie, lines 476-560 *)
  Definition tweedie_power (v : N) : N := if (v <=? n1) || (v >=? two) then nlit 3 2 else v.
  Definition tweedie_grad (v p t : N) : N :=
    two * (nexp (clamp ((two - v) * p)) - t * nexp (clamp ((n1 - v) * p))).
  Definition tweedie_hess (v p t : N) : N :=
    gomax tiny (nabs (two * ((two - v) * nexp (clamp ((two - v) * p)) - (n1 - v) * t * nexp (clamp ((n1 - v) * p))))).
  Definition tweedie_loss (v p t : N) : N :=
    let mu := nexp (clamp p) in
    if t =? n0 then two * pow mu (two - v) / (two - v)
    else two * (pow t (two - v) / ((n1 - v) * (two - v)) - t * pow mu (n1 - v) / (n1 - v) + pow mu (two - v) / (two - v)).
  Definition tweedie (v : N) : objective :=
    let v := tweedie_power v in mkobj (tweedie_grad v) (tweedie_hess v) (tweedie_loss v) positive_init "tweedie".

  (** LambdaRank, lines 563-614 *)
  Definition lambdarank : objective := mkobj l2_grad l2_hess l2_loss init_mean "lambdarank".
  (** MulticlassLogLossAdapter, lines 900-966 *)
  Definition adapter : objective := mkobj binary_grad binary_hess l2_loss init_mean "multiclass_logloss".

  (** CreateObjectiveFunction, lines 681-741.  The parameters HuberDelta, FairC,
      QuantileAlpha, TweedieVariancePower of non-nil params. *)
  Definition any (o : string) (l : list string) : bool := existsb (String.eqb o) l.
  Definition create (o : string) (hd fc qa tv : N) : res objective :=
    if any o ["regression"; "regression_l2"; "l2"; "mean_squared_error"; "mse"] then Ok l2
    else if any o ["regression_l1"; "l1"; "mean_absolute_error"; "mae"] then Ok l1
    else if any o ["huber"] then Ok (huber (if hd >? n0 then hd else n1))
    else if any o ["fair"] then Ok (fair (if fc >? n0 then fc else n1))
    else if any o ["poisson"] then Ok poisson
    else if any o ["quantile"] then Ok (quantile_obj (if (qa >? n0) && (qa <? n1) then qa else half))
    else if any o ["gamma"] then Ok gamma
    else if any o ["tweedie"] then Ok (tweedie (if (tv >? n1) && (tv <? two) then tv else nlit 3 2))
    else if any o ["lambdarank"; "rank_xendcg"] then Ok lambdarank
    else if any o ["binary"; "binary_logloss"; "logistic"] then Ok binary
    else if any o ["multiclass"; "softmax"; "multiclassova"; "multiclass_logloss"] then Ok adapter
    else Err (EOther 1).

  (** ** Multiclass log loss on one sample *)

  (** stableSoftmax, lines 767-792 (the argument is not empty) *)
  Definition top (l : list N) : N :=
    match l with [] => n0 | x :: r => fold_left (fun m v => if v >? m then v else m) r x end.
  Definition softmax (l : list N) : list N :=
    let es := map (fun v => nexp (v - top l)) l in
    let s := nsum es in
    if s >? n0 then map (fun e => e / s) es else es.
  (** CalculateGradientsAndHessians, lines 815-852, for one sample of class [c] *)
  Definition multi_grad (c : nat) (l : list N) : list N :=
    mapi (fun k pr => if Nat.eqb k c then pr - n1 else pr) (softmax l).
  Definition multi_hess (l : list N) : list N :=
    map (fun pr => let h := pr * (n1 - pr) in if h <? tiny then tiny else h) (softmax l).
  (** CalculateLoss, lines 865-890, for one sample; a class outside the logits panics *)
  Definition multi_loss (c : nat) (l : list N) : res N :=
    let lse := nlog (nsum (map (fun v => nexp (v - top l)) l)) + top l in
    match nth_error l c with Some v => Ok (- (v - lse)) | None => Panic end.
  (** Lines 861-893: the average over the samples (class, logits) *)
  Definition multi_total (ss : list (nat * list N)) : res N :=
    let* ls := mapM (fun s => multi_loss (fst s) (snd s)) ss in
    Ok (nsum ls / nofnat (List.length ss)).
End Objective.
Arguments objective N : clear implicits.
