(** metrics/classification.go, metrics/ranking.go, metrics/regression.go.
    A [*mat.VecDense] argument is [option (list N)], [None] being a nil pointer. *)
From Coq Require Import List Arith ZArith Bool.
From Verif Require Import Base.Num Base.GoRes.
Import ListNotations.
Local Open Scope num_scope.

Section Metrics.
  Context {N : Num}.
  Definition vec : Type := option (list N).
  Definition nhalf : N := nlit 1 2.

  (** The validation common to the classification and ranking metrics
      (classification.go lines 41-64, 228-251, 318-341; ranking.go lines 48-71,
      246-269): nil, empty, length mismatch. *)
  Definition checked (yt yp : vec) : res (list N * list N) :=
    match yt, yp with
    | Some t, Some p =>
        if Nat.eqb (length t) 0 then Err EValue
        else if negb (Nat.eqb (length t) (length p)) then Err (EDimension (length t) (length p))
        else Ok (t, p)
    | _, _ => Err EValue
    end.

  (** classification.go lines 66-76, ranking.go lines 273-281. *)
  Definition all_binary (t : list N) : bool :=
    forallb (fun v => (v =? n0) || (v =? n1)) t.

  (** classification.go lines 100-109: float counters. *)
  Definition count_pos (t : list N) : N :=
    fold_left (fun c y => if y =? n1 then c + n1 else c) t n0.
  Definition count_neg (t : list N) : N :=
    fold_left (fun c y => if y =? n1 then c else c + n1) t n0.

  (** classification.go lines 118-145: the (tpr, fpr) points.  [pts] are the
      points appended so far. *)
  Fixpoint roc_points (P Q : N) (ps : list (N * N)) (tp fp prev : N) (pts : list (N * N))
    : list (N * N) :=
    match ps with
    | [] => pts ++ [(n1, n1)]
    | (s, l) :: r =>
        let changed := negb (s =? prev) in
        let pts' := if changed then pts ++ [(tp / P, fp / Q)] else pts in
        let prev' := if changed then s else prev in
        if l =? n1 then roc_points P Q r (tp + n1) fp prev' pts'
        else roc_points P Q r tp (fp + n1) prev' pts'
    end.

  (** classification.go lines 147-154. *)
  Fixpoint trapezoid (acc : N) (pts : list (N * N)) : N :=
    match pts with
    | a :: ((b :: _) as r) =>
        let width := snd b - snd a in
        let height := (fst b + fst a) / nlit 2 1 in
        trapezoid (acc + width * height) r
    | _ => acc
    end.

  (** classification.go lines 39-157.  [sortf] is the sort.Slice call of lines
      91-93 with [score_desc]. *)
  Definition score_desc (a b : N * N) : bool := fst a >? fst b.
  Definition auc (sortf : list (N * N) -> list (N * N)) (yt yp : vec) : res N :=
    let* (t, p) := checked yt yp in
    if negb (all_binary t) then Err EValue
    else
      let pairs := sortf (combine p t) in
      let P := count_pos t in
      let Q := count_neg t in
      if (P =? n0) || (Q =? n0) then Ok nhalf
      else
        match pairs with
        | [] => Panic
        | (s0, _) :: _ => Ok (trapezoid n0 (roc_points P Q pairs n0 n0 (s0 + n1) [(n0, n0)]))
        end.

  (** classification.go lines 316-351. *)
  Definition mismatches (t p : list N) : nat :=
    length (filter (fun ab => negb (fst ab =? snd ab)) (combine t p)).
  Definition classification_error (yt yp : vec) : res N :=
    let* (t, p) := checked yt yp in
    Ok (nofnat (mismatches t p) / nofnat (length t)).
  (** classification.go lines 364-370. *)
  Definition accuracy (yt yp : vec) : res N :=
    let* e := classification_error yt yp in Ok (n1 - e).

  (** classification.go lines 288-293. *)
  Definition log_safe (x : N) : N := if x <=? n0 then nlit (-10000000000) 1 else nlog x.
  (** classification.go lines 253-285; the label check is inside the loop, so it
      fails exactly when some label is not binary. *)
  Definition bll_eps : N := nlit 1 1000000000000000.
  Definition bll_clip (p : N) : N :=
    if p <? bll_eps then bll_eps else if p >? n1 - bll_eps then n1 - bll_eps else p.
  Fixpoint bll_loop (yp : list (N * N)) (loss : N) : res N :=
    match yp with
    | [] => Ok loss
    | (y, p) :: r =>
        if negb (y =? n0) && negb (y =? n1) then Err EValue
        else
          let p' := bll_clip p in
          bll_loop r (if y =? n1 then loss - log_safe p' else loss - log_safe (n1 - p'))
    end.
  Definition binary_log_loss (yt yp : vec) : res N :=
    let* (t, p) := checked yt yp in
    let* loss := bll_loop (combine t p) n0 in
    Ok (loss / nofnat (length t)).

  (** * Ranking *)

  (** math.Pow(2, x) and math.Log2(x), through exp and log. *)
  Definition pow2 (x : N) : N := nexp (x * nlog (nlit 2 1)).
  Definition log2 (x : N) : N := nlog x / nlog (nlit 2 1).

  (** ranking.go lines 151-170, from position [i] on. *)
  Fixpoint dcg_from (i : nat) (pairs : list (N * N)) (k : nat) (acc : N) : N :=
    match k, pairs with
    | S k', (_, rel) :: r =>
        dcg_from (S i) r k' (acc + (pow2 rel - n1) / log2 (nofnat (i + 2)))
    | _, _ => acc
    end.
  Definition dcg (pairs : list (N * N)) (k : nat) : N := dcg_from 0 pairs k n0.

  (** ranking.go lines 46-148.  [k] is a Go int. *)
  Definition rel_desc (a b : N * N) : bool := snd a >? snd b.
  Definition ndcg (sort_score sort_rel : list (N * N) -> list (N * N))
      (yt yp : vec) (k : Z) : res N :=
    let* (t, p) := checked yt yp in
    if (Z.leb k 0 && negb (Z.eqb k (-1)))%bool then Err EValue
    else
      let n := length t in
      let k' := if (Z.eqb k (-1) || Z.ltb (Z.of_nat n) k)%bool then n else Z.to_nat k in
      if existsb (fun r => r <? n0) t then Err EValue
      else
        let d := dcg (sort_score (combine p t)) k' in
        let i := dcg (sort_rel (combine t t)) k' in
        if i =? n0 then Ok n0 else Ok (d / i).

  (** ranking.go lines 309-321. *)
  Fixpoint ap_loop (i hits : nat) (pairs : list (N * N)) (acc : N) : N :=
    match pairs with
    | [] => acc
    | (_, rel) :: r =>
        if rel =? n1 then ap_loop (S i) (S hits) r (acc + nofnat (S hits) / nofnat (i + 1))
        else ap_loop (S i) hits r acc
    end.
  (** ranking.go lines 244-324. *)
  Definition average_precision (sortf : list (N * N) -> list (N * N)) (yt yp : vec) : res N :=
    let* (t, p) := checked yt yp in
    if negb (all_binary t) then Err EValue
    else
      let relevant := length (filter (fun v => v =? n1) t) in
      if Nat.eqb relevant 0 then Ok n0
      else Ok (ap_loop 0 0 (sortf (combine p t)) n0 / nofnat relevant).

  (** ranking.go lines 338-365: the queries are evaluated in order, the first
      error is wrapped and returned. *)
  Fixpoint map_loop (sortf : list (N * N) -> list (N * N)) (qs : list (vec * vec)) (acc : N)
    : res N :=
    match qs with
    | [] => Ok acc
    | (t, p) :: r =>
        match average_precision sortf t p with
        | Ok a => map_loop sortf r (acc + a)
        | Err e => Err (EWrapped e)
        | Panic => Panic
        end
    end.
  Definition mean_average_precision (sortf : list (N * N) -> list (N * N))
      (ts ps : list vec) : res N :=
    if (Nat.eqb (length ts) 0 || Nat.eqb (length ps) 0)%bool then Err EValue
    else if negb (Nat.eqb (length ts) (length ps)) then Err (EDimension (length ts) (length ps))
    else
      let* s := map_loop sortf (combine ts ps) n0 in Ok (s / nofnat (length ts)).

  (** * Regression *)

  (** Validation of the regression metrics (regression.go lines 66-73, 192-199,
      240-247, 303-310, 361-368): no nil check, so a nil vector panics; [yPred] is
      only touched after the emptiness test. *)
  Definition rchecked (yt yp : vec) : res (list N * list N) :=
    match yt with
    | None => Panic
    | Some t =>
        if Nat.eqb (length t) 0 then Err EValue
        else match yp with
             | None => Panic
             | Some p =>
                 if negb (Nat.eqb (length p) (length t)) then Err (EDimension (length t) (length p))
                 else Ok (t, p)
             end
    end.

  (** regression.go lines 64-83. *)
  Definition sq (x : N) : N := x * x.
  Definition mse (yt yp : vec) : res N :=
    let* (t, p) := rchecked yt yp in
    Ok (fold_left (fun s ab => s + sq (fst ab - snd ab)) (combine t p) n0 / nofnat (length t)).
  (** regression.go lines 157-163. *)
  Definition rmse (yt yp : vec) : res N := let* m := mse yt yp in Ok (nsqrt m).
  (** regression.go lines 190-209. *)
  Definition mae (yt yp : vec) : res N :=
    let* (t, p) := rchecked yt yp in
    Ok (fold_left (fun s ab => s + nabs (fst ab - snd ab)) (combine t p) n0 / nofnat (length t)).
  (** regression.go lines 238-273. *)
  Definition mean (l : list N) : N := fold_left nadd l n0 / nofnat (length l).
  Definition r2_score (yt yp : vec) : res N :=
    let* (t, p) := rchecked yt yp in
    let m := mean t in
    let tss := fold_left (fun s ab => s + sq (fst ab - m)) (combine t p) n0 in
    let rss := fold_left (fun s ab => s + sq (fst ab - snd ab)) (combine t p) n0 in
    if tss =? n0 then Err (EOther 0) else Ok (n1 - rss / tss).
  (** regression.go lines 301-330. *)
  Fixpoint mape_loop (tp : list (N * N)) (sum : N) (valid : nat) : N * nat :=
    match tp with
    | [] => (sum, valid)
    | (t, p) :: r =>
        if negb (t =? n0) then mape_loop r (sum + nabs (t - p) / nabs t) (S valid)
        else mape_loop r sum valid
    end.
  Definition mape (yt yp : vec) : res N :=
    let* (t, p) := rchecked yt yp in
    let (sum, valid) := mape_loop (combine t p) n0 0 in
    if Nat.eqb valid 0 then Err (EOther 1) else Ok (sum / nofnat valid * nlit 100 1).
  (** regression.go lines 359-399. *)
  Definition explained_variance_score (yt yp : vec) : res N :=
    let* (t, p) := rchecked yt yp in
    let n := nofnat (length t) in
    let tm := fold_left nadd t n0 / n in
    let dm := fold_left (fun s ab => s + (fst ab - snd ab)) (combine t p) n0 / n in
    let vt := fold_left (fun s ab => s + sq (fst ab - tm)) (combine t p) n0 / n in
    let vd := fold_left (fun s ab => s + sq ((fst ab - snd ab) - dm)) (combine t p) n0 / n in
    if vt =? n0 then Err (EOther 2) else Ok (n1 - vd / vt).
End Metrics.
Arguments vec N : clear implicits.
