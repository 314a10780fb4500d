(** sklearn/lightgbm/evaluation_metrics.go: ClassificationMetrics, EvaluateClassification and the
    regression functions of that package.  Go ints are integers (no arithmetic but counting is done on
    them), probabilities are numbers of any [Num]; the order in which the set of labels is visited
    (line 48) is the argument [order]. *)
From Coq Require Import List Arith ZArith Bool.
From Verif Require Import Base.Num Base.GoRes Base.GoSort Model.Metrics Model.LgbObjective.
Import ListNotations.
Local Open Scope list_scope.
Local Open Scope num_scope.

Section EvalMetrics.
  Context {N : Num}.
  Variable order : list Z -> list Z.

  (** lines 14-21; nClasses is the length of classes, nSamples the length of yTrue *)
  Record cmetrics : Type := mkcm { cm_true : list Z; cm_pred : list Z; cm_proba : option (list N); cm_classes : list Z }.
  Definition nclasses (cm : cmetrics) : nat := length (cm_classes cm).
  Definition nsamples (cm : cmetrics) : nat := length (cm_true cm).

  (** lines 24-61 (NewClassificationMetrics); sort.Ints is an insertion sort (its result is the only
      increasing arrangement). A nil slice yTrue or yPred is an empty one. *)
  Definition new_metrics (yt yp : list Z) (proba : option (list N)) : res cmetrics :=
    if Nat.eqb (length yt) 0 then Err EValue
    else if negb (Nat.eqb (length yt) (length yp)) then Err (EDimension (length yt) (length yp))
    else match proba with
         | Some p => if negb (Nat.eqb (length p) (length yt)) then Err (EDimension (length yt) (length p))
                     else Ok (mkcm yt yp proba (isort Z.ltb (order (nodup Z.eq_dec (yt ++ yp)))))
         | None => Ok (mkcm yt yp proba (isort Z.ltb (order (nodup Z.eq_dec (yt ++ yp)))))
         end.

  (** The loops over the samples: the pairs (yTrue[i], yPred[i]). *)
  Definition samples (cm : cmetrics) : list (Z * Z) := combine (cm_true cm) (cm_pred cm).
  Fixpoint count {A} (test : A -> bool) (l : list A) (n : nat) : nat :=
    match l with [] => n | x :: r => count test r (if test x then S n else n) end.

  (** lines 64-72 (Accuracy) *)
  Definition cm_accuracy (cm : cmetrics) : N :=
    nofnat (count (fun s => Z.eqb (fst s) (snd s)) (samples cm) 0) / nofnat (nsamples cm).

  (** lines 260-280 (classPrecision): the counters of true and false positives *)
  Fixpoint tp_fp (c : Z) (l : list (Z * Z)) (tp fp : nat) : nat * nat :=
    match l with
    | [] => (tp, fp)
    | (t, p) :: r => if Z.eqb p c then if Z.eqb t c then tp_fp c r (S tp) fp else tp_fp c r tp (S fp)
                     else tp_fp c r tp fp
    end.
  Definition class_precision (cm : cmetrics) (i : nat) : res N :=
    match nth_error (cm_classes cm) i with
    | None => Panic
    | Some c => let (tp, fp) := tp_fp c (samples cm) 0 0 in
                Ok (if Nat.eqb (tp + fp) 0 then n0 else nofnat tp / nofnat (tp + fp))
    end.
  (** lines 282-302 (classRecall) *)
  Fixpoint tp_fn (c : Z) (l : list (Z * Z)) (tp fn : nat) : nat * nat :=
    match l with
    | [] => (tp, fn)
    | (t, p) :: r => if Z.eqb t c then if Z.eqb p c then tp_fn c r (S tp) fn else tp_fn c r tp (S fn)
                     else tp_fn c r tp fn
    end.
  Definition class_recall (cm : cmetrics) (i : nat) : res N :=
    match nth_error (cm_classes cm) i with
    | None => Panic
    | Some c => let (tp, fn) := tp_fn c (samples cm) 0 0 in
                Ok (if Nat.eqb (tp + fn) 0 then n0 else nofnat tp / nofnat (tp + fn))
    end.
  (** lines 98-102, 308-312 *)
  Definition f1_of (p r : N) : N := if p + r =? n0 then n0 else nlit 2 1 * (p * r) / (p + r).
  (** lines 304-313 (classF1Score) *)
  Definition class_f1 (cm : cmetrics) (i : nat) : res N :=
    let* p := class_precision cm i in let* r := class_recall cm i in Ok (f1_of p r).
  (** lines 315-326 (classSupport) *)
  Definition class_support (cm : cmetrics) (i : nat) : res N :=
    match nth_error (cm_classes cm) i with
    | None => Panic
    | Some c => Ok (nofnat (count (fun t => Z.eqb t c) (cm_true cm) 0))
    end.

  (** lines 244-258 (multiclassPrecision, multiclassRecall) *)
  Definition macro (f : nat -> res N) (n : nat) : res N :=
    let* s := foldM (fun s i => let* v := f i in Ok (s + v)) n0 (seq 0 n) in Ok (s / nofnat n).
  (** lines 76-81, 85-90 with 236-242 *)
  Definition cm_precision (cm : cmetrics) : res N :=
    if Nat.eqb (nclasses cm) 2 then class_precision cm 1 else macro (class_precision cm) (nclasses cm).
  Definition cm_recall (cm : cmetrics) : res N :=
    if Nat.eqb (nclasses cm) 2 then class_recall cm 1 else macro (class_recall cm) (nclasses cm).
  (** lines 94-103 (F1Score) *)
  Definition cm_f1 (cm : cmetrics) : res N :=
    let* p := cm_precision cm in let* r := cm_recall cm in Ok (f1_of p r).

  (** lines 147-159: the two loops over (yProba[i], yTrue[i]); the sorted pairs of lines 115-129 are
      never read *)
  Definition auc_inner (neg : Z) (pi : N) (l : list (N * Z)) (a : N) : N :=
    fold_left (fun a s => if Z.eqb (snd s) neg
                          then if fst s <? pi then a + n1 else if pi =? fst s then a + nlit 1 2 else a
                          else a) l a.
  Definition auc_outer (pos neg : Z) (l : list (N * Z)) : N :=
    fold_left (fun a s => if Z.eqb (snd s) pos then auc_inner neg (fst s) l a else a) l n0.
  (** lines 106-164 (AUC) *)
  Definition cm_auc (cm : cmetrics) : res N :=
    match cm_classes cm with
    | [neg; pos] =>
        match cm_proba cm with
        | None => Err (EOther 1)
        | Some p =>
            let positives := count (fun t => Z.eqb t pos) (cm_true cm) 0 in
            let negatives := (nsamples cm - positives)%nat in
            if Nat.eqb positives 0 || Nat.eqb negatives 0 then Ok (nlit 1 2)
            else Ok (auc_outer pos neg (combine p (cm_true cm)) / (nofnat positives * nofnat negatives))
        end
    | _ => Err (EOther 0)
    end.

  (** lines 328-344 (binaryLogLoss) *)
  Definition ll_eps : N := nlit 1 1000000000000000.
  Definition ll_clip (p : N) : N := gomax ll_eps (gomin (n1 - ll_eps) p).
  Definition ll_sum (pos : Z) (l : list (N * Z)) : N :=
    fold_left (fun s x => if Z.eqb (snd x) pos then s + nlog (ll_clip (fst x)) else s + nlog (n1 - ll_clip (fst x))) l n0.
  (** lines 167-177 (LogLoss) *)
  Definition cm_log_loss (cm : cmetrics) : res N :=
    match cm_proba cm with
    | None => Err (EOther 2)
    | Some p => match cm_classes cm with
                | [_; pos] => Ok (nneg (ll_sum pos (combine p (cm_true cm))) / nofnat (nsamples cm))
                | _ => Err (EOther 3)
                end
    end.

  (** lines 183-187: the last position of a label, 0 for a label that is no key of the map *)
  Fixpoint class_index (i : nat) (classes : list Z) (c : Z) (found : nat) : nat :=
    match classes with [] => found | k :: r => class_index (S i) r c (if Z.eqb k c then i else found) end.
  (** matrix.Set(i, j, matrix.At(i, j)+1) of a matrix given by its rows, lines 193-194; an index
      beyond the matrix panics *)
  Fixpoint upd {A} (i : nat) (f : A -> res A) (l : list A) : res (list A) :=
    match l, i with
    | [], _ => Panic
    | x :: r, O => let* y := f x in Ok (y :: r)
    | x :: r, S i' => let* r' := upd i' f r in Ok (x :: r')
    end.
  Definition bump (i j : nat) (m : list (list N)) : res (list (list N)) := upd i (upd j (fun v => Ok (v + n1))) m.
  (** lines 180-198 (ConfusionMatrix) *)
  Definition confusion (cm : cmetrics) : res (list (list N)) :=
    foldM (fun m s => bump (class_index 0 (cm_classes cm) (fst s) 0) (class_index 0 (cm_classes cm) (snd s) 0) m)
          (repeat (repeat n0 (nclasses cm)) (nclasses cm)) (samples cm).

  (** lines 201-232 (ClassificationReport): the entries of the map; per_class by class label *)
  Record creport : Type := mkrep {
    r_accuracy : N; r_precision : N; r_recall : N; r_f1 : N; r_auc : option N; r_log_loss : option N;
    r_classes : list (Z * (N * N * N * N)) }.
  Definition when_ok (r : res N) : res (option N) :=
    match r with Ok v => Ok (Some v) | Err _ => Ok None | Panic => Panic end.
  Definition cm_report (cm : cmetrics) : res creport :=
    let* p := cm_precision cm in
    let* r := cm_recall cm in
    let* f := cm_f1 cm in
    let two := Nat.eqb (nclasses cm) 2 in
    let* a := if two then when_ok (cm_auc cm) else Ok None in
    let* l := if two then when_ok (cm_log_loss cm) else Ok None in
    let* pc := mapM (fun ic => let* cp := class_precision cm (fst ic) in let* cr := class_recall cm (fst ic) in
                               let* cf := class_f1 cm (fst ic) in let* cs := class_support cm (fst ic) in
                               Ok (snd ic, (cp, cr, cf, cs)))
                    (combine (seq 0 (nclasses cm)) (cm_classes cm)) in
    Ok (mkrep (cm_accuracy cm) p r f a l pc).
  (** lines 389-396 (EvaluateClassification) *)
  Definition evaluate_classification (yt yp : list Z) (proba : option (list N)) : res creport :=
    match new_metrics yt yp proba with
    | Ok cm => cm_report cm
    | Err e => Err (EWrapped e)
    | Panic => Panic
    end.

  (** lines 402-543: MSE, MAE, R2Score, MAPE and ExplainedVarianceScore repeat the functions of
      metrics/regression.go statement by statement; a nil vector panics.  They are written out here
      from this file, with the loops as folds over the pairs. *)
  Definition lchecked (yt yp : vec N) : res (list (N * N)) :=
    match yt with
    | None => Panic
    | Some t => if Nat.eqb (length t) 0 then Err EValue
                else match yp with
                     | None => Panic
                     | Some p => if negb (Nat.eqb (length p) (length t)) then Err (EDimension (length t) (length p))
                                 else Ok (combine t p)
                     end
    end.
  Definition lsum (f : N * N -> N) (l : list (N * N)) : N := fold_left (fun s ab => s + f ab) l n0.
  Definition lmse (yt yp : vec N) : res N :=
    let* l := lchecked yt yp in
    Ok (lsum (fun ab => (fst ab - snd ab) * (fst ab - snd ab)) l / nofnat (length l)).
  Definition lmae (yt yp : vec N) : res N :=
    let* l := lchecked yt yp in Ok (lsum (fun ab => nabs (fst ab - snd ab)) l / nofnat (length l)).
  Definition lr2 (yt yp : vec N) : res N :=
    let* l := lchecked yt yp in
    let m := lsum fst l / nofnat (length l) in
    let tss := lsum (fun ab => (fst ab - m) * (fst ab - m)) l in
    let rss := lsum (fun ab => (fst ab - snd ab) * (fst ab - snd ab)) l in
    if tss =? n0 then Err (EOther 0) else Ok (n1 - rss / tss).
  Definition lmape (yt yp : vec N) : res N :=
    let* l := lchecked yt yp in
    let s := fold_left (fun (a : N * nat) ab => if fst ab =? n0 then a
                        else (fst a + nabs (fst ab - snd ab) / nabs (fst ab), S (snd a))) l (n0, 0%nat) in
    if Nat.eqb (snd s) 0 then Err (EOther 1) else Ok (fst s / nofnat (snd s) * nlit 100 1).
  Definition levs (yt yp : vec N) : res N :=
    let* l := lchecked yt yp in
    let n := nofnat (length l) in
    let tm := lsum fst l / n in
    let dm := lsum (fun ab => fst ab - snd ab) l / n in
    let vt := lsum (fun ab => (fst ab - tm) * (fst ab - tm)) l / n in
    let vd := lsum (fun ab => (fst ab - snd ab - dm) * (fst ab - snd ab - dm)) l / n in
    if vt =? n0 then Err (EOther 2) else Ok (n1 - vd / vt).
  (** lines 349-386 (EvaluateRegression): the six entries of the map *)
  Record rreport : Type := mkrr { rr_mse : N; rr_rmse : N; rr_mae : N; rr_r2 : N; rr_mape : N; rr_evs : N }.
  Definition wrapped {A} (r : res A) : res A := match r with Err e => Err (EWrapped e) | x => x end.
  Definition evaluate_regression (yt yp : vec N) : res rreport :=
    let* m := wrapped (lmse yt yp) in
    let* a := wrapped (lmae yt yp) in
    let* r := wrapped (lr2 yt yp) in
    let* q := match lmape yt yp with Ok v => Ok v | Err _ => Ok nnan | Panic => Panic end in
    let* e := wrapped (levs yt yp) in
    Ok (mkrr m (nsqrt m) a r q e).
End EvalMetrics.
Arguments cmetrics N : clear implicits.
Arguments creport N : clear implicits.
Arguments rreport N : clear implicits.
