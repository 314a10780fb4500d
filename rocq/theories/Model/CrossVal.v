(** sklearn/lightgbm/cross_validation.go: the fold splitters and the row
    extraction.  [shuf] is the effect of [r.Shuffle] on a slice (the identity when
    Shuffle is false); nothing but "it rearranges" is assumed by the theorems. *)
From Coq Require Import String List Arith ZArith Bool.
From Verif Require Import Base.Num Base.GoRes Base.Mat.
Import ListNotations.
Local Open Scope list_scope.

(** cross_validation.go lines 20-23 *)
Record cvfold : Type := mkfold { train : list nat; test : list nat }.

(** cross_validation.go lines 33-42 and 117-126: NSplits as set by the
    constructors. *)
Definition new_nsplits (k : Z) : Z := if (k <? 2)%Z then 5%Z else k.

Definition mem (i : nat) (l : list nat) : bool := existsb (Nat.eqb i) l.

(** The loop of lines 69-104 (and of lines 167-182, where the guard
    [currentIdx < nClass] is subsumed by [firstn] stopping at the end of the list):
    fold [i] receives [size/k], plus one when [i < size mod k], consecutive
    elements. *)
Definition fold_len (k size i : nat) : nat :=
  size / k + (if Nat.ltb i (size mod k) then 1 else 0).
Fixpoint cut (sizes : list nat) (l : list nat) : list (list nat) :=
  match sizes with
  | [] => []
  | s :: r => firstn s l :: cut r (skipn s l)
  end.
Definition chunks (k : nat) (l : list nat) : list (list nat) :=
  cut (map (fold_len k (length l)) (seq 0 k)) l.

(** KFold.Split, lines 50-107.  A negative NSplits panics in [make] (line 68), zero
    panics in the division (line 69); both are reachable with a struct literal. *)
Definition kfold_split (shuf : list nat -> list nat) (nsplits : Z) (n : nat) : res (list cvfold) :=
  if (nsplits <=? 0)%Z then Panic
  else
    let indices := shuf (seq 0 n) in
    Ok (map (fun t => mkfold (filter (fun i => negb (mem i t)) indices) t)
            (chunks (Z.to_nat nsplits) indices)).

Section Strat.
  Context {N : Num}.

  (** [classIndices[label] = append(classIndices[label], i)], lines 138-142.  A map
      key is found with ==, so a NaN label never is and gets a fresh entry. *)
  Fixpoint add_class (gs : list (N * list nat)) (label : N) (i : nat) : list (N * list nat) :=
    match gs with
    | [] => [(label, [i])]
    | (l, is) :: r => if neqb l label then (l, is ++ [i]) :: r else (l, is) :: add_class r label i
    end.
  Fixpoint classes_from (i : nat) (labels : list N) (gs : list (N * list nat)) : list (N * list nat) :=
    match labels with
    | [] => gs
    | l :: r => classes_from (S i) r (add_class gs l i)
    end.

  (** Lines 165-183: append every fold's share of one class. *)
  Fixpoint append_each (fs cs : list (list nat)) : list (list nat) :=
    match fs, cs with
    | f :: fs', c :: cs' => (f ++ c) :: append_each fs' cs'
    | _, _ => fs
    end.

  (** StratifiedKFold.Split, lines 134-200.  [y] holds the first column of the label
      matrix ([y.At(i,0)] panics when it is too short).  [shuf] is the shuffle of one
      class's indices (lines 145-153), [order] the order in which the range statement
      of line 165 delivers the classes.  A NSplits of zero panics in line 167 only
      when there is a class. *)
  Definition stratified_split (shuf : list nat -> list nat)
      (order : list (list nat) -> list (list nat)) (nsplits : Z) (n : nat) (y : list N)
    : res (list cvfold) :=
    if Nat.ltb (length y) n then Panic
    else if (nsplits <? 0)%Z then Panic
    else
      let groups := order (map (fun g => shuf (snd g)) (classes_from 0 (firstn n y) [])) in
      if (nsplits =? 0)%Z then (if Nat.eqb (length groups) 0 then Ok [] else Panic)
      else
        let k := Z.to_nat nsplits in
        let tests := fold_left (fun fs g => append_each fs (chunks k g)) groups (repeat [] k) in
        Ok (map (fun t => mkfold (filter (fun i => negb (mem i t)) (seq 0 n)) t) tests).

  (** extractSubset, lines 374-398: [sorti] is sort.Ints.  mat.NewDense panics on
      zero rows or columns; X.At and y.At panic when an index is out of range. *)
  Definition extract_subset (sorti : list nat -> list nat) (X y : matrix N) (indices : list nat)
    : res (matrix N * matrix N) :=
    let idx := sorti indices in
    let* _ := newdense (length indices) (mcols X) in
    let* _ := newdense (length indices) (mcols y) in
    let* xr := mapM (fun i => match nth_error (mrows X) i with Some r => Ok r | None => Panic end) idx in
    let* yr := mapM (fun i => match nth_error (mrows y) i with Some r => Ok r | None => Panic end) idx in
    Ok (mkmat (mcols X) xr, mkmat (mcols y) yr).

  (** GetMeanScore and GetStdScore, lines 214-239 *)
  Definition cv_mean (scores : list N) : N :=
    if Nat.eqb (length scores) 0 then n0 else ndiv (nsum scores) (nofnat (length scores)).
  Definition cv_std (scores : list N) : N :=
    if Nat.leb (length scores) 1 then n0
    else
      let m := cv_mean scores in
      nsqrt (ndiv (fold_left (fun s x => nadd s (nmul (nsub x m) (nsub x m))) scores n0)
                  (nofnat (length scores - 1))).

  (** The best fold, lines 346-362: [None] when there is no fold (index panic).
      [loss] is isLossMetric(metric). *)
  Fixpoint best_loop (loss : bool) (i : nat) (scores : list N) (best : N) (at_ : nat) : N * nat :=
    match scores with
    | [] => (best, at_)
    | s :: r =>
        if (if loss then nlt s best else nlt best s) then best_loop loss (S i) r s i
        else best_loop loss (S i) r best at_
    end.
  Definition cv_best (loss : bool) (scores : list N) : res (N * nat) :=
    match scores with
    | [] => Panic
    | s :: r => Ok (best_loop loss 1 r s 0)
    end.

  (** evaluateMetric, lines 401-467, on the first columns of yTrue and yPred (equally
      long: one prediction per row).  "l2", "mse" and every unknown name share the
      squared error. *)
  Definition mse_metric (t p : list N) : N :=
    ndiv (fold_left (fun s ab => nadd s (nmul (nsub (fst ab) (snd ab)) (nsub (fst ab) (snd ab))))
                    (combine t p) n0) (nofnat (length t)).
  Definition logloss_clip (p : N) : N :=
    let eps := nlit 1 1000000000000000 in
    if nlt p eps then eps else if nlt (nsub n1 eps) p then nsub n1 eps else p.
  Definition evaluate_metric (metric : string) (t p : list N) : N :=
    if String.eqb metric "rmse" then nsqrt (mse_metric t p)
    else if String.eqb metric "l1" || String.eqb metric "mae" then
      ndiv (fold_left (fun s ab => nadd s (nabs (nsub (fst ab) (snd ab)))) (combine t p) n0)
           (nofnat (length t))
    else if String.eqb metric "binary_logloss" || String.eqb metric "logloss" then
      ndiv (fold_left (fun s ab =>
              let q := logloss_clip (snd ab) in
              nsub s (nlog (if neqb (fst ab) n1 then q else nsub n1 q))) (combine t p) n0)
           (nofnat (length t))
    else if String.eqb metric "accuracy" then
      ndiv (nofnat (length (filter (fun ab => neqb (if nlt (nlit 1 2) (snd ab) then n1 else n0) (fst ab))
                                   (combine t p))))
           (nofnat (length t))
    else mse_metric t p.

  (** isLossMetric, lines 470-479 *)
  Definition is_loss_metric (metric : string) : bool :=
    negb (existsb (String.eqb metric) ["accuracy"; "auc"; "r2"]%string).

  (** The per-fold part of CrossValidate, lines 268-343, for folds whose training
      and evaluation is given by [fit_eval] (returning the test score, an error or a
      panic).  Every fold runs in its own goroutine and writes only its own slot; a
      panic in a goroutine ends the process, and the first error in fold order is
      returned.  [fold_outcomes] is the list of the folds' outcomes. *)
  Fixpoint first_err (rs : list (res N)) : res (list N) :=
    match rs with
    | [] => Ok []
    | Ok a :: r => match first_err r with Ok l => Ok (a :: l) | Err e => Err e | Panic => Panic end
    | Err e :: _ => Err e
    | Panic :: _ => Panic
    end.
  Definition is_panic {A} (r : res A) : bool := match r with Panic => true | _ => false end.
  Definition cross_validate (sorti : list nat -> list nat)
      (fit_eval : matrix N * matrix N -> matrix N * matrix N -> res N)
      (folds : res (list cvfold)) (X y : matrix N) (loss : bool) : res (list N * (N * nat)) :=
    let* fs := folds in
    let outs := map (fun f =>
      let* tr := extract_subset sorti X y (train f) in
      let* te := extract_subset sorti X y (test f) in
      fit_eval tr te) fs in
    if existsb is_panic outs then Panic
    else
      let* scores := first_err outs in
      let* b := cv_best loss scores in
      Ok (scores, b).
End Strat.
