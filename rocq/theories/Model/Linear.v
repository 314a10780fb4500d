(** The two ordinary least squares models: package linear (linear/regression.go) and
    package linear_model (sklearn/linear_model/linear_regression.go).
    The gonum routines [Dense.Inverse] and [QR.SolveTo] are arguments ([inverse], [qrsolve]);
    gonum's products are left-to-right sums of products (the real BLAS kernels may add in
    another order).  Logging and time measurement are left out. *)
From Coq Require Import List Arith Bool ZArith.
From Verif Require Import Base.Num Base.GoRes Base.Mat.
Import ListNotations.
Local Open Scope list_scope.
Local Open Scope num_scope.

Section Linear.
Context {N : Num}.

(** Inner product, matrix times vector, transpose and matrix product of gonum (mat.Dense.Mul,
    VecDense.MulVec, Dense.T as used in linear/regression.go lines 165-190). *)
Definition dot (a b : list N) : N := fold_left (fun s p => s + fst p * snd p) (combine a b) n0.
Definition mvmul (A : list (list N)) (v : list N) : list N := map (fun row => dot row v) A.
Definition transpose (c : nat) (A : list (list N)) : list (list N) := map (fun j => column j A) (seq 0 c).
Definition mmul (A : list (list N)) (c : nat) (B : list (list N)) : list (list N) :=
  map (fun row => map (fun j => dot row (column j B)) (seq 0 c)) A.

(** linear/regression.go lines 54-60: the struct; [State] is inlined (Fitted, NFeatures,
    NSamples of core/model/state_manager.go lines 11-18), [Weights] is a nillable pointer. *)
Record linreg : Type := mklr {
  lr_fitted : bool; lr_sfeat : nat; lr_ssamp : nat;
  lr_weights : option (list N); lr_icept : N; lr_nfeat : nat }.

(** linear/regression.go lines 76-88 *)
Definition lr_new : linreg := mklr false 0 0 None n0 0.

(** linear/regression.go lines 146-161: the rows with a leading 1.  Filling them in parallel
    gives the same matrix (Props/ParallelProps.v). *)
Definition with_ones (rows : list (list N)) : list (list N) := map (fun row => n1 :: row) rows.

(** linear/regression.go lines 116-215: the new state and the outcome; a panic would be
    turned into an error by the deferred Recover. *)
Definition lr_fit (inverse : list (list N) -> option (list (list N))) (lr : linreg) (X y : matrix N)
  : linreg * res unit :=
  let r := nrows X in let c := mcols X in
  if (r =? 0)%nat || (c =? 0)%nat then (lr, Err EModel)
  else if negb (nrows y =? r)%nat then (lr, Err (EDimension r (nrows y)))
  else if negb (mcols y =? 1)%nat then (lr, Err EValue)
  else
    let lr1 := mklr (lr_fitted lr) (lr_sfeat lr) (lr_ssamp lr) (lr_weights lr) (lr_icept lr) c in
    let D := with_ones (mrows X) in
    let XT := transpose (S c) D in
    let XTX := mmul XT (S c) D in
    match inverse XTX with
    | None => (lr1, Err EModel)
    | Some inv =>
        let XTy := mvmul XT (column 0 (mrows y)) in
        match mvmul inv XTy with
        | [] => (lr1, Err EPanic)
        | b :: w => (mklr true c r (Some w) b c, Ok tt)
        end
    end.

(** linear/regression.go lines 265-268: one prediction; [AtVec] panics past the end of the
    weights and on a nil vector. *)
Definition lr_row (lr : linreg) (row : list N) : res N :=
  foldM (fun pred p =>
           match lr_weights lr with
           | None => Panic
           | Some w => match nth_error w (fst p) with None => Panic | Some wj => Ok (pred + snd p * wj) end
           end) (lr_icept lr) (combine (seq 0 (length row)) row).

(** linear/regression.go lines 241-280 *)
Definition lr_predict (lr : linreg) (X : matrix N) : res (list N) :=
  recovered
    (if negb (lr_fitted lr) then Err ENotFitted
     else if negb (mcols X =? lr_nfeat lr)%nat then Err (EDimension (lr_nfeat lr) (mcols X))
     else let* _ := newdense (nrows X) 1 in mapM (lr_row lr) (mrows X)).

(** linear/regression.go lines 283-293 and 296-301 *)
Definition lr_getweights (lr : linreg) : option (list N) := lr_weights lr.
Definition lr_getintercept (lr : linreg) : N := if lr_fitted lr then lr_icept lr else n0.

(** The R² of given predictions: linear/regression.go lines 316-340 and
    linear_regression.go lines 230-253.  [predictions.At(i, 0)] panics when there are more targets
    than predictions; further predictions are ignored.  [e] is the error for constant targets. *)
Definition r2 (e : err) (ys preds : list N) : res N :=
  let m := nsum ys / nofnat (length ys) in
  if (length preds <? length ys)%nat then Panic
  else
    let tss := fold_left (fun s yt => s + (yt - m) * (yt - m)) ys n0 in
    let rss := fold_left (fun s p => s + (fst p - snd p) * (fst p - snd p)) (combine ys preds) n0 in
    if tss =? n0 then Err e else Ok (n1 - rss / tss).

(** linear/regression.go lines 304-341 *)
Definition lr_score (lr : linreg) (X y : matrix N) : res N :=
  recovered
    (if negb (lr_fitted lr) then Err ENotFitted
     else let* p := lr_predict lr X in r2 (EOther 1) (column 0 (mrows y)) p).

(** sklearn/linear_model/linear_regression.go lines 17-40: the struct, [state] inlined. *)
Record sklr : Type := mksk {
  sk_fitted : bool; sk_sfeat : nat; sk_ssamp : nat;
  sk_icpt : bool; sk_normalize : bool; sk_copyx : bool; sk_njobs : Z; sk_positive : bool;
  sk_coef : option (list N); sk_intercept : N;
  sk_nfeat : nat; sk_nsamp : nat; sk_rank : nat }.

(** linear_regression.go lines 43-61 with the options of lines 66-99 applied. *)
Definition sk_new (icpt normalize copyx : bool) (njobs : Z) (positive : bool) : sklr :=
  mksk false 0 0 icpt normalize copyx njobs positive None n0 0 0 0.

(** linear_regression.go lines 182-192: negative values replaced by zero. *)
Definition clip (x : N) : N := if x <? n0 then n0 else x.

(** linear_regression.go lines 102-197.  [mat.QR.Factorize] panics when there are fewer rows
    than columns and nothing recovers it; [qrsolve] returns [None] for an error of [SolveTo].
    A matrix without rows (of the matrices of gonum only the empty one) panics in NewDense or
    Factorize.  copyX has no observable effect. *)
Definition sk_fit (qrsolve : list (list N) -> list N -> option (list N)) (lr : sklr) (X y : matrix N)
  : sklr * res unit :=
  let r := nrows X in let c := mcols X in
  if negb (r =? nrows y)%nat then (lr, Err (EDimension r (nrows y)))
  else if negb (mcols y =? 1)%nat then (lr, Err (EDimension 1 (mcols y)))
  else
    let lr1 := mksk (sk_fitted lr) (sk_sfeat lr) (sk_ssamp lr) (sk_icpt lr) (sk_normalize lr) (sk_copyx lr)
                 (sk_njobs lr) (sk_positive lr) (sk_coef lr) (sk_intercept lr) c r (sk_rank lr) in
    let D := if sk_icpt lr then with_ones (mrows X) else mrows X in
    let m := if sk_icpt lr then S c else c in
    if (r =? 0)%nat || (r <? m)%nat then (lr1, Panic)
    else
      let lr2 := mksk (sk_fitted lr) (sk_sfeat lr) (sk_ssamp lr) (sk_icpt lr) (sk_normalize lr) (sk_copyx lr)
                   (sk_njobs lr) (sk_positive lr) (sk_coef lr) (sk_intercept lr) c r m in
      match qrsolve D (column 0 (mrows y)) with
      | None => (lr2, Err (EOther 1))
      | Some sol =>
          let b := if sk_icpt lr then nth 0 sol n0 else n0 in
          let w := if sk_icpt lr then skipn 1 sol else sol in
          let b' := if sk_positive lr then clip b else b in
          let w' := if sk_positive lr then map clip w else w in
          (mksk true c r (sk_icpt lr) (sk_normalize lr) (sk_copyx lr) (sk_njobs lr) (sk_positive lr)
             (Some w') b' c r m, Ok tt)
      end.

(** linear_regression.go lines 213-216 *)
Definition sk_row (lr : sklr) (row : list N) : res N :=
  foldM (fun pred p =>
           match nth_error (match sk_coef lr with None => [] | Some w => w end) (fst p) with
           | None => Panic
           | Some wj => Ok (pred + snd p * wj)
           end) (sk_intercept lr) (combine (seq 0 (length row)) row).

(** linear_regression.go lines 200-221; there is no Recover. *)
Definition sk_predict (lr : sklr) (X : matrix N) : res (list N) :=
  if negb (sk_fitted lr) then Err ENotFitted
  else if negb (mcols X =? sk_nfeat lr)%nat then Err (EDimension (sk_nfeat lr) (mcols X))
  else let* _ := newdense (nrows X) 1 in mapM (sk_row lr) (mrows X).

(** linear_regression.go lines 224-254 *)
Definition sk_score (lr : sklr) (X y : matrix N) : res N :=
  let* p := sk_predict lr X in r2 EValue (column 0 (mrows y)) p.

End Linear.
Arguments linreg : clear implicits.
Arguments sklr : clear implicits.
