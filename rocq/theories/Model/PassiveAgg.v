(** sklearn/linear_model/passive_aggressive.go: PassiveAggressiveRegressor and
    PassiveAggressiveClassifier.  The mutex makes every method atomic.  There is no way to
    switch averaging on from outside the package (lines 132-176 are all the options), so the
    averaged weights are left out; so are tol, shuffle, verbose, randomState and classWeight,
    which nothing reads. *)
From Coq Require Import List Arith Bool ZArith.
From Verif Require Import Base.Num Base.GoRes Base.Mat Base.ListX Base.Inf Model.Linear Model.NaiveBayes.
Import ListNotations.
Local Open Scope list_scope.
Local Open Scope num_scope.

Section Common.
Context {N : Num}.

(** lines 255-258 and 443-446: the score; indexing panics past the end of the coefficients. *)
Definition score (b : N) (w x : list N) : res N :=
  foldM (fun s p => match nth_error w (fst p) with None => Panic | Some wj => Ok (s + wj * snd p) end)
    b (combine (seq 0 (length x)) x).

(** lines 293-294 and 484-485: coef[i] += tau * x[i] for the indices of x. *)
Fixpoint axpy (tau : N) (x w : list N) : list N :=
  match x, w with
  | xi :: x', wi :: w' => (wi + tau * xi) :: axpy tau x' w'
  | _, _ => w
  end.

(** The samples of a batch: each row with its target, [None] if y has no such row (then y.At
    panics).  Matrices have at least one column. *)
Definition samples (X y : matrix N) : list (list N * option N) :=
  mapi (fun i row => (row, nth_error (column 0 (mrows y)) i)) (mrows X).
(** One pass over the samples, lines 203-208, 241-246, 374-379 and 421-426; stops at the first panic. *)
Fixpoint pass {ST : Type} (update : ST -> list N -> N -> res ST) (st : ST) (l : list (list N * option N)) : ST * res unit :=
  match l with
  | [] => (st, Ok tt)
  | (x, Some y) :: r => match update st x y with Ok st' => pass update st' r | Err e => (st, Err e) | Panic => (st, Panic) end
  | (_, None) :: _ => (st, Panic)
  end.
End Common.

Section PA.
Context {N : Num}.

(** lines 19-30; [pa_maxiter] negative behaves as 0. *)
Record paparams : Type := mkpap { pa_C : N; pa_icpt : bool; pa_maxiter : nat; pa_warm : bool; pa_squared : bool; pa_eps : N }.

(** *** Regressor *)
(** lines 33-45 *)
Record par : Type := mkpar { r_coef : option (list N); r_icept : N; r_nfeat : nat; r_niter : nat; r_t : nat; r_fitted : bool; r_conv : bool }.
Definition par_new : par := mkpar None n0 0 0 0 false false.
(** lines 681-689; the number of features and the convergence flag stay. *)
Definition par_reset (s : par) : par := mkpar None n0 (r_nfeat s) 0 0 false (r_conv s).

(** lines 266, 275 and 284: dotProduct(x, x) + 1/(2C) *)
Definition denom (p : paparams) (x : list N) : N := dot x x + n1 / (nofZ 2 * pa_C p).
(** math.Max(0, d) *)
Definition max0 (d : N) : N := if nisnan d then d else if n0 <? d then d else n0.
(** lines 261-289; an unknown loss is treated as "epsilon_insensitive". *)
Definition tau_of (p : paparams) (x : list N) (y pred : N) : N :=
  let signed t := if y <? pred then - t else t in
  if pa_squared p then
    let diff := nabs (y - pred) in
    if pa_eps p <? diff then signed ((diff - pa_eps p) / denom p x) else n0
  else
    let loss := max0 (nabs (y - pred) - pa_eps p) in
    if n0 <? loss then signed (loss / denom p x) else n0.
(** lines 253-312 *)
Definition par_update (p : paparams) (s : par) (x : list N) (y : N) : res par :=
  let w := match r_coef s with None => [] | Some w => w end in
  let* pred := score (r_icept s) w x in
  let tau := tau_of p x y pred in
  if tau =? n0 then Ok (mkpar (Some w) (r_icept s) (r_nfeat s) (r_niter s) (S (r_t s)) (r_fitted s) (r_conv s))
  else Ok (mkpar (Some (axpy tau x w)) (if pa_icpt p then r_icept s + tau else r_icept s)
             (r_nfeat s) (r_niter s) (S (r_t s)) (r_fitted s) (r_conv s)).

(** lines 202-210: the passes of Fit. *)
Definition par_counted (s : par) : par := mkpar (r_coef s) (r_icept s) (r_nfeat s) (S (r_niter s)) (r_t s) (r_fitted s) (r_conv s).
Fixpoint par_epochs (p : paparams) (n : nat) (s : par) (l : list (list N * option N)) : par * res unit :=
  match n with
  | 0%nat => (s, Ok tt)
  | S k => match pass (par_update p) s l with
           | (s', Ok _) => par_epochs p k (par_counted s') l
           | r => r
           end
  end.
(** lines 185-221 *)
Definition par_fit (p : paparams) (s : par) (X y : matrix N) : par * res unit :=
  let s0 := if negb (pa_warm p) || (match r_coef s with None => true | Some _ => false end) then par_reset s else s in
  let s1 := mkpar (match r_coef s0 with None => Some (repeat n0 (mcols X)) | c => c end)
              (r_icept s0) (mcols X) (r_niter s0) (r_t s0) (r_fitted s0) (r_conv s0) in
  match par_epochs p (pa_maxiter p) s1 (samples X y) with
  | (s2, Ok _) => (mkpar (r_coef s2) (r_icept s2) (r_nfeat s2) (r_niter s2) (r_t s2) true (negb (pa_maxiter p <=? r_niter s2)%nat), Ok tt)
  | r => r
  end.
(** lines 224-250 *)
Definition par_partial (p : paparams) (s : par) (X y : matrix N) : par * res unit :=
  let s1 := match r_coef s with
            | None => mkpar (Some (repeat n0 (mcols X))) (r_icept s) (mcols X) (r_niter s) (r_t s) (r_fitted s) (r_conv s)
            | Some _ => s
            end in
  if negb (mcols X =? r_nfeat s1)%nat then (s1, Err (EDimension (r_nfeat s1) (mcols X)))
  else match pass (par_update p) s1 (samples X y) with
       | (s2, Ok _) => (mkpar (r_coef s2) (r_icept s2) (r_nfeat s2) (r_niter s2) (r_t s2) true (r_conv s2), Ok tt)
       | r => r
       end.
(** lines 315-346 *)
Definition par_predict (s : par) (X : matrix N) : res (list N) :=
  if negb (r_fitted s) then Err ENotFitted
  else if negb (mcols X =? r_nfeat s)%nat then Err (EDimension (r_nfeat s) (mcols X))
  else
    let* _ := newdense (nrows X) 1 in
    mapM (fun row =>
      foldM (fun acc q => match nth_error (match r_coef s with None => [] | Some w => w end) (fst q) with
                          | None => Panic | Some wj => Ok (acc + snd q * wj) end)
        (r_icept s) (combine (seq 0 (length row)) row)) (mrows X).

(** *** Classifier *)
(** lines 63-80: for each class its coefficients and intercept. *)
Record pac : Type := mkpac { c_coef : option (list (list N * N)); c_classes : option (list Z); c_nfeat : nat; c_niter : nat; c_t : nat; c_fitted : bool; c_conv : bool }.
Definition pac_new : pac := mkpac None None 0 0 0 false false.
(** lines 691-701 *)
Definition pac_reset (s : pac) : pac := mkpac None None (c_nfeat s) 0 0 false (c_conv s).

(** lines 442-500 for one class, [t] the target 1 or -1; the three branches for the losses are
    the same. *)
Definition pac_class (p : paparams) (x : list N) (t : N) (wb : list N * N) : res (list N * N) :=
  let* sc := score (snd wb) (fst wb) x in
  let margin := t * sc in
  let tau := if margin <? n1 then (n1 - margin) / denom p x * t else n0 in
  if tau =? n0 then Ok wb
  else Ok (axpy tau x (fst wb), if pa_icpt p then snd wb + tau else snd wb).
(** lines 433-504.  All classes have the same number of coefficients, so that a panic comes
    before any change. *)
Variable toint : N -> Z.
Definition pac_update (p : paparams) (s : pac) (x : list N) (y : N) : res pac :=
  match class_index (toint y) (match c_classes s with None => [] | Some c => c end) with
  | None => Ok s
  | Some k =>
      let* ws := mapM (fun q => pac_class p x (if (fst q =? k)%nat then n1 else - n1) (snd q))
                   (combine (seq 0 (length (match c_coef s with None => [] | Some l => l end))) (match c_coef s with None => [] | Some l => l end)) in
      Ok (mkpac (Some ws) (c_classes s) (c_nfeat s) (c_niter s) (S (c_t s)) (c_fitted s) (c_conv s))
  end.
(** lines 659-669 *)
Definition pac_weights (k nf : nat) : list (list N * N) := repeat (repeat n0 nf, n0) k.
Definition pac_counted (s : pac) : pac := mkpac (c_coef s) (c_classes s) (c_nfeat s) (S (c_niter s)) (c_t s) (c_fitted s) (c_conv s).
Fixpoint pac_epochs (p : paparams) (n : nat) (s : pac) (l : list (list N * option N)) : pac * res unit :=
  match n with
  | 0%nat => (s, Ok tt)
  | S k => match pass (pac_update p) s l with
           | (s', Ok _) => pac_epochs p k (pac_counted s') l
           | r => r
           end
  end.
(** lines 631-656 are those of the naive Bayes classifier. *)
Definition labels (y : matrix N) : list Z := map toint (column 0 (mrows y)).
(** lines 351-392 *)
Definition pac_fit (order : list Z -> list Z) (p : paparams) (s : pac) (X y : matrix N) : pac * res unit :=
  let s0 := if negb (pa_warm p) || (match c_coef s with None => true | Some _ => false end) then pac_reset s else s in
  let cls := match c_classes s0 with None => extract_classes order (labels y) | Some c => c end in
  let s1 := mkpac (match c_coef s0 with None => Some (pac_weights (length cls) (mcols X)) | c => c end)
              (Some cls) (mcols X) (c_niter s0) (c_t s0) (c_fitted s0) (c_conv s0) in
  match pac_epochs p (pa_maxiter p) s1 (samples X y) with
  | (s2, Ok _) => (mkpac (c_coef s2) (c_classes s2) (c_nfeat s2) (c_niter s2) (c_t s2) true (negb (pa_maxiter p <=? c_niter s2)%nat), Ok tt)
  | r => r
  end.
(** lines 395-430; [classes]: the argument, [None] for nil *)
Definition pac_partial (order : list Z -> list Z) (p : paparams) (s : pac) (X y : matrix N) (classes : option (list Z)) : pac * res unit :=
  let s1 := match c_coef s with
            | None =>
                let cls := match classes with None => extract_classes order (labels y) | Some c => c end in
                mkpac (Some (pac_weights (length cls) (mcols X))) (Some cls) (mcols X) (c_niter s) (c_t s) (c_fitted s) (c_conv s)
            | Some _ => s
            end in
  if negb (mcols X =? c_nfeat s1)%nat then (s1, Err (EDimension (c_nfeat s1) (mcols X)))
  else match pass (pac_update p) s1 (samples X y) with
       | (s2, Ok _) => (mkpac (c_coef s2) (c_classes s2) (c_nfeat s2) (c_niter s2) (c_t s2) true (c_conv s2), Ok tt)
       | r => r
       end.
(** lines 529-544: the class of the largest score, the first one if none exceeds -Inf. *)
Definition class_scores (ws : list (list N * N)) (row : list N) : res (list N) :=
  mapM (fun wb => foldM (fun acc q => match nth_error (fst wb) (fst q) with None => Panic | Some wj => Ok (acc + snd q * wj) end)
                    (snd wb) (combine (seq 0 (length row)) row)) ws.
Fixpoint pick (cs : list Z) (vs : list N) (best : option N) (at_ : Z) : Z :=
  match cs, vs with
  | c :: cs', v :: vs' => if gt_best v best then pick cs' vs' (Some v) c else pick cs' vs' best at_
  | _, _ => at_
  end.
(** lines 507-550 *)
Definition pac_predict (s : pac) (X : matrix N) : res (list Z) :=
  if negb (c_fitted s) then Err ENotFitted
  else if negb (mcols X =? c_nfeat s)%nat then Err (EDimension (c_nfeat s) (mcols X))
  else
    let* _ := newdense (nrows X) 1 in
    mapM (fun row =>
      match c_classes s with
      | None | Some [] => Panic
      | Some (c0 :: cr) =>
          let* vs := class_scores (match c_coef s with None => [] | Some l => l end) row in
          Ok (pick (c0 :: cr) vs None c0)
      end) (mrows X).
End PA.
Arguments paparams : clear implicits.
Arguments par : clear implicits.
Arguments pac : clear implicits.
