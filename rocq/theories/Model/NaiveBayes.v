(** sklearn/naive_bayes/multinomial_nb.go: MultinomialNB.  The mutex makes every
    method atomic; logging is not modelled.  Matrices are well formed ([wf]). *)
From Coq Require Import List Arith ZArith Bool.
From Verif Require Import Base.Num Base.GoRes Base.Mat Base.ListX Base.Inf.
Import ListNotations.
Local Open Scope num_scope.

(** * extractClasses, lines 483-509 *)

(** The exchange sort of lines 498-504: for position [i] with value [x], the inner
    loop walks over the rest and swaps whenever the value at [i] is larger. *)
Fixpoint exchange (x : Z) (l : list Z) : Z * list Z :=
  match l with
  | [] => (x, [])
  | y :: r =>
      if (y <? x)%Z then let (m, r') := exchange y r in (m, x :: r')
      else let (m, r') := exchange x r in (m, y :: r')
  end.
Fixpoint exchange_sort (fuel : nat) (l : list Z) : list Z :=
  match fuel, l with
  | S f, x :: r => let (m, r') := exchange x r in m :: exchange_sort f r'
  | _, _ => []
  end.

(** The keys of the set of labels (lines 485-496), each once, in an order chosen by
    [order] (map iteration). *)
Definition distinct (l : list Z) : list Z := nodup Z.eq_dec l.
Definition extract_classes (order : list Z -> list Z) (labels : list Z) : list Z :=
  let ks := order (distinct labels) in exchange_sort (length ks) ks.

(** getClassIndex, lines 512-519; [None] is -1. *)
Fixpoint class_index_from (k : nat) (c : Z) (classes : list Z) : option nat :=
  match classes with
  | [] => None
  | x :: r => if (x =? c)%Z then Some k else class_index_from (S k) c r
  end.
Definition class_index := class_index_from 0.

Section NB.
  Context {N : Num}.
  (** Go's conversion int(float64) *)
  Variable toint : N -> Z.

  (** Hyperparameters, lines 25-27 *)
  Record params := mkparams { alpha : N; fit_prior : bool; class_prior : option (list N) }.
  (** Learned state, lines 30-37; [b_classes = None] is the nil slice, nClasses_ is
      always len(classes_). *)
  Record nb := mknb {
    b_classes : option (list Z); b_nfeat : nat;
    b_logprior : list N; b_flp : list (list N);
    b_fcount : list (list N); b_ccount : list N; b_seen : nat; b_fitted : bool }.
  (** A new classifier and reset, lines 45-61 and 522-532 *)
  Definition nb_empty : nb := mknb None 0 [] [] [] [] 0 false.

  (** validateInput, lines 457-480 *)
  Definition has_negative (X : matrix N) : bool :=
    existsb (existsb (fun v => v <? n0)) (mrows X).
  Definition validate (X y : matrix N) : res unit :=
    if negb (Nat.eqb (nrows X) (nrows y)) then Err (EOther 1)
    else if negb (Nat.eqb (mcols y) 1) then Err (EOther 2)
    else if has_negative X then Err EValue
    else Ok tt.

  Definition labels_of (y : matrix N) : list Z := map (fun r => toint (nth 0 r n0)) (mrows y).

  (** Lines 116-129 and 178-191: the counting loop over one batch. *)
  Fixpoint vadd (a b : list N) : list N :=
    match a, b with
    | x :: a', y :: b' => (x + y) :: vadd a' b'
    | _, _ => a
    end.
  Definition counts : Type := list N * list (list N) * nat.   (* classCount_, featureCount_, nSamplesSeen_ *)
  Definition count_sample (classes : list Z) (c : counts) (s : list N * Z) : counts :=
    let '(cc, fc, seen) := c in
    match class_index (snd s) classes with
    | None => c
    | Some k => (upd k (fun v => v + n1) cc, upd k (fun f => vadd f (fst s)) fc, S seen)
    end.
  Definition count_batch (classes : list Z) (c : counts) (X y : matrix N) : counts :=
    fold_left (count_sample classes) (combine (mrows X) (labels_of y)) c.
  (** Lines 109-113 and 164-168 *)
  Definition zero_counts (k nf : nat) (seen : nat) : counts := (repeat n0 k, repeat (repeat n0 nf) k, seen).

  (** updateModel, lines 201-245 *)
  Definition log_priors (p : params) (k : nat) (cc : list N) : list N :=
    if fit_prior p then
      let total := nsum cc in map (fun c => nlog (c / total)) cc
    else
      match class_prior p with
      | Some pr => map (fun i => match nth_error pr i with Some v => nlog v | None => n0 end) (seq 0 k)
      | None => repeat (nlog (n1 / nofnat k)) k
      end.
  Definition feature_log_probs (p : params) (row : list N) : list N :=
    let total := fold_left (fun t c => t + (c + alpha p)) row n0 in
    map (fun c => nlog ((c + alpha p) / total)) row.
  Definition update_model (p : params) (classes : list Z) (nf : nat) (c : counts) : nb :=
    let '(cc, fc, seen) := c in
    mknb (Some classes) nf (log_priors p (length classes) cc) (map (feature_log_probs p) fc) fc cc seen true.

  (** Fit, lines 91-136 *)
  Definition nb_fit (order : list Z -> list Z) (p : params) (X y : matrix N) (s : nb) : nb * res unit :=
    match validate X y with
    | Ok _ =>
        let classes := extract_classes order (labels_of y) in
        let c := count_batch classes (zero_counts (length classes) (mcols X) 0) X y in
        (update_model p classes (mcols X) c, Ok tt)
    | Err e => (nb_empty, Err e)
    | Panic => (nb_empty, Panic)
    end.

  (** PartialFit, lines 139-198; [given = None] is a nil class list.  nSamplesSeen_ is
      not reset when the classes are still nil. *)
  Definition nb_partial_fit (order : list Z -> list Z) (p : params) (X y : matrix N)
      (given : option (list Z)) (s : nb) : nb * res unit :=
    match validate X y with
    | Ok _ =>
        let '(classes, nf, c) :=
          match b_classes s with
          | None =>
              let cl := match given with
                        | Some l => l
                        | None => extract_classes order (labels_of y)
                        end in
              (cl, mcols X, zero_counts (length cl) (mcols X) (b_seen s))
          | Some cl => (cl, b_nfeat s, (b_ccount s, b_fcount s, b_seen s))
          end in
        if Nat.eqb (mcols X) nf then
          (update_model p classes nf (count_batch classes c X y), Ok tt)
        else (s, Err (EDimension nf (mcols X)))
    | Err e => (s, Err e)
    | Panic => (s, Panic)
    end.

  (** The joint log likelihood of one row and class: lines 269-277 and 348-356 *)
  Definition joint (prior : N) (flp row : list N) : N :=
    fold_left (fun acc xf => acc + fst xf * snd xf) (combine row flp) prior.

  (** The checks shared by Predict and PredictLogProba. *)
  Definition check_query (s : nb) (X : matrix N) : res unit :=
    if negb (b_fitted s) then Err ENotFitted
    else if negb (Nat.eqb (mcols X) (b_nfeat s)) then Err (EDimension (b_nfeat s) (mcols X))
    else Ok tt.
  Definition joints (s : nb) (row : list N) : list N :=
    map (fun pf => joint (fst pf) (snd pf) row) (combine (b_logprior s) (b_flp s)).

  (** Predict, lines 248-289: the first class with a strictly larger value wins; the
      initial guess is classes_[0]. *)
  Fixpoint best_class (cs : list Z) (vs : list N) (best : option N) (at_ : Z) : Z :=
    match cs, vs with
    | c :: cs', v :: vs' => if gt_best v best then best_class cs' vs' (Some v) c else best_class cs' vs' best at_
    | _, _ => at_
    end.
  Definition predict_row (s : nb) (row : list N) : res Z :=
    match b_classes s with
    | Some ((c0 :: _) as cs) =>
        if existsb (fun v => v <? n0) row then Err EValue
        else Ok (best_class cs (joints s row) None c0)
    | _ => Panic
    end.
  Definition nb_predict (s : nb) (X : matrix N) : res (list Z) :=
    let* _ := check_query s X in
    let* _ := newdense (nrows X) 1 in
    mapM (predict_row s) (mrows X).

  (** PredictLogProba, lines 329-382 *)
  Definition row_max (l : list N) : N :=
    max_value (fold_left (fun b v => if gt_best v b then Some v else b) l None).
  Definition log_normalise (l : list N) : list N :=
    let m := row_max l in
    let lse := nlog (nsum (map (fun v => nexp (v - m)) l)) + m in
    map (fun v => v - lse) l.
  Definition log_proba_row (s : nb) (row : list N) : res (list N) :=
    if existsb (fun v => v <? n0) row then Err EValue else Ok (log_normalise (joints s row)).
  Definition nb_predict_log_proba (s : nb) (X : matrix N) : res (list (list N)) :=
    let* _ := check_query s X in
    let* _ := newdense (nrows X) (length (match b_classes s with Some l => l | None => [] end)) in
    mapM (log_proba_row s) (mrows X).
  (** PredictProba, lines 292-326 *)
  Definition normalise_row (l : list N) : list N :=
    let m := row_max l in
    let es := map (fun v => nexp (v - m)) l in
    let sum := nsum es in map (fun e => e / sum) es.
  Definition nb_predict_proba (s : nb) (X : matrix N) : res (list (list N)) :=
    let* l := nb_predict_log_proba s X in Ok (map normalise_row l).

  (** Score, lines 385-401: predictions.At panics when y has more rows.  A class
      survives the round trip through float64 (true below 2^53). *)
  Definition nb_score (s : nb) (X y : matrix N) : res N :=
    let* p := nb_predict s X in
    if Nat.ltb (length p) (nrows y) then Panic
    else Ok (nofnat (length (filter (fun ab => (fst ab =? snd ab)%Z) (combine p (labels_of y))))
             / nofnat (nrows y)).
End NB.
Arguments nb N : clear implicits.
Arguments params N : clear implicits.
