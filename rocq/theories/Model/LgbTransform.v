(** Output transformations of sklearn/lightgbm: predictor.go, leaves_predictor.go and
    model.go.  [nexp] is math.Exp. *)
From Coq Require Import List Arith ZArith Bool.
From Verif Require Import Base.Num.
Import ListNotations.
Local Open Scope num_scope.

Section Transform.
  Context {N : Num}.

  (** Predictor.epsilon = 1e-15, predictor.go line 26 *)
  Definition peps : N := nlit 1 1000000000000000.
  (** ensurePrecision, predictor.go lines 346-360 *)
  Definition ensure (x : N) : N :=
    if nisnan x || nisinf x then x else if nabs x <? peps then n0 else x.

  (** The body shared by stableSigmoid (predictor.go lines 379-394) and leavesSigmoid
      (leaves_predictor.go lines 135-153); [post] is ensurePrecision or nothing. *)
  Definition sigmoid_with (post : N -> N) (x : N) : N :=
    if x >? nlit 500 1 then n1
    else if x <? nlit (-500) 1 then n0
    else if x >=? n0 then post (n1 / (n1 + nexp (- x)))
    else post (nexp x / (n1 + nexp x)).
  Definition stable_sigmoid : N -> N := sigmoid_with ensure.
  Definition leaves_sigmoid : N -> N := sigmoid_with (fun x => x).

  (** stableExp, predictor.go lines 398-409 *)
  Definition stable_exp (x : N) : N :=
    if x >? nlit 700 1 then ninf else if x <? nlit (-700) 1 then n0 else ensure (nexp x).

  (** Maximum loop, e.g. predictor.go lines 414-419; the callers never pass an empty slice. *)
  Definition max_from (x : N) (r : list N) : N := fold_left (fun m v => if v >? m then v else m) r x.
  Definition slice_max (l : list N) : N := match l with [] => n0 | x :: r => max_from x r end.
  (** stableSoftmax, predictor.go lines 412-437 *)
  Definition stable_softmax (l : list N) : list N :=
    let es := map (fun v => stable_exp (v - slice_max l)) l in
    let s := nsum es in
    if s >? n0 then map (fun e => ensure (e / s)) es else es.
  (** leavesSoftmax, leaves_predictor.go lines 155-180 *)
  Definition leaves_softmax (l : list N) : list N :=
    let es := map (fun v => nexp (v - slice_max l)) l in
    let s := nsum es in
    if s >? n0 then map (fun e => e / s) es else es.
  (** applySoftmax on one row, predictor.go lines 509-528 *)
  Definition apply_softmax (l : list N) : list N :=
    let es := map (fun v => nexp (v - slice_max l)) l in
    let s := nsum es in
    map (fun e => ensure (e / s)) es.

  (** exp, model.go lines 475-494: the degree-20 Taylor polynomial.  [big] is the
      constant 1e308. *)
  Variable big : N.
  Definition taylor_step (x : N) (st : N * N) (i : nat) : N * N :=
    let term := fst st * (x / nofnat i) in (term, snd st + term).
  Definition taylor (x : N) : N := snd (fold_left (taylor_step x) (seq 1 20) (n1, n1)).
  Definition model_exp (x : N) : N :=
    if x >? nlit 700 1 then big else if x <? nlit (-700) 1 then n0 else taylor x.
  (** sigmoid and softmax, model.go lines 471-473 and 496-519 *)
  Definition model_sigmoid (x : N) : N := n1 / (n1 + model_exp (- x)).
  Definition model_softmax (l : list N) : list N :=
    let es := map (fun v => model_exp (v - slice_max l)) l in
    let s := nsum es in
    map (fun e => e / s) es.
End Transform.
