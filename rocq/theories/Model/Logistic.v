(** sklearn/linear_model/logistic.go: LogisticRegression.  Verbose is left out, as nothing reads it;
    error texts are reduced to kinds.  gonum's optimize.Minimize, the draws of crypto/rand, the order
    of a map, int(float64) and -math.MaxFloat64 are arguments. *)
From Coq Require Import String List Arith Bool ZArith.
From Verif Require Import Base.Num Base.GoRes Base.Mat Base.ListX Model.NaiveBayes.
Import ListNotations.
Local Open Scope string_scope.
Local Open Scope list_scope.
Local Open Scope num_scope.

(** Error kinds of this file, in the order of their appearance: "lbfgs supports only l2 or none
    penalty", "y must be a column vector", "C must be > 0 for l2 penalty", "lbfgs optimization
    failed", "multinomial logistic regression not yet implemented". *)
Definition e_penalty : err := EOther 20.
Definition e_column : err := EOther 21.
Definition e_C : err := EOther 22.
Definition e_lbfgs : err := EOther 23.
Definition e_multinomial : err := EOther 24.

Section Logistic.
Context {N : Num}.
Variable toint : N -> Z.
(** the order in which the set of labels is visited *)
Variable order : list Z -> list Z.
(** -math.MaxFloat64 *)
Variable lowest : N.
(** cryptoNormalFloat64 (lines 942-956): the next draw *)
Variable G : Type.
Variable draw : G -> N * G.
(** optimize.Minimize with the LBFGS method, from Func, Grad, the start, GradientThreshold and
    MajorIterations to the X and the number of major iterations of the result; [None]: an error. *)
Variable minimize : (list N -> N) -> (list N -> list N) -> list N -> N -> Z -> option (list N * nat).

(** lines 29-42 *)
Record lhyper := mklh {
  h_penalty : string; h_C : N; h_icpt : bool; h_iscale : N; h_cweight : string; h_rstate : Z;
  h_solver : string; h_maxit : Z; h_multi : string; h_warm : bool; h_l1 : N; h_tol : N }.
(** lines 61-76: the defaults *)
Definition lr_defaults : lhyper :=
  mklh "l2" n1 true n1 "none" (-1) "lbfgs" 100 "auto" false (nlit 1 2) (nlit 1 10000).
(** lines 45-53 and the fitted flag; [l_coef]: [None] is nil. *)
Record lmodel := mklm {
  l_coef : option (list (list N)); l_b : list N; l_classes : list Z; l_nc : nat; l_nf : nat;
  l_nit : list nat; l_fitted : bool; l_gen : G }.
(** lines 60-93: a new model *)
Definition lr_new (g : G) : lmodel := mklm None [] [] 0 0 [] false g.

(** lines 98-105 *)
Definition stable_sigmoid (z : N) : N :=
  if n0 <=? z then n1 / (n1 + nexp (- z)) else nexp z / (n1 + nexp z).
(** lines 959-961 *)
Definition sigmoid (z : N) : N := n1 / (n1 + nexp (- z)).
(** lines 108-116; epsilonSmall is line 20 *)
Definition eps15 : N := nlit 1 1000000000000000.
Definition clamp (p : N) : N := if p <? eps15 then eps15 else if n1 - eps15 <? p then n1 - eps15 else p.

(** The number of features and the samples with their 0/1 labels, as seen by a solver. *)
Definition data := (nat * list (list N * N))%type.
(** lines 309-315, 396-402, 538-544, 562-568: 1 for the class, 0 for the others. *)
Definition targets (c : Z) (y : matrix N) : list N :=
  map (fun l => if (l =? c)%Z then n1 else n0) (labels_of toint y).
Definition mkdata (c : Z) (X y : matrix N) : data := (mcols X, combine (mrows X) (targets c y)).

(** lines 435-446, 466-481, 603-613: the weights and the intercept of a parameter vector (Minimize
    calls with vectors of the length of the start), and the score of a row. *)
Definition weights (nf : nat) (theta : list N) : list N := firstn nf theta.
Definition bias (h : lhyper) (nf : nat) (theta : list N) : N := if h_icpt h then nth nf theta n0 else n0.
Definition zscore (h : lhyper) (nf : nat) (theta row : list N) : N :=
  fold_left (fun z p => z + fst p * snd p) (combine (weights nf theta) row) (bias h nf theta).
(** lines 433-463 and 602-629: Func *)
Definition lr_func (h : lhyper) (lambda : N) (d : data) (theta : list N) : N :=
  let loss := fold_left (fun loss s =>
      let p := clamp (stable_sigmoid (zscore h (fst d) theta (fst s))) in
      loss + (- snd s * nlog p - (n1 - snd s) * nlog (n1 - p))) (snd d) n0 in
  let loss := loss / nofnat (length (snd d)) in
  if n0 <? lambda
  then loss + nlit 1 2 * lambda * fold_left (fun r w => r + w * w) (weights (fst d) theta) n0
  else loss.
(** lines 464-507 and 630-665: Grad *)
Definition lr_diffs (h : lhyper) (d : data) (theta : list N) : list N :=
  map (fun s => stable_sigmoid (zscore h (fst d) theta (fst s)) - snd s) (snd d).
Definition lr_grad (h : lhyper) (lambda : N) (d : data) (theta : list N) : list N :=
  let ds := combine (lr_diffs h d theta) (map fst (snd d)) in
  let inv := n1 / nofnat (length (snd d)) in
  map (fun j =>
      let g := fold_left (fun g s => g + fst s * nth j (snd s) n0) ds n0 * inv in
      if n0 <? lambda then g + lambda * nth j (weights (fst d) theta) n0 else g) (seq 0 (fst d))
  ++ (if h_icpt h then [fold_left nadd (lr_diffs h d theta) n0 * inv] else []).

(** lines 423-429 and 593-599 *)
Definition lr_lambda (h : lhyper) : res N :=
  if String.eqb (h_penalty h) "l2" then if h_C h =? n0 then Err e_C else Ok (n1 / h_C h) else Ok n0.
(** Go's copy(dst, src) *)
Definition copyto (dst src : list N) : list N := firstn (length dst) src ++ skipn (length src) dst.

(** The part of the model a solver works on: row, intercept, iterations. *)
Definition unit_fit := (list N * N * nat)%type.
(** lines 510-528 and 667-682 *)
Definition lr_minimize (h : lhyper) (d : data) (x0 : list N) (u : unit_fit) : res unit_fit :=
  let* lambda := lr_lambda h in
  match minimize (lr_func h lambda d) (lr_grad h lambda d) x0 (h_tol h) (h_maxit h) with
  | None => Err e_lbfgs
  | Some (theta, n) =>
      Ok (copyto (fst (fst u)) (weights (fst d) theta), if h_icpt h then nth (fst d) theta n0 else snd (fst u), n)
  end.

(** lines 326-383 and 696-753: one step of gradient descent; new weights, new intercept and maxGrad. *)
Definition gd_errors (d : data) (w : list N) (b : N) : list N :=
  map (fun s => sigmoid (fold_left (fun z p => z + fst p * snd p) (combine (fst s) w) b) - snd s) (snd d).
Definition gd_grad (h : lhyper) (d : data) (w : list N) (b : N) : list N * N :=
  let es := gd_errors d w b in
  let gw := map (fun j => fold_left (fun g s => g + fst s * nth j (snd s) n0) (combine es (map fst (snd d))) n0
                          / nofnat (length (snd d))) (seq 0 (fst d)) in
  (if String.eqb (h_penalty h) "l2" then map (fun p => fst p + n1 / h_C h * snd p) (combine gw w) else gw,
   fold_left nadd es n0 / nofnat (length (snd d))).
Definition gd_rate (iter : nat) : N := n1 / (n1 + nlit 1 10 * nofnat iter).
Definition gd_step (h : lhyper) (d : data) (iter : nat) (w : list N) (b : N) : list N * N * N :=
  let g := gd_grad h d w b in
  (map (fun p => fst p - gd_rate iter * snd p) (combine w (fst g)),
   if h_icpt h then b - gd_rate iter * snd g else b,
   fold_left (fun m v => if m <? nabs v then nabs v else m) (fst g) (nabs (snd g))).
(** lines 324-384 and 694-754: the loop *)
Fixpoint gd_loop (h : lhyper) (d : data) (left iter : nat) (u : unit_fit) : unit_fit :=
  match left with
  | 0%nat => u
  | S left' =>
      let '(w, b, m) := gd_step h d iter (fst (fst u)) (snd (fst u)) in
      if m <? h_tol h then (w, b, S iter) else gd_loop h d left' (S iter) (w, b, S iter)
  end.
(** A row of another length than the number of features (only after a warm start) makes the first
    step index out of range. *)
Definition gd_fit (h : lhyper) (d : data) (u : unit_fit) : res unit_fit :=
  if (h_maxit h <=? 0)%Z then Ok u
  else if Nat.eqb (length (fst (fst u))) (fst d) then Ok (gd_loop h d (Z.to_nat (h_maxit h)) 0 u)
  else Panic.

(** The [k]-th row, intercept and count of the model, and storing them. *)
Definition get_unit (k : nat) (m : lmodel) : option unit_fit :=
  match l_coef m with
  | None => None
  | Some c => match nth_error c k, nth_error (l_b m) k, nth_error (l_nit m) k with
              | Some w, Some b, Some n => Some (w, b, n)
              | _, _, _ => None
              end
  end.
Definition put_unit (k : nat) (u : unit_fit) (m : lmodel) : lmodel :=
  mklm (option_map (upd k (fun _ => fst (fst u))) (l_coef m)) (upd k (fun _ => snd (fst u)) (l_b m))
       (l_classes m) (l_nc m) (l_nf m) (upd k (fun _ => snd u) (l_nit m)) (l_fitted m) (l_gen m).
(** Running a solver on one row. *)
Definition solve (k : nat) (f : unit_fit -> res unit_fit) (m : lmodel) : lmodel * res unit :=
  match get_unit k m with
  | None => (m, Panic)
  | Some u => match f u with Ok u' => (put_unit k u' m, Ok tt) | Err e => (m, Err e) | Panic => (m, Panic) end
  end.

(** lines 405-418: the start of fitBinaryLBFGS *)
Definition start_binary (h : lhyper) (nf : nat) (u : unit_fit) : list N :=
  let w := if h_warm h && Nat.eqb (length (fst (fst u))) nf then fst (fst u) else repeat n0 nf in
  let b := if h_warm h && Nat.eqb (length (fst (fst u))) nf then snd (fst u) else n0 in
  w ++ (if h_icpt h then [b] else []).
(** lines 581-590: the start of fitBinaryForClassLBFGS *)
Definition start_class (h : lhyper) (nf : nat) (u : unit_fit) : list N :=
  copyto (repeat n0 nf) (fst (fst u)) ++ (if h_icpt h then [snd (fst u)] else []).

(** lines 171-176 *)
Definition lr_validate (h : lhyper) : res unit :=
  if String.eqb (h_solver h) "lbfgs" && negb (String.eqb (h_penalty h) "l2") && negb (String.eqb (h_penalty h) "none")
  then Err e_penalty else Ok tt.
(** lines 179-190, 304-387 and 390-529 *)
Definition fit_binary (h : lhyper) (m : lmodel) (X y : matrix N) : lmodel * res unit :=
  match lr_validate h with
  | Ok _ =>
      match nth_error (l_classes m) 1 with
      | None => (m, Panic)
      | Some c =>
          solve 0 (fun u => if String.eqb (h_solver h) "lbfgs"
                            then lr_minimize h (mkdata c X y) (start_binary h (mcols X) u) u
                            else gd_fit h (mkdata c X y) u) m
      end
  | Err e => (m, Err e)
  | Panic => (m, Panic)
  end.
(** lines 532-574: the loop over the classes *)
Fixpoint fit_classes (h : lhyper) (X y : matrix N) (cs : list (nat * Z)) (m : lmodel) : lmodel * res unit :=
  match cs with
  | [] => (m, Ok tt)
  | (k, c) :: r =>
      match solve k (fun u => if String.eqb (h_solver h) "lbfgs"
                              then lr_minimize h (mkdata c X y) (start_class h (mcols X) u) u
                              else gd_fit h (mkdata c X y) u) m with
      | (m', Ok _) => fit_classes h X y r m'
      | r => r
      end
  end.
(** lines 193-209 *)
Definition fit_multi (h : lhyper) (m : lmodel) (X y : matrix N) : lmodel * res unit :=
  if String.eqb (h_multi h) "multinomial" && String.eqb (h_solver h) "lbfgs" then (m, Err e_multinomial)
  else match lr_validate h with
       | Ok _ => fit_classes h X y (combine (seq 0 (length (l_classes m))) (l_classes m)) m
       | Err e => (m, Err e)
       | Panic => (m, Panic)
       end.

(** lines 278-301 *)
Fixpoint draw_row (n : nat) (g : G) : list N * G :=
  match n with
  | 0%nat => ([], g)
  | S n' => let (v, g1) := draw g in let (r, g2) := draw_row n' g1 in (v * nlit 1 100 :: r, g2)
  end.
Fixpoint draw_rows (k n : nat) (g : G) : list (list N) * G :=
  match k with
  | 0%nat => ([], g)
  | S k' => let (r, g1) := draw_row n g in let (rs, g2) := draw_rows k' n g1 in (r :: rs, g2)
  end.
Definition initialize (nf : nat) (m : lmodel) : lmodel :=
  let k := if Nat.eqb (l_nc m) 2 then 1%nat else l_nc m in
  let (c, g) := draw_rows k nf (l_gen m) in
  mklm (Some c) (repeat n0 k) (l_classes m) (l_nc m) (l_nf m) (repeat 0%nat k) (l_fitted m) g.

(** lines 212-248; the NewDense(nSamples, 1) calls of the solvers do not panic: without samples there
    are no classes and no solver runs. *)
Definition lr_fit (h : lhyper) (m : lmodel) (X y : matrix N) : lmodel * res unit :=
  if negb (Nat.eqb (nrows X) (nrows y)) then (m, Err (EDimension (nrows X) (nrows y)))
  else if negb (Nat.eqb (mcols y) 1) then (m, Err e_column)
  else
    let cls := extract_classes order (labels_of toint y) in
    let m1 := mklm (l_coef m) (l_b m) cls (length cls) (mcols X) (l_nit m) (l_fitted m) (l_gen m) in
    let m2 := if negb (h_warm h) || (match l_coef m with None => true | Some _ => false end) then initialize (mcols X) m1 else m1 in
    match (if Nat.eqb (l_nc m2) 2 then fit_binary h m2 X y else fit_multi h m2 X y) with
    | (m3, Ok _) => (mklm (l_coef m3) (l_b m3) (l_classes m3) (l_nc m3) (l_nf m3) (l_nit m3) true (l_gen m3), Ok tt)
    | r => r
    end.

(** lines 777-780, 795-798: the score of row [k] of the coefficients, over the first nFeatures_ entries. *)
Fixpoint raw_score (nf : nat) (row w : list N) (z : N) : res N :=
  match nf with
  | 0%nat => Ok z
  | S n => match row, w with a :: row', c :: w' => raw_score n row' w' (z + a * c) | _, _ => Panic end
  end.
Definition class_score (m : lmodel) (row : list N) (k : nat) : res N :=
  match nth_error (l_b m) k, match l_coef m with None => None | Some c => nth_error c k end with
  | Some b, Some w => raw_score (l_nf m) row w b
  | _, _ => Panic
  end.
Definition class_at (m : lmodel) (k : nat) : res N :=
  match nth_error (l_classes m) k with Some c => Ok (nofZ c) | None => Panic end.
(** lines 791-803: the first class with the largest score *)
Fixpoint best_of (k : nat) (scores : list N) (mx : N) (best : nat) : nat :=
  match scores with
  | [] => best
  | s :: r => if mx <? s then best_of (S k) r s k else best_of (S k) r mx best
  end.
(** lines 766-809 *)
Definition lr_predict (m : lmodel) (X : matrix N) : res (list N) :=
  if negb (l_fitted m) then Err ENotFitted
  else
    let* _ := newdense (nrows X) 1 in
    mapM (fun row =>
      if Nat.eqb (l_nc m) 2
      then let* z := class_score m row 0 in
           class_at m (if nlit 1 2 <=? sigmoid z then 1%nat else 0%nat)
      else let* ss := mapM (class_score m row) (seq 0 (l_nc m)) in
           class_at m (best_of 0 ss lowest 0%nat)) (mrows X).
(** lines 812-863 *)
Definition softmax (ss : list N) : list N :=
  let mx := fold_left (fun m s => if m <? s then s else m) ss lowest in
  let es := map (fun s => nexp (s - mx)) ss in
  map (fun e => e / fold_left nadd es n0) es.
Definition lr_proba (m : lmodel) (X : matrix N) : res (list (list N)) :=
  if negb (l_fitted m) then Err ENotFitted
  else
    let* _ := newdense (nrows X) (l_nc m) in
    mapM (fun row =>
      if Nat.eqb (l_nc m) 2
      then let* z := class_score m row 0 in Ok [n1 - sigmoid z; sigmoid z]
      else rmap softmax (mapM (class_score m row) (seq 0 (l_nc m)))) (mrows X).
(** lines 866-882; y.At panics on a missing row. *)
Definition lr_score (m : lmodel) (X y : matrix N) : res N :=
  match lr_predict m X with
  | Ok ps =>
      if (nrows y <? nrows X)%nat then Panic
      else Ok (nofnat (length (filter (fun p => fst p =? nth 0 (snd p) n0) (combine ps (mrows y)))) / nofnat (nrows X))
  | Err _ => Ok n0
  | Panic => Panic
  end.
End Logistic.
