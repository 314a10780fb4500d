(** sklearn/linear_model/sgd_regressor.go and sgd_classifier.go: SGDRegressor and SGDClassifier.
    The mutex makes every method atomic.  No option switches averaging on, so the averaged
    weights are left out; so are verbose, the printing of progress, the warnings and
    classWeight, which nothing reads.  The random generator is a state with two operations,
    math.Pow a function. *)
From Coq Require Import List Arith Bool ZArith.
From Verif Require Import Base.Num Base.GoRes Base.Mat Base.ListX Model.Numerical Model.Linear Model.NaiveBayes Model.PassiveAgg.
Import ListNotations.
Local Open Scope list_scope.
Local Open Scope num_scope.

(** sgd_regressor.go lines 305-334, 349-356 and 384-404: the strings the code compares with.
    Any other loss behaves as the first, any other penalty as [NoPenalty], any other schedule
    as [Constant]. *)
Inductive rloss : Type := SquaredError | Huber | EpsInsensitive.
Inductive penalty : Type := NoPenalty | L2 | L1 | Elastic.
Inductive schedule : Type := Constant | Optimal | InvScaling | Adaptive.
(** sgd_classifier.go lines 293-352: any other loss behaves as [Hinge]. *)
Inductive closs : Type := Hinge | SquaredHinge | LogLoss | ModifiedHuber | Perceptron.

Section Sgd.
Context {N : Num}.

(** sgd_regressor.go lines 23-39 without eta0, which training changes *)
Record sparams : Type := mksp {
  sp_pen : penalty; sp_alpha : N; sp_l1 : N; sp_icpt : bool; sp_maxiter : nat; sp_tol : N; sp_shuffle : bool;
  sp_eps : N; sp_sched : schedule; sp_power : N; sp_warm : bool; sp_nochange : nat }.

(** sgd_regressor.go lines 703-710 *)
Definition sgn (x : N) : N := if n0 <? x then n1 else if x <? n0 then - n1 else n0.

(** sgd_regressor.go lines 302-334: loss and its slope. *)
Definition half : N := nlit 1 2.
Definition reg_loss (k : rloss) (eps pred y : N) : N * N :=
  let diff := pred - y in
  match k with
  | SquaredError => (half * diff * diff, diff)
  | Huber =>
      if nabs diff <=? eps then (half * diff * diff, diff)
      else (eps * (nabs diff - half * eps), eps * sgn diff)
  | EpsInsensitive =>
      if nabs diff <=? eps then (n0, n0) else (nabs diff - eps, sgn diff)
  end.

(** sgd_regressor.go lines 348-357 and sgd_classifier.go lines 365-373: what the penalty adds
    to the gradient of a coefficient. *)
Definition with_penalty (p : sparams) (w grad : N) : N :=
  match sp_pen p with
  | NoPenalty => grad
  | L2 => grad + sp_alpha p * w
  | L1 => grad + sp_alpha p * sgn w
  | Elastic => grad + sp_alpha p * (sp_l1 p * sgn w + (n1 - sp_l1 p) * w)
  end.

(** sgd_regressor.go lines 712-719 *)
Fixpoint increasing (l : list N) : bool :=
  match l with
  | a :: (b :: _) as r => if b <? a then false else increasing r
  | _ => true
  end.
Definition recent (n : nat) (l : list N) : list N := skipn (length l - n) l.

Variable pow : N -> N -> N.
(** sgd_regressor.go lines 383-404 *)
Definition rate (p : sparams) (eta : N) (t : nat) (hist : list N) : N :=
  match sp_sched p with
  | Constant => eta
  | Optimal => n1 / (sp_alpha p * (nofnat t + n1))
  | InvScaling => eta / pow (nofnat t + n1) (sp_power p)
  | Adaptive => if ((5 <? length hist)%nat && increasing (recent 5 hist))%bool then eta * half else eta
  end.

(** sgd_regressor.go lines 406-425; with nIterNoChange = 0 the first index is out of range. *)
Definition spread (l : list N) (first : N) : N * N :=
  fold_left (fun m v => (if fst m <? v then v else fst m, if v <? snd m then v else snd m)) l (first, first).
Definition check_conv (p : sparams) (hist : list N) : res bool :=
  if (length hist <? sp_nochange p + 1)%nat then Ok false
  else match recent (sp_nochange p) hist with
       | [] => Panic
       | a :: r => let m := spread (a :: r) a in Ok (fst m - snd m <? sp_tol p)
       end.

Variable G : Type.
Variable normal : G -> N * G.                    (* rng.NormFloat64() *)
Variable shuffle : nat -> G -> list nat * G.     (* 0..n-1 after rng.Shuffle *)

(** sgd_regressor.go lines 188-191: n normal values times sqrt(2/cols). *)
Fixpoint normals (n : nat) (scale : N) (g : G) : list N * G :=
  match n with
  | 0%nat => ([], g)
  | S k => let (z, g1) := normal g in let (r, g2) := normals k scale g1 in (z * scale :: r, g2)
  end.
Definition init_coef (cols : nat) (g : G) : list N * G := normals cols (nsqrt (nofZ 2 / nofnat cols)) g.

(** The samples in the order of the indices; an index out of range would panic. *)
Definition in_order (idx : list nat) (l : list (list N * option N)) : list (list N * option N) :=
  map (fun i => match nth_error l i with Some s => s | None => ([], None) end) idx.

(** One pass, lines 215-221: the losses are added up; a panic leaves the state of that moment. *)
Fixpoint spass {ST : Type} (update : ST -> list N -> N -> res (ST * N)) (st : ST) (acc : N) (l : list (list N * option N)) : ST * N * res unit :=
  match l with
  | [] => (st, acc, Ok tt)
  | (x, Some y) :: r =>
      match update st x y with
      | Ok (st', loss) => spass update st' (acc + loss) r
      | Err e => (st, acc, Err e)
      | Panic => (st, acc, Panic)
      end
  | (_, None) :: _ => (st, acc, Panic)
  end.

(** *** Regressor: sgd_regressor.go lines 42-57 *)
Record sreg : Type := mksr {
  g_coef : option (list N); g_icept : N; g_eta : N; g_nfeat : nat; g_niter : nat; g_t : nat;
  g_hist : list N; g_conv : bool; g_fitted : bool; g_rng : G }.
(** lines 690-700; the learning rate eta0, the number of features and the generator stay. *)
Definition sreg_reset (s : sreg) : sreg := mksr None n0 (g_eta s) (g_nfeat s) 0 0 [] false false (g_rng s).

(** lines 363-371: the new coefficients; a value that is not finite has the step added back. *)
Fixpoint descend (lr : N) (grads w : list N) : list N :=
  match grads, w with
  | gr :: gs, wi :: ws =>
      let v := wi - lr * gr in
      (if unstable v then v + lr * gr else v) :: descend lr gs ws
  | _, _ => w
  end.
(** lines 283-380 *)
Definition reg_update (k : rloss) (p : sparams) (s : sreg) (x : list N) (y : N) : res (sreg * N) :=
  let w := match g_coef s with None => [] | Some w => w end in
  let* pred := score (g_icept s) w x in
  if unstable pred then
    Ok (mksr (g_coef s) (g_icept s) (g_eta s * nlit 1 10) (g_nfeat s) (g_niter s) (g_t s) (g_hist s) (g_conv s) (g_fitted s) (g_rng s), n0)
  else
    let '(loss, dloss) := reg_loss k (sp_eps p) pred y in
    let lr := rate p (g_eta s) (g_t s) (g_hist s) in
    let grads := clip_gradient (mapi (fun i xi => with_penalty p (nth i w n0) (dloss * xi)) x) (nofZ 10) in
    Ok (mksr (Some (descend lr grads w)) (if sp_icpt p then g_icept s - lr * dloss else g_icept s)
          (g_eta s) (g_nfeat s) (g_niter s) (S (g_t s)) (g_hist s) (g_conv s) (g_fitted s) (g_rng s), loss).

(** lines 223-225 and 274-276: the mean loss of a pass is recorded. *)
Definition recorded (s : sreg) (total : N) (rows : nat) : sreg :=
  mksr (g_coef s) (g_icept s) (g_eta s) (g_nfeat s) (S (g_niter s)) (g_t s) (g_hist s ++ [total / nofnat rows]) (g_conv s) (g_fitted s) (g_rng s).
Definition with_conv (b : bool) (s : sreg) : sreg :=
  mksr (g_coef s) (g_icept s) (g_eta s) (g_nfeat s) (g_niter s) (g_t s) (g_hist s) b (g_fitted s) (g_rng s).
Definition with_fitted (s : sreg) : sreg :=
  mksr (g_coef s) (g_icept s) (g_eta s) (g_nfeat s) (g_niter s) (g_t s) (g_hist s) (g_conv s) true (g_rng s).
Definition with_rng (g : G) (s : sreg) : sreg :=
  mksr (g_coef s) (g_icept s) (g_eta s) (g_nfeat s) (g_niter s) (g_t s) (g_hist s) (g_conv s) (g_fitted s) g.
(** lines 199-234 *)
Fixpoint reg_epochs (k : rloss) (p : sparams) (n : nat) (s : sreg) (l : list (list N * option N)) : sreg * res unit :=
  match n with
  | 0%nat => (s, Ok tt)
  | S m =>
      let '(idx, g) := if sp_shuffle p then shuffle (length l) (g_rng s) else (seq 0 (length l), g_rng s) in
      match spass (reg_update k p) (with_rng g s) n0 (in_order idx l) with
      | (s1, total, Ok _) =>
          let s2 := recorded s1 total (length l) in
          match check_conv p (g_hist s2) with
          | Ok true => (with_conv true s2, Ok tt)
          | Ok false => reg_epochs k p m s2 l
          | Err e => (s2, Err e)
          | Panic => (s2, Panic)
          end
      | (s1, _, r) => (s1, r)
      end
  end.
(** lines 173-239 *)
Definition reg_fit (k : rloss) (p : sparams) (s : sreg) (X y : matrix N) : sreg * res unit :=
  let s0 := if negb (sp_warm p) || (match g_coef s with None => true | Some _ => false end) then sreg_reset s else s in
  let s1 := match g_coef s0 with
            | None => let (w, g) := init_coef (mcols X) (g_rng s0) in
                      mksr (Some w) (g_icept s0) (g_eta s0) (mcols X) (g_niter s0) (g_t s0) (g_hist s0) (g_conv s0) (g_fitted s0) g
            | Some w => mksr (Some w) (g_icept s0) (g_eta s0) (mcols X) (g_niter s0) (g_t s0) (g_hist s0) (g_conv s0) (g_fitted s0) (g_rng s0)
            end in
  match reg_epochs k p (sp_maxiter p) s1 (samples X y) with
  | (s2, Ok _) => (with_fitted s2, Ok tt)
  | r => r
  end.
(** lines 242-280 *)
Definition reg_partial (k : rloss) (p : sparams) (s : sreg) (X y : matrix N) : sreg * res unit :=
  let s1 := match g_coef s with
            | None => let (w, g) := init_coef (mcols X) (g_rng s) in
                      mksr (Some w) (g_icept s) (g_eta s) (mcols X) (g_niter s) (g_t s) (g_hist s) (g_conv s) (g_fitted s) g
            | Some _ => s
            end in
  if negb (mcols X =? g_nfeat s1)%nat then (s1, Err (EDimension (g_nfeat s1) (mcols X)))
  else match spass (reg_update k p) s1 n0 (samples X y) with
       | (s2, total, Ok _) => (with_fitted (recorded s2 total (nrows X)), Ok tt)
       | (s2, _, r) => (s2, r)
       end.
(** lines 428-459 *)
Definition reg_predict (s : sreg) (X : matrix N) : res (list N) :=
  if negb (g_fitted s) then Err ENotFitted
  else if negb (mcols X =? g_nfeat s)%nat then Err (EDimension (g_nfeat s) (mcols X))
  else
    let* _ := newdense (nrows X) 1 in
    mapM (fun row =>
      foldM (fun acc q => match nth_error (match g_coef s with None => [] | Some w => w end) (fst q) with
                          | None => Panic | Some wj => Ok (acc + snd q * wj) end)
        (g_icept s) (combine (seq 0 (length row)) row)) (mrows X).
(** GetLoss, lines 574-582: the last recorded loss, [None] for +Inf. *)
Definition reg_loss_of (s : sreg) : option N := match rev (g_hist s) with [] => None | v :: _ => Some v end.

(** *** Classifier *)
(** sgd_classifier.go lines 292-352: loss and its slope for target 1 or -1. *)
Definition class_loss (k : closs) (t sc : N) : N * N :=
  match k with
  | Hinge => let margin := t * sc in if margin <? n1 then (n1 - margin, - t) else (n0, n0)
  | SquaredHinge =>
      let margin := t * sc in
      if margin <? n1 then let diff := n1 - margin in (half * diff * diff, - t * diff) else (n0, n0)
  | LogLoss =>
      let z := t * sc in
      if n0 <? z then let e := nexp (- z) in (nlog (n1 + e), - t * e / (n1 + e))
      else let e := nexp z in (- z + nlog (n1 + e), - t * e / (n1 + e))
  | ModifiedHuber =>
      let margin := t * sc in
      if margin <? - n1 then (nofZ (-4) * margin, nofZ (-4) * t)
      else if margin <? n1 then let diff := n1 - margin in (diff * diff, nofZ (-2) * t * diff)
      else (n0, n0)
  | Perceptron => if t * sc <=? n0 then (- t * sc, - t) else (n0, n0)
  end.
(** sgd_classifier.go lines 60-82 *)
Record scls : Type := mksc {
  k_coef : option (list (list N * N)); k_classes : option (list Z); k_eta : N; k_nfeat : nat; k_niter : nat; k_t : nat;
  k_hist : list N; k_conv : bool; k_fitted : bool; k_rng : G }.
(** sgd_classifier.go lines 867-879 *)
Definition scls_reset (s : scls) : scls := mksc None None (k_eta s) (k_nfeat s) 0 0 [] false false (k_rng s).
(** sgd_classifier.go line 375 for all coefficients *)
Fixpoint sub_step (lr : N) (grads w : list N) : list N :=
  match grads, w with
  | gr :: gs, wi :: ws => (wi - lr * gr) :: sub_step lr gs ws
  | _, _ => w
  end.
(** sgd_classifier.go lines 279-391 for one class: new weights and loss.  All classes have the
    same number of coefficients, so that a panic comes before any change. *)
Definition class_step (k : closs) (p : sparams) (lr : N) (x : list N) (t : N) (wb : list N * N) : res ((list N * N) * N) :=
  let* sc := score (snd wb) (fst wb) x in
  let '(loss, dloss) := class_loss k t sc in
  let grads := mapi (fun i xi => with_penalty p (nth i (fst wb) n0) (dloss * xi)) x in
  Ok ((sub_step lr grads (fst wb), if sp_icpt p then snd wb - lr * dloss else snd wb), loss).
Variable toint : N -> Z.
(** sgd_classifier.go lines 269-396 *)
Definition cls_update (k : closs) (p : sparams) (s : scls) (x : list N) (y : N) : res (scls * N) :=
  match class_index (toint y) (match k_classes s with None => [] | Some c => c end) with
  | None => Ok (s, n0)
  | Some c0 =>
      let lr := rate p (k_eta s) (k_t s) (k_hist s) in
      let ws := match k_coef s with None => [] | Some l => l end in
      let* r := mapM (fun q => class_step k p lr x (if (fst q =? c0)%nat then n1 else - n1) (snd q)) (combine (seq 0 (length ws)) ws) in
      Ok (mksc (Some (map fst r)) (k_classes s) (k_eta s) (k_nfeat s) (k_niter s) (S (k_t s)) (k_hist s) (k_conv s) (k_fitted s) (k_rng s),
          nsum (map snd r) / nofnat (length ws))
  end.
(** sgd_classifier.go lines 795-810 *)
Fixpoint init_weights (n cols : nat) (g : G) : list (list N * N) * G :=
  match n with
  | 0%nat => ([], g)
  | S m => let (w, g1) := init_coef cols g in let (r, g2) := init_weights m cols g1 in ((w, n0) :: r, g2)
  end.
Definition crecorded (count : bool) (s : scls) (total : N) (rows : nat) : scls :=
  mksc (k_coef s) (k_classes s) (k_eta s) (k_nfeat s) (if count then S (k_niter s) else k_niter s) (k_t s) (k_hist s ++ [total / nofnat rows]) (k_conv s) (k_fitted s) (k_rng s).
Definition cwith_fitted (s : scls) : scls :=
  mksc (k_coef s) (k_classes s) (k_eta s) (k_nfeat s) (k_niter s) (k_t s) (k_hist s) (k_conv s) true (k_rng s).
Definition cwith_conv (s : scls) : scls :=
  mksc (k_coef s) (k_classes s) (k_eta s) (k_nfeat s) (k_niter s) (k_t s) (k_hist s) true (k_fitted s) (k_rng s).
Definition cwith_rng (g : G) (s : scls) : scls :=
  mksc (k_coef s) (k_classes s) (k_eta s) (k_nfeat s) (k_niter s) (k_t s) (k_hist s) (k_conv s) (k_fitted s) g.
(** sgd_classifier.go lines 177-213 *)
Fixpoint cls_epochs (k : closs) (p : sparams) (n : nat) (s : scls) (l : list (list N * option N)) : scls * res unit :=
  match n with
  | 0%nat => (s, Ok tt)
  | S m =>
      let '(idx, g) := if sp_shuffle p then shuffle (length l) (k_rng s) else (seq 0 (length l), k_rng s) in
      match spass (cls_update k p) (cwith_rng g s) n0 (in_order idx l) with
      | (s1, total, Ok _) =>
          let s2 := crecorded true s1 total (length l) in
          match check_conv p (k_hist s2) with
          | Ok true => (cwith_conv s2, Ok tt)
          | Ok false => cls_epochs k p m s2 l
          | Err e => (s2, Err e)
          | Panic => (s2, Panic)
          end
      | (s1, _, r) => (s1, r)
      end
  end.
(** sgd_classifier.go lines 156-222 *)
Definition cls_fit (order : list Z -> list Z) (k : closs) (p : sparams) (s : scls) (X y : matrix N) : scls * res unit :=
  let s0 := if negb (sp_warm p) || (match k_coef s with None => true | Some _ => false end) then scls_reset s else s in
  let cls := match k_classes s0 with None => extract_classes order (labels toint y) | Some c => c end in
  let s1 := match k_coef s0 with
            | None => let (w, g) := init_weights (length cls) (mcols X) (k_rng s0) in
                      mksc (Some w) (Some cls) (k_eta s0) (mcols X) (k_niter s0) (k_t s0) (k_hist s0) (k_conv s0) (k_fitted s0) g
            | Some w => mksc (Some w) (Some cls) (k_eta s0) (mcols X) (k_niter s0) (k_t s0) (k_hist s0) (k_conv s0) (k_fitted s0) (k_rng s0)
            end in
  match cls_epochs k p (sp_maxiter p) s1 (samples X y) with
  | (s2, Ok _) => (cwith_fitted s2, Ok tt)
  | r => r
  end.
(** sgd_classifier.go lines 225-266; the number of iterations is not counted. *)
Definition cls_partial (order : list Z -> list Z) (k : closs) (p : sparams) (s : scls) (X y : matrix N) (classes : option (list Z)) : scls * res unit :=
  let s1 := match k_coef s with
            | None =>
                let cls := match classes with None => extract_classes order (labels toint y) | Some c => c end in
                let (w, g) := init_weights (length cls) (mcols X) (k_rng s) in
                mksc (Some w) (Some cls) (k_eta s) (mcols X) (k_niter s) (k_t s) (k_hist s) (k_conv s) (k_fitted s) g
            | Some _ => s
            end in
  if negb (mcols X =? k_nfeat s1)%nat then (s1, Err (EDimension (k_nfeat s1) (mcols X)))
  else match spass (cls_update k p) s1 n0 (samples X y) with
       | (s2, total, Ok _) => (cwith_fitted (crecorded false s2 total (nrows X)), Ok tt)
       | (s2, _, r) => (s2, r)
       end.
(** sgd_classifier.go lines 399-442 *)
Definition cls_predict (s : scls) (X : matrix N) : res (list Z) :=
  if negb (k_fitted s) then Err ENotFitted
  else if negb (mcols X =? k_nfeat s)%nat then Err (EDimension (k_nfeat s) (mcols X))
  else
    let* _ := newdense (nrows X) 1 in
    mapM (fun row =>
      match k_classes s with
      | None | Some [] => Panic
      | Some (c0 :: cr) =>
          let* vs := class_scores (match k_coef s with None => [] | Some l => l end) row in
          Ok (pick (c0 :: cr) vs None c0)
      end) (mrows X).
(** sgd_classifier.go lines 445-491 *)
Definition soft (vs : list N) : list N := let es := map nexp vs in map (fun e => e / nsum es) es.
Definition cls_proba (s : scls) (X : matrix N) : res (list (list N)) :=
  if negb (k_fitted s) then Err ENotFitted
  else if negb (mcols X =? k_nfeat s)%nat then Err (EDimension (k_nfeat s) (mcols X))
  else
    let* _ := newdense (nrows X) (length (match k_classes s with None => [] | Some c => c end)) in
    mapM (fun row => rmap soft (class_scores (match k_coef s with None => [] | Some l => l end) row)) (mrows X).
End Sgd.
Arguments sparams : clear implicits.
Arguments sreg : clear implicits.
Arguments scls : clear implicits.
