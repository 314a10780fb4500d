(** sklearn/cluster/minibatch_kmeans.go: MiniBatchKMeans.  The mutex makes every method
    atomic; logging and printing are not modelled.  Matrices are well formed ([wf]).
    The integer options are natural numbers (negative values of nClusters and batchSize
    make the Go code panic, negative nInit and maxIter behave like 0); the int counters
    do not overflow. *)
From Coq Require Import List Arith Bool.
From Verif Require Import Base.Num Base.GoRes Base.Mat Base.ListX Base.Inf.
Import ListNotations.
Local Open Scope num_scope.

Section KMeans.
  Context {N : Num}.
  (** The random generator: a state with rng.IntN and rng.Float64. *)
  Variable G : Type.
  Variable intn : nat -> G -> nat * G.
  Variable float01 : G -> N * G.

  (** Hyperparameters, lines 28-40 (verbose, randomState, initSize and reassignmentRatio
      do not influence the results); [plusplus] is init other than "random". *)
  Record options := mkopts {
    o_clusters : nat; o_plusplus : bool; o_maxiter : nat; o_batch : nat; o_labels : bool;
    o_tol : N; o_maxnoimp : nat; o_ninit : nat }.
  (** Learned state, lines 43-47 and 52.  [None] is a nil slice; [k_inertia = None] is +Inf. *)
  Record km := mkkm {
    k_centers : option (list (list N)); k_labels : option (list nat); k_inertia : option N;
    k_niter : nat; k_nfeat : nat; k_counts : option (list nat); k_fitted : bool }.

  (** euclideanDistance, lines 586-598; [None] is +Inf for different lengths. *)
  Definition euclid (a b : list N) : option N :=
    if Nat.eqb (length a) (length b) then
      Some (nsqrt (fold_left (fun s ab => s + (fst ab - snd ab) * (fst ab - snd ab)) (combine a b) n0))
    else None.

  (** findNearestCluster, lines 553-566 *)
  Fixpoint nearest_from (c : nat) (sample : list N) (centers : list (list N)) (best : option N) (at_ : nat) : nat :=
    match centers with
    | [] => at_
    | ctr :: r =>
        match euclid sample ctr with
        | Some d => if lt_best d best then nearest_from (S c) sample r (Some d) c
                    else nearest_from (S c) sample r best at_
        | None => nearest_from (S c) sample r best at_
        end
    end.
  Definition nearest (sample : list N) (centers : list (list N)) : nat := nearest_from 0 sample centers None 0.

  (** mat.Row(nil, i, X) panics when the row does not exist. *)
  Definition row_at (X : matrix N) (i : nat) : res (list N) :=
    match nth_error (mrows X) i with Some r => Ok r | None => Panic end.

  (** computeInertia, lines 569-581; centers[0] panics without centres. *)
  Definition compute_inertia (X : matrix N) (centers : list (list N)) : res N :=
    foldM (fun acc sample =>
        match nth_error centers (nearest sample centers) with
        | Some ctr => let d := min_value (euclid sample ctr) in Ok (acc + d * d)
        | None => Panic
        end) n0 (mrows X).

  (** The update of one centre, lines 211-213 and 277-279: the first cols entries move. *)
  Definition blend (eta : N) (ctr sample : list N) : res (list N) :=
    if Nat.ltb (length ctr) (length sample) then Panic
    else Ok (mapi (fun j v => match nth_error sample j with
                              | Some x => (n1 - eta) * v + eta * x
                              | None => v
                              end) ctr).
  (** One sample, lines 204-213 and 270-279 *)
  Definition kstep (cc : list (list N) * list nat) (sample : list N) : res (list (list N) * list nat) :=
    let (centers, counts) := cc in
    let k := nearest sample centers in
    match nth_error counts k, nth_error centers k with
    | Some n, Some ctr =>
        let eta := n1 / nofnat (S n) in
        let* ctr' := blend eta ctr sample in
        Ok (upd k (fun _ => ctr') centers, upd k S counts)
    | _, _ => Panic
    end.

  (** rng.IntN(n) panics for n = 0. *)
  Definition draw (n : nat) (g : G) : res (nat * G) :=
    if Nat.eqb n 0 then Panic else Ok (intn n g).

  (** initializeCenters with init "random", lines 462-468 *)
  Fixpoint init_random (k : nat) (X : matrix N) (g : G) : res (list (list N) * G) :=
    match k with
    | 0 => Ok ([], g)
    | S k' =>
        let* ig := draw (nrows X) g in
        let* r := row_at X (fst ig) in
        let* rest := init_random k' X (snd ig) in
        Ok (r :: fst rest, snd rest)
    end.

  (** initKMeansPlusPlus, lines 478-528.  [min_dist]: the smallest distance to the
      centres chosen so far (lines 496-503). *)
  Definition min_dist (sample : list N) (centers : list (list N)) : option N :=
    fold_left (fun b ctr => match euclid sample ctr with
                            | Some d => if lt_best d b then Some d else b
                            | None => b
                            end) centers None.
  (** Lines 511-520: the first index whose cumulative sum reaches the target, else 0. *)
  Fixpoint select (i : nat) (cum target : N) (ds : list N) : nat :=
    match ds with
    | [] => 0
    | d :: r => if target <=? cum + d then i else select (S i) (cum + d) target r
    end.
  Fixpoint pp_loop (k : nat) (X : matrix N) (centers : list (list N)) (g : G) : res (list (list N) * G) :=
    match k with
    | 0 => Ok (centers, g)
    | S k' =>
        let ds := map (fun s => let m := min_value (min_dist s centers) in m * m) (mrows X) in
        let (u, g1) := float01 g in
        let* r := row_at X (select 0 n0 (u * nsum ds) ds) in
        pp_loop k' X (centers ++ [r]) g1
    end.
  Definition init_pp (k : nat) (X : matrix N) (g : G) : res (list (list N) * G) :=
    match k with
    | 0 => Panic
    | S k' =>
        let* ig := draw (nrows X) g in
        let* r := row_at X (fst ig) in
        pp_loop k' X [r] (snd ig)
    end.
  Definition init_centers (o : options) (X : matrix N) (g : G) : res (list (list N) * G) :=
    if o_plusplus o then init_pp (o_clusters o) X g else init_random (o_clusters o) X g.

  (** selectMiniBatch, lines 531-550: Fisher-Yates from the last position down. *)
  Definition swap (i j : nat) (l : list nat) : list nat :=
    match nth_error l i, nth_error l j with
    | Some a, Some b => upd i (fun _ => b) (upd j (fun _ => a) l)
    | _, _ => l
    end.
  Fixpoint shuffle (i : nat) (l : list nat) (g : G) : list nat * G :=
    match i with
    | 0 => (l, g)
    | S i' => let (j, g1) := intn (S i) g in shuffle i' (swap i j l) g1
    end.
  Definition select_batch (o : options) (n : nat) (g : G) : list nat * G :=
    let (l, g1) := shuffle (n - 1) (seq 0 n) g in (firstn (Nat.min (o_batch o) n) l, g1).

  (** The iterations of fitSingleRun, lines 197-234; the result is the centres and the
      index of the last iteration. *)
  Fixpoint run_loop (o : options) (X : matrix N) (fuel iter last : nat) (cc : list (list N) * list nat)
      (prev : option N) (noimp : nat) (g : G) : res (list (list N) * nat * G) :=
    match fuel with
    | 0 => Ok (fst cc, last, g)
    | S fuel' =>
        let (idx, g1) := select_batch o (nrows X) g in
        let* samples := mapM (row_at X) idx in
        let* cc' := foldM kstep cc samples in
        let* inertia := compute_inertia X (fst cc') in
        if match prev with None => false | Some p => p - inertia <? o_tol o end then
          if Nat.leb (o_maxnoimp o) (S noimp) then Ok (fst cc', iter, g1)
          else run_loop o X fuel' (S iter) iter cc' (Some inertia) (S noimp) g1
        else run_loop o X fuel' (S iter) iter cc' (Some inertia) 0 g1
    end.
  (** fitSingleRun, lines 186-248: centres, labels, inertia, iterations. *)
  Definition single_run (o : options) (X : matrix N) (g : G)
      : res (list (list N) * option (list nat) * N * nat * G) :=
    let* cg := init_centers o X g in
    let* r := run_loop o X (o_maxiter o) 0 0 (fst cg, repeat 0 (o_clusters o)) None 0 (snd cg) in
    let '(centers, last, g1) := r in
    let labels := if o_labels o then Some (map (fun s => nearest s centers) (mrows X)) else None in
    let* inertia := compute_inertia X centers in
    Ok (centers, labels, inertia, last, g1).

  (** The runs of Fit, lines 160-174 *)
  Fixpoint best_run (o : options) (X : matrix N) (runs : nat) (best : km) (g : G) : res (km * G) :=
    match runs with
    | 0 => Ok (best, g)
    | S runs' =>
        let* r := single_run o X g in
        let '(centers, labels, inertia, last, g1) := r in
        let best' := if lt_best inertia (k_inertia best)
                     then mkkm (Some centers) labels (Some inertia) last (k_nfeat best) (k_counts best) true
                     else best in
        best_run o X runs' best' g1
    end.
  (** Fit, lines 147-183.  The state left behind by a panic is not modelled (the old
      one is returned). *)
  Definition km_fit (o : options) (X : matrix N) (s : km) (g : G) : km * res G :=
    let s0 := mkkm (k_centers s) (k_labels s) (k_inertia s) (k_niter s) (mcols X) (k_counts s) (k_fitted s) in
    if Nat.ltb (nrows X) (o_clusters o) then (s0, Err (EOther 1))
    else match best_run o X (o_ninit o) (mkkm None None None 0 (mcols X) (k_counts s) true) g with
         | Ok (s', g') => (s', Ok g')
         | Err e => (s, Err e)
         | Panic => (s, Panic)
         end.

  (** PartialFit, lines 251-284: indexing the nil slice counts_ panics.  The state left
      behind by a panic is not modelled (the old one is returned). *)
  Definition km_partial_fit (o : options) (X : matrix N) (s : km) (g : G) : km * res G :=
    match match k_centers s with
          | None =>
              let* cg := init_centers o X g in
              Ok (mkkm (Some (fst cg)) (k_labels s) (k_inertia s) (k_niter s) (mcols X)
                       (Some (repeat 0 (o_clusters o))) (k_fitted s), snd cg)
          | Some _ => Ok (s, g)
          end with
    | Ok (s1, g1) =>
        if negb (Nat.eqb (mcols X) (k_nfeat s1)) then (s1, Err (EDimension (k_nfeat s1) (mcols X)))
        else
          let centers := match k_centers s1 with Some c => c | None => [] end in
          let counts := match k_counts s1 with Some c => c | None => [] end in
          match foldM kstep (centers, counts) (mrows X) with
          | Ok (cs, ns) =>
              (mkkm (Some cs) (k_labels s1) (k_inertia s1) (k_niter s1) (k_nfeat s1)
                    (match k_counts s1 with None => None | Some _ => Some ns end) true, Ok g1)
          | Err e => (s1, Err e)
          | Panic => (s1, Panic)
          end
    | Err e => (s, Err e)
    | Panic => (s, Panic)
    end.

  (** The checks of Transform and Predict, lines 291-298 and 318-325 *)
  Definition km_check (s : km) (X : matrix N) : res unit :=
    if negb (k_fitted s) then Err ENotFitted
    else if negb (Nat.eqb (mcols X) (k_nfeat s)) then Err (EDimension (k_nfeat s) (mcols X))
    else Ok tt.
  (** Predict, lines 314-336 *)
  Definition km_predict (s : km) (X : matrix N) : res (list nat) :=
    let* _ := km_check s X in
    let* _ := newdense (nrows X) 1 in
    Ok (map (fun r => nearest r (match k_centers s with Some c => c | None => [] end)) (mrows X)).
  (** Transform, lines 287-311: clusterCenters_[c] panics when there are too few. *)
  Definition km_transform (o : options) (s : km) (X : matrix N) : res (list (list N)) :=
    let* _ := km_check s X in
    let* _ := newdense (nrows X) (o_clusters o) in
    mapM (fun r => mapM (fun c =>
        match nth_error (match k_centers s with Some c => c | None => [] end) c with
        | Some ctr => Ok (min_value (euclid r ctr))
        | None => Panic
        end) (seq 0 (o_clusters o))) (mrows X).
  (** A new estimator, lines 55-96 *)
  Definition km_new : km := mkkm None None (Some n0) 0 0 None false.
End KMeans.
Arguments km N : clear implicits.
Arguments options N : clear implicits.
