(** The trainer of sklearn/lightgbm: sampling and regularisation (trainer_params.go), tree
    growth and the boosting loop (trainer.go).  Left out: callbacks and logging, class
    weights, validation, native multiclass, and the trainer's own histograms (buildHistograms,
    buildNodeHistogram), which are computed but not used to choose splits.  The random
    generator is a state with a function [intn], and int(float64) is [toint]. *)
From Coq Require Import String List Arith ZArith Bool.
From Verif Require Import Base.Num Base.GoRes Base.ListX Model.LgbTree Model.LgbHist.
Import ListNotations.
Local Open Scope list_scope.
Local Open Scope num_scope.

Section LgbTrain.
  Context {N : Num}.
  Variable toint : N -> Z.
  Context {St : Type}.
  Variable intn : nat -> St -> nat * St.

  (** * Sampling *)

  (** The partial Fisher-Yates loops: [for i := 0; i < k; i++ { j := i + IntN(n-i); swap }];
      [i] rounds are done, [k] are left. *)
  Fixpoint fisher {A} (n i k : nat) (l : list A) (g : St) : list A * St :=
    match k with
    | 0 => (l, g)
    | S k' => let (r, g') := intn (n - i) g in fisher n (S i) k' (exch i (i + r) l) g'
    end.
  (** int(float64(n) * fraction) kept in [1, n], lines 45-51 and 96-102 *)
  Definition sample_count (n : nat) (fraction : N) : nat :=
    let k := toint (nofnat n * fraction) in
    let k := if (k <? 1)%Z then 1%Z else k in
    if (Z.of_nat n <? k)%Z then n else Z.to_nat k.
  (** Sampling without replacement, lines 60-71 and 111-122; the reseeding of lines 54-58
      only changes the generator state. *)
  Definition draw (n : nat) (fraction : N) (g : St) : list nat * St :=
    let k := sample_count n fraction in
    let (l, g') := fisher n 0 k (seq 0 n) g in (firstn k l, g').
  Definition whole (fraction : N) : bool := (fraction >=? n1) || (fraction <=? n0).
  (** SampleFeatures, trainer_params.go lines 34-72 *)
  Definition sample_features (fraction : N) (n : nat) (g : St) : list nat * St :=
    if whole fraction then (seq 0 n, g) else draw n fraction g.
  (** SampleInstances, lines 75-123 *)
  Definition sample_instances (fraction : N) (freq : Z) (n : nat) (iter : Z) (g : St) : list nat * St :=
    if (freq <=? 0)%Z || negb (Z.rem iter freq =? 0)%Z then (seq 0 n, g)
    else if whole fraction then (seq 0 n, g) else draw n fraction g.
  (** selectDARTDropIndices, trainer.go lines 262-273, for [k] already computed (at least
      1): the final slice expression panics when [k] exceeds the number of trees. *)
  Definition dart_drop (n k : nat) (g : St) : res (list nat) :=
    if Nat.ltb n k then Panic else Ok (firstn k (fst (fisher n 0 k (seq 0 n) g))).

  (** gosssampling, trainer.go lines 921-1002.  [sorta] is the sort by decreasing |gradient|
      on pairs (index, |gradient|).  Result: selected rows, the new gradients and hessians. *)
  Definition goss_counts (top other : N) (n : nat) : nat * nat :=
    let t := toint (nofnat n * top) in
    let t := if (t <? 1)%Z then 1%nat else Z.to_nat t in
    (t, Z.to_nat (toint (nofnat (n - t) * other))).
  Definition goss (sorta : list (nat * N) -> list (nat * N)) (top other : N) (grads hess : list N) (g : St)
      : list nat * list N * list N :=
    let n := List.length grads in
    let sorted := map fst (sorta (combine (seq 0 n) (map nabs grads))) in
    let (t, o) := goss_counts top other n in
    let rest := skipn t sorted in
    if Nat.ltb 0 o && Nat.ltb t n then
      let chosen := firstn o (fst (fisher (List.length rest) 0 (Nat.min o (List.length rest)) rest g)) in
      let amp := (n1 - top) / other in
      let boost l := if other >? n0 then fold_left (fun l i => upd i (fun v => v * amp) l) chosen l else l in
      (firstn t sorted ++ chosen, boost grads, boost hess)
    else (firstn t sorted, grads, hess).

  (** * Regularisation *)

  (** ApplyLeafRegularization, trainer_params.go lines 140-158 *)
  Definition leaf_reg (l1 l2 sg sh : N) : N :=
    let d := sh + l2 + eps10 in
    if l1 >? n0 then
      if sg >? l1 then - (sg - l1) / d
      else if sg <? - l1 then - (sg + l1) / d
      else n0
    else - sg / d.
  (** calculateScore and CalculateSplitGain, lines 161-214 (used by no split search) *)
  Definition node_score (l1 l2 sg sh : N) : N :=
    if nisnan sg || nisnan sh || nisinf sg || nisinf sh then n0
    else
      let d := sh + l2 + eps10 in
      if nabs d <? eps10 then n0
      else
        let out (num : N) := let s := nlit 1 2 * num * num / d in if nisnan s || nisinf s then n0 else s in
        if l1 >? n0 then
          if sg >? l1 then out (sg - l1) else if sg <? - l1 then out (sg + l1) else n0
        else out sg.
  Definition split_gain (l1 l2 lg lh rg rh pg ph : N) : N :=
    node_score l1 l2 lg lh + node_score l1 l2 rg rh - node_score l1 l2 pg ph.

  (** * Tree growth *)

  (** The fields of TrainingParams used here, trainer.go lines 79-143.  [tp_mindata] is the
      minimum used by buildNode (adjusted for GOSS, lines 1029-1044); [tp_findmin] the one
      used by the split search.  [tp_ffrac] and [tp_mono] are read by Fit but have no effect
      on the trees. *)
  Record tparams := mktp {
    tp_maxdepth : Z; tp_leaves : Z; tp_mindata : Z; tp_findmin : Z; tp_mingain : N;
    tp_l1 : N; tp_l2 : N; tp_maxbin : Z; tp_cats : list Z; tp_lr : N; tp_ffrac : N; tp_mono : list Z }.

  Variables (X : nat -> nat -> N) (G H : nat -> N).
  (** calculateLeafValue, lines 1278-1294 *)
  Definition leaf_value (p : tparams) (idxs : list nat) : N :=
    leaf_reg (tp_l1 p) (tp_l2 p) (nsum (map G idxs)) (nsum (map H idxs)).
  Definition leaf_node (v : N) : gnode N := mkgn (-1) (-1) TLeaf 0 n0 [] false n0 v n0.
  (** countLeavesInTree, lines 1372-1380: an inner node under construction has children 0 *)
  Definition counts_leaf (n : gnode N) : bool :=
    match g_type n with TLeaf => true | _ => g_isleaf n end.
  Definition leaves_so_far (ns : list (gnode N)) : Z := Z.of_nat (List.length (filter counts_leaf ns)).
  (** The stopping conditions of lines 1048-1050 *)
  Definition stop (p : tparams) (ns : list (gnode N)) (depth : nat) (idxs : list nat) : bool :=
    ((0 <? tp_maxdepth p)%Z && (tp_maxdepth p <=? Z.of_nat depth)%Z)
    || (Z.of_nat (List.length idxs) <? tp_mindata p)%Z
    || ((0 <? tp_leaves p)%Z && (tp_leaves p - 1 <=? leaves_so_far ns)%Z).
  (** Does row [i] go left: splitData (lines 1262-1275) or splitCategoricalData
      (categorical.go lines 39-52).  A split without categories on a categorical feature has
      threshold 0, for which getCategoriesForSplit returns no category. *)
  Definition goes_left (p : tparams) (s : split N) (i : nat) : bool :=
    let f := Z.to_nat (s_feat s) in
    if is_cat (tp_cats p) f then existsb (Z.eqb (toint (X i f))) (s_cats s)
    else X i f <=? s_thr s.
  Definition inner_node (p : tparams) (s : split N) : gnode N :=
    let c := is_cat (tp_cats p) (Z.to_nat (s_feat s)) in
    mkgn 0 0 (if c then TCat else TNum) (s_feat s) (s_thr s) (if c then s_cats s else []) false (s_gain s) n0 n0.
  (** buildNode, lines 1026-1139: the nodes and the index of the new node.  [find] is
      FindBestSplit on the node's rows; [None]: out of fuel. *)
  Fixpoint build_node (fuel : nat) (find : list nat -> res (split N)) (p : tparams)
      (ns : list (gnode N)) (idxs : list nat) (depth : nat) : option (res (list (gnode N) * nat)) :=
    match fuel with
    | 0 => None
    | S fuel' =>
        let id := List.length ns in
        let leaf := Some (Ok (ns ++ [leaf_node (leaf_value p idxs)], id)) in
        if stop p ns depth idxs then leaf
        else match find idxs with
             | Ok s =>
                 if (s_feat s =? -1)%Z || (s_gain s <? tp_mingain p) then leaf
                 else
                   match build_node fuel' find p (ns ++ [inner_node p s]) (filter (goes_left p s) idxs) (S depth) with
                   | Some (Ok (ns1, l)) =>
                       match build_node fuel' find p ns1 (filter (fun i => negb (goes_left p s i)) idxs) (S depth) with
                       | Some (Ok (ns2, r)) => Some (Ok (upd id (set_children (Z.of_nat l) (Z.of_nat r)) ns2, id))
                       | o => o
                       end
                   | o => o
                   end
             | Err e => Some (Err e)
             | Panic => Some Panic
             end
    end.
  (** countLeaves, lines 1361-1369 *)
  Definition count_leaf_nodes (ns : list (gnode N)) : nat :=
    List.length (filter (fun n => match g_type n with TLeaf => true | _ => false end) ns).
  (** buildTreeWithSamples, lines 1005-1023, for any split search *)
  Definition build_tree_with (fuel : nat) (find : list nat -> res (split N)) (p : tparams) (idxs : list nat) : option (res (gtree N)) :=
    match build_node fuel find p [] idxs 0 with
    | Some (Ok (ns, _)) => Some (Ok (mkgt ns [] (tp_lr p) n0 (Z.of_nat (count_leaf_nodes ns))))
    | Some (Err e) => Some (Err e)
    | Some Panic => Some Panic
    | None => None
    end.
  (** The split search of the trainer *)
  Variable sortf : list N -> list N.
  Variable sortr : list (N * bin N) -> list (N * bin N).
  Definition finder (p : tparams) (cols : nat) (idxs : list nat) : res (split N) :=
    find_best_split sortf toint X G H sortr (tp_maxbin p) (tp_cats p) (tp_l2 p) (tp_l1 p) (tp_mingain p) (tp_findmin p) cols idxs.
  Definition build_tree (fuel : nat) (p : tparams) (cols : nat) (idxs : list nat) : option (res (gtree N)) :=
    build_tree_with fuel (finder p cols) p idxs.
End LgbTrain.
Arguments tparams N : clear implicits.

Section Boost.
  Context {N : Num}.
  Variable toint : N -> Z.
  Variables (X : nat -> nat -> N) (cols : nat) (sortf : list N -> list N) (sortr : list (N * bin N) -> list (N * bin N)).
  (** Gradient and hessian of the objective: prediction, target *)
  Variables ograd ohess : N -> N -> N.
  Variables (y w : list N).

  (** calculateGradients, trainer.go lines 849-872, without class weights *)
  Definition weighted (o : N -> N -> N) (preds : list N) : list N :=
    map (fun pyw => o (fst pyw) (fst (snd pyw)) * snd (snd pyw)) (combine preds (combine y w)).
  Definition row (i : nat) : list N := map (X i) (seq 0 cols).
  (** updatePredictions, lines 1297-1317 *)
  Fixpoint update_preds (fuel : nat) (t : gtree N) (i : nat) (preds : list N) : option (res (list N)) :=
    match preds with
    | [] => Some (Ok [])
    | p :: r =>
        match tree_predict toint fuel t (row i) with
        | Some (Ok o) =>
            match update_preds fuel t (S i) r with
            | Some (Ok r') => Some (Ok ((p + o * gt_shrink t) :: r'))
            | x => x
            end
        | Some (Err e) => Some (Err e)
        | Some Panic => Some Panic
        | None => None
        end
    end.
  (** One round of Fit without GOSS, lines 454-517; [idxs] are the sampled rows *)
  Definition boost_round (fuel : nat) (p : tparams N) (idxs : list nat) (st : list (gtree N) * list N)
      : option (res (list (gtree N) * list N)) :=
    let gs := weighted ograd (snd st) in
    let hs := weighted ohess (snd st) in
    match build_tree toint X (fun i => nth i gs n0) (fun i => nth i hs n0) sortf sortr fuel p cols idxs with
    | Some (Ok t) =>
        match update_preds fuel t 0 (snd st) with
        | Some (Ok preds) => Some (Ok (fst st ++ [t], preds))
        | Some (Err e) => Some (Err e)
        | Some Panic => Some Panic
        | None => None
        end
    | Some (Err e) => Some (Err e)
    | Some Panic => Some Panic
    | None => None
    end.
  (** The training loop of Fit: [bags] lists the sampled rows of the rounds *)
  Fixpoint boost (fuel : nat) (p : tparams N) (bags : list (list nat)) (st : list (gtree N) * list N)
      : option (res (list (gtree N) * list N)) :=
    match bags with
    | [] => Some (Ok st)
    | b :: r => match boost_round fuel p b st with
                | Some (Ok st') => boost fuel p r st'
                | o => o
                end
    end.
  Definition fit (fuel : nat) (p : tparams N) (init : N) (bags : list (list nat)) : option (res (list (gtree N) * list N)) :=
    boost fuel p bags ([], repeat init (List.length y)).
  (** calculateLoss, lines 1335-1358, with weights *)
  Definition train_loss (oloss : N -> N -> N) (preds : list N) : N :=
    nsum (weighted oloss preds) / nsum w.
  (** GetModel, lines 1383-1401 *)
  Definition get_model (obj : string) (ncl : Z) (p : tparams N) (init : N) (ts : list (gtree N)) : gmodel N :=
    mkgm obj (if (0 <? ncl)%Z then ncl else 1%Z) (Z.of_nat (List.length ts)) 0 (tp_lr p) ts (Z.of_nat cols) init.
End Boost.
