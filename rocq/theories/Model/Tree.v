(** sklearn/tree/tree.go: DecisionTreeClassifier.  Matrices are well formed ([wf]);
    int options are unbounded integers, counters do not overflow. *)
From Coq Require Import List Arith ZArith Bool String.
From Verif Require Import Base.Num Base.GoRes Base.Mat Base.ListX Base.GoSort Model.NaiveBayes.
Import ListNotations.
Local Open Scope list_scope.
Local Open Scope num_scope.

Section Tree.
  Context {N : Num}.
  (** Go's conversion int(float64), math.Log2, and the sort.Slice call of lines 334-340:
      sorting the index slice by value is represented by the sorted values. *)
  Variable toint : N -> Z.
  Variable log2 : N -> N.
  Variable sortv : list N -> list N.

  (** Hyperparameters, lines 33-40 *)
  Record topts := mktopts {
    p_criterion : string; p_maxdepth : Z; p_minsplit : Z; p_minleaf : Z;
    p_maxfeatures : string; p_maxleafs : Z; p_mindec : N; p_seed : Z }.
  (** NewDecisionTreeClassifier without options, lines 56-75 *)
  Definition topts_default : topts := mktopts "gini" 0 2 1 "auto" 0 n0 (-1).

  (** TreeNode, lines 14-26; the constructor tells IsLeaf (Value is never used). *)
  Record ninfo := mkinfo {
    i_counts : list nat; i_pred : nat; i_imp : N; i_n : nat; i_depth : nat }.
  Inductive tree :=
  | Leaf (i : ninfo)
  | Split (i : ninfo) (feature : nat) (threshold : N) (l r : tree).
  Definition info (t : tree) : ninfo := match t with Leaf i => i | Split i _ _ _ _ => i end.

  (** One training sample: the row and its class index (X and y are always indexed together). *)
  Definition trow : Type := (list N * nat)%type.
  (** X.At(i, feature); features are below the number of columns during training. *)
  Definition cell (f : nat) (r : trow) : N := nth f (fst r) n0.
  Definition is_left (f : nat) (t : N) (r : trow) : bool := cell f r <=? t.

  (** Lines 182-185 and 356-369: counting classes *)
  Definition class_counts (k : nat) (rows : list trow) : list nat :=
    fold_left (fun cs r => upd (snd r) S cs) rows (repeat 0%nat k).
  (** Lines 188-195: majority class, first on ties *)
  Fixpoint majority_from (i : nat) (cs : list nat) (mx at_ : nat) : nat :=
    match cs with
    | [] => at_
    | c :: r => if Nat.ltb mx c then majority_from (S i) r c i else majority_from (S i) r mx at_
    end.
  Definition majority (cs : list nat) : nat := majority_from 0 cs 0 0.

  Definition total (cs : list nat) : nat := fold_left Nat.add cs 0%nat.
  (** calculateImpurity, lines 271-317 *)
  Definition impurity (o : topts) (cs : list nat) : N :=
    let t := total cs in
    if Nat.eqb t 0 then n0
    else if String.eqb (p_criterion o) "entropy" then
      fold_left (fun s c => if Nat.ltb 0 c then
                              let p := nofnat c / nofnat t in s - p * log2 p else s) cs n0
    else
      n1 - fold_left (fun s c => if Nat.ltb 0 c then
                                   let p := nofnat c / nofnat t in s + p * p else s) cs n0.

  (** shouldStop, lines 251-268 *)
  Definition should_stop (o : topts) (n : nat) (imp : N) (depth : nat) : bool :=
    ((0 <? p_maxdepth o)%Z && (p_maxdepth o <=? Z.of_nat depth)%Z)
    || (Z.of_nat n <? p_minsplit o)%Z
    || (imp =? n0).

  (** findBestSplit, lines 320-392.  The state is bestFeature ([None] is -1),
      bestThreshold, bestImpurityDecrease. *)
  Definition bstate : Type := (option nat * N * N)%type.
  (** Lines 355-387: one candidate threshold *)
  Definition try_threshold (o : topts) (k : nat) (rows : list trow) (parent : N) (f : nat)
      (t : N) (st : bstate) : bstate :=
    let L := filter (is_left f t) rows in
    let R := filter (fun r => negb (is_left f t r)) rows in
    let nl := List.length L in
    let nr := List.length R in
    if (Z.of_nat nl <? p_minleaf o)%Z || (Z.of_nat nr <? p_minleaf o)%Z then st
    else
      let li := impurity o (class_counts k L) in
      let ri := impurity o (class_counts k R) in
      let w := (nofnat nl * li + nofnat nr * ri) / nofnat (List.length rows) in
      let dec := parent - w in
      if snd st <? dec then (Some f, t, dec) else st.
  (** Lines 343-388: consecutive sorted values *)
  Fixpoint try_values (o : topts) (k : nat) (rows : list trow) (parent : N) (f : nat)
      (vs : list N) (st : bstate) : bstate :=
    match vs with
    | a :: ((b :: _) as r) =>
        try_values o k rows parent f r
          (if a =? b then st else try_threshold o k rows parent f ((a + b) / nlit 2 1) st)
    | _ => st
    end.
  Definition best_split (o : topts) (k nf : nat) (rows : list trow) (parent : N) : bstate :=
    fold_left (fun st f => try_values o k rows parent f (sortv (map (cell f) rows)) st)
              (seq 0 nf) (None, n0, n0).

  (** buildTree, lines 178-248, with splitData (395-408) and getSubset (411-430;
      mat.NewDense panics for an empty subset).  featureImportances_ is threaded
      through.  [fuel] bounds the recursion; [None] is exhaustion of the fuel. *)
  Fixpoint build (fuel : nat) (o : topts) (k nf : nat) (rows : list trow) (depth : nat) (imps : list N)
      : option (res (tree * list N)) :=
    match fuel with
    | 0 => None
    | S fuel' =>
        let cs := class_counts k rows in
        let i := mkinfo cs (majority cs) (impurity o cs) (List.length rows) depth in
        if should_stop o (List.length rows) (i_imp i) depth then Some (Ok (Leaf i, imps))
        else
          match best_split o k nf rows (i_imp i) with
          | (None, _, _) => Some (Ok (Leaf i, imps))
          | (Some f, t, dec) =>
              if dec <? p_mindec o then Some (Ok (Leaf i, imps))
              else
                let L := filter (is_left f t) rows in
                let R := filter (fun r => negb (is_left f t r)) rows in
                if (Z.of_nat (List.length L) <? p_minleaf o)%Z || (Z.of_nat (List.length R) <? p_minleaf o)%Z
                then Some (Ok (Leaf i, imps))
                else
                  let imps1 := upd f (fun v => v + dec * nofnat (List.length rows)) imps in
                  match newdense (List.length L) nf, newdense (List.length R) nf with
                  | Ok _, Ok _ =>
                      match build fuel' o k nf L (S depth) imps1 with
                      | None => None
                      | Some (Ok (lt, imps2)) =>
                          match build fuel' o k nf R (S depth) imps2 with
                          | None => None
                          | Some (Ok (rt, imps3)) => Some (Ok (Split i f t lt rt, imps3))
                          | Some _ => Some Panic
                          end
                      | Some _ => Some Panic
                      end
                  | _, _ => Some Panic
                  end
          end
    end.

  (** Learned state, lines 43-49 and the fitted flag; nil tree and nil importances are [None],
      nClasses_ is always len(classes_). *)
  Record dt := mkdt {
    t_tree : option tree; t_classes : list Z; t_nfeat : nat; t_imps : option (list N); t_fitted : bool }.
  Definition dt_new : dt := mkdt None [] 0 None false.

  (** extractClasses, lines 158-175: sort.Ints of distinct integers has one possible result. *)
  Definition tree_classes (labels : list Z) : list Z := isort Z.ltb (nodup Z.eq_dec labels).
  (** Lines 136-145 *)
  Definition label_index (classes : list Z) (c : Z) : nat :=
    match class_index c classes with Some j => j | None => 0%nat end.

  (** normalizeFeatureImportances, lines 433-444 *)
  Definition normalize_imps (imps : list N) : list N :=
    let s := nsum imps in
    if n0 <? s then map (fun v => v / s) imps else imps.

  (** Fit, lines 115-155.  A panic of buildTree leaves the new classes behind (the partly
      accumulated importances are not tracked in that case). *)
  Definition dt_fit (o : topts) (X y : matrix N) (s : dt) : dt * res unit :=
    if negb (Nat.eqb (nrows X) (nrows y)) then (s, Err (EOther 1))
    else if negb (Nat.eqb (mcols y) 1) then (s, Err (EOther 2))
    else
      let labels := map (fun r => toint (nth 0 r n0)) (mrows y) in
      let classes := tree_classes labels in
      let rows := combine (mrows X) (map (label_index classes) labels) in
      match build (S (nrows X)) o (List.length classes) (mcols X) rows 0 (repeat n0 (mcols X)) with
      | Some (Ok (t, imps)) => (mkdt (Some t) classes (mcols X) (Some (normalize_imps imps)) true, Ok tt)
      | _ => (mkdt (t_tree s) classes (mcols X) (Some (repeat n0 (mcols X))) (t_fitted s), Panic)
      end.

  (** Lines 456-465 and 484-493: traversal; X.At panics for a missing column. *)
  Fixpoint descend (t : tree) (x : list N) : res ninfo :=
    match t with
    | Leaf i => Ok i
    | Split _ f thr l r =>
        match nth_error x f with
        | None => Panic
        | Some v => if v <=? thr then descend l x else descend r x
        end
    end.
  (** Predict, lines 447-472 *)
  Definition dt_predict (s : dt) (X : matrix N) : res (list N) :=
    if negb (t_fitted s) then Err (EOther 3)
    else
      let* _ := newdense (nrows X) 1 in
      match t_tree s with
      | None => Panic
      | Some t =>
          mapM (fun x => let* i := descend t x in
                         match nth_error (t_classes s) (i_pred i) with
                         | Some c => Ok (nofZ c)
                         | None => Panic
                         end) (mrows X)
      end.
  (** PredictProba, lines 475-509 *)
  Definition dt_proba (s : dt) (X : matrix N) : res (list (list N)) :=
    if negb (t_fitted s) then Err (EOther 3)
    else
      let* _ := newdense (nrows X) (List.length (t_classes s)) in
      match t_tree s with
      | None => Panic
      | Some t =>
          mapM (fun x => let* i := descend t x in
                         let tot := total (i_counts i) in
                         mapM (fun j => if Nat.ltb 0 tot then
                                          match nth_error (i_counts i) j with
                                          | Some c => Ok (nofnat c / nofnat tot)
                                          | None => Panic
                                          end
                                        else Ok n0) (seq 0 (List.length (t_classes s)))) (mrows X)
      end.
  (** Score, lines 512-528 *)
  Definition dt_score (s : dt) (X y : matrix N) : res N :=
    match dt_predict s X with
    | Err _ => Ok n0
    | Panic => Panic
    | Ok ps =>
        let* correct := foldM (fun n ip => match nth_error (mrows y) (fst ip) with
                                           | Some (v :: _) => Ok (if snd ip =? v then S n else n)
                                           | _ => Panic
                                           end) 0%nat (combine (seq 0 (nrows X)) ps) in
        Ok (nofnat correct / nofnat (nrows X))
    end.

  (** getMaxDepth, lines 592-604, and countLeaves, lines 615-623 *)
  Fixpoint max_depth (t : tree) : nat :=
    match t with
    | Leaf i => i_depth i
    | Split _ _ _ l r => if Nat.ltb (max_depth r) (max_depth l) then max_depth l else max_depth r
    end.
  Fixpoint count_leaves (t : tree) : nat :=
    match t with Leaf _ => 1%nat | Split _ _ _ l r => (count_leaves l + count_leaves r)%nat end.
  Definition dt_depth (s : dt) : nat := match t_tree s with None => 0%nat | Some t => max_depth t end.
  Definition dt_leaves (s : dt) : nat := match t_tree s with None => 0%nat | Some t => count_leaves t end.

  (** * SetParams and GetParams, lines 531-569.  Dynamic values: *)
  Inductive pval := VStr (s : string) | VInt (z : Z) | VInt64 (z : Z) | VFloat (x : N).
  (** One entry of the map; a type assertion on the wrong type panics. *)
  Definition set_param (o : topts) (kv : string * pval) : res topts :=
    let (key, v) := kv in
    let '(mktopts cr md ms ml mf mx mi sd) := o in
    if String.eqb key "criterion" then
      match v with VStr s => Ok (mktopts s md ms ml mf mx mi sd) | _ => Panic end
    else if String.eqb key "max_depth" then
      match v with VInt z => Ok (mktopts cr z ms ml mf mx mi sd) | _ => Panic end
    else if String.eqb key "min_samples_split" then
      match v with VInt z => Ok (mktopts cr md z ml mf mx mi sd) | _ => Panic end
    else if String.eqb key "min_samples_leaf" then
      match v with VInt z => Ok (mktopts cr md ms z mf mx mi sd) | _ => Panic end
    else if String.eqb key "max_features" then
      match v with VStr s => Ok (mktopts cr md ms ml s mx mi sd) | _ => Panic end
    else if String.eqb key "max_leaf_nodes" then
      match v with VInt z => Ok (mktopts cr md ms ml mf z mi sd) | _ => Panic end
    else if String.eqb key "min_impurity_decrease" then
      match v with VFloat x => Ok (mktopts cr md ms ml mf mx x sd) | _ => Panic end
    else if String.eqb key "random_state" then
      match v with VInt64 z => Ok (mktopts cr md ms ml mf mx mi z) | _ => Panic end
    else Err (EOther 4).
  (** SetParams: the entries in the order chosen by the map iteration; the result is
      the options left behind and the outcome. *)
  Fixpoint set_params (entries : list (string * pval)) (o : topts) : topts * res unit :=
    match entries with
    | [] => (o, Ok tt)
    | kv :: r =>
        match set_param o kv with
        | Ok o' => set_params r o'
        | Err e => (o, Err e)
        | Panic => (o, Panic)
        end
    end.
  (** GetParams, as the entries of the map *)
  Definition get_params (o : topts) : list (string * pval) :=
    [("criterion"%string, VStr (p_criterion o)); ("max_depth"%string, VInt (p_maxdepth o));
     ("min_samples_split"%string, VInt (p_minsplit o)); ("min_samples_leaf"%string, VInt (p_minleaf o));
     ("max_features"%string, VStr (p_maxfeatures o)); ("max_leaf_nodes"%string, VInt (p_maxleafs o));
     ("min_impurity_decrease"%string, VFloat (p_mindec o)); ("random_state"%string, VInt64 (p_seed o))].
End Tree.
Arguments topts N : clear implicits.
Arguments ninfo N : clear implicits.
Arguments tree N : clear implicits.
Arguments trow N : clear implicits.
Arguments dt N : clear implicits.
Arguments pval N : clear implicits.
