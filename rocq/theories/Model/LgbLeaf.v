(** Leaf numbers, raw scores and feature importances: predictor.go (PredictLeafIndex),
    predictor_extended.go, model.go (GetFeatureImportance). *)
From Coq Require Import String List Arith ZArith Bool.
From Verif Require Import Base.Num Base.GoRes Base.ListX Model.LgbTransform Model.LgbTree.
Import ListNotations.
Local Open Scope string_scope.
Local Open Scope list_scope.
Local Open Scope num_scope.

Section LgbLeaf.
  Context {N : Num}.
  (** int(v), and math.Round followed by int *)
  Variables toint roundint : N -> Z.

  (** traverseToLeaf, predictor.go lines 559-619; [None] when the fuel is used up *)
  Fixpoint traverse (fuel : nat) (t : gtree N) (id : Z) (x : list N) : option (res Z) :=
    match fuel with
    | 0 => None
    | S fuel' =>
        match getZ (gt_nodes t) id with
        | None => Some (Ok id)
        | Some n =>
            if g_isleaf n then Some (Ok id)
            else if (Z.of_nat (List.length x) <=? g_feat n)%Z then traverse fuel' t (g_default n) x
            else match getZ x (g_feat n) with
                 | None => Some Panic
                 | Some v =>
                     if nisnan v then traverse fuel' t (g_default n) x
                     else match g_type n with
                          | TNum => traverse fuel' t (if le_precise v (g_thr n) then g_left n else g_right n) x
                          | TCat => traverse fuel' t (if existsb (Z.eqb (roundint v)) (g_cats n) then g_left n else g_right n) x
                          | TLeaf => Some (Ok id)
                          end
                 end
        end
    end.
  (** One tree of getLeafIndices, lines 535-556: the leaves stored before the node; the loop indexes Nodes[i] for i < nodeIdx *)
  Definition leaf_index (fuel : nat) (t : gtree N) (x : list N) : option (res nat) :=
    match traverse fuel t 0 x with
    | Some (Ok id) =>
        Some (if (Z.of_nat (List.length (gt_nodes t)) <? id)%Z then Panic
              else Ok (List.length (filter g_isleaf (firstn (Z.to_nat id) (gt_nodes t)))))
    | Some (Err e) => Some (Err e)
    | Some Panic => Some Panic
    | None => None
    end.
  (** PredictLeafIndex, lines 479-494, on one row; the number of columns is checked before *)
  Definition leaf_indices (fuel : nat) (m : gmodel N) (x : list N) : option (res (list nat)) :=
    sequence (fun t => leaf_index fuel t x) (m_trees m).

  (** buildLeafMap, predictor_extended.go lines 144-180: the map from node to leaf number and the counter.
      A cycle of nodes makes the recursion endless ([None] for all fuel). *)
  Fixpoint leaf_map (fuel : nat) (t : gtree N) (id : Z) (st : list (Z * nat) * nat) : option (list (Z * nat) * nat) :=
    match fuel with
    | 0 => None
    | S fuel' =>
        match getZ (gt_nodes t) id with
        | None => Some st
        | Some n =>
            let number (c : Z) (st : list (Z * nat) * nat) := ((c, snd st) :: fst st, S (snd st)) in
            if g_isleaf n then Some (number id st)
            else
              let child (c : Z) (st : list (Z * nat) * nat) := if (c <? 0)%Z then Some (number c st) else leaf_map fuel' t c st in
              match child (g_left n) st with Some st' => child (g_right n) st' | None => None end
        end
    end.
  (** The newest entry of a key counts; a missing key gives 0. *)
  Fixpoint mapped (mp : list (Z * nat)) (k : Z) : nat :=
    match mp with [] => 0%nat | (k', v) :: r => if (k =? k')%Z then v else mapped r k end.
  (** The second loop of predictTreeLeaf, lines 183-234: the node where it ends *)
  Fixpoint leaf_walk (fuel : nat) (t : gtree N) (id : Z) (x : list N) : option (res Z) :=
    match fuel with
    | 0 => None
    | S fuel' =>
        match getZ (gt_nodes t) id with
        | None => Some (Ok id)
        | Some n =>
            if g_isleaf n then Some (Ok id)
            else match getZ x (g_feat n) with
                 | None => Some Panic
                 | Some v =>
                     if nisnan v then leaf_walk fuel' t (g_default n) x
                     else match g_type n with
                          | TNum => leaf_walk fuel' t (if v <=? g_thr n then g_left n else g_right n) x
                          | TCat => leaf_walk fuel' t (if existsb (Z.eqb (toint v)) (g_cats n) then g_left n else g_right n) x
                          | TLeaf => leaf_walk fuel' t (g_left n) x
                          end
                 end
        end
    end.
  (** predictTreeLeaf, lines 137-242 *)
  Definition tree_leaf (fuel : nat) (t : gtree N) (x : list N) : option (res nat) :=
    match leaf_map fuel t 0 ([], 0%nat) with
    | None => None
    | Some (mp, _) =>
        match leaf_walk fuel t 0 x with
        | Some (Ok id) => Some (Ok (if (Z.of_nat (List.length (gt_nodes t)) <=? id)%Z then 0%nat else mapped mp id))
        | Some (Err e) => Some (Err e)
        | Some Panic => Some Panic
        | None => None
        end
    end.
  (** PredictLeaf, lines 60-93, on one row.  PredictRawScore (lines 14-56, 96-123) is [model_raw] on each row. *)
  Definition tree_leaves (fuel : nat) (m : gmodel N) (x : list N) : option (res (list nat)) :=
    sequence (fun t => tree_leaf fuel t x) (m_trees m).

  (** predictLeavesTreeLeaf, lines 278-355.  [path]: visitedLeaves with leafCounter as its length; the leaf
      found is [node.Left] or [node.Right], the right child else is the next node.  [touint] is uint32(v). *)
  Variable touint : N -> Z.
  Definition visit (k : nat) (path : list nat) : list nat := if existsb (Nat.eqb k) path then path else path ++ [k].
  Fixpoint place (k : nat) (path : list nat) : nat :=
    match path with [] => 0%nat | a :: r => if Nat.eqb k a then 0%nat else S (place k r) end.
  Fixpoint leaves_walk (fuel : nat) (t : ltree N) (idx : nat) (path : list nat) (x : list N) : option (res nat) :=
    match fuel with
    | 0 => None
    | S fuel' =>
        match nth_error (lt_nodes t) idx with
        | None => Some Panic
        | Some n =>
            let path := if l_lleaf n then visit (l_left n) path else path in
            let path := if l_rleaf n then visit (l_right n) path else path in
            match nth_error x (l_feat n) with
            | None => Some Panic
            | Some v =>
                let left :=
                  if (negb (l_mzero n) && l_mnan n && nisnan v) || (l_mzero n && negb (l_mnan n) && (v =? n0)) then l_defl n
                  else if l_cat n then (touint v =? touint (l_thr n))%Z
                  else v <=? l_thr n in
                if left then (if l_lleaf n then Some (Ok (place (l_left n) path)) else leaves_walk fuel' t (l_left n) path x)
                else (if l_rleaf n then Some (Ok (place (l_right n) path)) else leaves_walk fuel' t (S idx) path x)
            end
        end
    end.
  Definition leaves_tree_leaf (fuel : nat) (t : ltree N) (x : list N) : option (res nat) :=
    match lt_nodes t with [] => Some (Ok 0%nat) | _ => leaves_walk fuel t 0 [] x end.

  (** GetFeatureImportance, model.go lines 297-326 *)
  Definition node_importance (kind : string) (imp : list N) (n : gnode N) : res (list N) :=
    let add (d : N) :=
      if (g_feat n <? 0)%Z || (Z.of_nat (List.length imp) <=? g_feat n)%Z then Panic
      else Ok (upd (Z.to_nat (g_feat n)) (fun v => v + d) imp) in
    if g_isleaf n then Ok imp
    else if String.eqb kind "split" then add n1
    else if String.eqb kind "gain" then add (g_gain n)
    else Ok imp.
  Definition importance (kind : string) (m : gmodel N) : res (list N) :=
    if (m_nfeat m <? 0)%Z then Panic
    else
      let* imp := foldM (node_importance kind) (repeat n0 (Z.to_nat (m_nfeat m))) (flat_map gt_nodes (m_trees m)) in
      let total := nsum imp in
      Ok (if total >? n0 then map (fun v => v / total) imp else imp).
End LgbLeaf.
