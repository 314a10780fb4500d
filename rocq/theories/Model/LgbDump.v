(** Booster.DumpModel, sklearn/lightgbm/api/booster.go lines 325-424.  The fields num_nodes, leaf_count and internal_count, the names, the
    parameters and the importances are left out; fields of the dump are the arguments of constructors. *)
From Coq Require Import String List Arith ZArith Bool.
From Verif Require Import Base.Num Base.GoRes Model.LgbTree.
Import ListNotations.
Local Open Scope list_scope.

Section Dump.
  Context {N : Num}.
  (** A node of the dump: no entry, a nil map, leaf_index and leaf_value, or split_index, split_feature, split_gain, threshold,
      default_left, internal_value, left_child and right_child *)
  Inductive dnode : Type :=
  | DAbsent | DNil
  | DLeaf (index : Z) (value : N)
  | DSplit (index feature : Z) (gain threshold : N) (default_left : bool) (internal : N) (left right : dnode).
  (** dumpNode, lines 390-424; [None]: the recursion is deeper than [fuel] *)
  Fixpoint dump (fuel : nat) (t : gtree N) (id : Z) : option dnode :=
    match fuel with
    | 0 => None
    | S fuel' =>
        match getZ (gt_nodes t) id with
        | None => Some DNil
        | Some n =>
            if g_isleaf n then Some (DLeaf id (g_leaf n))
            else
              let child (c : Z) := if (0 <=? c)%Z then dump fuel' t c else Some DAbsent in
              match child (g_left n), child (g_right n) with
              | Some l, Some r => Some (DSplit id (g_feat n) (g_gain n) (g_thr n) (g_defl n) (g_ival n) l r)
              | _, _ => None
              end
        end
    end.
  (** tree_structure: only leaf_value, with all values, or nodes.  dumpTreeStructure, lines 377-387 *)
  Inductive dstruct : Type := SValues (l : list N) | SNodes (d : dnode).
  Definition dump_structure (fuel : nat) (t : gtree N) : option dstruct :=
    match gt_nodes t with [] => Some (SValues (gt_leaves t)) | _ => option_map SNodes (dump fuel t 0) end.
  (** An entry of tree_info: tree_index, num_leaves, shrinkage and tree_structure, lines 357-370 *)
  Record dtree : Type := mkdt { dt_index : nat; dt_leaves : Z; dt_shrink : N; dt_structure : dstruct }.
  Fixpoint dump_trees (fuel i : nat) (l : list (gtree N)) : option (list dtree) :=
    match l with
    | [] => Some []
    | t :: r => match dump_structure fuel t, dump_trees fuel (S i) r with
                | Some s, Some ds => Some (mkdt i (gt_nleaves t) (gt_shrink t) s :: ds)
                | _, _ => None
                end
    end.
  (** DumpModel: num_class, num_tree_per_iteration, max_feature_idx, objective and tree_info *)
  Record ddoc : Type := mkdd { dd_class : Z; dd_per : Z; dd_maxfeat : Z; dd_objective : string; dd_trees : list dtree }.
  Definition dump_model (fuel : nat) (m : gmodel N) : option ddoc :=
    match dump_trees fuel 0 (m_trees m) with
    | Some ts => Some (mkdd (m_class m) (if (2 <? m_class m)%Z then m_class m else 1%Z) (m_nfeat m - 1)%Z (m_obj m) ts)
    | None => None
    end.
End Dump.
Arguments dnode N : clear implicits.
Arguments dstruct N : clear implicits.
Arguments dtree N : clear implicits.
Arguments ddoc N : clear implicits.
