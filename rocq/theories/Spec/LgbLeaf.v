(** Leaves of a stored tree. *)
From Coq Require Import List Arith ZArith Bool.
From Verif Require Import Base.Num Model.LgbTree Spec.LgbText.
Import ListNotations.
Local Open Scope list_scope.

Section LgbLeafSpec.
  Context {N : Num}.
  (** The splits of the tree are numerical or categorical. *)
  Fixpoint proper (t : dtree N) : Prop :=
    match t with Leaf _ => True | Split n l r => g_type n <> TLeaf /\ proper l /\ proper r end.
  (** A stored binary decision tree over [nf] features *)
  Definition stored_tree (nf : Z) (t : gtree N) : Prop := exists T, gt_nodes t = preorder 0 T /\ splits_below nf T /\ proper T.
  (** The values of the leaves in the order of the array, which is from left to right in the tree *)
  Definition leaf_values (t : gtree N) : list N := map g_leaf (filter g_isleaf (gt_nodes t)).
  (** The splits made on a feature, in all trees *)
  Definition splits_on (f : Z) (m : gmodel N) : list (gnode N) :=
    filter (fun n => negb (g_isleaf n) && (g_feat n =? f)%Z) (flat_map gt_nodes (m_trees m)).
End LgbLeafSpec.
