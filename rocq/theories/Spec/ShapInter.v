(** Decision trees with a value at every node, and what the interaction values of the code are made of. *)
From Coq Require Import List Arith ZArith Bool Reals.
From Verif Require Import Base.Num Base.RTac Model.LgbTree.
Import ListNotations.

Section Spec.
Context {N : Num}.
(** Numeric tests: value, feature, threshold, and the two sides *)
Inductive vtree := VLeaf (v : N) | VNode (v : N) (f : nat) (thr : N) (l r : vtree).
Definition node_val (T : vtree) : N := match T with VLeaf v => v | VNode v _ _ _ _ => v end.
Fixpoint tested (T : vtree) : list nat := match T with VLeaf _ => [] | VNode _ f _ l r => f :: tested l ++ tested r end.
Fixpoint vheight (T : vtree) : nat := match T with VLeaf _ => 0 | VNode _ _ _ l r => S (Nat.max (vheight l) (vheight r)) end.
(** The array stores the tree from index [id] on. *)
Inductive vstores (nodes : list (gnode N)) : Z -> vtree -> Prop :=
| vs_leaf id n : getZ nodes id = Some n -> g_type n = TLeaf -> vstores nodes id (VLeaf (g_leaf n))
| vs_node id n f l r : getZ nodes id = Some n -> g_type n <> TLeaf -> g_cats n = [] -> g_feat n = Z.of_nat f ->
    vstores nodes (g_left n) l -> vstores nodes (g_right n) r ->
    vstores nodes id (VNode (g_ival n) f (g_thr n) l r).
(** All entries of a square matrix of size [n] *)
Definition entry (M : list (list N)) (i j : nat) : option N := match nth_error M i with Some r => nth_error r j | None => None end.
Definition square (n : nat) (M : list (list N)) : Prop := length M = n /\ Forall (fun r => length r = n) M.
End Spec.

Local Open Scope R_scope.
Notation vtreeR := (@vtree RNum).
(** The tests of feature [j] on the way of a sample: the distances of the values of the two sides *)
Fixpoint gaps (T : vtreeR) (x : list R) (j : nat) : list R :=
  match T with
  | VLeaf _ => []
  | VNode _ f thr l r =>
      match nth_error x f with
      | None => []
      | Some v => (if Nat.eqb f j then [Rabs (node_val l - node_val r)] else []) ++ gaps (if Rle_dec v thr then l else r) x j
      end
  end.
(** What a tree adds for two features *)
Definition joint (T : vtreeR) (x : list R) (i j : nat) : R :=
  if in_dec Nat.eq_dec i (tested T) then if in_dec Nat.eq_dec j (tested T) then Rsum (gaps T x i) + Rsum (gaps T x j) else 0 else 0.
(** The trees of a model as decision trees whose features the sample has *)
Definition models (fuel : nat) (m : gmodel RNum) (Ts : list vtreeR) (x : list R) : Prop :=
  Forall2 (fun t T => vstores (gt_nodes t) 0 T /\ (forall f, In f (tested T) -> (f < length x)%nat) /\ (vheight T < fuel)%nat) (m_trees m) Ts.
(** The prediction of a tree *)
Fixpoint veval (T : vtreeR) (x : list R) : R :=
  match T with
  | VLeaf v => v
  | VNode _ f thr l r => match nth_error x f with Some v => veval (if Rle_dec v thr then l else r) x | None => 0 end
  end.
