(** What sampling, leaf outputs and tree growth should be. *)
From Coq Require Import List Arith ZArith Bool Reals.
From Verif Require Import Base.Num Base.RTac Base.ListX Model.LgbTree Model.LgbHist Spec.LgbTree.
Import ListNotations.
Local Open Scope list_scope.

(** ** Sampling *)

(** A random generator whose [intn n] is below [n] *)
Definition in_range {St} (intn : nat -> St -> nat * St) : Prop := forall n g, 0 < n -> fst (intn n g) < n.
(** [l] is a selection of [k] different elements of [pool]. *)
Definition selection {A} (pool : list A) (k : nat) (l : list A) : Prop :=
  NoDup l /\ List.length l = k /\ incl l pool.
(** A generator replaying a list of numbers *)
Definition replay (n : nat) (g : list nat) : nat * list nat :=
  match g with [] => (0, []) | r :: g' => (Nat.modulo r n, g') end.

(** The number of elements a fraction of [n] stands for: the integer part, at least 1 and at
    most all. *)
Definition requested (n : nat) (fraction : R) (k : nat) : Prop :=
  1 <= k <= n /\ (k < n -> 1 < k -> (INR k <= INR n * fraction < INR k + 1)%R)
  /\ ((INR n * fraction < 1)%R -> k = 1) /\ ((INR n <= INR n * fraction)%R -> k = n).

(** ** The second-order objective of a leaf with output [w]: gradient sum [sg], hessian sum
    [sh], penalties [l1] and [l2]; the hessian is increased by 1e-10. *)
Local Open Scope R_scope.
Definition leaf_objective (l1 l2 sg sh w : R) : R :=
  sg * w + 1 / 2 * (sh + l2 + 1 / 10000000000) * (w * w) + l1 * Rabs w.
Local Close Scope R_scope.

(** ** Trees in an array *)
Section Trees.
  Context {N : Num}.
  (** [path ns a k b]: from node [a] one reaches node [b] by [k] steps to a child. *)
  Inductive path (ns : list (gnode N)) : Z -> nat -> Z -> Prop :=
  | path_here a : path ns a 0 a
  | path_left a n k b : getZ ns a = Some n -> g_isleaf n = false -> path ns (g_left n) k b -> path ns a (S k) b
  | path_right a n k b : getZ ns a = Some n -> g_isleaf n = false -> path ns (g_right n) k b -> path ns a (S k) b.
  Definition is_leaf (n : gnode N) : bool := g_isleaf n.
  Definition leaves_of (ns : list (gnode N)) : list (gnode N) := filter is_leaf ns.
  (** No path from the root is longer than [k]. *)
  Definition height_at_most (ns : list (gnode N)) (k : nat) : Prop :=
    forall j b, path ns 0 j b -> j <= k.
End Trees.
