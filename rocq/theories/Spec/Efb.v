(** What a bundling of sparse columns is expected to be. *)
From Coq Require Import List Arith Bool Reals.
From Verif Require Import Base.Num Base.Mat.
Import ListNotations.
Local Open Scope list_scope.

Section Efb.
Context {N : Num}.

(** The literal 1e-10 below which a value counts as zero. *)
Definition negligible : N := nlit 1 10000000000.
Definition present (v : N) : bool := nlt negligible (nabs v).
(** The number of rows in which a column is below that bound. *)
Definition zeros (X : matrix N) (j : nat) : nat := length (filter (fun row => nlt (nabs (nth j row n0)) negligible) (mrows X)).
(** A column with a share of zeros of at least [ratio]. *)
Definition sparse (ratio : N) (X : matrix N) (j : nat) : Prop :=
  j < mcols X /\ nle ratio (ndiv (nofnat (zeros X j)) (nofnat (nrows X))) = true.
(** Rows in which both columns are present, and rows in which at least one is. *)
Definition both (X : matrix N) (a b : nat) : nat :=
  length (filter (fun row => present (nth a row n0) && present (nth b row n0)) (mrows X)).
Definition either (X : matrix N) (a b : nat) : nat :=
  length (filter (fun row => present (nth a row n0) || present (nth b row n0)) (mrows X)).
(** The columns conflict more often than [limit]. *)
Definition clash (limit : N) (X : matrix N) (a b : nat) : Prop :=
  nlt limit (match either X a b with 0 => n0 | e => ndiv (nofnat (both X a b)) (nofnat e) end) = true.

(** A bundling: at most [maxb] disjoint groups of at least two sparse columns that do not
    conflict too often; every sparse column left for later conflicts with a member of the group;
    and if there was room for another group, the remaining sparse columns all conflict. *)
Record bundling (limit ratio : N) (maxb : nat) (X : matrix N) (bundles : list (list nat)) : Prop := mkbundling {
  bd_count : length bundles <= maxb;
  bd_sparse : forall b j, In b bundles -> In j b -> sparse ratio X j;
  bd_two : forall b, In b bundles -> 2 <= length b;
  bd_disjoint : NoDup (concat bundles);
  bd_limit : forall b i j, In b bundles -> In i b -> In j b -> i <> j -> ~ clash limit X i j;
  bd_full : forall l1 b l2 j, bundles = l1 ++ b :: l2 -> sparse ratio X j -> ~ In j (concat l1) -> ~ In j b ->
              exists i, In i b /\ clash limit X i j;
  bd_rest : length bundles < maxb -> forall i j, sparse ratio X i -> sparse ratio X j -> i <> j ->
              ~ In i (concat bundles) -> ~ In j (concat bundles) -> clash limit X i j }.

(** The new place of column [j]: the unbundled columns first, in their order, then the groups. *)
Definition place (bundles : list (list nat)) (cols j p : nat) : Prop :=
  (~ In j (concat bundles) /\ exists l, NoDup l /\ (forall i, In i l <-> i < j /\ ~ In i (concat bundles)) /\ p = length l) \/
  (exists k b, nth_error bundles k = Some b /\ In j b /\
     exists l, NoDup l /\ (forall i, In i l <-> i < cols /\ ~ In i (concat bundles)) /\ p = length l + k).
End Efb.

Local Open Scope R_scope.
(** No row has two members of a group that are not zero. *)
Definition exclusive (X : matrix R) (bundles : list (list nat)) : Prop :=
  forall row b i j, In row (mrows X) -> In b bundles -> In i b -> In j b -> i <> j -> nth i row 0 = 0 \/ nth j row 0 = 0.
(** Every value of a grouped column is zero or between 1e-10 and 1000. *)
Definition storable (X : matrix R) (bundles : list (list nat)) : Prop :=
  forall row j, In row (mrows X) -> In j (concat bundles) -> nth j row 0 = 0 \/ 1 / 10000000000 < nth j row 0 < 1000.
