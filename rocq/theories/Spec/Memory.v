(** What the memory helpers should do. *)
From Coq Require Import List Arith ZArith Permutation.
From Verif Require Import Base.GoRes Base.GoInt Base.ListX Model.Memory.
Import ListNotations.
Local Open Scope list_scope.
Local Open Scope Z_scope.

(** ** Memory budget: requests of all goroutines, in the order in which they get the mutex *)
Inductive request := Allocate (bytes : Z) | Free (bytes : Z).
Definition serve (m : budget) (r : request) : budget := match r with Allocate b => fst (allocate b m) | Free b => free b m end.
Definition serve_all (m : budget) (rs : list request) : budget := fold_left serve rs m.
Definition amount (r : request) : Z := match r with Allocate b | Free b => b end.
(** The accounting in unbounded integers *)
Definition ledger (max u : Z) (r : request) : Z :=
  match r with Allocate b => if max <? u + b then u else u + b | Free b => Z.max 0 (u - b) end.
Definition ledger_all (max : Z) (rs : list request) : Z := fold_left (ledger max) rs 0.
(** Outstanding blocks: a granted block is added, and only outstanding blocks are freed *)
Definition zsum (l : list Z) : Z := fold_right Z.add 0 l.
Inductive outstanding : budget -> list Z -> budget -> list Z -> Prop :=
  | out_start m l : outstanding m l m l
  | out_grant m l m1 l1 b m2 : outstanding m l m1 l1 -> 0 <= b -> max_mem m1 + b < 2 ^ 63 ->
      allocate b m1 = (m2, true) -> outstanding m l m2 (b :: l1)
  | out_refuse m l m1 l1 b m2 : outstanding m l m1 l1 -> 0 <= b -> max_mem m1 + b < 2 ^ 63 ->
      allocate b m1 = (m2, false) -> outstanding m l m2 l1
  | out_free m l m1 l1 b l2 : outstanding m l m1 l1 -> Permutation l1 (b :: l2) -> outstanding m l (free b m1) l2.

(** ** Views: a view made from a buffer by taking blocks of blocks, with the place of its first
    entry in the whole matrix *)
Inductive derived {A} (data : list A) (rows cols : Z) : view -> Z -> Z -> Prop :=
  | der_whole v : new_view data rows cols = Ok v -> derived data rows cols v 0 0
  | der_slice v a b i0 i1 j0 j1 w : derived data rows cols v a b -> z_slice v i0 i1 j0 j1 = Ok w ->
      derived data rows cols w (a + i0) (b + j0).

(** ** The pool: calls by users who only use and return matrices they hold.  [ls] are the
    matrices held. *)
Section PoolUse.
  Context {A : Type}.
  Variable zero : A.
  Inductive use : pool A * list nat -> pool A * list nat -> Prop :=
    | use_get choice rows cols p ls h p' : get zero choice rows cols p = Some (Ok (h, p')) -> use (p, ls) (p', h :: ls)
    | use_set h i j v p ls p' : In h ls -> pm_set h i j v p = Ok p' -> use (p, ls) (p', ls)
    | use_put h p ls ls' : Permutation ls (h :: ls') -> use (p, ls) (put zero h p, ls')
    | use_drop k p ls : use (p, ls) (pool_drop k p, ls).
  Inductive uses : pool A * list nat -> pool A * list nat -> Prop :=
    | uses_refl s : uses s s
    | uses_step s t u : uses s t -> use t u -> uses s u.
End PoolUse.
