(** sklearn/lightgbm/efb.go: exclusive feature bundling.  A matrix is its rows; the rows are
    handled one by one, which the code does column by column with the same writes per row.
    FeatureBundle.Values and Conflicts are never used. *)
From Coq Require Import List Arith Bool ZArith.
From Verif Require Import Base.Num Base.GoRes Base.Mat Base.ListX.
Import ListNotations.
Local Open Scope list_scope.
Local Open Scope num_scope.

Section Efb.
Context {N : Num}.

(** The literal 1e-10; lines 85, 117-118 and 326. *)
Definition tiny : N := nlit 1 10000000000.
Definition nonzero (v : N) : bool := tiny <? nabs v.
Definition is_zero (v : N) : bool := nabs v <? tiny.

(** X.At(i, j) for all rows *)
Definition col (X : matrix N) (j : nat) : list N := column j (mrows X).
(** Lines 77-93: the share of zeros of column [j]. *)
Definition sparsity (X : matrix N) (j : nat) : N :=
  nofnat (length (filter is_zero (col X j))) / nofnat (nrows X).
(** Lines 107-131 for two features: rows where both are non-zero over rows where one is. *)
Definition conflict (X : matrix N) (f1 f2 : nat) : N :=
  let both := length (filter (fun r => nonzero (nth f1 r n0) && nonzero (nth f2 r n0)) (mrows X)) in
  let any := length (filter (fun r => nonzero (nth f1 r n0) || nonzero (nth f2 r n0)) (mrows X)) in
  if (0 <? any)%nat then nofnat both / nofnat any else n0.
(** Lines 96-140: entry (i, j) of the conflict graph, computed for i < j and mirrored. *)
Definition graph (X : matrix N) (features : list nat) (i j : nat) : N :=
  if (i =? j)%nat then n0
  else let (a, b) := if (i <? j)%nat then (i, j) else (j, i) in conflict X (nth a features 0%nat) (nth b features 0%nat).

(** Lines 155-164: every feature's index with its number of conflicts. *)
Definition degrees (limit : N) (g : nat -> nat -> N) (n : nat) : list (nat * nat) :=
  map (fun i => (i, length (filter (fun j => negb (i =? j)%nat && (limit <? g i j)) (seq 0 n)))) (seq 0 n).
Definition memb (i : nat) (l : list nat) : bool := existsb (Nat.eqb i) l.
(** Lines 204-209: the first position of a feature, -1 as None. *)
Fixpoint position (x : nat) (l : list nat) : option nat :=
  match l with
  | [] => None
  | y :: r => if (y =? x)%nat then Some 0%nat else option_map S (position x r)
  end.
(** Lines 201-216 *)
Definition can_add (limit : N) (g : nat -> nat -> N) (features : list nat) (i : nat) (bundle : list nat) : bool :=
  forallb (fun x => match position x features with None => true | Some k => negb (limit <? g i k) end) bundle.
(** Lines 193-222: one pass over the order; [used] lists the used positions. *)
Fixpoint grow (limit : N) (g : nat -> nat -> N) (features : list nat) (order : list nat) (used bundle : list nat) : list nat * list nat :=
  match order with
  | [] => (used, bundle)
  | i :: r =>
      if memb i used then grow limit g features r used bundle
      else if can_add limit g features i bundle then grow limit g features r (i :: used) (bundle ++ [nth i features 0%nat])
      else grow limit g features r used bundle
  end.
(** Lines 172-228: the loop, with fuel; every turn uses up a feature. *)
Fixpoint greedy (fuel : nat) (limit : N) (maxb : nat) (g : nat -> nat -> N) (features order used : list nat) (bundles : list (list nat)) : option (list (list nat)) :=
  if (length bundles <? maxb)%nat && (length bundles <? length features)%nat then
    match find (fun i => negb (memb i used)) order with
    | None => Some bundles
    | Some seed =>
        match fuel with
        | 0%nat => None
        | S k =>
            let (used', bundle) := grow limit g features order (seed :: used) [nth seed features 0%nat] in
            greedy k limit maxb g features order used' (if (1 <? length bundle)%nat then bundles ++ [bundle] else bundles)
        end
    end
  else Some bundles.
(** sort.Slice orders the features by their number of conflicts; equal ones come in some order. *)
Variable order : list (nat * nat) -> list (nat * nat).
Definition greedy_bundling (limit : N) (maxb : nat) (X : matrix N) (features : list nat) : option (list (list nat)) :=
  let n := length features in
  let g := graph X features in
  greedy n limit maxb g features (map fst (order (degrees limit g n))) [] [].

(** Lines 234-268 *)
Definition is_bundled (bundles : list (list nat)) (j : nat) : bool := existsb (memb j) bundles.
Definition unbundled (bundles : list (list nat)) (cols : nat) : list nat := filter (fun j => negb (is_bundled bundles j)) (seq 0 cols).
(** An index out of range makes the assignment panic. *)
Definition feature_mapping (bundles : list (list nat)) (cols : nat) : res (list nat) :=
  let m0 := map (fun j => if is_bundled bundles j then 0%nat else length (unbundled bundles j)) (seq 0 cols) in
  let base := length (unbundled bundles cols) in
  foldM (fun m q => foldM (fun m x => if (x <? cols)%nat then Ok (upd x (fun _ => (base + fst q)%nat) m) else Panic) m (snd q))
    m0 (combine (seq 0 (length bundles)) bundles).

(** EFBOptimizer, lines 22-26 *)
Record efb : Type := mkefb { e_limit : N; e_maxb : nat; e_ratio : N }.
(** Lines 37-74; the optimizer keeps the number of bundles chosen. *)
Definition create_bundles (e : efb) (X : matrix N) : efb * option (res (list (list nat) * list nat)) :=
  let cols := mcols X in
  let maxb := if (e_maxb e =? 0)%nat then Nat.max 1 (cols / 3) else e_maxb e in
  let e' := mkefb (e_limit e) maxb (e_ratio e) in
  let features := filter (fun i => e_ratio e <=? sparsity X i) (seq 0 cols) in
  if (length features <? 2)%nat then (e', Some (Ok ([], repeat 0%nat cols)))
  else (e', match greedy_bundling (e_limit e) maxb X features with
            | None => None
            | Some bundles => Some (rmap (fun m => (bundles, m)) (feature_mapping bundles cols))
            end).

(** Lines 316-333 *)
Definition base_offset : N := nofZ 1000.
Fixpoint bundle_value_from (i : nat) (row : list N) (features : list nat) : res N :=
  match features with
  | [] => Ok n0
  | x :: r => match nth_error row x with
              | None => Panic
              | Some v => if nonzero v then Ok (base_offset * nofnat (S i) + v) else bundle_value_from (S i) row r
              end
  end.
Definition bundle_value (row : list N) (features : list nat) : res N := bundle_value_from 0 row features.
Definition set_at {A} (j : nat) (v : A) (l : list A) : res (list A) := if (j <? length l)%nat then Ok (upd j (fun _ => v) l) else Panic.
Definition get_at {A} (l : list A) (j : nat) : res A := match nth_error l j with None => Panic | Some v => Ok v end.
Definition head_index (mapping : list nat) (features : list nat) : res nat :=
  match features with [] => Panic | x :: _ => get_at mapping x end.
(** Lines 271-313 for one row *)
Definition bundle_row (cols newcols : nat) (bundles : list (list nat)) (mapping : list nat) (row : list N) : res (list N) :=
  let* r1 := foldM (fun acc j => if is_bundled bundles j then Ok acc
                                 else let* m := get_at mapping j in let* v := get_at row j in set_at m v acc)
               (repeat n0 newcols) (seq 0 cols) in
  foldM (fun acc b => let* m := head_index mapping b in let* v := bundle_value row b in set_at m v acc) r1 bundles.
Definition new_cols (mapping : list nat) : nat := S (fold_left Nat.max mapping 0%nat).
Definition bundle_features (X : matrix N) (bundles : list (list nat)) (mapping : list nat) : res (matrix N) :=
  let* _ := newdense (nrows X) (new_cols mapping) in
  rmap (mkmat (new_cols mapping)) (mapM (bundle_row (mcols X) (new_cols mapping) bundles mapping) (mrows X)).

(** Lines 377-418 *)
Fixpoint match_from (i : nat) (features : list nat) (b : N) : option (nat * N) :=
  match features with
  | [] => None
  | x :: r => let offset := base_offset * nofnat (S i) in
              if (offset <=? b) && (b <? offset + base_offset) then Some (x, offset) else match_from (S i) r b
  end.
Definition unbundle_value (features : list nat) (b : N) (row : list N) : res (list N) :=
  let* r := foldM (fun acc x => set_at x n0 acc) row features in
  if is_zero b then Ok r
  else match match_from 0 features b with
       | None => Ok r
       | Some (x, offset) => set_at x (b - offset) r
       end.
(** Lines 336-374 for one row *)
Definition unbundle_row (cols : nat) (bundles : list (list nat)) (mapping : list nat) (row : list N) : res (list N) :=
  let* r1 := foldM (fun acc j => if is_bundled bundles j then Ok acc
                                 else let* m := get_at mapping j in let* v := get_at row m in set_at j v acc)
               (repeat n0 cols) (seq 0 cols) in
  foldM (fun acc b => let* m := head_index mapping b in let* v := get_at row m in unbundle_value b v acc) r1 bundles.
Definition unbundle_features (B : matrix N) (bundles : list (list nat)) (cols : nat) : res (matrix N) :=
  let* _ := newdense (nrows B) cols in
  let* mapping := feature_mapping bundles cols in
  rmap (mkmat cols) (mapM (unbundle_row cols bundles mapping) (mrows B)).
(** Lines 430-437: the number of columns reported by GetBundlingInfo. *)
Definition reported_cols (bundles : list (list nat)) (cols : nat) : nat := (cols - length (concat bundles) + length bundles)%nat.
End Efb.
Arguments efb : clear implicits.
