(** sklearn/lightgbm/shap.go lines 226-419: interaction values. *)
From Coq Require Import List Arith ZArith Bool.
From Verif Require Import Base.Num Base.GoRes Base.Mat Base.ListX Model.LgbTransform Model.LgbTree Model.Shap.
Import ListNotations.
Local Open Scope num_scope.

Section Inter.
Context {N : Num}.
Variable toint : N -> Z.
Variable ord : list (Z * nat) -> list (Z * nat).

(** Lines 227-234 (getNodeValue), 0 for a child that is out of range (lines 378-386) *)
Definition node_value (n : gnode N) : N := match g_type n with TLeaf => g_leaf n | _ => g_ival n end.
Definition child_value (t : gtree N) (id : Z) : N := match getZ (gt_nodes t) id with Some n => node_value n | None => n0 end.

(** Lines 339-361 (checkSubtreeFeatures) of the node with index [id]; children out of range are skipped.  [None]: the fuel is
    used up (a cyclic tree recurses without end). *)
Fixpoint check_subtree (fuel : nat) (t : gtree N) (f1 f2 : Z) (id : Z) : option (bool * bool) :=
  match fuel with
  | 0%nat => None
  | S fuel' =>
      match getZ (gt_nodes t) id with
      | None => Some (false, false)
      | Some n =>
          match g_type n with
          | TLeaf => Some (false, false)
          | _ => match check_subtree fuel' t f1 f2 (g_left n), check_subtree fuel' t f1 f2 (g_right n) with
                 | Some (l1, l2), Some (r1, r2) => Some ((g_feat n =? f1)%Z || l1 || r1, (g_feat n =? f2)%Z || l2 || r2)
                 | _, _ => None
                 end
          end
      end
  end.
(** Lines 312-336 (treeUsesFeatures) of the first node *)
Definition uses_features (fuel : nat) (t : gtree N) (f1 f2 : Z) : option bool :=
  match getZ (gt_nodes t) 0 with
  | None => Some false
  | Some n =>
      match g_type n with
      | TLeaf => Some false
      | _ => match check_subtree fuel t f1 f2 (g_left n), check_subtree fuel t f1 f2 (g_right n) with
             | Some (l1, l2), Some (r1, r2) => Some (((g_feat n =? f1)%Z || l1 || r1) && ((g_feat n =? f2)%Z || l2 || r2))
             | _, _ => None
             end
      end
  end.
(** Lines 364-419 (treeInteractionContribution) of the node with index [id], which is in range *)
Fixpoint contribution (fuel : nat) (t : gtree N) (x : list N) (f1 f2 : Z) (id : Z) : option (res N) :=
  match fuel with
  | 0%nat => None
  | S fuel' =>
      match getZ (gt_nodes t) id with
      | None => Some Panic
      | Some n =>
          match g_type n with
          | TLeaf => Some (Ok n0)
          | _ =>
              let c := if (g_feat n =? f1)%Z || (g_feat n =? f2)%Z
                       then nabs (child_value t (g_left n) - child_value t (g_right n)) * nlit 1 10 else n0 in
              match getZ x (g_feat n) with
              | None => Some Panic
              | Some v =>
                  let left := match g_cats n with
                              | [] => v <=? g_thr n
                              | _ => existsb (Z.eqb (toint v)) (g_cats n)
                              end in
                  let child := if left then g_left n else g_right n in
                  match getZ (gt_nodes t) child with
                  | None => Some (Ok c)
                  | Some _ => omap (fun d => c + d) (contribution fuel' t x f1 f2 child)
                  end
              end
          end
      end
  end.
(** Lines 287-309 (calculatePairwiseInteraction) *)
Definition pairwise (fuel : nat) (m : gmodel N) (x : list N) (f1 f2 : nat) : option (res N) :=
  fold_left (fun acc t =>
    match acc with
    | Some (Ok a) =>
        match gt_nodes t with
        | [] => acc
        | _ => match uses_features fuel t (Z.of_nat f1) (Z.of_nat f2) with
               | None => None
               | Some false => acc
               | Some true => omap (fun c => a + c * m_lr m) (contribution fuel t x (Z.of_nat f1) (Z.of_nat f2) 0)
               end
        end
    | _ => acc
    end) (m_trees m) (Some (Ok n0)).
(** Set of a matrix, for indices in range *)
Definition mset (i j : nat) (v : N) (M : list (list N)) : list (list N) := upd i (upd j (fun _ => v)) M.
(** The pairs (i, j) with i < j < n in the order of the two loops, lines 275-276 *)
Definition pairs (n : nat) : list (nat * nat) := flat_map (fun i => map (fun j => (i, j)) (seq (S i) (n - S i))) (seq 0 n).
(** Lines 261-285 (calculateSampleInteractions) into a new matrix (line 251) *)
Definition sample_interactions (fuel : nat) (m : gmodel N) (x : list N) : option (res (list (list N))) :=
  let n := length x in
  match sample_shap toint ord fuel m x with
  | None => None
  | Some main =>
      let M0 := fold_left (fun M i => mset i i (nth i main n0) M) (seq 0 n) (repeat (repeat n0 n) n) in
      fold_left (fun acc ij =>
        match acc with
        | Some (Ok M) =>
            omap (fun v => mset (snd ij) (fst ij) v (mset (fst ij) (snd ij) v M)) (pairwise fuel m x (fst ij) (snd ij))
        | _ => acc
        end) (pairs n) (Some (Ok M0))
  end.
(** Lines 241-258 (CalculateInteractions): NewDense panics without columns. *)
Definition interactions (fuel : nat) (m : gmodel N) (X : matrix N) : option (res (list (list (list N)))) :=
  match mrows X with
  | [] => Some (Ok [])
  | _ => if (mcols X =? 0)%nat then Some Panic else sequence (sample_interactions fuel m) (mrows X)
  end.
End Inter.
