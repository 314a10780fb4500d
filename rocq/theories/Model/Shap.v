(** sklearn/lightgbm/shap.go: per-feature contributions. *)
From Coq Require Import List Arith ZArith Bool.
From Verif Require Import Base.Num Base.GoRes Base.Mat Base.ListX Model.LgbTransform Model.LgbTree.
Import ListNotations.
Local Open Scope num_scope.

Section Shap.
Context {N : Num}.
(** The conversion int(float64), and the order in which the map of counts is visited. *)
Variable toint : N -> Z.
Variable ord : list (Z * nat) -> list (Z * nat).

(** shap.go lines 90-107 (collectLeafValues) of the node with index [id], in the order of the
    appends; a child out of range is skipped. [None]: the fuel is used up (a cyclic tree recurses
    without end). *)
Fixpoint collect_leaves (fuel : nat) (t : gtree N) (id : Z) : option (list N) :=
  match fuel with
  | 0%nat => None
  | S fuel' =>
      match getZ (gt_nodes t) id with
      | None => Some []
      | Some n =>
          match g_type n with
          | TLeaf => Some [g_leaf n]
          | _ => match collect_leaves fuel' t (g_left n), collect_leaves fuel' t (g_right n) with
                 | Some l, Some r => Some (l ++ r)
                 | _, _ => None
                 end
          end
      end
  end.
(** shap.go lines 68-87 (getTreeBaseline) *)
Definition tree_baseline (fuel : nat) (t : gtree N) : option N :=
  match gt_nodes t with
  | [] => Some n0
  | _ => match collect_leaves fuel t 0 with
         | None => None
         | Some [] => Some n0
         | Some l => Some (nsum l / nofnat (length l))
         end
  end.
(** shap.go lines 183-224 (getTreePath) from node [id] on; [None]: the fuel is used up. *)
Fixpoint tree_path (fuel : nat) (t : gtree N) (x : list N) (id : Z) : option (list Z) :=
  match fuel with
  | 0%nat => None
  | S fuel' =>
      match getZ (gt_nodes t) id with
      | None => Some []
      | Some n =>
          match g_type n with
          | TLeaf => Some [id]
          | _ =>
              match getZ x (g_feat n) with
              | None => Some [id]
              | Some v =>
                  let left := match g_cats n with
                              | [] => v <=? g_thr n
                              | _ => existsb (Z.eqb (toint v)) (g_cats n)
                              end in
                  option_map (cons id) (tree_path fuel' t x (if left then g_left n else g_right n))
              end
          end
      end
  end.
(** featureCounts[f]++ *)
Fixpoint count_up (f : Z) (m : list (Z * nat)) : list (Z * nat) :=
  match m with
  | [] => [(f, 1%nat)]
  | (g, c) :: r => if (f =? g)%Z then (g, S c) :: r else (g, c) :: count_up f r
  end.
(** shap.go lines 161-170 *)
Definition feature_counts (t : gtree N) (x : list N) (path : list Z) : list (Z * nat) :=
  fold_left (fun m id =>
    match getZ (gt_nodes t) id with
    | Some n => match g_type n with
                | TLeaf => m
                | _ => match getZ x (g_feat n) with Some _ => count_up (g_feat n) m | None => m end
                end
    | None => m
    end) (removelast path) [].
(** shap.go lines 133-180 (simpleTreeShap) *)
Definition tree_shap (fuel : nat) (t : gtree N) (x : list N) : option (list N) :=
  let zeros := map (fun _ => n0) x in
  match gt_nodes t with
  | [] => Some zeros
  | _ =>
      match tree_path fuel t x 0 with
      | None => None
      | Some path =>
          match path with
          | [] => Some zeros
          | _ =>
              match getZ (gt_nodes t) (last path 0%Z) with
              | None => Some zeros
              | Some leaf =>
                  match tree_baseline fuel t with
                  | None => None
                  | Some base =>
                      let contribution := g_leaf leaf - base in
                      let counts := feature_counts t x path in
                      Some (fold_left (fun s e => upd (Z.to_nat (fst e))
                              (fun v => v + contribution * nofnat (snd e) / nofnat (length counts)) s) (ord counts) zeros)
                  end
              end
          end
      end
  end.
(** shap.go lines 110-130 (calculateSampleSHAP) *)
Definition sample_shap (fuel : nat) (m : gmodel N) (x : list N) : option (list N) :=
  fold_left (fun acc t =>
    match gt_nodes t with
    | [] => acc
    | _ => match acc, tree_shap fuel t x with
           | Some s, Some ts => Some (mapi (fun j v => v + nth j ts n0 * m_lr m) s)
           | _, _ => None
           end
    end) (m_trees m) (Some (map (fun _ => n0) x)).
(** shap.go lines 56-65 (calculateBaseValue) *)
Definition base_value (m : gmodel N) : N := match m_trees m with [] => n0 | _ => m_init m end.
(** shap.go lines 33-53 (CalculateSHAP): the rows of Values, and BaseValue. *)
Definition calculate_shap (fuel : nat) (m : gmodel N) (X : matrix N) : option (res (list (list N) * N)) :=
  match newdense (nrows X) (mcols X) with
  | Ok _ => match sequence (fun x => option_map (fun s => Ok s) (sample_shap fuel m x)) (mrows X) with
            | Some (Ok rows) => Some (Ok (rows, base_value m))
            | Some (Err e) => Some (Err e)
            | Some Panic => Some Panic
            | None => None
            end
  | Err e => Some (Err e)
  | Panic => Some Panic
  end.
End Shap.
