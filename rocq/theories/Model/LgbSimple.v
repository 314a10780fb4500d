(** SimplePredictor of sklearn/lightgbm (simple_predictor.go). *)
From Coq Require Import String List Arith ZArith Bool.
From Verif Require Import Base.Num Base.GoRes Base.Mat Base.ListX Model.LgbTransform Model.LgbTree Model.LgbEstimator.
Import ListNotations.
Local Open Scope string_scope.
Local Open Scope list_scope.
Local Open Scope num_scope.

Section LgbSimple.
  Context {N : Num}.
  (** Lines 87-91 and 132-135 *)
  Definition shrunk (t : gtree N) (v : N) : N := if gt_shrink t >? n0 then v * gt_shrink t else v.
  (** The loop of predictTree, lines 75-139; [None] when the fuel is used up.  A negative feature number panics. *)
  Fixpoint swalk (fuel : nat) (t : gtree N) (id : Z) (x : list N) : option (res N) :=
    match fuel with
    | 0 => None
    | S fuel' =>
        match getZ (gt_nodes t) id with
        | None => Some (Ok n0)
        | Some n =>
            match g_type n with
            | TLeaf => Some (Ok (shrunk t (g_leaf n)))
            | _ =>
                if (Z.of_nat (List.length x) <=? g_feat n)%Z then swalk fuel' t (g_default n) x
                else match getZ x (g_feat n) with
                     | None => Some Panic
                     | Some v =>
                         if nisnan v then swalk fuel' t (g_default n) x
                         else
                           let next := if v <=? g_thr n then g_left n else g_right n in
                           if (next <? 0)%Z then
                             Some (Ok (match getZ (gt_leaves t) (- (next + 1)) with Some w => shrunk t w | None => n0 end))
                           else swalk fuel' t next x
                     end
            end
        end
    end.
  (** predictTree, lines 66-140 *)
  Definition simple_tree (fuel : nat) (t : gtree N) (x : list N) : option (res N) :=
    match gt_nodes t with
    | [] => Some (Ok (match gt_leaves t with v :: _ => v | [] => n0 end))
    | _ => swalk fuel t 0 x
    end.
  (** PredictRaw, lines 226-256 *)
  Definition simple_raw (fuel : nat) (m : gmodel N) (x : list N) : option (res (list N)) :=
    omap (accumulate nadd (outputs_count m) (m_init m)) (sequence (fun t => simple_tree fuel t x) (m_trees m)).
  (** PredictSingle, lines 24-62; sigmoid and softmax (lines 177-223) are the same code as leavesSigmoid and leavesSoftmax *)
  Definition simple_transform (m : gmodel N) (raw : list N) : list N :=
    if (2 <? m_class m)%Z then leaves_softmax raw
    else if is_binary (m_obj m) then map leaves_sigmoid raw
    else raw.
  Definition simple_single (fuel : nat) (m : gmodel N) (x : list N) : option (res (list N)) :=
    omap (simple_transform m) (simple_raw fuel m x).
  (** Predict, lines 143-174 *)
  Definition simple_predict (fuel : nat) (m : gmodel N) (X : matrix N) : option (res (matrix N)) :=
    if negb (Z.of_nat (mcols X) =? m_nfeat m)%Z then Some (Err (EOther 1))
    else match newdense (nrows X) (outputs_count m) with
         | Ok _ => omap (mkmat (outputs_count m)) (sequence (simple_single fuel m) (mrows X))
         | Err e => Some (Err e)
         | Panic => Some Panic
         end.
End LgbSimple.
