(** metrics: the versions for matrices.  A nil matrix is [None]; At(i, 0) panics for a matrix without columns. *)
From Coq Require Import List ZArith Bool.
From Verif Require Import Base.Num Base.GoRes Base.Mat Model.Metrics.
Import ListNotations.

Section MetricsMat.
  Context {N : Num}.
  (** The loops with At(i, 0) and SetVec(i, .) *)
  Definition first_column (X : matrix N) : res (list N) := if (Nat.eqb (mcols X) 0 && negb (Nat.eqb (nrows X) 0))%bool then Panic else Ok (column 0 (mrows X)).
  (** regression.go lines 107-134 *)
  Definition mse_matrix (yt yp : option (matrix N)) : res N :=
    match yt, yp with
    | Some T, Some P =>
        if (Nat.eqb (nrows T) 0 || Nat.eqb (mcols T) 0)%bool then Err EValue
        else if negb (Nat.eqb (nrows T) (nrows P) && Nat.eqb (mcols T) (mcols P))%bool then Err (EDimension (nrows T) (nrows P))
        else if negb (Nat.eqb (mcols T) 1) then Err EValue
        else let* t := first_column T in let* p := first_column P in mse (Some t) (Some p)
    | _, _ => Panic
    end.
  (** The common part of the next two *)
  Definition columns_of (yt yp : option (matrix N)) : res (list N * list N) :=
    match yt, yp with
    | Some T, Some P =>
        if (Nat.eqb (nrows T) 0 || Nat.eqb (nrows P) 0)%bool then Err EValue
        else let* t := first_column T in let* p := first_column P in Ok (t, p)
    | _, _ => Err EValue
    end.
  (** classification.go lines 171-201 *)
  Definition auc_matrix (sortf : list (N * N) -> list (N * N)) (yt yp : option (matrix N)) : res N :=
    let* (t, p) := columns_of yt yp in auc sortf (Some t) (Some p).
  (** ranking.go lines 185-215 *)
  Definition ndcg_matrix (sort_score sort_rel : list (N * N) -> list (N * N)) (yt yp : option (matrix N)) (k : Z) : res N :=
    let* (t, p) := columns_of yt yp in ndcg sort_score sort_rel (Some t) (Some p) k.
End MetricsMat.
