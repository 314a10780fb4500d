(** Tensors in good order. *)
From Coq Require Import List Arith ZArith.
From Verif Require Import Base.GoRes Base.GoInt Base.ListX Model.Tensor.
Import ListNotations.
Local Open Scope list_scope.
Local Open Scope Z_scope.

Section Tensor.
  Context {A : Type}.
  (** The window lies in its buffer, and the shape is that of the window *)
  Definition in_order (h : heap A) (t : tensor) : Prop :=
    let d := t_data t in
    t_shape t = [d_rows d; d_cols d] /\ 0 < d_rows d /\ 0 < d_cols d /\ d_rows d * d_cols d < 2 ^ 63
    /\ 0 <= d_off d /\ d_cols d <= d_stride d
    /\ d_off d + (d_rows d - 1) * d_stride d + d_cols d <= Z.of_nat (List.length (buffer h (d_buf d)))
    /\ (d_buf d < List.length h)%nat.
  Definition inside (t : tensor) (i j : Z) : Prop := 0 <= i < d_rows (t_data t) /\ 0 <= j < d_cols (t_data t).
  (** Entry number [k] in row-major order *)
  Definition flat (h : heap A) (t : tensor) (k : Z) : res A := t_at h t (k / d_cols (t_data t)) (k mod d_cols (t_data t)).
  Definition size (t : tensor) : Z := d_rows (t_data t) * d_cols (t_data t).
End Tensor.
