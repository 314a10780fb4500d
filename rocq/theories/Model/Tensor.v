(** core/tensor/tensor.go: tensors over gonum's mat.Dense.

    Slices of float64 are kept in a heap of buffers; a mat.Dense is a window of one buffer.
    The shape slice is taken as a value (NewTensor keeps the caller's variadic slice). *)
From Coq Require Import List Arith ZArith Bool.
From Verif Require Import Base.GoRes Base.GoInt Base.ListX.
Import ListNotations.
Local Open Scope list_scope.
Local Open Scope Z_scope.

Section Tensor.
  Context {A : Type}.
  Variables zero one : A.
  Definition heap := list (list A).
  (** gonum: mat.Dense with blas64.General{Rows, Cols, Stride, Data}; [d_off] is where Data
      starts in its buffer *)
  Record dense := mkdense { d_buf : nat; d_off : Z; d_stride : Z; d_rows : Z; d_cols : Z }.
  (** Tensor, lines 10-13 *)
  Record tensor := mktensor { t_data : dense; t_shape : list Z }.
  Definition buffer (h : heap) (b : nat) : list A := nth b h [].

  (** gonum's NewDense with data: panics for a dimension of zero or less, and for data of
      another length *)
  Definition new_dense (h : heap) (b : nat) (r c : Z) : res dense :=
    if (r <=? 0) || (c <=? 0) then Panic
    else if wrap (r * c) =? Z.of_nat (List.length (buffer h b)) then Ok (mkdense b 0 c r c) else Panic.
  (** gonum's Dense.At and Dense.Set, for tensors lines 89-96 *)
  Definition d_index (d : dense) (i j : Z) : option nat :=
    if (i <? 0) || (d_rows d <=? i) || (j <? 0) || (d_cols d <=? j) then None else Some (Z.to_nat (d_off d + i * d_stride d + j)).
  Definition t_at (h : heap) (t : tensor) (i j : Z) : res A :=
    match d_index (t_data t) i j with
    | None => Panic
    | Some k => match nth_error (buffer h (d_buf (t_data t))) k with Some v => Ok v | None => Panic end
    end.
  Definition t_set (h : heap) (t : tensor) (i j : Z) (v : A) : res heap :=
    match d_index (t_data t) i j with
    | None => Panic
    | Some k => if Nat.ltb k (List.length (buffer h (d_buf (t_data t)))) then Ok (upd (d_buf (t_data t)) (upd k (fun _ => v)) h) else Panic
    end.

  (** NewTensor, lines 16-42, on the slice that is buffer [b] *)
  Definition new_tensor (h : heap) (b : nat) (shape : list Z) : res tensor :=
    match shape with
    | [] => Err EValue
    | _ =>
        if forallb (fun s => 0 <? s) shape then
          let size := fold_left (fun size s => wrap (size * s)) shape 1 in
          if negb (Z.of_nat (List.length (buffer h b)) =? size) then Err (EDimension (Z.to_nat size) (List.length (buffer h b)))
          else match shape with
               | [r; c] => let* d := new_dense h b r c in Ok (mktensor d shape)
               | _ => Err EValue
               end
        else Err EValue
    end.
  (** NewZeros and NewOnes, lines 54-76; make panics for a negative length *)
  Definition new_filled (v : A) (h : heap) (shape : list Z) : res (heap * tensor) :=
    match shape with
    | [r; c] =>
        let size := wrap (r * c) in
        if size <? 0 then Panic
        else
          let h' := h ++ [repeat v (Z.to_nat size)] in
          let* t := new_tensor h' (List.length h) shape in Ok (h', t)
    | _ => Err EValue
    end.
  Definition new_zeros := new_filled zero.
  Definition new_ones := new_filled one.
  (** RawData, lines 105-114 *)
  Definition raw_data (h : heap) (t : tensor) : res (list A) :=
    let r := d_rows (t_data t) in
    let c := d_cols (t_data t) in
    let* rows := mapM (fun i => mapM (fun j => t_at h t i j) (map Z.of_nat (seq 0 (Z.to_nat c)))) (map Z.of_nat (seq 0 (Z.to_nat r))) in
    Ok (concat rows).
  (** Copy, lines 117-124: CloneFrom makes a new contiguous buffer *)
  Definition copy (h : heap) (t : tensor) : res (heap * tensor) :=
    let* raw := raw_data h t in
    Ok (h ++ [raw], mktensor (mkdense (List.length h) 0 (d_cols (t_data t)) (d_rows (t_data t)) (d_cols (t_data t))) (t_shape t)).
  (** T, lines 127-132: Dense.T returns a mat.Transpose, so the type assertion to *mat.Dense
      panics *)
  Definition transpose (t : tensor) : res tensor := Panic.
  (** Reshape, lines 135-155: the tensor is changed in place *)
  Definition reshape (h : heap) (t : tensor) (shape : list Z) : res (heap * tensor) :=
    match shape with
    | [r; c] =>
        let new_size := wrap (r * c) in
        let old_size := wrap (nth 0 (t_shape t) 0 * nth 1 (t_shape t) 0) in
        if negb (new_size =? old_size) then Err (EOther 1)
        else
          let* raw := raw_data h t in
          let h' := h ++ [raw] in
          let* d := new_dense h' (List.length h) r c in
          Ok (h', mktensor d shape)
    | _ => Err (EOther 1)
    end.
  (** Slice, lines 158-171; Dense.Slice is a window of the same buffer *)
  Definition slice (t : tensor) (r0 r1 c0 c1 : Z) : res tensor :=
    let d := t_data t in
    if (r0 <? 0) || (d_rows d <? r1) || (c0 <? 0) || (d_cols d <? c1) then Err (EOther 2)
    else if (r1 <=? r0) || (c1 <=? c0) then Err (EOther 3)
    else Ok (mktensor (mkdense (d_buf d) (d_off d + r0 * d_stride d + c0) (d_stride d) (r1 - r0) (c1 - c0)) [r1 - r0; c1 - c0]).
End Tensor.
Arguments heap : clear implicits.
