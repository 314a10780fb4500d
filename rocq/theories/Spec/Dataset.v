(** Data sets stored in files. *)
From Coq Require Import List ZArith.
From Verif Require Import Base.GoRes Base.Mat Model.Dataset.
Import ListNotations.
Local Open Scope Z_scope.

(** A data set with at least one row and column, whose mapping has the size of its entries
    and fits into 64 bits *)
Definition usable (d : dataset) : Prop :=
  0 < d_rows d /\ 0 < d_cols d
  /\ Z.of_nat (List.length (d_mem d)) = d_rows d * d_cols d * elem_size (d_type d)
  /\ d_rows d * d_cols d * elem_size (d_type d) < 2 ^ 63.
Section Entries.
  Variables of32 ofi64 ofi32 : Z -> Z.
  (** Entry (i,j): the value of the bytes at its place in row-major order *)
  Definition entry (d : dataset) (i j : Z) : Z :=
    dec of32 ofi64 ofi32 (d_type d)
      (firstn (Z.to_nat (elem_size (d_type d))) (skipn (Z.to_nat ((i * d_cols d + j) * elem_size (d_type d))) (d_mem d))).
  Definition row_of (d : dataset) (i : Z) : list Z := map (entry d i) (zseq (d_cols d)).
  (** Rows [start..stop) *)
  Definition rows_of (d : dataset) (start stop : Z) : list (list Z) := map (fun i => row_of d (start + i)) (zseq (stop - start)).
  Definition all_rows (d : dataset) : list (list Z) := rows_of d 0 (d_rows d).
End Entries.

(** The blocks of [size] rows, the last one possibly shorter: (first row, row after the last) *)
Definition blocks (rows size : Z) : list (Z * Z) :=
  map (fun k => (k * size, Z.min ((k + 1) * size) rows)) (zseq ((rows + size - 1) / size)).
(** The same data set with other contents *)
Definition with_mem (d : dataset) (mem : list Z) : dataset := mkds (d_rows d) (d_cols d) (d_type d) mem.
(** Calling a function on blocks one after the other, each read when its turn comes, up to the
    first failure *)
Section Visits.
  Variables of32 ofi64 ofi32 : Z -> Z.
  Context {S E : Type}.
  Variable fn : matrix Z -> Z -> list Z * S -> (list Z * S) * option E.
  Fixpoint visits (d : dataset) (bs : list (Z * Z)) (st : list Z * S) : (list Z * S) * option E :=
    match bs with
    | [] => (st, None)
    | (a, b) :: bs =>
        match fn (mkmat (Z.to_nat (d_cols d)) (rows_of of32 ofi64 ofi32 (with_mem d (fst st)) a b)) a st with
        | (st, Some e) => (st, Some e)
        | (st, None) => visits d bs st
        end
    end.
End Visits.
(** Calling a function on chunks one after the other, up to the first failure *)
Fixpoint chunk_calls {Row S E : Type} (fn : list Row -> S -> S * option E) (chunks : list (list Row)) (s : S) : S * option E :=
  match chunks with
  | [] => (s, None)
  | c :: chunks => match fn c s with (s, Some e) => (s, Some e) | (s, None) => chunk_calls fn chunks s end
  end.
