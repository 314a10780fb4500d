(** Matrices handed around as gonum [mat.Matrix] values: the number of columns
    and the rows.  [At(i,j)] is only modelled for matrices whose rows all have
    [mcols] entries ([wf]); gonum guarantees this for every [*mat.Dense]. *)
From Coq Require Import List Arith Lia.
From Verif Require Import Base.Num Base.GoRes.
Import ListNotations.

Record matrix (A : Type) : Type := mkmat { mcols : nat; mrows : list (list A) }.
Arguments mkmat {A} _ _.
Arguments mcols {A} _.
Arguments mrows {A} _.

Definition wf {A} (X : matrix A) : Prop := forall row, In row (mrows X) -> length row = mcols X.
Definition nrows {A} (X : matrix A) : nat := length (mrows X).

(** gonum mat.NewDense(r, c, nil) panics when a dimension is zero. *)
Definition newdense (r c : nat) : res unit :=
  if (Nat.eqb r 0 || Nat.eqb c 0)%bool then Panic else Ok tt.

(** Column [j] of the rows. *)
Definition column {N : Num} (j : nat) (rows : list (list N)) : list N :=
  map (fun row => nth j row n0) rows.

(** [defer scigoErrors.Recover(&err, ...)] (pkg/errors/recovery.go lines 69-86):
    a panic becomes an error result. *)
Definition recovered {A} (r : res A) : res A :=
  match r with Panic => Err EPanic | _ => r end.
