(** Outcomes of Go calls.

    A Go function returning [(T, error)] becomes a function into [res T]:
    [Ok v] for a nil error, [Err e] for a non-nil error, [Panic] for a run-time
    panic that leaves the call.  Error values are classified by the constructor
    functions of pkg/errors (errors.go) used at the call sites; the message
    texts are not modelled. *)
From Coq Require Import List.
Import ListNotations.

Inductive err : Type :=
| ENotFitted                          (* NewNotFittedError, pkg/errors/errors.go *)
| EDimension (expected got : nat)     (* NewDimensionError, pkg/errors/errors.go *)
| EValue                              (* NewValueError / NewValidationError *)
| EModel                              (* NewModelError *)
| ENumerical                          (* NewNumericalInstabilityError *)
| EPanic                              (* PanicError produced by Recover *)
| EWrapped (inner : err)              (* an error wrapped with additional context *)
| EOther (code : nat).                (* fmt.Errorf and friends *)

Inductive res (A : Type) : Type :=
| Ok (a : A)
| Err (e : err)
| Panic.
Arguments Ok {A} a.
Arguments Err {A} e.
Arguments Panic {A}.

Definition bind {A B} (x : res A) (f : A -> res B) : res B :=
  match x with
  | Ok a => f a
  | Err e => Err e
  | Panic => Panic
  end.

Notation "'let*' x ':=' e1 'in' e2" := (bind e1 (fun x => e2))
  (at level 200, x pattern, e1 at level 100, e2 at level 200, right associativity).

Definition rmap {A B} (f : A -> B) (x : res A) : res B :=
  bind x (fun a => Ok (f a)).

Definition is_ok {A} (x : res A) : bool := match x with Ok _ => true | _ => false end.

(** Evaluate a list of outcomes left to right, stopping at the first failure
    (the shape of every Go loop whose body may return an error). *)
Fixpoint mapM {A B} (f : A -> res B) (l : list A) : res (list B) :=
  match l with
  | [] => Ok []
  | x :: r => let* y := f x in let* ys := mapM f r in Ok (y :: ys)
  end.

Fixpoint foldM {S A} (f : S -> A -> res S) (s : S) (l : list A) : res S :=
  match l with
  | [] => Ok s
  | x :: r => let* s' := f s x in foldM f s' r
  end.
