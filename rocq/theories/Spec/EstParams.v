(** What setting and reading parameters should mean. *)
From Coq Require Import String List Bool ZArith Ascii.
From Verif Require Import Base.GoMap Model.EstParams.
Import ListNotations.
Local Open Scope string_scope.
Local Open Scope list_scope.

Section S.
  Context {F : Type}.
  (** A known parameter with a value of its type *)
  Definition accepted (types : smap ptype) (e : string * pval F) : Prop := sget (fst e) types = Some (type_of (snd e)).
  Definition well_typed (types : smap ptype) (f : fields F) : Prop := forall k t, sget k types = Some t -> type_of (f k) = t.
  (** [s] contains two underscores in a row, or ends in one *)
  Fixpoint ambiguous (s : string) : bool :=
    match s with
    | EmptyString => false
    | String a r => if ascii_dec a "_" then (match r with EmptyString => true | String b _ => if ascii_dec b "_" then true else false end) || ambiguous r else ambiguous r
    end.
End S.
