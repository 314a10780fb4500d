(** The number interface.  Models of float64 code are written once over [Num]
    and instantiated at the real numbers ([RNum]) or at IEEE-754 binary64
    ([FNum]).  The record contains operations only - no laws - so that a
    theorem quantified over all [Num] really holds for IEEE doubles. *)
From Coq Require Import ZArith QArith Reals List.
From Flocq Require Import Core.Core IEEE754.BinarySingleNaN.
Import ListNotations.

Record Num : Type := MkNum {
  num :> Type;
  n0 : num;
  n1 : num;
  nadd : num -> num -> num;
  nsub : num -> num -> num;
  nmul : num -> num -> num;
  ndiv : num -> num -> num;
  nneg : num -> num;
  nabs : num -> num;
  nsqrt : num -> num;
  nexp : num -> num;
  nlog : num -> num;
  nlt : num -> num -> bool;     (* Go  x < y  *)
  nle : num -> num -> bool;     (* Go  x <= y *)
  neqb : num -> num -> bool;    (* Go  x == y (false on NaN) *)
  nlit : Z -> positive -> num;  (* a decimal literal p/q, rounded to the carrier *)
  nisnan : num -> bool;         (* math.IsNaN *)
  nisinf : num -> bool;         (* math.IsInf(x, 0) *)
  nnan : num;                   (* math.NaN() *)
  ninf : num                    (* math.Inf(1) *)
}.
Arguments n0 {_}.
Arguments n1 {_}.
Arguments nadd {_} _ _.
Arguments nsub {_} _ _.
Arguments nmul {_} _ _.
Arguments ndiv {_} _ _.
Arguments nneg {_} _.
Arguments nabs {_} _.
Arguments nsqrt {_} _.
Arguments nexp {_} _.
Arguments nlog {_} _.
Arguments nlt {_} _ _.
Arguments nle {_} _ _.
Arguments neqb {_} _ _.
Arguments nlit {_} _ _.
Arguments nisnan {_} _.
Arguments nisinf {_} _.
Arguments nnan {_}.
Arguments ninf {_}.

Declare Scope num_scope.
Delimit Scope num_scope with num.
Infix "+" := nadd : num_scope.
Infix "-" := nsub : num_scope.
Infix "*" := nmul : num_scope.
Infix "/" := ndiv : num_scope.
Notation "- x" := (nneg x) : num_scope.
Infix "<?" := nlt (at level 70, no associativity) : num_scope.
Infix "<=?" := nle (at level 70, no associativity) : num_scope.
Infix "=?" := neqb (at level 70, no associativity) : num_scope.
Notation "x >? y" := (nlt y x) (at level 70, no associativity, only parsing) : num_scope.
Notation "x >=? y" := (nle y x) (at level 70, no associativity, only parsing) : num_scope.

(** Go's [float64(i)] for an int [i]. *)
Definition nofZ {N : Num} (z : Z) : N := nlit z 1.
Definition nofnat {N : Num} (k : nat) : N := nofZ (Z.of_nat k).

(** Left-to-right accumulation [sum := 0; for v in l { sum += v }]. *)
Definition nsum {N : Num} (l : list N) : N := fold_left nadd l n0.

(** * Real numbers
    There is no NaN and no infinity: [nisnan] and [nisinf] are constantly false
    and the fields [nnan], [ninf] hold the dummy value 0; theorems at [RNum] are
    only stated for calls that do not produce them. *)
Definition Rltb (x y : R) : bool := if Rlt_dec x y then true else false.
Definition Rleb (x y : R) : bool := if Rle_dec x y then true else false.
Definition Reqb (x y : R) : bool := if Req_EM_T x y then true else false.

Definition RNum : Num :=
  {| num := R; n0 := 0%R; n1 := 1%R;
     nadd := Rplus; nsub := Rminus; nmul := Rmult; ndiv := Rdiv;
     nneg := Ropp; nabs := Rabs; nsqrt := R_sqrt.sqrt; nexp := exp; nlog := ln;
     nlt := Rltb; nle := Rleb; neqb := Reqb;
     nlit := fun p q => (IZR p / IZR (Z.pos q))%R;
     nisnan := fun _ => false; nisinf := fun _ => false;
     nnan := 0%R; ninf := 0%R |}.

(** * IEEE-754 binary64, round to nearest even (Go float64) *)
Definition fprec : Z := 53.
Definition femax : Z := 1024.
Definition F64 : Type := binary_float fprec femax.

Definition fprec_gt_0 : Prec_gt_0 fprec := eq_refl.
Definition fprec_lt_emax : Prec_lt_emax fprec femax := eq_refl.

Definition f64_plus : F64 -> F64 -> F64 := @Bplus fprec femax fprec_gt_0 fprec_lt_emax mode_NE.
Definition f64_minus : F64 -> F64 -> F64 := @Bminus fprec femax fprec_gt_0 fprec_lt_emax mode_NE.
Definition f64_mult : F64 -> F64 -> F64 := @Bmult fprec femax fprec_gt_0 fprec_lt_emax mode_NE.
Definition f64_div : F64 -> F64 -> F64 := @Bdiv fprec femax fprec_gt_0 fprec_lt_emax mode_NE.
Definition f64_sqrt : F64 -> F64 := @Bsqrt fprec femax fprec_gt_0 fprec_lt_emax mode_NE.
Definition f64_ofZ (z : Z) : F64 :=
  @binary_normalize fprec femax fprec_gt_0 fprec_lt_emax mode_NE z 0 false.
Definition f64_zero : F64 := B754_zero false.
Definition f64_inf (s : bool) : F64 := B754_infinity s.
Definition f64_nan : F64 := B754_nan.
Definition f64_isinf (x : F64) : bool :=
  match x with B754_infinity _ => true | _ => false end.
Definition f64_isnan (x : F64) : bool :=
  match x with B754_nan => true | _ => false end.

(** [fexp], [flog]: the implementations of math.Exp and math.Log; nothing is
    assumed about them.  Literals [p/q] are evaluated by one correctly rounded
    division of the rounded numerator and denominator; the literals occurring in
    the models have numerator and denominator below 2^53, for which this is the
    correctly rounded literal. *)
Definition FNum (fexp flog : F64 -> F64) : Num :=
  {| num := F64; n0 := f64_zero; n1 := f64_ofZ 1;
     nadd := f64_plus; nsub := f64_minus; nmul := f64_mult; ndiv := f64_div;
     nneg := Bopp; nabs := Babs; nsqrt := f64_sqrt; nexp := fexp; nlog := flog;
     nlt := Bltb; nle := Bleb; neqb := Beqb;
     nlit := fun p q => if Pos.eqb q 1 then f64_ofZ p else f64_div (f64_ofZ p) (f64_ofZ (Z.pos q));
     nisnan := f64_isnan; nisinf := f64_isinf;
     nnan := f64_nan; ninf := f64_inf false |}.

(** An instance for concrete computations that use neither exp nor log. *)
Definition F0 : Num := FNum (fun x => x) (fun x => x).
Definition f (p : Z) (q : positive) : F0 := @nlit F0 p q.

(** The value of a double without the proof of its well-formedness; computed
    examples compare these ([B2SF] is injective). *)
Definition fs (x : F64) : SpecFloat.spec_float := B2SF x.

(** * Exact rationals, for computed examples only *)
Definition QNum : Num :=
  {| num := Q; n0 := 0%Q; n1 := 1%Q;
     nadd := fun x y => Qred (x + y); nsub := fun x y => Qred (x - y);
     nmul := fun x y => Qred (x * y); ndiv := fun x y => Qred (x / y);
     nneg := Qopp; nabs := Qabs.Qabs; nsqrt := fun x => x; nexp := fun x => x;
     nlog := fun x => x;
     nlt := fun x y => negb (Qle_bool y x); nle := Qle_bool; neqb := Qeq_bool;
     nlit := fun p q => Qred (p # q);
     nisnan := fun _ => false; nisinf := fun _ => false;
     nnan := 0%Q; ninf := 0%Q |}.
