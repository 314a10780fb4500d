(** Laws of the float comparisons used by theorems about "best so far" loops.
    They hold for the real numbers and for IEEE doubles including NaN and the
    infinities (Proofs/OrderP.v). *)
From Coq Require Import Bool.
From Verif Require Import Base.Num.
Local Open Scope num_scope.

Record lt_laws (N : Num) : Prop := {
  lt_irrefl : forall a : N, a <? a = false;
  lt_trans : forall a b c : N, a <? b = true -> b <? c = true -> a <? c = true;
  lt_not_nan : forall a b : N, a <? b = true -> nisnan a = false /\ nisnan b = false;
  lt_negtrans : forall a b c : N, nisnan a = false -> nisnan b = false -> nisnan c = false ->
    a <? b = false -> b <? c = false -> a <? c = false;
  (* nothing is smaller than -Inf or larger than +Inf *)
  lt_inf : forall a b : N, a <? b = true ->
    nisinf a && (n0 <? a) = false /\ nisinf b && (b <? n0) = false;
  (* adding or subtracting zero does not change comparisons *)
  lt_sub0 : forall a b : N, a <? b - n0 = (a <? b);
  lt_add0 : forall a b : N, b + n0 <? a = (b <? a) }.

(** The other comparisons in terms of [<]: without NaN, [<=] and [==] are what one expects;
    with a NaN they are false. *)
Record cmp_laws (N : Num) : Prop := {
  cmp_le : forall a b : N, nisnan a = false -> nisnan b = false -> a <=? b = negb (b <? a);
  cmp_eq : forall a b : N, nisnan a = false -> nisnan b = false -> a =? b = negb (a <? b) && negb (b <? a);
  cmp_nan : forall a b : N, nisnan a = true \/ nisnan b = true -> (a <=? b) = false /\ (a =? b) = false }.
