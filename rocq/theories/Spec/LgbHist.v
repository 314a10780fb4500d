(** What a histogram of a feature is, independent of how bins are searched. *)
From Coq Require Import List Arith ZArith Bool Sorted Reals.
From Verif Require Import Base.Num Model.LgbHist.
Import ListNotations.
Local Open Scope list_scope.

Section Spec.
  Context {N : Num}.

  Definition increasing (bs : list N) : Prop := StronglySorted (fun a b => nlt a b = true) bs.
  (** The value [v] belongs to bin [i] of the boundaries: the bins are half-open intervals,
      the first and the last one absorb the values outside. *)
  Definition in_binb (bs : list N) (i : nat) (v : N) : bool :=
    Nat.ltb (S i) (List.length bs)
    && (Nat.eqb i 0 || nle (nth i bs n0) v)
    && (Nat.eqb (S (S i)) (List.length bs) || nlt v (nth (S i) bs n0)).
  Definition in_bin (bs : list N) (i : nat) (v : N) : Prop := in_binb bs i v = true.

  (** The histogram of samples (value, (gradient, hessian)): per bin its two boundaries, the
      number of samples in it and their gradient and hessian sums. *)
  Definition histogram (bs : list N) (ss : list (N * (N * N))) : list (bin N) :=
    map (fun i => let own := filter (fun s => in_binb bs i (fst s)) ss in
                  mkbin (nth i bs n0) (nth (S i) bs n0) (Z.of_nat (List.length own))
                        (nsum (map (fun s => fst (snd s)) own)) (nsum (map (fun s => snd (snd s)) own)))
        (seq 0 (List.length bs - 1)).

  Definition count_all (bins : list (bin N)) : Z := fold_right (fun b c => (b_cnt b + c)%Z) 0%Z bins.
  Definition grad_all (bins : list (bin N)) : N := fold_right (fun b c => nadd (b_g b) c) n0 bins.
  Definition hess_all (bins : list (bin N)) : N := fold_right (fun b c => nadd (b_h b) c) n0 bins.
  (** What a bin holds, without its boundaries *)
  Definition contents (b : bin N) : Z * N * N := (b_cnt b, b_g b, b_h b).
  Definition no_nan_in (l : list N) : Prop := forall v, In v l -> nisnan v = false.
  (** At most [k] different values occur in the list. *)
  Definition few_values (l : list N) (k : nat) : Prop := exists us, List.length us <= k /\ incl l us.
End Spec.

(** Conversion to int drops the fraction of non-negative numbers. *)
Definition truncates (toint : R -> Z) : Prop := forall x, (0 <= x)%R -> (IZR (toint x) <= x < IZR (toint x) + 1)%R.
(** Different values are further apart than 1e-10. *)
Definition apart (values : list R) : Prop :=
  forall v w, In v values -> In w values -> (v < w)%R -> (1 / 10000000000 < w - v)%R.
