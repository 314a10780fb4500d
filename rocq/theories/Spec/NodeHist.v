(** What the trainer's own histograms and the split search on them are for. *)
From Coq Require Import List Arith ZArith Bool Reals.
From Verif Require Import Base.Num Base.RTac Model.LgbHist Spec.LgbHist Spec.LgbSplit.
Import ListNotations.
Local Open Scope list_scope.
Local Open Scope R_scope.

(** The least value of the penalised second-order objective of a leaf with gradient sum [g]
    and hessian sum [h]: [g w + (h + l2 + 1e-10) w^2 / 2 + l1 |w|] over all outputs [w]. *)
Definition lowest (l1 l2 g h : R) : R :=
  let z := Rmax (Rabs g - l1) 0 in - (z * z) / (2 * (h + l2 + 1 / 10000000000)).
(** How much two leaves are better than one *)
Definition node_gain (l1 l2 gl hl gr hr : R) : R :=
  lowest l1 l2 (gl + gr) (hl + hr) - lowest l1 l2 gl hl - lowest l1 l2 gr hr.
(** The outputs of the two leaves respect the monotone constraint [c] of the feature. *)
Definition leaves_ordered (c : Z) (gl hl gr hr : R) : Prop :=
  let out g h := - g / (h + 1 / 1000000000000000) in
  (c = 1%Z -> out gl hl <= out gr hr) /\ (c = (-1)%Z -> out gr hr <= out gl hl).

Section Rows.
  Variables (X : nat -> nat -> R) (G H : nat -> R) (f : nat) (l1 l2 : R) (mono : list Z) (mindata : Z).
  Let gs (l : list nat) : R := sum_of G l.
  Let hs (l : list nat) : R := sum_of H l.
  (** Sending the rows with values at most [t] left and the others right is allowed. *)
  Definition admissible (idxs : list nat) (t : R) : Prop :=
    let l := lower X f t idxs in let r := upper X f t idxs in
    (mindata <= Z.of_nat (List.length l))%Z /\ (mindata <= Z.of_nat (List.length r))%Z
    /\ leaves_ordered (nth f mono 0%Z) (gs l) (hs l) (gs r) (hs r).
  Definition threshold_gain (idxs : list nat) (t : R) : R :=
    let l := lower X f t idxs in let r := upper X f t idxs in node_gain l1 l2 (gs l) (hs l) (gs r) (hs r).
  (** [s] is the record of that division. *)
  Definition records (idxs : list nat) (t : R) (s : split RNum) : Prop :=
    let l := lower X f t idxs in let r := upper X f t idxs in
    s = @mksplit RNum (Z.of_nat f) t (threshold_gain idxs t) (Z.of_nat (List.length l)) (Z.of_nat (List.length r))
          (gs l) (gs r) (hs l) (hs r) [].
End Rows.
(** Distinct boundaries between and around the values: [n] bins at most, every value
    strictly inside a bin. *)
Definition separates (n : nat) (values bs : list R) : Prop :=
  @increasing RNum bs /\ (2 <= List.length bs <= S n)%nat
  /\ forall v, In v values -> exists i, (S i < List.length bs)%nat /\ nth i bs 0 < v < nth (S i) bs 0.
