(** What the best split of a node is. *)
From Coq Require Import List Arith ZArith Bool Reals.
From Verif Require Import Base.Num Base.RTac Model.LgbHist Spec.LgbHist.
Import ListNotations.
Local Open Scope list_scope.

Section Cuts.
  Context {N : Num}.
  Variables (lambda alpha tg th : N) (mindata : Z).
  (** The split of a bin sequence after its first [k] bins: the left sums are taken in bin
      order, the right sums are the totals minus the left sums. *)
  Definition left_g (bins : list (bin N)) (k : nat) : N := nsum (map (@b_g N) (firstn k bins)).
  Definition left_h (bins : list (bin N)) (k : nat) : N := nsum (map (@b_h N) (firstn k bins)).
  Definition cut_gain (bins : list (bin N)) (k : nat) : N :=
    calc_gain lambda alpha (left_g bins k) (left_h bins k) (nsub tg (left_g bins k)) (nsub th (left_h bins k)) tg th.
  (** Both sides have bins and enough samples. *)
  Definition cut_ok (bins : list (bin N)) (k : nat) : Prop :=
    (0 < k < List.length bins)%nat
    /\ (mindata <= count_all (firstn k bins))%Z /\ (mindata <= count_all (skipn k bins))%Z.
  (** [s] records the cut after [k] bins. *)
  Definition is_cut (bins : list (bin N)) (k : nat) (s : split N) : Prop :=
    s_gain s = cut_gain bins k
    /\ s_lc s = count_all (firstn k bins) /\ s_rc s = count_all (skipn k bins)
    /\ s_lg s = left_g bins k /\ s_lh s = left_h bins k
    /\ s_rg s = nsub tg (left_g bins k) /\ s_rh s = nsub th (left_h bins k).
End Cuts.

(** ** Over the real numbers, in terms of rows *)
Local Open Scope R_scope.
(** The gain of dividing rows with gradient sums [gl], [gr] and hessian sums [hl], [hr]: the
    decrease of the second-order objective, less an L1 penalty; 0 when a regularised hessian
    sum is below 1e-16. *)
Definition gain_of (lambda alpha gl hl gr hr : R) : R :=
  if Rltb (hl + lambda) (1 / 10000000000000000) || Rltb (hr + lambda) (1 / 10000000000000000)
     || Rltb (hl + hr + lambda) (1 / 10000000000000000) then 0
  else
    let w gs hs := gs / (hs + lambda) in
    1 / 2 * (gl * w gl hl + gr * w gr hr - (gl + gr) * w (gl + gr) (hl + hr))
    - (if Rltb 0 alpha then alpha * (Rabs (w gl hl) + Rabs (w gr hr)) else 0).

Section Rows.
  Variables (X : nat -> nat -> R) (G H : nat -> R) (f : nat).
  Definition lower (t : R) (idxs : list nat) : list nat := filter (fun i => Rleb (X i f) t) idxs.
  Definition below (t : R) (idxs : list nat) : list nat := filter (fun i => Rltb (X i f) t) idxs.
  Definition upper (t : R) (idxs : list nat) : list nat := filter (fun i => negb (Rleb (X i f) t)) idxs.
  Definition upward (t : R) (idxs : list nat) : list nat := filter (fun i => negb (Rltb (X i f) t)) idxs.
  Definition sum_of (v : nat -> R) (idxs : list nat) : R := Rsum (map v idxs).
  (** The gain of sending the rows [l] left and [r] right *)
  Definition rows_gain (lambda alpha : R) (l r : list nat) : R :=
    gain_of lambda alpha (sum_of G l) (sum_of H l) (sum_of G r) (sum_of H r).
  (** The split [s] describes the division of the rows into [l] and [r]. *)
  Definition divides (lambda alpha : R) (s : split RNum) (l r : list nat) : Prop :=
    s_gain s = rows_gain lambda alpha l r
    /\ s_lc s = Z.of_nat (List.length l) /\ s_rc s = Z.of_nat (List.length r)
    /\ s_lg s = sum_of G l /\ s_rg s = sum_of G r /\ s_lh s = sum_of H l /\ s_rh s = sum_of H r.
End Rows.
