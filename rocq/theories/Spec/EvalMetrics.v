(** What C109 to C111 say about evaluation reports: labels are counted over the positions of the two
    lists of true and predicted labels. *)
From Coq Require Import List Arith ZArith Bool Reals Sorting.
From Verif Require Import Base.Num Base.RTac.
Import ListNotations.

(** How often [a] was the truth where [b] was predicted. *)
Definition seen (yt yp : list Z) (a b : Z) : nat :=
  length (filter (fun s => Z.eqb (fst s) a && Z.eqb (snd s) b) (combine yt yp)).
(** How often a label occurs. *)
Definition times (l : list Z) (a : Z) : nat := count_occ Z.eq_dec l a.
(** How often truth and prediction agree. *)
Definition agreeing (yt yp : list Z) : nat :=
  length (filter (fun i => Z.eqb (nth i yt 0%Z) (nth i yp 0%Z)) (seq 0 (length yt))).
(** The number of ones. *)
Fixpoint ones {N : Num} (k : nat) : N := match k with O => n0 | S k' => nadd (ones k') n1 end.

(** Precision and recall of a label over the reals, 0 where they are not defined. *)
Definition precision_of (yt yp : list Z) (c : Z) : R := (if Nat.eqb (times yp c) 0 then 0 else INR (seen yt yp c c) / INR (times yp c))%R.
Definition recall_of (yt yp : list Z) (c : Z) : R := (if Nat.eqb (times yt c) 0 then 0 else INR (seen yt yp c c) / INR (times yt c))%R.
(** The harmonic mean, 0 if both are 0. *)
Definition harmonic (p r : R) : R := (if Req_EM_T (p + r) 0 then 0 else 2 * p * r / (p + r))%R.

(** The labels as numbers: 1 for the positive label, 0 for others. *)
Definition encoded (pos : Z) (yt : list Z) : list R := map (fun t => if Z.eqb t pos then 1%R else 0%R) yt.

(** The relative errors of the predictions whose target is not 0. *)
Definition relative_errors (t p : list R) : list R :=
  map (fun ab => Rabs (fst ab - snd ab) / Rabs (fst ab))%R (filter (fun ab => negb (Reqb (fst ab) 0)) (combine t p)).
