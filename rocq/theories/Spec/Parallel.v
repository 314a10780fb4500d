(** What users expect of a parallel loop, independent of how it is chunked. *)
From Coq Require Import List Arith.
From Verif Require Import Base.Interleave.
Import ListNotations.

(** The ranges, read one after the other, enumerate 0,1,...,n-1 without gap or
    overlap. *)
Definition covers_exactly_once (n : nat) (ranges : list (nat * nat)) : Prop :=
  concat (map (fun r => seq (fst r) (snd r - fst r)) ranges) = seq 0 n.

Definition all_nonempty_in_bounds (n : nat) (ranges : list (nat * nat)) : Prop :=
  forall r, In r ranges -> fst r < snd r <= n.

(** Result of the sequential loop [for i in 0..n-1 { cells[i] = g i cells[i] }]. *)
Definition sequential_result {A} (g : nat -> A -> A) (before after : list A) : Prop :=
  length after = length before /\
  forall i x, nth_error before i = Some x -> nth_error after i = Some (g i x).
