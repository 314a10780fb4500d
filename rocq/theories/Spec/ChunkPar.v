(** What is expected of parallel chunk processing. *)
From Coq Require Import List Arith Bool.
From Verif Require Import Model.ChunkPar.
Import ListNotations.

Section Spec.
  Context {R E : Type}.
  (** The number of chunks of n rows, and the length of chunk k *)
  Definition count (c n : nat) : nat := (n + c - 1) / c.
  Definition size (c n k : nat) : nat := Nat.min c (n - k * c).
  (** Chunk k of the rows *)
  Definition chunk (c : nat) (rows : list R) (k : nat) : list R := firstn c (skipn (k * c) rows).
  (** The numbers of the chunks for which the function was called, the rows it saw, and the errors it returned *)
  Definition called (s : st R E) : list nat := map (fun e => fst (fst e)) (calls s).
  Definition seen (s : st R E) : list (list (option R)) := map (fun e => snd (fst e)) (calls s).
  Definition failures (s : st R E) : list E := flat_map (fun e => match snd e with Some x => [x] | None => [] end) (calls s).
  (** Nothing moves any more *)
  Definition stuck (c cap : nat) (s : st R E) : Prop := forall t, ~ step c cap s t.
End Spec.
(** Executions of k steps *)
Inductive nsteps {R E : Type} (c cap : nat) (s : st R E) : nat -> st R E -> Prop :=
| n_refl : nsteps c cap s 0 s
| n_next k t u : nsteps c cap s k t -> step c cap t u -> nsteps c cap s (S k) u.
