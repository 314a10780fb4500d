(** Nearest centres and running means. *)
From Coq Require Import List Arith Bool Reals.
From Verif Require Import Base.Num Base.RTac Base.ListX.
Import ListNotations.

(** Euclidean distance in any arithmetic. *)
Definition dist {N : Num} (a b : list N) : N :=
  nsqrt (nsum (map (fun ab => nmul (nsub (fst ab) (snd ab)) (nsub (fst ab) (snd ab))) (combine a b))).

(** Neither NaN nor +Inf (always true over the reals). *)
Definition usable {N : Num} (d : N) : bool := negb (nisnan d) && negb (nisinf d && nlt n0 d).

(** [c] is the position of the closest of the centres [C], the first one on ties;
    position 0 when no distance is usable. *)
Definition closest {N : Num} (x : list N) (C : list (list N)) (c : nat) : Prop :=
  (exists ctr, nth_error C c = Some ctr /\ usable (dist x ctr) = true /\
     forall e ctr', nth_error C e = Some ctr' ->
       nlt (dist x ctr') (dist x ctr) = false /\
       (e < c -> usable (dist x ctr') = true -> nlt (dist x ctr) (dist x ctr') = true)) \/
  (c = 0 /\ forall ctr', In ctr' C -> usable (dist x ctr') = false).

(** The mean of rows of width [d]. *)
Definition mean_rows (d : nat) (l : list (list R)) : list R :=
  map (fun j => (Rsum (map (fun r => nth j r 0) l) / INR (length l))%R) (seq 0 d).

(** A cluster: the initial centre and the samples assigned to it so far.  Its centre
    is the mean of the samples, the initial centre while there are none. *)
Definition cluster : Type := (list R * list (list R))%type.
Definition centre (d : nat) (cl : cluster) : list R :=
  match snd cl with [] => fst cl | l => mean_rows d l end.

(** Samples arrive one after the other; each joins the closest cluster. *)
Inductive grows (d : nat) : list cluster -> list (list R) -> list cluster -> Prop :=
| grows_nil cs : grows d cs [] cs
| grows_cons cs x xs k cs' :
    closest (N := RNum) x (map (centre d) cs) k ->
    grows d (upd k (fun cl => (fst cl, snd cl ++ [x])) cs) xs cs' ->
    grows d cs (x :: xs) cs'.
