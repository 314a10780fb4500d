(** What a pipeline of stages should deliver and count. *)
From Coq Require Import List Arith ZArith.
From Verif Require Import Model.Streaming.
Import ListNotations.

Section Spec.
  Context {item : Type}.
  Variables rows cols : item -> Z.
  (** The stages applied one after the other to a sequence *)
  Definition through (fs : list ((item -> list item) * nat)) (l : list item) : list item := fold_left (fun l f => flat_map (fst f) l) fs l.
  (** The channel that Run returned, and whether it is closed and empty: the caller's loop over it ends *)
  Definition last_out (ss : list (stage item)) : chan item := out (last ss (meter 0)).
  Definition drained (r : run item) : Prop := last_out (chain r) = mkch [] true.
  (** The elements a call has taken off its last stage's input and not yet given to the caller *)
  Definition on_the_way (r : run item) : list item := let s := last (chain r) (meter 0) in queue (out s) ++ pending s.
  Definition zsum (l : list Z) : Z := fold_right Z.add 0%Z l.
  (** The calls: stages with capacities, buffer size and input *)
  Definition call : Type := list ((item -> list item) * nat) * nat * list item.
  Definition fresh (c : call) : run item := start_run (fst (fst c)) (snd (fst c)) (snd c).
  Definition expected (c : call) : list item := through (fst (fst c)) (snd c).
  Definition fine (a : item) : Prop := (0 <= rows a)%Z /\ (0 <= cols a)%Z /\ (rows a * cols a * 8 < 2 ^ 63)%Z.
End Spec.
