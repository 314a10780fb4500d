(** Reading predictions off a dump. *)
From Coq Require Import String List Arith ZArith Bool.
From Verif Require Import Base.Num Base.ListX Model.LgbTree Model.LgbDump.
Import ListNotations.
Local Open Scope list_scope.

Section S.
  Context {N : Num}.
  (** The value for a sample: NaN follows default_left, other values go left when they are at most the threshold; [None]: the dump has
      no value, or the sample lacks a feature. *)
  Fixpoint read_dump (d : dnode N) (x : list N) : option N :=
    match d with
    | DAbsent | DNil => None
    | DLeaf _ v => Some v
    | DSplit _ f _ th dl _ l r =>
        match getZ x f with
        | None => None
        | Some v => if (if nisnan v then dl else nle v th) then read_dump l x else read_dump r x
        end
    end.
  (** The leaf values that occur *)
  Fixpoint dump_values (d : dnode N) : list N :=
    match d with
    | DAbsent | DNil => []
    | DLeaf _ v => [v]
    | DSplit _ _ _ _ _ _ l r => dump_values l ++ dump_values r
    end.
  (** The values of all trees of a dump for a sample *)
  Definition read_tree_info (x : list N) (t : dtree N) : option N := match dt_structure t with SNodes d => read_dump d x | SValues _ => None end.
  Fixpoint read_all (x : list N) (l : list (dtree N)) : option (list N) :=
    match l with
    | [] => Some []
    | t :: r => match read_tree_info x t, read_all x r with Some v, Some vs => Some (v :: vs) | _, _ => None end
    end.
  (** Tree number i is added to class i modulo num_tree_per_iteration. *)
  Definition add_up (d : ddoc N) (init : N) (outs : list N) : list N :=
    map (fun c => fold_left (fun acc t => if Nat.eqb (Nat.modulo (fst t) (Z.to_nat (dd_per d))) c then nadd acc (snd t) else acc)
                    (combine (map dt_index (dd_trees d)) outs) init)
        (seq 0 (Z.to_nat (dd_per d))).
End S.
