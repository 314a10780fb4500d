(** Running maxima and minima that start at -Inf or +Inf.  [None] stands for that
    initial value, so that the models make sense over the reals too. *)
From Coq Require Import Bool.
From Verif Require Import Base.Num.
Local Open Scope num_scope.

Section Inf.
  Context {N : Num}.
  (** Go [x > best], [best] possibly still math.Inf(-1) *)
  Definition gt_best (x : N) (best : option N) : bool :=
    match best with
    | None => negb (nisnan x) && negb (nisinf x && (x <? n0))
    | Some b => b <? x
    end.
  (** Go [x < best], [best] possibly still math.Inf(1) *)
  Definition lt_best (x : N) (best : option N) : bool :=
    match best with
    | None => negb (nisnan x) && negb (nisinf x && (n0 <? x))
    | Some b => x <? b
    end.
  (** The values themselves, as used in later arithmetic. *)
  Definition max_value (best : option N) : N := match best with None => - ninf | Some b => b end.
  Definition min_value (best : option N) : N := match best with None => ninf | Some b => b end.
End Inf.
