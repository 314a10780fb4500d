(** What SaveModel and LoadModel rely on: gob decodes what it encoded, and does not decode a
    stream that ends early. *)
From Coq Require Import List.
Import ListNotations.

Definition strict_prefix {B} (p l : list B) : Prop := exists b r, l = p ++ b :: r.
Definition codec {M B} (encode : M -> list (list B) * bool) (decode : list B -> option M) : Prop :=
  forall m, snd (encode m) = true ->
    decode (concat (fst (encode m))) = Some m /\
    (forall p, strict_prefix p (concat (fst (encode m))) -> decode p = None).
