(** What the streaming methods should compute. *)
From Coq Require Import List Bool.
From Verif Require Import Base.GoRes.
Import ListNotations.
Local Open Scope list_scope.

Section Spec.
Context {S B X P : Type}.
Variable pfit : S -> B -> S * res unit.
Variable fitted : S -> bool.
Variable predict : S -> X -> res P.
Variable bx : B -> X.

(** Training on the batches one after the other, up to and including the first failure. *)
Fixpoint train (s : S) (l : list B) : S * res unit :=
  match l with
  | [] => (s, Ok tt)
  | b :: r => match snd (pfit s b) with Ok _ => train (fst (pfit s b)) r | e => (fst (pfit s b), e) end
  end.

(** The answer to an input, if there is one. *)
Definition answer (s : S) (x : X) : list P := match predict s x with Ok p => [p] | _ => [] end.
Definition answers (l : list (S * X)) : list P := flat_map (fun p => answer (fst p) (snd p)) l.

(** Test, then train: each batch is answered by the model trained on the batches before it
    (nothing as long as the model is not fitted), failures to train are passed over. *)
Fixpoint test_then_train (s : S) (l : list B) : list P * S :=
  match l with
  | [] => ([], s)
  | b :: r =>
      let (o, s') := test_then_train (fst (pfit s b)) r in
      ((if fitted s then answer s (bx b) else []) ++ o, s')
  end.
End Spec.
