(** Binary threshold trees over labelled samples. *)
From Coq Require Import List Arith ZArith Reals Bool.
From Verif Require Import Base.Num Base.RTac Model.Tree.
Import ListNotations.

Section Routing.
  Context {N : Num} {A : Type}.
  (** A labelled sample. *)
  Definition tsample : Type := (list N * A)%type.
  Definition goes_left (f : nat) (thr : N) (s : tsample) : bool :=
    match nth_error (fst s) f with Some v => nle v thr | None => false end.
  Definition left_of (f : nat) (thr : N) (S : list tsample) := filter (goes_left f thr) S.
  Definition right_of (f : nat) (thr : N) (S : list tsample) := filter (fun s => negb (goes_left f thr s)) S.

  (** [region t S d sub S' d']: when the samples [S] are sent down the tree [t], whose root
      is at depth [d], the samples [S'] pass through the subtree [sub], at depth [d']. *)
  Inductive region : tree N -> list tsample -> nat -> tree N -> list tsample -> nat -> Prop :=
  | region_here t S d : region t S d t S d
  | region_left i f thr l r S d sub S' d' :
      region l (left_of f thr S) (Datatypes.S d) sub S' d' -> region (Split i f thr l r) S d sub S' d'
  | region_right i f thr l r S d sub S' d' :
      region r (right_of f thr S) (Datatypes.S d) sub S' d' -> region (Split i f thr l r) S d sub S' d'.
End Routing.
Arguments tsample N A : clear implicits.

(** The leaf a row ends in. *)
Inductive lands {N : Num} : tree N -> list N -> ninfo N -> Prop :=
| lands_leaf i x : lands (Leaf i) x i
| lands_left i f thr l r x v j : nth_error x f = Some v -> nle v thr = true -> lands l x j -> lands (Split i f thr l r) x j
| lands_right i f thr l r x v j : nth_error x f = Some v -> nle v thr = false -> lands r x j -> lands (Split i f thr l r) x j.

(** Labels *)
Definition occurs {B} (S : list (B * Z)) (c : Z) : nat := length (filter (fun s => Z.eqb (snd s) c) S).
(** The most frequent label, the smallest one on ties. *)
Definition most_frequent {B} (S : list (B * Z)) (c : Z) : Prop :=
  0 < occurs S c /\ forall c', occurs S c' < occurs S c \/ (occurs S c' = occurs S c /\ (c <= c')%Z).
(** The distinct labels. *)
Definition labels_in {B} (S : list (B * Z)) : list Z := nodup Z.eq_dec (map snd S).

(** * Impurities over the reals *)
Local Open Scope R_scope.
Definition share {B} (S : list (B * Z)) (c : Z) : R := INR (occurs S c) / INR (length S).
Definition gini {B} (S : list (B * Z)) : R := 1 - Rsum (map (fun c => share S c * share S c) (labels_in S)).
Definition Rlog2 (x : R) : R := ln x / ln 2.
Definition entropy {B} (S : list (B * Z)) : R :=
  - Rsum (map (fun c => share S c * Rlog2 (share S c)) (labels_in S)).
(** Impurity of the two sides together, each sample counted once, and what a split gains. *)
Definition split_cost {B} (imp : list (B * Z) -> R) (L R_ : list (B * Z)) : R :=
  INR (length L) * imp L + INR (length R_) * imp R_.
Definition gain (imp : list (tsample RNum Z) -> R) (S : list (tsample RNum Z)) (f : nat) (thr : R) : R :=
  INR (length S) * imp S - split_cost imp (@left_of RNum Z f thr S) (@right_of RNum Z f thr S).

(** Total gain of the nodes splitting on feature [f]. *)
Fixpoint total_gain (imp : list (tsample RNum Z) -> R) (t : tree RNum) (S : list (tsample RNum Z)) (f : nat) : R :=
  match t with
  | Leaf _ => 0
  | Split _ g thr l r =>
      (if Nat.eqb g f then gain imp S g thr else 0)
      + total_gain imp l (@left_of RNum Z g thr S) f + total_gain imp r (@right_of RNum Z g thr S) f
  end.
