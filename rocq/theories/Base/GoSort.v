(** Go's sort.Slice / sort.Float64s.  The algorithm is unstable (pdqsort), so the
    only facts used are that the result is a rearrangement and that it is ordered:
    no later element is less than an earlier one.  The models take the sorting
    function as an argument; theorems hold for every function with this
    specification.  [isort] witnesses that such functions exist. *)
From Coq Require Import List Permutation Sorted Bool.
Import ListNotations.

Definition ordered {A} (less : A -> A -> bool) (l : list A) : Prop :=
  StronglySorted (fun a b => less b a = false) l.

Definition go_sort {A} (less : A -> A -> bool) (s : list A -> list A) : Prop :=
  forall l, Permutation l (s l) /\ ordered less (s l).

(** Strict weak orders. *)
Definition asym {A} (less : A -> A -> bool) : Prop :=
  forall a b, less a b = true -> less b a = false.
Definition negtrans {A} (less : A -> A -> bool) : Prop :=
  forall a b c, less a b = false -> less b c = false -> less a c = false.

Section Isort.
  Context {A : Type} (less : A -> A -> bool).

  Fixpoint insert (x : A) (l : list A) : list A :=
    match l with
    | [] => [x]
    | y :: r => if less y x then y :: insert x r else x :: l
    end.
  Fixpoint isort (l : list A) : list A :=
    match l with [] => [] | x :: r => insert x (isort r) end.

  Lemma insert_perm x l : Permutation (x :: l) (insert x l).
  Proof.
    induction l as [|y l IH]; cbn; [reflexivity|].
    destruct (less y x); [|reflexivity].
    rewrite perm_swap. now apply perm_skip.
  Qed.
  Lemma isort_perm l : Permutation l (isort l).
  Proof.
    induction l as [|x l IH]; cbn; [reflexivity|].
    rewrite <- insert_perm. now apply perm_skip.
  Qed.
  Lemma insert_ordered x l : asym less -> negtrans less -> ordered less l -> ordered less (insert x l).
  Proof.
    intros Ha Hn. induction l as [|y l IH]; cbn; intros H.
    - repeat constructor.
    - inversion H as [|? ? Hs Hf]; subst. destruct (less y x) eqn:E.
      + constructor; [now apply IH|]. rewrite Forall_forall in *. intros z Hz.
        apply Permutation_in with (l' := x :: l) in Hz; [|symmetry; apply insert_perm].
        destruct Hz as [<-|Hz]; auto.
      + constructor; [exact H|]. constructor; [exact E|].
        rewrite Forall_forall in *. intros z Hz. eapply Hn; [apply Hf, Hz|exact E].
  Qed.
  Lemma isort_ordered l : asym less -> negtrans less -> ordered less (isort l).
  Proof.
    intros Ha Hn. induction l as [|x l IH]; cbn; [constructor|]. now apply insert_ordered.
  Qed.
  Lemma isort_go_sort : asym less -> negtrans less -> go_sort less isort.
  Proof. intros Ha Hn l. split; [apply isort_perm|now apply isort_ordered]. Qed.
End Isort.
