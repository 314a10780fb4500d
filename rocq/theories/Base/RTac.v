(** Small lemmas and tactics about the real instance. *)
From Coq Require Import ZArith Reals Lra List Bool Permutation.
From Verif Require Import Base.Num.
Import ListNotations.
Local Open Scope R_scope.

Lemma Rltb_true x y : Rltb x y = true <-> x < y.
Proof. unfold Rltb; destruct (Rlt_dec x y); split; intros; try easy. Qed.
Lemma Rltb_false x y : Rltb x y = false <-> y <= x.
Proof. unfold Rltb; destruct (Rlt_dec x y); split; intros; try easy; lra. Qed.
Lemma Rleb_true x y : Rleb x y = true <-> x <= y.
Proof. unfold Rleb; destruct (Rle_dec x y); split; intros; try easy. Qed.
Lemma Rleb_false x y : Rleb x y = false <-> y < x.
Proof. unfold Rleb; destruct (Rle_dec x y); split; intros; try easy; lra. Qed.
Lemma Reqb_true x y : Reqb x y = true <-> x = y.
Proof. unfold Reqb; destruct (Req_EM_T x y); split; intros; try easy. Qed.
Lemma Reqb_false x y : Reqb x y = false <-> x <> y.
Proof. unfold Reqb; destruct (Req_EM_T x y); split; intros; try easy. Qed.

Lemma Rltb_spec x y : BoolSpec (x < y) (y <= x) (Rltb x y).
Proof. unfold Rltb; destruct (Rlt_dec x y); constructor; lra. Qed.
Lemma Rleb_spec x y : BoolSpec (x <= y) (y < x) (Rleb x y).
Proof. unfold Rleb; destruct (Rle_dec x y); constructor; lra. Qed.
Lemma Reqb_spec x y : BoolSpec (x = y) (x <> y) (Reqb x y).
Proof. unfold Reqb; destruct (Req_EM_T x y); constructor; auto. Qed.

(** Turn boolean comparisons in the hypotheses into propositions. *)
Ltac rb :=
  repeat match goal with
  | H : Rltb _ _ = true |- _ => apply Rltb_true in H
  | H : Rltb _ _ = false |- _ => apply Rltb_false in H
  | H : Rleb _ _ = true |- _ => apply Rleb_true in H
  | H : Rleb _ _ = false |- _ => apply Rleb_false in H
  | H : Reqb _ _ = true |- _ => apply Reqb_true in H
  | H : Reqb _ _ = false |- _ => apply Reqb_false in H
  end.

(** Decide one comparison in the goal, innermost first. *)
Ltac flat t := lazymatch t with context [if _ then _ else _] => fail | _ => idtac end.
Ltac rcase :=
  match goal with
  | |- context [Rltb ?a ?b] => flat a; flat b; destruct (Rltb_spec a b)
  | |- context [Rleb ?a ?b] => flat a; flat b; destruct (Rleb_spec a b)
  | |- context [Reqb ?a ?b] => flat a; flat b; destruct (Reqb_spec a b)
  end.

(** Evaluate comparisons of constants (for concrete examples). *)
Ltac rdecide :=
  repeat (rcase; try (exfalso; lra)).

Lemma nlit_R p q : @nlit RNum p q = IZR p / IZR (Z.pos q).
Proof. reflexivity. Qed.
Lemma nofnat_R k : @nofnat RNum k = INR k.
Proof. unfold nofnat, nofZ; cbn. rewrite <- INR_IZR_INZ. field. Qed.
Lemma nofZ_R z : @nofZ RNum z = IZR z.
Proof. unfold nofZ; cbn. field. Qed.

Fixpoint Rsum (l : list R) : R :=
  match l with [] => 0 | x :: r => x + Rsum r end.

Lemma fold_left_Rplus l a : fold_left Rplus l a = a + Rsum l.
Proof.
  revert a; induction l as [|x l IH]; intros a; simpl; [lra|].
  rewrite IH; lra.
Qed.
Lemma nsum_R l : @nsum RNum l = Rsum l.
Proof. unfold nsum; cbn. rewrite fold_left_Rplus; lra. Qed.

Lemma Rsum_app l1 l2 : Rsum (l1 ++ l2) = Rsum l1 + Rsum l2.
Proof. induction l1; simpl; lra. Qed.
Lemma Rsum_map_plus {A} (g h : A -> R) l :
  Rsum (map (fun x => g x + h x) l) = Rsum (map g l) + Rsum (map h l).
Proof. induction l; simpl; lra. Qed.
Lemma Rsum_map_minus {A} (g h : A -> R) l :
  Rsum (map (fun x => g x - h x) l) = Rsum (map g l) - Rsum (map h l).
Proof. induction l; simpl; lra. Qed.
Lemma Rsum_map_scal {A} c (g : A -> R) l :
  Rsum (map (fun x => c * g x) l) = c * Rsum (map g l).
Proof. induction l; simpl; lra. Qed.
Lemma Rsum_map_const {A} c (l : list A) :
  Rsum (map (fun _ => c) l) = INR (length l) * c.
Proof.
  induction l; [simpl; lra|]. cbn [map Rsum length]. rewrite S_INR, IHl. lra.
Qed.
Lemma Rsum_nonneg l : (forall x, In x l -> 0 <= x) -> 0 <= Rsum l.
Proof.
  induction l as [|a l IH]; simpl; intros H; [lra|].
  assert (0 <= a) by (apply H; auto). assert (0 <= Rsum l) by auto. lra.
Qed.
Lemma Rsum_nonneg_eq0 l :
  (forall x, In x l -> 0 <= x) -> Rsum l = 0 -> forall x, In x l -> x = 0.
Proof.
  induction l as [|a l IH]; simpl; intros H Hs x Hx; [easy|].
  assert (0 <= a) by (apply H; auto).
  assert (0 <= Rsum l) by (apply Rsum_nonneg; auto).
  destruct Hx as [<-|Hx]; [lra|]. apply IH; auto; lra.
Qed.
Lemma Rsum_perm l1 l2 : Permutation l1 l2 -> Rsum l1 = Rsum l2.
Proof. induction 1; simpl; lra. Qed.
Lemma Rsum_le {A} (g h : A -> R) l :
  (forall x, In x l -> g x <= h x) -> Rsum (map g l) <= Rsum (map h l).
Proof.
  induction l as [|a l IH]; simpl; intros H; [lra|].
  assert (g a <= h a) by auto. assert (Rsum (map g l) <= Rsum (map h l)) by auto. lra.
Qed.

(** Make the carrier of [RNum] syntactically [R] everywhere. *)
Ltac unR := change (num RNum) with R in *.

Lemma fold_left_sum {A} (g : A -> R) l a :
  fold_left (fun s x => s + g x) l a = a + Rsum (map g l).
Proof.
  revert a; induction l as [|x l IH]; intros a; cbn [fold_left map Rsum]; [lra|]. rewrite IH; lra.
Qed.
Lemma Rsum_map_ext {A} (g h : A -> R) l :
  (forall x, In x l -> g x = h x) -> Rsum (map g l) = Rsum (map h l).
Proof. intros H. f_equal. now apply map_ext_in. Qed.
Lemma sq_nonneg (x : R) : 0 <= x * x.
Proof. exact (Rle_0_sqr x). Qed.
Lemma sq_zero (x : R) : x * x = 0 -> x = 0.
Proof. intros H. apply Rsqr_0_uniq. exact H. Qed.
