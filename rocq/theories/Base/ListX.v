(** List lemmas shared by the developments. *)
From Coq Require Import List Arith Lia Permutation Sorted.
Import ListNotations.

(** Apply [g] to the [i]-th element (no effect when out of range). *)
Fixpoint upd {A} (i : nat) (g : A -> A) (l : list A) : list A :=
  match l, i with
  | [], _ => []
  | x :: r, O => g x :: r
  | x :: r, S j => x :: upd j g r
  end.

Lemma upd_length {A} i (g : A -> A) l : length (upd i g l) = length l.
Proof. revert i; induction l as [|x l IH]; intros [|i]; simpl; auto. Qed.

Lemma upd_comm {A} i j (g h : A -> A) l :
  i <> j -> upd i g (upd j h l) = upd j h (upd i g l).
Proof.
  revert i j; induction l as [|x l IH]; intros [|i] [|j] H; simpl; try easy.
  f_equal. apply IH. lia.
Qed.

Lemma nth_error_upd_same {A} i (g : A -> A) l :
  nth_error (upd i g l) i = option_map g (nth_error l i).
Proof. revert i; induction l as [|x l IH]; intros [|i]; simpl; auto. Qed.

Lemma nth_error_upd_other {A} i j (g : A -> A) l :
  i <> j -> nth_error (upd i g l) j = nth_error l j.
Proof.
  revert i j; induction l as [|x l IH]; intros [|i] [|j] H; simpl; try easy.
  apply IH; lia.
Qed.

Lemma upd_app_l {A} i (g : A -> A) l1 l2 :
  i < length l1 -> upd i g (l1 ++ l2) = upd i g l1 ++ l2.
Proof.
  revert i; induction l1 as [|x l1 IH]; intros [|i] H; simpl in *; try lia; auto.
  f_equal; apply IH; lia.
Qed.

Lemma upd_app_r {A} i (g : A -> A) l1 l2 :
  upd (length l1 + i) g (l1 ++ l2) = l1 ++ upd i g l2.
Proof. induction l1; simpl; congruence. Qed.

(** Pointwise application of an indexed function. *)
Fixpoint mapi_from {A B} (k : nat) (g : nat -> A -> B) (l : list A) : list B :=
  match l with
  | [] => []
  | x :: r => g k x :: mapi_from (S k) g r
  end.
Definition mapi {A B} (g : nat -> A -> B) (l : list A) : list B := mapi_from 0 g l.

Lemma mapi_from_length {A B} k (g : nat -> A -> B) l : length (mapi_from k g l) = length l.
Proof. revert k; induction l; simpl; auto. Qed.

Lemma nth_error_mapi_from {A B} k (g : nat -> A -> B) l i :
  nth_error (mapi_from k g l) i = option_map (g (k + i)) (nth_error l i).
Proof.
  revert k i; induction l as [|x l IH]; intros k [|i]; simpl; auto.
  - now rewrite Nat.add_0_r.
  - rewrite IH. now replace (S k + i) with (k + S i) by lia.
Qed.

(** Running the slot updates 0,1,...,n-1 one after the other is [mapi]. *)
Lemma fold_upd_seq {A} (g : nat -> A -> A) l pre :
  fold_left (fun s i => upd i (g i) s) (seq (length pre) (length l)) (pre ++ l)
  = pre ++ mapi_from (length pre) g l.
Proof.
  revert pre; induction l as [|x l IH]; intros pre; simpl; [reflexivity|].
  replace (length pre) with (length pre + 0) at 2 by lia. rewrite upd_app_r. simpl.
  replace (pre ++ g (length pre) x :: l) with ((pre ++ [g (length pre) x]) ++ l)
    by (rewrite <- app_assoc; reflexivity).
  replace (S (length pre)) with (length (pre ++ [g (length pre) x]))
    by (rewrite app_length; simpl; lia).
  rewrite IH, app_length, <- app_assoc. simpl. reflexivity.
Qed.

Lemma nth_error_ext {A} (l1 l2 : list A) :
  (forall i, nth_error l1 i = nth_error l2 i) -> l1 = l2.
Proof.
  revert l2; induction l1 as [|x l1 IH]; intros [|y l2] H; auto.
  - specialize (H 0); discriminate.
  - specialize (H 0); discriminate.
  - pose proof (H 0) as H0; simpl in H0; injection H0 as ->.
    f_equal. apply IH. intros i. exact (H (S i)).
Qed.

Lemma concat_map_seq_chunks c k s :
  concat (map (fun i => seq (s + i * c) c) (seq 0 k)) = seq s (k * c).
Proof.
  revert s; induction k as [|k IH]; intros s; [reflexivity|].
  rewrite seq_S, map_app, concat_app. simpl. rewrite app_nil_r, IH.
  rewrite <- seq_app. f_equal. lia.
Qed.

Lemma filter_length_le {A} (p : A -> bool) l : length (filter p l) <= length l.
Proof. induction l as [|x l IH]; simpl; [lia|]. destruct (p x); simpl; lia. Qed.

Lemma NoDup_app_intro {A} (l1 l2 : list A) :
  NoDup l1 -> NoDup l2 -> (forall x, In x l1 -> In x l2 -> False) -> NoDup (l1 ++ l2).
Proof.
  intros H1 H2. induction H1 as [|x l Hx Hl IH]; intros H; cbn; [exact H2|]. constructor.
  - intros Hin. apply in_app_iff in Hin as [Hin|Hin]; [easy|]. apply (H x); [now left|exact Hin].
  - apply IH. intros y Hy. apply H. now right.
Qed.
