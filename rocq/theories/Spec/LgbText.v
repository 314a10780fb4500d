(** Model files in text form: words, and what a tree that was saved looks like. *)
From Coq Require Import String List Arith ZArith Bool Ascii.
From Verif Require Import Base.Num Model.LgbTree Model.LgbText.
Import ListNotations.
Local Open Scope list_scope.

Fixpoint all_chars (P : ascii -> bool) (s : string) : bool :=
  match s with EmptyString => true | String c r => P c && all_chars P r end.
(** Text without a line break *)
Definition one_line (s : string) : bool := all_chars (fun c => negb (Ascii.eqb c newline)) s.
(** A word: not empty, no white space *)
Definition token (s : string) : bool := negb (String.eqb s EmptyString) && all_chars (fun c => negb (is_space c)) s.

Section LgbTextSpec.
  Context {N : Num}.
  (** A binary decision tree; a split carries the content of its node, without the links *)
  Inductive dtree := Leaf (v : N) | Split (n : gnode N) (l r : dtree).
  Fixpoint nodes_of (t : dtree) : nat := match t with Leaf _ => 1%nat | Split _ l r => S (nodes_of l + nodes_of r) end.
  (** Its array: a node, then its left subtree, then its right subtree *)
  Fixpoint preorder (at_ : nat) (t : dtree) : list (gnode N) :=
    match t with
    | Leaf v => [mkgn (-1) (-1) TLeaf 0 n0 [] false n0 v n0]
    | Split n l r =>
        mkgn (Z.of_nat (S at_)) (Z.of_nat (S at_ + nodes_of l)) (g_type n) (g_feat n) (g_thr n) (g_cats n) (g_defl n) (g_gain n) (g_leaf n) (g_ival n)
        :: preorder (S at_) l ++ preorder (S at_ + nodes_of l) r
    end.
  (** Every split is on one of the first [nf] features. *)
  Fixpoint splits_below (nf : Z) (t : dtree) : Prop :=
    match t with Leaf _ => True | Split n l r => (0 <= g_feat n < nf)%Z /\ splits_below nf l /\ splits_below nf r end.
  Fixpoint leaf_count (t : dtree) : nat := match t with Leaf _ => 1%nat | Split _ l r => (leaf_count l + leaf_count r)%nat end.
  (** A tree as the trainer produces it for data with [nf] features *)
  Definition grown (nf : Z) (t : gtree N) : Prop :=
    gt_leaves t = [] /\ exists T, gt_nodes t = preorder 0 T /\ splits_below nf T /\ gt_nleaves t = Z.of_nat (leaf_count T).
  Definition has_split (t : gtree N) : Prop := (1 < length (gt_nodes t))%nat.
End LgbTextSpec.
Arguments dtree N : clear implicits.

Section Saved.
  Context {N : Num}.
  Variables (show_g : N -> string) (parse_float : string -> option N).
  (** The floats written for the tree are read back as they were. *)
  Definition exact_floats (t : gtree N) : Prop := forall nd, In nd (gt_nodes t) ->
    let v := if g_isleaf nd then g_leaf nd else g_thr nd in parse_float (show_g v) = Some v.
  (** The counts fit the integer types of the readers. *)
  Definition fits (m : gmodel N) : Prop :=
    (0 < m_nfeat m < 2 ^ 32)%Z /\ (0 < m_class m < 2 ^ 63)%Z /\ forall t, In t (m_trees m) -> (Z.of_nat (length (gt_nodes t)) < 2 ^ 31)%Z.
  (** What a tree contributes after it was saved and loaded: a single leaf its value, any other tree nothing *)
  Definition left_over (t : gtree N) : N := match gt_nodes t with [nd] => g_leaf nd | _ => n0 end.
End Saved.
(** No line is longer than bufio.Scanner allows. *)
Definition short_lines (text : string) : Prop := Forall (fun l => (Z.of_nat (String.length l) <= 65535)%Z) (lines text).
