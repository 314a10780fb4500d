(** Binary decision trees with numeric tests, independent of how they are stored, and
    the relations saying that a file, a JSON structure or an array stores such a tree. *)
From Coq Require Import String List Arith ZArith Bool.
From Verif Require Import Base.Num Model.LgbTree.
Import ListNotations.
Local Open Scope list_scope.

Section Spec.
  Context {N : Num}.

  (** What counts as a missing value in a test *)
  Inductive missing := MissNone | MissZero | MissNaN.
  (** One test: feature, threshold, missing-value rule, default direction (true: left) *)
  Record test := mktest { q_feat : nat; q_thr : N; q_missing : missing; q_left : bool }.
  Inductive btree := BLeaf (v : N) | BNode (q : test) (l r : btree).

  Definition near_zero (z v : N) : bool := nlt (nneg z) v && nle v z.
  (** LightGBM's rule: a NaN counts as zero unless NaN is the missing marker; missing values
      follow the default direction; other values go left when they are at most the threshold. *)
  Definition passes (z : N) (q : test) (v : N) : bool :=
    match q_missing q with
    | MissNone => nle (if nisnan v then n0 else v) (q_thr q)
    | MissZero => let w := if nisnan v then n0 else v in
                  if near_zero z w then q_left q else nle w (q_thr q)
    | MissNaN => if nisnan v then q_left q else nle v (q_thr q)
    end.
  (** The leaf reached by a sample; [None] when a tested feature does not exist *)
  Fixpoint eval (pass : test -> N -> bool) (t : btree) (x : list N) : option N :=
    match t with
    | BLeaf v => Some v
    | BNode q l r =>
        match nth_error x (q_feat q) with
        | None => None
        | Some v => if pass q v then eval pass l x else eval pass r x
        end
    end.
  Definition inner (t : btree) : bool := match t with BLeaf _ => false | BNode _ _ _ => true end.
  (** Number of tests *)
  Fixpoint isize (t : btree) : nat :=
    match t with BLeaf _ => 0 | BNode _ l r => S (isize r + isize l) end.
  Fixpoint feats (t : btree) : list nat :=
    match t with BLeaf _ => [] | BNode q l r => q_feat q :: feats l ++ feats r end.
  Fixpoint map_tree (g : N -> N) (t : btree) : btree :=
    match t with
    | BLeaf v => BLeaf (g v)
    | BNode q l r => BNode (mktest (q_feat q) (g (q_thr q)) (q_missing q) (q_left q)) (map_tree g l) (map_tree g r)
    end.

  (** decision_type codes of the text format: bit 0 categorical, bit 1 default left,
      bits 2-3 missing type (1 zero, 2 NaN) *)
  Definition test_of (f : nat) (th : N) (code : Z) : test :=
    mktest f th
      (match Z.testbit code 2, Z.testbit code 3 with
       | true, false => MissZero
       | false, true => MissNaN
       | _, _ => MissNone
       end) (Z.testbit code 1).
  (** The child reference [c] of a text-format tree stands for the tree [t] with the inner
      nodes [is] and the leaves [ls] (indices); negative references -1, -2, ... are leaves
      0, 1, ...  All tests are numeric. *)
  Inductive describes (d : tdoc N) : Z -> btree -> list nat -> list nat -> Prop :=
  | desc_leaf k v :
      nth_error (d_lv d) k = Some v -> describes d (- Z.of_nat k - 1) (BLeaf v) [] [k]
  | desc_node i f th code lc rc l r il ir ll lr :
      nth_error (d_feat d) i = Some f -> nth_error (d_thr d) i = Some th ->
      nth_error (d_dtype d) i = Some code -> Z.testbit code 0 = false ->
      nth_error (d_left d) i = Some lc -> nth_error (d_right d) i = Some rc ->
      describes d lc l il ll -> describes d rc r ir lr ->
      describes d (Z.of_nat i) (BNode (test_of f th code) l r) (i :: ir ++ il) (ll ++ lr).
  (** A well-formed document of a tree with at least one split: node 0 stands for [t], no
      node and no leaf is used twice, and the arrays have num_leaves - 1 entries. *)
  Definition well_formed (d : tdoc N) (t : btree) : Prop :=
    exists is ls, describes d 0 t is ls /\ NoDup is /\ NoDup ls
      /\ Z.of_nat (List.length (d_left d)) = (d_leaves d - 1)%Z
      /\ List.length (d_right d) = List.length (d_left d) /\ List.length (d_feat d) = List.length (d_left d)
      /\ List.length (d_thr d) = List.length (d_left d) /\ List.length (d_dtype d) = List.length (d_left d).
  (** The document of any tree: a single leaf, or well formed *)
  Definition doc_of (d : tdoc N) (t : btree) : Prop :=
    well_formed d t \/ exists v, d_leaves d = 1%Z /\ d_lv d = [v] /\ t = BLeaf v.

  (** A JSON structure with numeric tests stands for the tree [t]. *)
  Definition missing_of (s : string) : missing :=
    if String.eqb s "Zero" then MissZero else if String.eqb s "NaN" then MissNaN else MissNone.
  Inductive json_tree : jnode N -> btree -> Prop :=
  | json_leaf f : json_tree (JNode f JNil JNil) (BLeaf (j_leaf f))
  | json_node f l r tl tr : l <> JNil -> r <> JNil -> j_cat f = false -> (0 <= j_feat f)%Z ->
      json_tree l tl -> json_tree r tr ->
      json_tree (JNode f l r) (BNode (mktest (Z.to_nat (j_feat f)) (j_thr f) (missing_of (j_missing f)) (j_defl f)) tl tr).
  (** The tree with the right child replaced by the left child wherever both are inner nodes *)
  Fixpoint right_lost (t : btree) : btree :=
    match t with
    | BLeaf v => BLeaf v
    | BNode q l r => BNode q (right_lost l) (if inner l && inner r then right_lost l else right_lost r)
    end.
  (** No node has two inner children. *)
  Fixpoint chain (t : btree) : bool :=
    match t with
    | BLeaf _ => true
    | BNode _ l r => negb (inner l && inner r) && chain l && chain r
    end.

  (** The node [id] of an array tree stands for [t]: leaves have both children -1, the other
      nodes are numeric with NaN as the missing marker. *)
  Inductive stores (ns : list (gnode N)) : Z -> btree -> Prop :=
  | st_leaf id n : getZ ns id = Some n -> g_type n = TLeaf -> g_isleaf n = true ->
      stores ns id (BLeaf (g_leaf n))
  | st_node id n l r : getZ ns id = Some n -> g_type n = TNum -> (0 <= g_left n)%Z -> (0 <= g_right n)%Z ->
      (0 <= g_feat n)%Z -> stores ns (g_left n) l -> stores ns (g_right n) r ->
      stores ns id (BNode (mktest (Z.to_nat (g_feat n)) (g_thr n) MissNaN (g_defl n)) l r).

  (** Comparing with a number equal to zero (such as the negative zero) is comparing with zero. *)
  Definition zero_compare : Prop := forall u v : N, neqb v n0 = true -> nle u v = nle u n0.
  (** The sample has no NaN and has every feature tested by the tree. *)
  Definition fits (x : list N) (t : btree) : Prop := forall f, In f (feats t) -> f < List.length x.
  Definition has_nan (x : list N) : Prop := exists v, In v x /\ nisnan v = true.
  (** Tree.Predict's test: NaN follows the default direction. *)
  Definition plain_left (q : test) (v : N) : bool := if nisnan v then q_left q else nle v (q_thr q).
  (** Predictor's test: at most the threshold, with tolerance 1e-15 *)
  Definition close_left (q : test) (v : N) : bool :=
    nlt (nabs (nsub v (q_thr q))) (nlit 1 1000000000000000) || nlt (nsub v (q_thr q)) n0.
  (** Can the numbers of a node be written as JSON? *)
  Definition node_finite (n : gnode N) : bool :=
    match g_type n with TLeaf => finite (g_leaf n) | _ => finite (g_gain n) && finite (g_thr n) && finite (g_ival n) end.
  (** The outputs of the trees of class [c] of [k] classes: trees number c, c+k, c+2k, ... *)
  Definition class_outputs (k c : nat) (outs : list N) : list N :=
    map snd (filter (fun io => Nat.eqb (Nat.modulo (fst io) k) c) (combine (seq 0 (List.length outs)) outs)).
  (** internal_value of the first tree of a file *)
  Definition first_value (docs : list (tdoc N)) : N :=
    match docs with
    | d :: _ => match d_ival d with
                | v :: _ => if neqb v n0 then n0 else v
                | [] => n0
                end
    | [] => n0
    end.
End Spec.
(** Objective names and the name used after a JSON round trip *)
Definition objective_aliases : list (string * string) :=
  [("binary sigmoid", "binary"); ("binary_logloss", "binary"); ("binary", "binary");
   ("regression_l2", "regression"); ("l2", "regression"); ("mean_squared_error", "regression"); ("regression", "regression");
   ("l1", "regression_l1"); ("mean_absolute_error", "regression_l1"); ("regression_l1", "regression_l1");
   ("softmax", "multiclass"); ("multiclassova", "multiclass"); ("multiclass", "multiclass")]%string.
Arguments zero_compare N : clear implicits.
Arguments test N : clear implicits.
Arguments btree N : clear implicits.
