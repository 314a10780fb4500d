(** Trees of sklearn/lightgbm, their loaders and predictors: model.go, loader.go,
    predictor.go, leaves_tree.go, leaves_loader.go, leaves_predictor.go, json_loader.go.
    The text of a model file is represented by its parsed content ([tdoc] for one tree
    of the text format, [jnode] for the JSON node structure). *)
From Coq Require Import String List Arith ZArith Bool.
From Verif Require Import Base.Num Base.GoRes Base.Mat Base.ListX Model.LgbTransform.
Import ListNotations.
Local Open Scope string_scope.
Local Open Scope list_scope.
Local Open Scope num_scope.

(** Indexing of a Go slice with an int; [None] is the out-of-range panic. *)
Definition getZ {A} (l : list A) (z : Z) : option A :=
  if (z <? 0)%Z then None else nth_error l (Z.to_nat z).

Section LgbTree.
  Context {N : Num}.
  (** Conversions of a float64 to int32 and int (implementation-defined for values that
      do not fit), math.Round followed by int, and the constant 1e-35. *)
  Variables toint32 toint roundint : N -> Z.
  Variable zthr : N.

  (** * The compact layout *)

  (** LeavesNode, leaves_tree.go lines 8-25; the bits of Flags as booleans *)
  Record lnode := mkln {
    l_thr : N; l_left : nat; l_right : nat; l_feat : nat;
    l_cat : bool; l_defl : bool; l_lleaf : bool; l_rleaf : bool;
    l_mzero : bool; l_mnan : bool; l_hot : bool }.
  (** LeavesTree, lines 28-35 (NCategorical and TreeIndex are not used by prediction) *)
  Record ltree := mklt { lt_nodes : list lnode; lt_leaves : list N; lt_shrink : N; lt_ival : N }.

  (** numericalDecision, lines 83-98 *)
  Definition num_decision (n : lnode) (v : N) : bool :=
    let v := if nisnan v && negb (l_mnan n) then n0 else v in
    let iszero := (- zthr <? v) && (v <=? zthr) in
    if (l_mzero n && iszero) || (l_mnan n && nisnan v) then l_defl n else v <=? l_thr n.
  (** categoricalDecision, lines 101-121 *)
  Definition cat_decision (n : lnode) (v : N) : bool :=
    let i := toint32 v in
    if (i <? 0)%Z then false
    else if nisnan v && l_mnan n then false
    else let i := if nisnan v then 0%Z else i in
         if l_hot n then (toint32 (l_thr n) =? i)%Z else false.
  Definition decision (n : lnode) (v : N) : bool :=
    if l_cat n then cat_decision n v else num_decision n v.

  (** The loop of LeavesTree.Predict, lines 48-71; [None] when the fuel is used up *)
  Fixpoint lwalk (fuel : nat) (t : ltree) (idx : nat) (x : list N) : option (res N) :=
    match fuel with
    | 0 => None
    | S fuel' =>
        match nth_error (lt_nodes t) idx with
        | None => Some Panic
        | Some n =>
            match nth_error x (l_feat n) with
            | None => Some Panic
            | Some v =>
                if decision n v then
                  if l_lleaf n then
                    Some (match nth_error (lt_leaves t) (l_left n) with Some w => Ok w | None => Panic end)
                  else lwalk fuel' t (l_left n) x
                else
                  if l_rleaf n then
                    Some (match nth_error (lt_leaves t) (l_right n) with Some w => Ok w | None => Panic end)
                  else lwalk fuel' t (S idx) x
            end
        end
    end.
  (** Predict, lines 38-72 *)
  Definition lpredict (fuel : nat) (t : ltree) (x : list N) : option (res N) :=
    match lt_nodes t with
    | [] => Some (Ok (match lt_leaves t with [] => n0 | w :: _ => w end))
    | _ => lwalk fuel t 0 x
    end.

  (** * Reading one tree of the text format *)

  (** The parsed key=value block of one tree.  All keys are present and well formed (a
      missing or malformed key makes the leaves loader return an error); [d_ival] is the
      internal_value array. *)
  Record tdoc := mkdoc {
    d_leaves : Z; d_shrink : N; d_lv : list N; d_ival : list N;
    d_left : list Z; d_right : list Z; d_dtype : list Z; d_feat : list nat; d_thr : list N }.

  (** Bits 2-3 of decision_type, leaves_loader.go lines 198-205 *)
  Definition mtype (code : Z) : Z := Z.land (Z.shiftr code 2) 3.
  (** createNode, leaves_loader.go lines 194-247 *)
  Definition create_node (d : tdoc) (i : nat) : res lnode :=
    match nth_error (d_dtype d) i, nth_error (d_feat d) i, nth_error (d_thr d) i,
          nth_error (d_left d) i, nth_error (d_right d) i with
    | Some c, Some f, Some th, Some l, Some r =>
        Ok (mkln th (if (l <? 0)%Z then Z.to_nat (- l - 1) else 0) (if (r <? 0)%Z then Z.to_nat (- r - 1) else 0) f
              (Z.testbit c 0) (negb (Z.testbit c 0) && Z.testbit c 1) (l <? 0)%Z (r <? 0)%Z
              (mtype c =? 1)%Z (mtype c =? 2)%Z false)
    | _, _, _, _, _ => Panic
    end.

  (** Can the child reference [c] be entered: lines 276 and 308 *)
  Definition enter (visited : list bool) (c : Z) : option nat :=
    if (c <? 0)%Z then None
    else match nth_error visited (Z.to_nat c) with
         | Some false => Some (Z.to_nat c)
         | _ => None
         end.
  Definition set_left (k : nat) (n : lnode) : lnode :=
    mkln (l_thr n) k (l_right n) (l_feat n) (l_cat n) (l_defl n) (l_lleaf n) (l_rleaf n) (l_mzero n) (l_mnan n) (l_hot n).
  (** The loop of lines 265-337.  The two stacks have the same height and are kept as a
      list of pairs (original index, new index), top first. *)
  Fixpoint dfs (fuel : nat) (d : tdoc) (stack : list (nat * nat)) (visited : list bool) (nodes : list lnode)
      : option (res (list lnode)) :=
    match fuel with
    | 0 => None
    | S fuel' =>
        match stack with
        | [] => Some (Ok nodes)
        | (o, c) :: rest =>
            match nth_error nodes c with
            | None => Some Panic
            | Some n =>
                let try_left :=
                  if l_lleaf n then dfs fuel' d rest visited nodes
                  else match nth_error (d_left d) o with
                       | None => Some (Err (EOther 1))
                       | Some lc =>
                           match enter visited lc with
                           | None => dfs fuel' d rest visited nodes
                           | Some k =>
                               match create_node d k with
                               | Ok nd => dfs fuel' d ((k, List.length nodes) :: stack) (upd k (fun _ => true) visited)
                                            (upd c (set_left (List.length nodes)) nodes ++ [nd])
                               | Err e => Some (Err e)
                               | Panic => Some Panic
                               end
                           end
                       end in
                if l_rleaf n then try_left
                else match nth_error (d_right d) o with
                     | None => Some (Err (EOther 2))
                     | Some rc =>
                         match enter visited rc with
                         | None => try_left
                         | Some k =>
                             match create_node d k with
                             | Ok nd => dfs fuel' d ((k, List.length nodes) :: stack) (upd k (fun _ => true) visited)
                                          (nodes ++ [nd])
                             | Err e => Some (Err e)
                             | Panic => Some Panic
                             end
                         end
                     end
            end
        end
    end.
  (** readLeavesTree, lines 126-340, after parsing; [first] tells whether it is tree 0. *)
  Definition read_tree (first : bool) (d : tdoc) : option (res ltree) :=
    let iv := if first then match d_ival d with [] => n0 | v :: _ => v end else n0 in
    if (d_leaves d <? 1)%Z then Some (Err (EOther 3))
    else if (d_leaves d =? 1)%Z then Some (Ok (mklt [] (d_lv d) (d_shrink d) iv))
    else
      let nn := Z.to_nat (d_leaves d - 1) in
      match create_node d 0 with
      | Ok root =>
          match dfs (2 * nn + 2) d [(0%nat, 0%nat)] (repeat false nn) [root] with
          | Some (Ok ns) => Some (Ok (mklt ns (d_lv d) (d_shrink d) iv))
          | Some (Err e) => Some (Err e)
          | Some Panic => Some Panic
          | None => None
          end
      | Err e => Some (Err e)
      | Panic => Some Panic
      end.

  (** * The JSON node structure (json_loader.go lines 45-68, loader.go lines 315-332) *)

  (** The fields of a node except the children.  [j_thr] is the threshold as a number
      (a categorical threshold given as a string is the number read from it). *)
  Record jfields := mkjf {
    j_feat : Z; j_gain : N; j_thr : N; j_cat : bool; j_cats : list Z; j_missing : string;
    j_defl : bool; j_ival : N; j_leaf : N }.
  (** [JNil] is a nil pointer. *)
  Inductive jnode := JNil | JNode (f : jfields) (l r : jnode).
  Definition is_nil (j : jnode) : bool := match j with JNil => true | _ => false end.
  (** No children: lines 155 and 172, loader.go line 413 *)
  Definition jleaf (j : jnode) : bool := match j with JNil => false | JNode _ l r => is_nil l && is_nil r end.

  (** Result of buildNodes: a leaf index (high bit set) or a node index. *)
  Inductive jref := RLeaf (i : nat) | RNode (i : nat).
  Definition ref_is_leaf (r : jref) : bool := match r with RLeaf _ => true | RNode _ => false end.
  Definition ref_index (r : jref) : nat := match r with RLeaf i | RNode i => i end.
  (** Lines 182-224: the node before its children are known *)
  Definition json_lnode (f : jfields) : lnode :=
    mkln (if j_cat f then match j_cats f with c :: _ => nofZ c | [] => j_thr f end else j_thr f)
         0 0 (Z.to_nat (j_feat f)) (j_cat f) (j_defl f) false false
         (String.eqb (j_missing f) "Zero") (String.eqb (j_missing f) "NaN") false.
  Definition set_refs (idx : nat) (lr rr : jref) (n : lnode) : lnode :=
    mkln (l_thr n) (ref_index lr) (match rr with RLeaf i => i | RNode _ => S idx end) (l_feat n)
         (l_cat n) (l_defl n) (ref_is_leaf lr) (ref_is_leaf rr) (l_mzero n) (l_mnan n) (l_hot n).
  (** buildNodes, lines 166-253, on (nodes, leaf values); leaf indices fit in 31 bits. *)
  Fixpoint build_nodes (j : jnode) (st : list lnode * list N) : jref * (list lnode * list N) :=
    match j with
    | JNil => (RNode 0, st)
    | JNode f l r =>
        if is_nil l && is_nil r then (RLeaf (List.length (snd st)), (fst st, snd st ++ [j_leaf f]))
        else
          let idx := List.length (fst st) in
          let '(lr, st1) := build_nodes l (fst st ++ [json_lnode f], snd st) in
          let '(rr, st2) := build_nodes r st1 in
          (RNode idx, (upd idx (set_refs idx lr rr) (fst st2), snd st2))
    end.
  (** convertJSONTree, lines 142-262; the root is a struct, never nil *)
  Definition convert_json (shrink : N) (j : jnode) : ltree :=
    match j with
    | JNil => mklt [] [n0] shrink n0
    | JNode f l r =>
        if is_nil l && is_nil r then mklt [] [j_leaf f] shrink n0
        else let st := snd (build_nodes j ([], [])) in mklt (fst st) (snd st) shrink n0
    end.

  (** * The array layout *)

  (** Node and Tree, model.go lines 11-76 (counts, parent links, names and the multiclass
      LeafValues of a node are not used by prediction) *)
  Inductive ntype := TLeaf | TNum | TCat.
  Record gnode := mkgn {
    g_left : Z; g_right : Z; g_type : ntype; g_feat : Z; g_thr : N; g_cats : list Z;
    g_defl : bool; g_gain : N; g_leaf : N; g_ival : N }.
  Record gtree := mkgt { gt_nodes : list gnode; gt_leaves : list N; gt_shrink : N; gt_ival : N; gt_nleaves : Z }.
  (** IsLeaf, model.go lines 51-53 *)
  Definition g_isleaf (n : gnode) : bool := (g_left n =? -1)%Z && (g_right n =? -1)%Z.

  Definition g_default (n : gnode) : Z := if g_defl n then g_left n else g_right n.
  (** Tree.Predict, model.go lines 79-131 *)
  Fixpoint gwalk (fuel : nat) (t : gtree) (id : Z) (x : list N) : option (res N) :=
    match fuel with
    | 0 => None
    | S fuel' =>
        match getZ (gt_nodes t) id with
        | None => Some (Ok n0)
        | Some n =>
            if g_isleaf n then Some (Ok (g_leaf n))
            else match getZ x (g_feat n) with
                 | None => Some Panic
                 | Some v =>
                     if nisnan v then gwalk fuel' t (g_default n) x
                     else match g_type n with
                          | TNum => gwalk fuel' t (if v <=? g_thr n then g_left n else g_right n) x
                          | TCat => gwalk fuel' t (if existsb (Z.eqb (toint v)) (g_cats n) then g_left n else g_right n) x
                          | TLeaf => Some (Ok n0)
                          end
                 end
        end
    end.
  Definition tree_predict (fuel : nat) (t : gtree) (x : list N) : option (res N) := gwalk fuel t 0 x.

  (** compareWithPrecision(a, b) <= 0, predictor.go lines 363-375 *)
  Definition le_precise (a b : N) : bool := (nabs (a - b) <? peps) || (a - b <? n0).
  (** The tail of one round of predictTree, predictor.go lines 288-301, for the next index;
      [k] continues the loop. *)
  Definition follow (t : gtree) (next : Z) (k : Z -> option (res N)) : option (res N) :=
    if (next <? 0)%Z then
      Some (Ok (match getZ (gt_leaves t) (- next - 1) with Some w => ensure w | None => n0 end))
    else k next.
  (** predictTree, predictor.go lines 208-314.  [guard] is the number of counted rounds
      left (maxIterations - iteration); the rounds that only follow the default direction
      are not counted by the Go code. *)
  Fixpoint pwalk (fuel guard : nat) (t : gtree) (id : Z) (x : list N) : option (res N) :=
    match fuel with
    | 0 => None
    | S fuel' =>
        match getZ (gt_nodes t) id, guard with
        | None, _ | _, 0%nat => Some (Ok n0)
        | Some n, S guard' =>
            if g_isleaf n then Some (Ok (ensure (g_leaf n)))
            else if (Z.of_nat (List.length x) <=? g_feat n)%Z then pwalk fuel' guard t (g_default n) x
            else match getZ x (g_feat n) with
                 | None => Some Panic
                 | Some v =>
                     if nisnan v then pwalk fuel' guard t (g_default n) x
                     else match g_type n with
                          | TNum => follow t (if le_precise v (g_thr n) then g_left n else g_right n)
                                      (fun nx => pwalk fuel' guard' t nx x)
                          | TCat => follow t (if existsb (Z.eqb (roundint v)) (g_cats n) then g_left n else g_right n)
                                      (fun nx => pwalk fuel' guard' t nx x)
                          | TLeaf => Some (Ok (ensure (g_leaf n)))
                          end
                 end
        end
    end.
  Definition predict_tree (fuel : nat) (t : gtree) (x : list N) : option (res N) :=
    pwalk fuel (2 * List.length (gt_nodes t)) t 0 x.

  (** finalizeTree, loader.go lines 157-226, for the same document; [first]: TreeIndex is 0.
      Missing keys give empty arrays there; a short child or threshold array panics. *)
  Definition finalize (first : bool) (d : tdoc) : res gtree :=
    if (d_leaves d =? 1)%Z then Ok (mkgt [] (d_lv d) (d_shrink d) n0 (d_leaves d))
    else
      let* ns := mapM (fun i =>
          match nth_error (d_left d) i, nth_error (d_right d) i, nth_error (d_feat d) i, nth_error (d_thr d) i with
          | Some l, Some r, Some f, Some th =>
              Ok (mkgn l r TNum (Z.of_nat f) th []
                    (match nth_error (d_dtype d) i with Some c => Z.testbit c 1 | None => false end) n0 n0 n0)
          | _, _, _, _ => Panic
          end) (seq 0 (List.length (d_feat d))) in
      Ok (mkgt ns (d_lv d) (d_shrink d)
            (if first then match d_ival d with [] => n0 | v :: _ => v end else n0) (d_leaves d)).

  (** ** JSON dump and reload *)

  (** treeToNodeJSON, loader.go lines 518-555; [None]: unbounded recursion *)
  Fixpoint dump_node (fuel : nat) (t : gtree) (id : Z) : option jnode :=
    match fuel with
    | 0 => None
    | S fuel' =>
        match getZ (gt_nodes t) id with
        | None => Some JNil
        | Some n =>
            match g_type n with
            | TLeaf => Some (JNode (mkjf 0 n0 n0 false [] "" false n0 (g_leaf n)) JNil JNil)
            | _ =>
                let child (c : Z) := if (c <? 0)%Z then Some JNil else dump_node fuel' t c in
                match child (g_left n), child (g_right n) with
                | Some l, Some r =>
                    Some (JNode (mkjf (g_feat n) (g_gain n) (g_thr n) false [] "None" (g_defl n) (g_ival n) n0) l r)
                | _, _ => None
                end
            end
        end
    end.
  (** Marshalling fails on NaN and infinities; fields equal to zero are omitted and read
      back as zero, everything else is restored exactly. *)
  Definition finite (v : N) : bool := negb (nisnan v || nisinf v).
  Definition omit (v : N) : N := if v =? n0 then n0 else v.
  Fixpoint json_ok (j : jnode) : bool :=
    match j with
    | JNil => true
    | JNode f l r => finite (j_gain f) && finite (j_thr f) && finite (j_ival f) && finite (j_leaf f) && json_ok l && json_ok r
    end.
  Fixpoint reread (j : jnode) : jnode :=
    match j with
    | JNil => JNil
    | JNode f l r => JNode (mkjf (j_feat f) (omit (j_gain f)) (omit (j_thr f)) (j_cat f) (j_cats f) (j_missing f)
                              (j_defl f) (omit (j_ival f)) (omit (j_leaf f))) (reread l) (reread r)
    end.
  (** flattenTree, loader.go lines 407-454: the new node's index and the nodes *)
  Definition set_children (lc rc : Z) (n : gnode) : gnode :=
    mkgn lc rc (g_type n) (g_feat n) (g_thr n) (g_cats n) (g_defl n) (g_gain n) (g_leaf n) (g_ival n).
  Fixpoint flatten (j : jnode) (nodes : list gnode) : Z * list gnode :=
    match j with
    | JNil => ((-1)%Z, nodes)
    | JNode f l r =>
        let id := List.length nodes in
        if is_nil l && is_nil r then
          (Z.of_nat id, nodes ++ [mkgn (-1) (-1) TLeaf 0 n0 [] false n0 (j_leaf f) n0])
        else
          let '(lc, nodes1) := flatten l (nodes ++ [mkgn 0 0 TNum (j_feat f) (j_thr f) [] (j_defl f) (j_gain f) n0 (j_ival f)]) in
          let '(rc, nodes2) := flatten r nodes1 in
          (Z.of_nat id, upd id (set_children lc rc) nodes2)
    end.
  (** One tree through toLightGBMJSON, the JSON text and ToModel (loader.go lines 497-512
      and 357-391): an unfinished dump is [None], a marshalling failure an error. *)
  Definition reload_tree (fuel : nat) (t : gtree) : option (res gtree) :=
    match gt_nodes t with
    | [] => if finite (gt_shrink t) then Some (Ok (mkgt [] [] (gt_shrink t) n0 (gt_nleaves t))) else Some (Err (EOther 4))
    | _ =>
        match dump_node fuel t 0 with
        | None => None
        | Some j =>
            if finite (gt_shrink t) && json_ok j then
              let ns := snd (flatten (reread j) []) in
              Some (Ok (mkgt ns [] (gt_shrink t) n0
                (if (gt_nleaves t =? 0)%Z then Z.of_nat (List.length (filter (fun n => match g_type n with TLeaf => true | _ => false end) ns))
                 else gt_nleaves t)))
            else Some (Err (EOther 4))
        end
    end.

  (** * Ensembles *)

  (** Model, model.go lines 173-203: the fields used by prediction *)
  Record gmodel := mkgm {
    m_obj : string; m_class : Z; m_niter : Z; m_best : Z; m_lr : N; m_trees : list gtree;
    m_nfeat : Z; m_init : N }.
  Fixpoint sequence {A B} (f : A -> option (res B)) (l : list A) : option (res (list B)) :=
    match l with
    | [] => Some (Ok [])
    | a :: r =>
        match f a with
        | None => None
        | Some (Ok b) => match sequence f r with
                         | None => None
                         | Some (Ok bs) => Some (Ok (b :: bs))
                         | Some (Err e) => Some (Err e)
                         | Some Panic => Some Panic
                         end
        | Some (Err e) => Some (Err e)
        | Some Panic => Some Panic
        end
    end.
  (** The per-class accumulators: tree [i] adds to class [i mod k]. *)
  Definition accumulate (add : N -> N -> N) (k : nat) (init : N) (outs : list N) : list N :=
    fold_left (fun acc io => upd (Nat.modulo (fst io) k) (fun v => add v (snd io)) acc)
              (combine (seq 0 (List.length outs)) outs) (repeat init k).
  Definition outputs_count (m : gmodel) : nat := if (2 <? m_class m)%Z then Z.to_nat (m_class m) else 1%nat.
  Definition is_binary (o : string) : bool := String.eqb o "binary" || String.eqb o "cross_entropy".

  (** Model.PredictSingle with all trees before the transformation, model.go lines 251-280 *)
  Definition model_raw (fuel : nat) (m : gmodel) (x : list N) : option (res (list N)) :=
    match sequence (fun t => tree_predict fuel t x) (m_trees m) with
    | Some (Ok outs) => Some (Ok (accumulate nadd (outputs_count m) (m_init m) outs))
    | Some (Err e) => Some (Err e)
    | Some Panic => Some Panic
    | None => None
    end.
  (** Lines 282-292; [big] is 1e308 *)
  Definition model_transform (big : N) (o : string) (l : list N) : list N :=
    if is_binary o then upd 0 (model_sigmoid big) l
    else if String.eqb o "multiclass" then model_softmax big l
    else l.

  (** predictSingleSample before the transformation, predictor.go lines 144-199 *)
  Definition used_trees (m : gmodel) : list gtree :=
    let k := if (0 <? m_best m)%Z && (m_best m <? m_niter m)%Z then m_best m else m_niter m in
    if (k =? 0)%Z then m_trees m else firstn (Z.to_nat k) (m_trees m).
  Definition no_nan (x : list N) : list N := map (fun v => if nisnan v then n0 else v) x.
  Definition predictor_raw (fuel : nat) (m : gmodel) (x : list N) : option (res (list N)) :=
    let x := no_nan x in
    match sequence (fun t => match predict_tree fuel t x with
                             | Some (Ok o) => Some (Ok (o * (if gt_shrink t =? n0 then m_lr m else gt_shrink t)))
                             | r => r
                             end) (used_trees m) with
    | Some (Ok outs) => Some (Ok (accumulate (fun a b => ensure (a + b)) (outputs_count m) (m_init m) outs))
    | Some (Err e) => Some (Err e)
    | Some Panic => Some Panic
    | None => None
    end.
  (** applyObjectiveTransformation, predictor.go lines 317-343 *)
  Definition predictor_transform (o : string) (l : list N) : list N :=
    if is_binary o then upd 0 stable_sigmoid l
    else if String.eqb o "multiclass" then stable_softmax l
    else if String.eqb o "poisson" || String.eqb o "gamma" || String.eqb o "tweedie" then map stable_exp l
    else l.

  (** LoadFromReader, loader.go lines 34-154, on the parsed file: objective, num_class (0
      when absent), number of features, trees. *)
  Definition load_text (obj : string) (ncl nfeat : Z) (docs : list tdoc) : res gmodel :=
    let* ts := mapM (fun id => finalize (Nat.eqb (fst id) 0) (snd id)) (combine (seq 0 (List.length docs)) docs) in
    Ok (mkgm obj (if (ncl =? 0)%Z then 1 else ncl) (Z.of_nat (List.length ts)) 0 (nlit 1 10) ts nfeat
          (match ts with t :: _ => if gt_ival t =? n0 then n0 else gt_ival t | [] => n0 end)).
  (** ToJSON followed by LoadFromJSON: the objective names written by this library are
      mapped to themselves, except the aliases of loader.go lines 343-354. *)
  Definition json_objective (o : string) : string :=
    if existsb (String.eqb o) ["binary"; "binary sigmoid"; "binary_logloss"] then "binary"
    else if existsb (String.eqb o) ["regression"; "regression_l2"; "l2"; "mean_squared_error"] then "regression"
    else if existsb (String.eqb o) ["regression_l1"; "l1"; "mean_absolute_error"] then "regression_l1"
    else if existsb (String.eqb o) ["multiclass"; "softmax"; "multiclassova"] then "multiclass"
    else o.
  Definition reload (fuel : nat) (m : gmodel) : option (res gmodel) :=
    match sequence (reload_tree fuel) (m_trees m) with
    | Some (Ok ts) => Some (Ok (mkgm (json_objective (m_obj m)) (m_class m) (Z.of_nat (List.length ts)) 0 (nlit 1 10) ts (m_nfeat m) n0))
    | Some (Err e) => Some (Err e)
    | Some Panic => Some Panic
    | None => None
    end.

  (** LeavesModel, leaves_loader.go lines 15-23 and 51-123 on the parsed file *)
  Record lmodel := mklm { lm_trees : list ltree; lm_class : Z; lm_nfeat : Z; lm_obj : string; lm_init : N }.
  Definition load_leaves (obj : string) (ncl nfeat : Z) (docs : list tdoc) : option (res lmodel) :=
    match sequence (fun id => read_tree (Nat.eqb (fst id) 0) (snd id)) (combine (seq 0 (List.length docs)) docs) with
    | Some (Ok ts) => Some (Ok (mklm ts (if (ncl =? 0)%Z then 1 else ncl) nfeat obj
          (match ts with t :: _ => if lt_ival t =? n0 then n0 else lt_ival t | [] => n0 end)))
    | Some (Err e) => Some (Err e)
    | Some Panic => Some Panic
    | None => None
    end.
  Definition leaves_count (m : lmodel) : nat := if (2 <? lm_class m)%Z then Z.to_nat (lm_class m) else 1%nat.
  Definition leaves_transform (m : lmodel) (l : list N) : list N :=
    if (2 <? lm_class m)%Z then leaves_softmax l
    else if is_binary (lm_obj m) then map leaves_sigmoid l else l.
  (** LeavesPredictor.PredictSingle, PredictRaw and one row of PredictBatch,
      leaves_predictor.go lines 60-132 and 201-250.  [init]: the starting score. *)
  Definition leaves_sum (fuel : nat) (m : lmodel) (init : N) (x : list N) : option (res (list N)) :=
    match sequence (fun t => lpredict fuel t x) (lm_trees m) with
    | Some (Ok outs) => Some (Ok (accumulate nadd (leaves_count m) init outs))
    | Some (Err e) => Some (Err e)
    | Some Panic => Some Panic
    | None => None
    end.
  Definition omap {A B} (f : A -> B) (r : option (res A)) : option (res B) := option_map (rmap f) r.
  Definition leaves_single (fuel : nat) (m : lmodel) (x : list N) : option (res (list N)) :=
    omap (leaves_transform m) (leaves_sum fuel m (if (2 <? lm_class m)%Z then lm_init m else n0) x).
  Definition leaves_raw (fuel : nat) (m : lmodel) (x : list N) : option (res (list N)) :=
    leaves_sum fuel m (lm_init m) x.
  Definition leaves_batch_row (fuel : nat) (m : lmodel) (x : list N) : option (res (list N)) :=
    omap (leaves_transform m) (leaves_sum fuel m (if lm_init m =? n0 then n0 else lm_init m) x).
End LgbTree.
Arguments lnode N : clear implicits.
Arguments ltree N : clear implicits.
Arguments tdoc N : clear implicits.
Arguments jfields N : clear implicits.
Arguments jnode N : clear implicits.
Arguments gnode N : clear implicits.
Arguments gtree N : clear implicits.
Arguments gmodel N : clear implicits.
Arguments lmodel N : clear implicits.
