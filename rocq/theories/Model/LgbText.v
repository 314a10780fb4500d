(** The text format of model files: Model.SaveToText and SaveToFile (model.go), the reader of
    leaves_loader.go and LoadFromReader (loader.go).  A file is its text; bytes above 127 are never
    white space (Go also strips U+0085 and U+00A0).  Printing a float64 with %g and %f and
    strconv.ParseFloat are arguments; integers are printed and read here. *)
From Coq Require Import String List Arith ZArith Bool Ascii DecimalString.
From Verif Require Import Base.Num Base.GoRes Base.ListX Model.LgbTransform Model.LgbTree.
Import ListNotations.
Local Open Scope string_scope.
Local Open Scope list_scope.
Local Open Scope num_scope.
Notation "a ^^ b" := (String.append a b) (at level 60, right associativity).

(** ** Strings *)
Definition newline : ascii := ascii_of_nat 10.
(** unicode.IsSpace on ASCII *)
Definition is_space (c : ascii) : bool := let n := nat_of_ascii c in (Nat.leb 9 n && Nat.leb n 13) || Nat.eqb n 32.
(** strings.TrimSpace *)
Fixpoint trim_left (s : string) : string :=
  match s with EmptyString => EmptyString | String c r => if is_space c then trim_left r else s end.
Fixpoint trim_right (s : string) : string :=
  match s with
  | EmptyString => EmptyString
  | String c r => match trim_right r with
                  | EmptyString => if is_space c then EmptyString else String c EmptyString
                  | r' => String c r'
                  end
  end.
Definition trim (s : string) : string := trim_right (trim_left s).
(** strings.Fields; [cur] is the field being read *)
Fixpoint fields_from (s cur : string) : list string :=
  match s with
  | EmptyString => match cur with EmptyString => [] | _ => [cur] end
  | String c r => if is_space c then match cur with EmptyString => fields_from r EmptyString | _ => cur :: fields_from r EmptyString end
                  else fields_from r (cur ^^ String c EmptyString)
  end.
Definition fields (s : string) : list string := fields_from s EmptyString.
(** strings.Join(l, " ") *)
Definition join (l : list string) : string := String.concat " " l.
(** strings.SplitN(s, "=", 2) when there is an "=" *)
Fixpoint split_eq (s : string) : option (string * string) :=
  match s with
  | EmptyString => None
  | String c r => if Ascii.eqb c "="%char then Some (EmptyString, r)
                  else match split_eq r with Some (k, v) => Some (String c k, v) | None => None end
  end.
(** The lines of a text: the parts between newlines, the last one without newline *)
Fixpoint lines_from (s cur : string) : list string :=
  match s with
  | EmptyString => [cur]
  | String c r => if Ascii.eqb c newline then cur :: lines_from r EmptyString else lines_from r (cur ^^ String c EmptyString)
  end.
Definition lines (s : string) : list string := lines_from s EmptyString.
(** Lines written one after the other *)
Fixpoint text_of (l : list string) : string :=
  match l with [] => EmptyString | x :: r => x ^^ String newline (text_of r) end.

(** fmt.Sprintf("%d", z) *)
Definition show_int (z : Z) : string := NilZero.string_of_int (Z.to_int z).
(** The syntax of strconv.ParseInt in base 10 and of ParseUint *)
Definition read_int (s : string) : option Z :=
  match s with
  | EmptyString => None
  | String c r => if Ascii.eqb c "+"%char then option_map Z.of_uint (NilZero.uint_of_string r)
                  else option_map Z.of_int (NilZero.int_of_string s)
  end.
Definition within (lo hi : Z) (r : option Z) : option Z :=
  match r with Some z => if (lo <=? z)%Z && (z <=? hi)%Z then Some z else None | None => None end.
(** strconv.Atoi, ParseInt(s, 10, 32), ParseUint(s, 10, 32); [None] is an error *)
Definition atoi (s : string) : option Z := within (- 2 ^ 63) (2 ^ 63 - 1) (read_int s).
Definition parse_int32 (s : string) : option Z := within (- 2 ^ 31) (2 ^ 31 - 1) (read_int s).
Definition parse_uint32 (s : string) : option Z := within 0 (2 ^ 32 - 1) (option_map Z.of_uint (NilZero.uint_of_string s)).
(** The value of Atoi when its error is ignored: 0, or the nearest int *)
Definition atoi_lax (s : string) : Z :=
  match read_int s with None => 0 | Some z => Z.max (- 2 ^ 63) (Z.min (2 ^ 63 - 1) z) end.

(** A map[string]string: the newest entry first *)
Definition params := list (string * string).
Fixpoint look (p : params) (k : string) : option string :=
  match p with [] => None | (k', v) :: r => if String.eqb k k' then Some v else look r k end.

Section LgbText.
  Context {N : Num}.
  (** %g, %f and strconv.ParseFloat(s, 64), [None] is an error *)
  Variables (show_g show_f : N -> string) (parse_float : string -> option N).

  (** ** Writing *)
  (** model.go lines 374-379, 388-392, 402-408, 447-451 *)
  Definition w_feat (n : gnode N) : string := if g_isleaf n then "0" else show_int (g_feat n).
  Definition w_thr (n : gnode N) : string := if g_isleaf n then "0" else show_g (g_thr n).
  Definition w_type (n : gnode N) : string := if g_isleaf n then "0" else match g_type n with TCat => "1" | _ => "2" end.
  Definition w_leaf (n : gnode N) : string := if g_isleaf n then show_g (g_leaf n) else "0".
  (** lines 352-361 *)
  Definition tree_size (t : gtree N) : Z := (100 + Z.of_nat (length (gt_nodes t)) * 50 + Z.of_nat (length (gt_leaves t)) * 20)%Z.
  (** lines 364-459 *)
  Definition tree_lines (i : nat) (t : gtree N) : list string :=
    let ns := gt_nodes t in
    [ "Tree=" ^^ show_int (Z.of_nat i);
      "num_leaves=" ^^ show_int (Z.of_nat (length ns));
      "num_cat=0";
      "split_feature=" ^^ join (map w_feat ns);
      "threshold=" ^^ join (map w_thr ns);
      "decision_type=" ^^ join (map w_type ns);
      "left_child=" ^^ join (map (fun n => show_int (g_left n)) ns);
      "right_child=" ^^ join (map (fun n => show_int (g_right n)) ns);
      "leaf_value=" ^^ join (match gt_leaves t with [] => map w_leaf ns | lv => map show_g lv end);
      "shrinkage=" ^^ show_g (gt_shrink t);
      "" ].
  (** lines 332-361 *)
  Definition header_lines (names : list string) (m : gmodel N) : list string :=
    [ "tree"; "version=v3"; "num_class=" ^^ show_int (m_class m);
      "num_tree_per_iteration=" ^^ show_int (if (2 <? m_class m)%Z then m_class m else 1);
      "label_index=0"; "max_feature_idx=" ^^ show_int (m_nfeat m - 1); "objective=" ^^ m_obj m ]
    ++ match names with [] => [] | _ => ["feature_names=" ^^ join names] end
    ++ [ "tree_sizes=" ^^ join (map (fun t => show_int (tree_size t)) (m_trees m)); "" ].
  Definition indexed (ts : list (gtree N)) : list (nat * gtree N) := combine (seq 0 (length ts)) ts.
  (** Model.SaveToText, lines 329-463; writing the file succeeds *)
  Definition save_text (names : list string) (m : gmodel N) : string :=
    text_of (header_lines names m ++ flat_map (fun it => tree_lines (fst it) (snd it)) (indexed (m_trees m))).

  (** Model.SaveToFile, lines 522-559, behind SaveModel of LGBMRegressor (lgbm_regressor.go 791-797) and
      LGBMClassifier (lgbm_classifier.go 786-792) *)
  Definition file_tree_lines (i : nat) (t : gtree N) : list string :=
    [ ""; "Tree=" ^^ show_int (Z.of_nat i); "num_leaves=" ^^ show_int (gt_nleaves t); "num_cat=0"; "shrinkage=" ^^ show_f (gt_shrink t) ]
    ++ flat_map (fun n => if g_isleaf n then ["leaf_value=" ^^ show_f (g_leaf n)]
                          else ["split_feature=" ^^ show_int (g_feat n); "threshold=" ^^ show_f (g_thr n)]) (gt_nodes t).
  Definition save_file (names : list string) (m : gmodel N) : string :=
    text_of ([ "tree"; "version=v3"; "num_class=" ^^ show_int (m_class m); "num_tree_per_iteration=1"; "label_index=0";
               "max_feature_idx=" ^^ show_int (m_nfeat m - 1); "objective=" ^^ m_obj m; "feature_names=" ^^ join names;
               "feature_infos=none"; "tree_sizes=" ^^ show_int (Z.of_nat (length (m_trees m))) ]
             ++ flat_map (fun it => file_tree_lines (fst it) (snd it)) (indexed (m_trees m))).

  (** ** leaves_loader.go *)
  (** readParamsUntilBlank, lines 345-389, on the lines that are left; at the end of the file ReadString
      returns the last line, then empty lines, which end the loop.  [blanks] is emptyLineCount. *)
  Fixpoint read_params (ls : list string) (blanks : nat) (p : params) : params * list string :=
    match ls with
    | [] => (p, [])
    | l :: rest =>
        let l := trim l in
        if String.prefix "Tree=" l then read_params rest blanks p
        else match l with
             | EmptyString => if Nat.leb 2 (S blanks) || negb (Nat.eqb (length p) 0) then (p, rest) else read_params rest (S blanks) p
             | _ => read_params rest 0 (match split_eq l with Some (k, v) => (trim k, trim v) :: p | None => p end)
             end
    end.
  (** toFloat64Slice, toInt32Slice, toUint32Slice, lines 399-463: every field must parse *)
  Definition slice {A} (parse : string -> option A) (p : params) (k : string) : res (list A) :=
    match look p k with
    | None => Err (EOther 10)
    | Some v => mapM (fun f => match parse f with Some x => Ok x | None => Err (EOther 11) end) (fields v)
    end.
  (** readLeavesTree, lines 131-191: the arrays that are read before the tree is built.  [first]: index 0 *)
  Definition tree_doc (first : bool) (p : params) : res (tdoc N) :=
    let* n := match look p "num_leaves" with
              | None => Err (EOther 10)
              | Some v => match atoi v with Some n => Ok n | None => Err (EOther 11) end
              end in
    let shrink := match look p "shrinkage" with Some v => match parse_float v with Some x => x | None => n0 end | None => n0 end in
    if (n <? 1)%Z then Ok (mkdoc n shrink [] [] [] [] [] [] [])
    else
      let* lv := slice parse_float p "leaf_value" in
      let iv := if first then match slice parse_float p "internal_value" with Ok l => l | _ => [] end else [] in
      if (n =? 1)%Z then Ok (mkdoc n shrink lv iv [] [] [] [] [])
      else
        let* lc := slice parse_int32 p "left_child" in
        let* rc := slice parse_int32 p "right_child" in
        let* dt := slice parse_uint32 p "decision_type" in
        let* sf := slice parse_uint32 p "split_feature" in
        let* th := slice parse_float p "threshold" in
        Ok (mkdoc n shrink lv iv lc rc dt (map Z.to_nat sf) th).
  Fixpoint read_trees (n i : nat) (ls : list string) : option (res (list (ltree N))) :=
    match n with
    | O => Some (Ok [])
    | S n' =>
        let (p, rest) := read_params ls 0 [] in
        match tree_doc (Nat.eqb i 0) p with
        | Ok d => match read_tree (Nat.eqb i 0) d with
                  | Some (Ok t) => match read_trees n' (S i) rest with
                                   | Some (Ok ts) => Some (Ok (t :: ts))
                                   | o => o
                                   end
                  | Some (Err e) => Some (Err (EWrapped e))
                  | Some Panic => Some Panic
                  | None => None
                  end
        | Err e => Some (Err (EWrapped e))
        | Panic => Some Panic
        end
    end.
  (** LoadLeavesModelFromReader, lines 51-123 *)
  Definition load_leaves_text (text : string) : option (res (lmodel N)) :=
    let (p, rest) := read_params (lines text) 0 [] in
    let ncl := match look p "num_class" with Some v => atoi_lax v | None => 0%Z end in
    let nf := match look p "max_feature_idx" with Some v => (atoi_lax v + 1)%Z | None => 0%Z end in
    let obj := match look p "objective" with Some v => match fields v with o :: _ => o | [] => "" end | None => "" end in
    match look p "tree_sizes" with
    | None => Some (Err (EOther 12))
    | Some v =>
        match read_trees (length (fields v)) 0 rest with
        | Some (Ok ts) => Some (Ok (mklm ts (if (ncl =? 0)%Z then 1 else ncl) nf obj
              (match ts with t :: _ => if lt_ival t =? n0 then n0 else lt_ival t | [] => n0 end)))
        | Some (Err e) => Some (Err e)
        | Some Panic => Some Panic
        | None => None
        end
    end.

  (** ** loader.go *)
  (** parseIntArray and parseFloatArray, lines 229-256: a field that does not parse is left out *)
  Definition array {A} (parse : string -> option A) (p : params) (k : string) : list A :=
    match look p k with
    | None => []
    | Some v => flat_map (fun f => match parse f with Some x => [x] | None => [] end) (fields v)
    end.
  (** finalizeTree, lines 157-226 *)
  Definition finalize_params (index : Z) (p : params) : res (gtree N) :=
    let nl := match look p "num_leaves" with Some v => atoi_lax v | None => 0%Z end in
    let shrink := match look p "shrinkage" with Some v => match parse_float v with Some x => x | None => n0 end | None => n0 end in
    let lv := array parse_float p "leaf_value" in
    if (nl =? 1)%Z then Ok (mkgt [] lv shrink n0 nl)
    else
      let sf := array atoi p "split_feature" in
      let th := array parse_float p "threshold" in
      let lc := array atoi p "left_child" in
      let rc := array atoi p "right_child" in
      let dt := array atoi p "decision_type" in
      let iv := array parse_float p "internal_value" in
      let* ns := mapM (fun i =>
          match nth_error lc i, nth_error rc i, nth_error sf i, nth_error th i with
          | Some l, Some r, Some f, Some h =>
              Ok (mkgn l r TNum f h [] (match nth_error dt i with Some c => Z.testbit c 1 | None => false end) n0 n0 n0)
          | _, _, _, _ => Panic
          end) (seq 0 (length sf)) in
      Ok (mkgt ns lv shrink (if (index =? 0)%Z then match iv with [] => n0 | v :: _ => v end else n0) nl).
  (** LoadFromReader, lines 34-154.  The tree being read: its index and entries.  A line longer than
      the scanner's limit stops the reading with an error, after the tree being read was closed. *)
  Record reading := mkrd {
    rd_class : Z; rd_nfeat : Z; rd_obj : string; rd_names : list string; rd_cur : option (Z * params); rd_trees : list (gtree N) }.
  Definition close_tree (st : reading) : res reading :=
    match rd_cur st with
    | None => Ok st
    | Some (i, p) => let* t := finalize_params i p in
                     Ok (mkrd (rd_class st) (rd_nfeat st) (rd_obj st) (rd_names st) None (rd_trees st ++ [t]))
    end.
  Definition read_line (st : reading) (line : string) : res reading :=
    let l := trim line in
    if String.eqb l "" then close_tree st
    else if String.prefix "Tree=" l then
      match split_eq l with
      | Some (_, v) => match split_eq v with
                       | Some _ => Ok st
                       | None => match atoi v with
                                 | Some i => Ok (mkrd (rd_class st) (rd_nfeat st) (rd_obj st) (rd_names st) (Some (i, [])) (rd_trees st))
                                 | None => Err (EOther 20)
                                 end
                       end
      | None => Ok st
      end
    else if String.eqb l "tree" then Ok st
    else match split_eq l with
         | None => Ok st
         | Some (k, v) =>
             let k := trim k in let v := trim v in
             match rd_cur st with
             | Some (i, p) => Ok (mkrd (rd_class st) (rd_nfeat st) (rd_obj st) (rd_names st) (Some (i, (k, v) :: p)) (rd_trees st))
             | None =>
                 if String.eqb k "num_class" then Ok (mkrd (atoi_lax v) (rd_nfeat st) (rd_obj st) (rd_names st) None (rd_trees st))
                 else if String.eqb k "max_feature_idx" then Ok (mkrd (rd_class st) (atoi_lax v + 1) (rd_obj st) (rd_names st) None (rd_trees st))
                 else if String.eqb k "objective" then
                   match fields v with
                   | o :: _ => Ok (mkrd (rd_class st) (rd_nfeat st) o (rd_names st) None (rd_trees st))
                   | [] => Ok st
                   end
                 else if String.eqb k "feature_names" then Ok (mkrd (rd_class st) (rd_nfeat st) (rd_obj st) (fields v) None (rd_trees st))
                 else Ok st
             end
         end.
  (** bufio.MaxScanTokenSize: lines of up to 65535 bytes can be read *)
  Definition too_long (l : string) : bool := (65535 <? Z.of_nat (String.length l))%Z.
  Fixpoint read_lines (ls : list string) (st : reading) : res reading :=
    match ls with
    | [] => close_tree st
    | l :: rest => if too_long l then let* _ := close_tree st in Err (EOther 21)
                   else let* st := read_line st l in read_lines rest st
    end.
  Definition load_from_reader (text : string) : res (gmodel N * list string) :=
    let* st := read_lines (lines text) (mkrd 0 0 "" [] None []) in
    let ts := rd_trees st in
    Ok (mkgm (rd_obj st) (if (rd_class st =? 0)%Z then 1 else rd_class st) (Z.of_nat (length ts)) 0 (nlit 1 10) ts (rd_nfeat st)
          (match ts with t :: _ => if gt_ival t =? n0 then n0 else gt_ival t | [] => n0 end), rd_names st).
End LgbText.
