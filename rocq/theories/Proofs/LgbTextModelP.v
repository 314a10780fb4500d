(** Whole model files: SaveToText read by both loaders. *)
From Coq Require Import String List Arith ZArith Bool Lia Ascii.
From Verif Require Import Base.Num Base.GoRes Base.ListX Model.LgbTransform Model.LgbTree Model.LgbText Spec.LgbText
  Proofs.LgbTreeP Proofs.LgbArrayP Proofs.LgbTextStrP Proofs.LgbTextTreeP Proofs.LgbTextP.
Import ListNotations.
Local Open Scope string_scope.
Local Open Scope list_scope.

Section Whole.
  Context {N : Num}.
  Variables (show_g : N -> string) (parse_float : string -> option N).
  Hypothesis show_token : forall v, token (show_g v) = true.
  Hypothesis zero : parse_float "0" = Some n0.

  Definition names_line (names : list string) : list string := match names with [] => [] | _ => [kv "feature_names" (join names)] end.
  Lemma header_kv names (m : gmodel N) : header_lines names m =
    [ "tree"; kv "version" "v3"; kv "num_class" (show_int (m_class m));
      kv "num_tree_per_iteration" (show_int (if (2 <? m_class m)%Z then m_class m else 1));
      kv "label_index" "0"; kv "max_feature_idx" (show_int (m_nfeat m - 1)); kv "objective" (m_obj m) ]
    ++ names_line names ++ [ kv "tree_sizes" (join (map (fun t => show_int (tree_size t)) (m_trees m))); "" ].
  Proof. unfold header_lines, names_line. destruct names; reflexivity. Qed.
  Definition head_entries (names : list string) (m : gmodel N) : params :=
    [ ("tree_sizes", stored (join (map (fun t => show_int (tree_size t)) (m_trees m)))) ]
    ++ match names with [] => [] | _ => [("feature_names", stored (join names))] end
    ++ [ ("objective", stored (m_obj m)); ("max_feature_idx", stored (show_int (m_nfeat m - 1))); ("label_index", "0");
         ("num_tree_per_iteration", stored (show_int (if (2 <? m_class m)%Z then m_class m else 1)));
         ("num_class", stored (show_int (m_class m))); ("version", "v3") ].
  Lemma read_params_word rest b p : read_params ("tree" :: rest) b p = read_params rest 0 p.
  Proof. reflexivity. Qed.
  Lemma read_header names (m : gmodel N) rest : read_params (header_lines names m ++ rest) 0 [] = (head_entries names m, rest).
  Proof.
    rewrite header_kv. unfold head_entries, names_line. cbn [app]. rewrite read_params_word.
    do 6 (rewrite read_params_kv by reflexivity). destruct names as [|x names].
    - cbn [app]. rewrite read_params_kv by reflexivity. reflexivity.
    - cbn [app]. do 2 (rewrite read_params_kv by reflexivity). reflexivity.
  Qed.
  Definition body (i : nat) (ts : list (gtree N)) : list string :=
    flat_map (fun it => tree_lines show_g (fst it) (snd it)) (combine (seq i (List.length ts)) ts).
  Lemma body_cons i t ts : body i (t :: ts) = tree_lines show_g i t ++ body (S i) ts.
  Proof. reflexivity. Qed.
  Lemma show_g_line v : one_line (show_g v) = true.
  Proof. apply token_line, show_token. Qed.
  Lemma show_int_line z : one_line (show_int z) = true.
  Proof. apply token_line, show_int_token. Qed.
  Lemma map_line {A} (f : A -> string) l : (forall a, token (f a) = true) -> one_line (join (map f l)) = true.
  Proof. intros H. apply one_line_join. apply Forall_forall. intros s Hs. apply in_map_iff in Hs as (a & <- & _). now apply token_line. Qed.
  Lemma tree_one_line i t : Forall (fun l => one_line l = true) (tree_lines show_g i t).
  Proof.
    rewrite tree_lines_kv. cbn zeta. repeat constructor; apply one_line_kv; try reflexivity; try apply show_int_line; try apply show_g_line.
    - apply map_line. apply w_feat_token.
    - apply map_line. apply w_thr_token. exact show_token.
    - apply map_line. apply w_type_token.
    - apply map_line. intros a. apply show_int_token.
    - apply map_line. intros a. apply show_int_token.
    - destruct (gt_leaves t); apply map_line; [apply w_leaf_token; exact show_token|exact show_token].
  Qed.
  Lemma body_one_line ts : forall i, Forall (fun l => one_line l = true) (body i ts).
  Proof. induction ts as [|t ts IH]; intros i; [constructor|]. rewrite body_cons. apply Forall_app. split; [apply tree_one_line|apply IH]. Qed.
  Lemma header_one_line names (m : gmodel N) : Forall (fun s => one_line s = true) names -> one_line (m_obj m) = true ->
    Forall (fun l => one_line l = true) (header_lines names m).
  Proof.
    intros Hn Ho. rewrite header_kv. apply Forall_app. split; [|apply Forall_app; split].
    - repeat constructor; apply one_line_kv; try reflexivity; try apply show_int_line. exact Ho.
    - unfold names_line. destruct names as [|x names]; constructor; [|constructor]. apply one_line_kv; [reflexivity|]. now apply one_line_join.
    - repeat constructor. apply one_line_kv; [reflexivity|]. apply map_line. intros t. apply show_int_token.
  Qed.
  Lemma text_lines names (m : gmodel N) : Forall (fun s => one_line s = true) names -> one_line (m_obj m) = true ->
    lines (save_text show_g names m) = header_lines names m ++ body 0 (m_trees m) ++ [""].
  Proof.
    intros Hn Ho. unfold save_text. rewrite lines_text; [now rewrite <- app_assoc|]. apply Forall_app. split; [now apply header_one_line|apply body_one_line].
  Qed.

  Lemma look_names k names (m : gmodel N) : k <> "feature_names" ->
    look (head_entries names m) k = look (head_entries [] m) k.
  Proof.
    intros Hk. unfold head_entries. destruct names as [|x names]; [reflexivity|]. cbn [app look].
    destruct (String.eqb_spec k "tree_sizes"); [reflexivity|]. destruct (String.eqb_spec k "feature_names"); [now destruct Hk|reflexivity].
  Qed.

  (** ** leaves_loader.go *)
  Definition reread (first : bool) (t : gtree N) : option (res (ltree N)) :=
    match tree_doc parse_float first (entries show_g t) with Ok d => read_tree first d | _ => None end.
  Lemma read_trees_step n i t rest lt : reread (Nat.eqb i 0) t = Some (Ok lt) ->
    read_trees parse_float (S n) i (tree_lines show_g i t ++ rest) =
      match read_trees parse_float n (S i) rest with Some (Ok ts) => Some (Ok (lt :: ts)) | o => o end.
  Proof.
    intros E. cbn [read_trees]. rewrite read_tree_params. unfold reread in E.
    destruct (tree_doc parse_float (Nat.eqb i 0) (entries show_g t)) as [d|e|]; try discriminate. now rewrite E.
  Qed.

  Variable m : gmodel N.
  Variable names : list string.
  Hypothesis Hnames : Forall (fun s => one_line s = true) names.
  Hypothesis Hobj : token (m_obj m) = true.
  Hypothesis Hfit : fits m.
  Hypothesis Hgrown : forall t, In t (m_trees m) -> grown (m_nfeat m) t /\ exact_floats show_g parse_float t.

  Definition flat (t : gtree N) (lt : ltree N) : Prop :=
    lt_ival lt = n0 /\ exists f0, forall toint32 zthr fuel x, (m_nfeat m <= Z.of_nat (List.length x))%Z -> f0 <= fuel ->
      lpredict toint32 zthr fuel lt x = Some (Ok (left_over t)).
  Lemma reread_flat first t : In t (m_trees m) -> exists lt, reread first t = Some (Ok lt) /\ flat t lt.
  Proof.
    intros Hin. destruct (Hgrown t Hin) as [Hg Hx]. destruct Hfit as (F1 & F2 & F3).
    destruct (reread_tree show_g parse_float show_token zero t (m_nfeat m) Hg ltac:(lia) (F3 t Hin) Hx first) as (lt & E1 & E2 & E3).
    exists lt. split; [exact E1|]. split; [exact E2|]. exists (List.length (lt_nodes lt)). intros toint32 zthr fuel x Hl Hf.
    apply E3; [lia|lia|exact Hf].
  Qed.
  Lemma read_body ts : (forall t, In t ts -> In t (m_trees m)) -> forall i rest, exists lts,
    read_trees parse_float (List.length ts) i (body i ts ++ rest) = Some (Ok lts) /\ Forall2 flat ts lts.
  Proof.
    induction ts as [|t ts IH]; intros Hin i rest; [exists []; now split|].
    rewrite body_cons, <- app_assoc. destruct (reread_flat (Nat.eqb i 0) t (Hin t (or_introl eq_refl))) as (lt & E & F).
    destruct (IH (fun u Hu => Hin u (or_intror Hu)) (S i) rest) as (lts & E2 & F2).
    exists (lt :: lts). split; [|now constructor]. cbn [List.length]. rewrite (read_trees_step _ _ _ _ _ E). now rewrite E2.
  Qed.
  Lemma Forall2_init (lts : list (ltree N)) ts : Forall2 flat ts lts ->
    (match lts with t :: _ => if neqb (lt_ival t) n0 then n0 else lt_ival t | [] => n0 end) = n0.
  Proof. intros H. destruct H as [|t lt ts lts [H _] _]; [reflexivity|]. rewrite H. now destruct (neqb n0 n0). Qed.
  Lemma flat_sequence ts lts : Forall2 flat ts lts -> exists f0, forall toint32 zthr fuel x,
    (m_nfeat m <= Z.of_nat (List.length x))%Z -> f0 <= fuel ->
    sequence (fun t => lpredict toint32 zthr fuel t x) lts = Some (Ok (map left_over ts)).
  Proof.
    induction 1 as [|t lt ts lts [_ [f1 H]] _ [f2 IH]]; [exists 0; reflexivity|].
    exists (f1 + f2). intros toint32 zthr fuel x Hl Hf. cbn [sequence map]. rewrite H by (assumption || lia). rewrite IH by (assumption || lia). reflexivity.
  Qed.
  Theorem load_saved : exists lm, load_leaves_text parse_float (save_text show_g names m) = Some (Ok lm)
    /\ lm_class lm = m_class m /\ lm_nfeat lm = m_nfeat m /\ lm_obj lm = m_obj m /\ lm_init lm = n0
    /\ exists f0, forall toint32 zthr fuel x, (m_nfeat m <= Z.of_nat (List.length x))%Z -> f0 <= fuel ->
         leaves_raw toint32 zthr fuel lm x = Some (Ok (accumulate nadd (leaves_count lm) n0 (map left_over (m_trees m))))
         /\ leaves_batch_row toint32 zthr fuel lm x = Some (Ok (leaves_transform lm (accumulate nadd (leaves_count lm) n0 (map left_over (m_trees m))))).
  Proof.
    destruct Hfit as (F1 & F2 & F3). destruct (read_body (m_trees m) (fun t H => H) 0 [""]) as (lts & E & F).
    unfold load_leaves_text. rewrite text_lines; [|exact Hnames|now apply token_line]. rewrite read_header.
    rewrite (look_names "num_class"), (look_names "max_feature_idx"), (look_names "objective"), (look_names "tree_sizes") by discriminate.
    change (look (head_entries [] m) "num_class") with (Some (stored (show_int (m_class m)))).
    change (look (head_entries [] m) "max_feature_idx") with (Some (stored (show_int (m_nfeat m - 1)))).
    change (look (head_entries [] m) "objective") with (Some (stored (m_obj m))).
    change (look (head_entries [] m) "tree_sizes") with (Some (stored (join (map (fun t => show_int (tree_size t)) (m_trees m))))).
    cbv iota beta. rewrite (stored_token _ (show_int_token (m_class m))), (stored_token _ (show_int_token (m_nfeat m - 1))), (stored_token _ Hobj).
    rewrite (fields_mapped (fun t => show_int (tree_size t)) (m_trees m) (fun t => show_int_token _)), map_length, E.
    assert (Hof : fields (m_obj m) = [m_obj m]) by (apply (fields_join [m_obj m]); constructor; [exact Hobj|constructor]).
    rewrite Hof, (Forall2_init lts _ F). rewrite !lax_show by lia.
    destruct (Z.eqb_spec (m_class m) 0) as [Z0|_]; [lia|].
    eexists. split; [reflexivity|]. cbn [lm_class lm_nfeat lm_obj lm_init]. split; [reflexivity|]. split; [lia|]. split; [reflexivity|]. split; [reflexivity|].
    destruct (flat_sequence _ _ F) as [f0 Hf]. exists f0. intros toint32 zthr fuel x Hl Hfu.
    unfold leaves_raw, leaves_batch_row, leaves_sum. cbn [lm_trees lm_init]. rewrite Hf by assumption. cbn [omap option_map rmap].
    split; [reflexivity|]. now destruct (neqb n0 n0).
  Qed.

  (** ** loader.go *)
  Lemma kv_not_word k v : all_chars (fun c => negb (is_space c) && negb (Ascii.eqb c "="%char)) k = true -> String.eqb (kv k v) "tree" = false.
  Proof.
    intros H. apply String.eqb_neq. intros E. pose proof (split_kv k v H) as S. rewrite E in S. discriminate.
  Qed.
  Lemma read_line_kv st i p k v : key_ok k = true -> rd_cur st = Some (i, p) ->
    read_line parse_float st (kv k v) = Ok (mkrd (rd_class st) (rd_nfeat st) (rd_obj st) (rd_names st) (Some (i, (k, stored v) :: p)) (rd_trees st)).
  Proof.
    intros Hk Hc. unfold read_line. pose proof (key_parts k Hk) as Hs. pose proof (key_solid k Hs) as Hs'.
    rewrite trim_kv by exact Hs'. rewrite prefix_kv by exact Hk. rewrite kv_not_word by exact Hs. rewrite split_kv by exact Hs.
    rewrite (trim_solid k Hs'), Hc. destruct (String.eqb_spec (kv k (trim_right v)) "") as [E|_]; [now apply kv_nonempty in E|]. reflexivity.
  Qed.
  Lemma show_no_eq z : split_eq (show_int z) = None.
  Proof.
    assert (Hd : forall d, split_eq (DecimalString.NilEmpty.string_of_uint d) = None).
    { induction d as [|d IH|d IH|d IH|d IH|d IH|d IH|d IH|d IH|d IH|d IH]; [reflexivity|cbn; now rewrite IH..]. }
    assert (Hu : forall d, split_eq (DecimalString.NilZero.string_of_uint d) = None) by (intros [|d|d|d|d|d|d|d|d|d|d]; [reflexivity|apply Hd..]).
    unfold show_int. destruct (Z.to_int z); cbn [DecimalString.NilZero.string_of_int]; [apply Hu|]. cbn. now rewrite Hu.
  Qed.
  Lemma read_line_tree st i : (Z.of_nat i < 2 ^ 63)%Z ->
    read_line parse_float st (kv "Tree" (show_int (Z.of_nat i))) =
      Ok (mkrd (rd_class st) (rd_nfeat st) (rd_obj st) (rd_names st) (Some (Z.of_nat i, [])) (rd_trees st)).
  Proof.
    intros Hi. unfold read_line. rewrite trim_kv by reflexivity. rewrite trim_right_solid by apply token_solid, show_int_token.
    rewrite prefix_tree. destruct (String.eqb_spec (kv "Tree" (show_int (Z.of_nat i))) "") as [E|_]; [now apply kv_nonempty in E|].
    rewrite split_kv by reflexivity. rewrite show_no_eq. rewrite atoi_show by lia. reflexivity.
  Qed.
  Lemma read_lines_step l rest st st' : too_long l = false -> read_line parse_float st l = Ok st' ->
    read_lines parse_float (l :: rest) st = read_lines parse_float rest st'.
  Proof. intros H1 H2. cbn [read_lines]. now rewrite H1, H2. Qed.
  Definition closed_with (st : reading (N := N)) (t : gtree N) : reading :=
    mkrd (rd_class st) (rd_nfeat st) (rd_obj st) (rd_names st) None (rd_trees st ++ [t]).
  Definition opened (st : reading (N := N)) (i : Z) (p : params) : reading :=
    mkrd (rd_class st) (rd_nfeat st) (rd_obj st) (rd_names st) (Some (i, p)) (rd_trees st).
  Lemma step_kv st i p k v rest : too_long (kv k v) = false -> key_ok k = true ->
    read_lines parse_float (kv k v :: rest) (opened st i p) = read_lines parse_float rest (opened st i ((k, stored v) :: p)).
  Proof. intros Hl Hk. apply read_lines_step; [exact Hl|]. now rewrite (read_line_kv (opened st i p) i p k v Hk eq_refl). Qed.
  Lemma step_tree st i rest : too_long (kv "Tree" (show_int (Z.of_nat i))) = false -> (Z.of_nat i < 2 ^ 63)%Z ->
    read_lines parse_float (kv "Tree" (show_int (Z.of_nat i)) :: rest) st = read_lines parse_float rest (opened st (Z.of_nat i) []).
  Proof. intros Hl Hi. apply read_lines_step; [exact Hl|]. now apply read_line_tree. Qed.
  Lemma step_blank st rest : read_lines parse_float ("" :: rest) st = bind (close_tree parse_float st) (fun st => read_lines parse_float rest st).
  Proof. reflexivity. Qed.
  Lemma read_one_tree st i t rest gt : rd_cur st = None -> (Z.of_nat i < 2 ^ 63)%Z -> Forall (fun l => too_long l = false) (tree_lines show_g i t) ->
    finalize_params parse_float (Z.of_nat i) (entries show_g t) = Ok gt ->
    read_lines parse_float (tree_lines show_g i t ++ rest) st = read_lines parse_float rest (closed_with st gt).
  Proof.
    intros Hc Hi Hl Hf. rewrite tree_lines_kv in *. cbn zeta in *. repeat (apply Forall_cons_iff in Hl as [? Hl]). cbn [app].
    rewrite step_tree by assumption. do 9 (rewrite step_kv by (assumption || reflexivity)).
    rewrite step_blank. unfold close_tree. cbn [opened rd_cur rd_class rd_nfeat rd_obj rd_names rd_trees].
    unfold entries in Hf. cbn zeta in Hf. change (stored "0") with "0". rewrite Hf. reflexivity.
  Qed.

  (** finalizeTree of the entries *)
  Definition gone (t gt : gtree N) : Prop := gt_ival gt = n0 /\ gt_nodes gt = (if Nat.eqb (List.length (gt_nodes t)) 1 then []
    else map (fun nd => mkgn (g_left nd) (g_right nd) TNum (v_feat nd) (v_thr nd) [] (Z.testbit (v_type nd) 1) n0 n0 n0) (gt_nodes t)).
  Lemma array_ok {A B} (f : A -> string) (parse : string -> option B) (h : A -> B) p k l :
    look p k = Some (stored (join (map f l))) -> (forall a, token (f a) = true) -> (forall a, In a l -> parse (f a) = Some (h a)) ->
    array parse p k = map h l.
  Proof. intros E Ht Hp. unfold array. rewrite E, (fields_mapped f l Ht). now apply keep_ok. Qed.
  Lemma mapM_nodes {A} (F : nat -> res A) : forall (l : list (gnode N)) (g : gnode N -> A) k,
    (forall i nd, nth_error l i = Some nd -> F (k + i) = Ok (g nd)) -> mapM F (seq k (List.length l)) = Ok (map g l).
  Proof.
    induction l as [|nd l IH]; intros g k H; [reflexivity|]. cbn [List.length seq mapM map].
    pose proof (H 0 nd eq_refl) as H0. rewrite Nat.add_0_r in H0. rewrite H0. cbn [bind].
    rewrite (IH g (S k)); [reflexivity|]. intros i n Hi. replace (S k + i) with (k + S i) by lia. now apply H.
  Qed.
  Lemma finalize_saved index t : In t (m_trees m) -> exists gt, finalize_params parse_float index (entries show_g t) = Ok gt /\ gone t gt.
  Proof.
    intros Hin. destruct (Hgrown t Hin) as [Hg Hx]. destruct Hfit as (F1 & F2 & F3). specialize (F3 t Hin).
    assert (Hnf : (m_nfeat m < 2 ^ 32)%Z) by lia.
    pose proof Hg as (Hl & _). unfold finalize_params.
    assert (E1 : look (entries show_g t) "num_leaves" = Some (show_int (Z.of_nat (List.length (gt_nodes t))))).
    { unfold entries. cbn [look]. cbn. now rewrite (stored_token _ (show_int_token _)). }
    rewrite E1, lax_show by lia. unfold gone.
    destruct (Z.eqb_spec (Z.of_nat (List.length (gt_nodes t))) 1) as [E|E].
    - eexists. split; [reflexivity|]. cbn [gt_ival gt_nodes]. split; [reflexivity|].
      destruct (Nat.eqb_spec (List.length (gt_nodes t)) 1); [reflexivity|lia].
    - rewrite (array_ok (fun n => show_int (g_left n)) atoi g_left (entries show_g t) "left_child" (gt_nodes t) eq_refl (fun n => show_int_token _)
                 (fun nd Hnd => proj2 (r_left t _ Hg F3 nd Hnd))).
      rewrite (array_ok (fun n => show_int (g_right n)) atoi g_right (entries show_g t) "right_child" (gt_nodes t) eq_refl (fun n => show_int_token _)
                 (fun nd Hnd => proj2 (r_right t _ Hg F3 nd Hnd))).
      rewrite (array_ok w_type atoi v_type (entries show_g t) "decision_type" (gt_nodes t) eq_refl w_type_token (fun nd _ => proj2 (r_type nd))).
      rewrite (array_ok w_feat atoi v_feat (entries show_g t) "split_feature" (gt_nodes t) eq_refl w_feat_token (fun nd Hnd => proj2 (r_feat t _ Hg Hnf nd Hnd))).
      rewrite (array_ok (w_thr show_g) parse_float v_thr (entries show_g t) "threshold" (gt_nodes t) eq_refl (w_thr_token show_g show_token)
                 (r_thr show_g parse_float zero t Hx)).
      rewrite map_length.
      rewrite (mapM_nodes _ (gt_nodes t) (fun nd => mkgn (g_left nd) (g_right nd) TNum (v_feat nd) (v_thr nd) [] (Z.testbit (v_type nd) 1) n0 n0 n0)).
      + cbn [bind]. eexists. split; [reflexivity|]. cbn [gt_ival gt_nodes]. split; [now destruct (index =? 0)%Z|].
        destruct (Nat.eqb_spec (List.length (gt_nodes t)) 1); [lia|reflexivity].
      + intros i nd Hi. cbn [Nat.add]. rewrite !nth_error_map, Hi. reflexivity.
  Qed.
  (** Every walk in the loaded tree ends at a leaf without value. *)
  Lemma gone_left t gt : In t (m_trees m) -> gone t gt -> forall i nd, nth_error (gt_nodes gt) i = Some nd ->
    g_leaf nd = n0 /\ g_type nd = TNum /\ (g_isleaf nd = true \/
      ((0 <= g_feat nd < m_nfeat m)%Z /\ exists l r, g_left nd = Z.of_nat l /\ g_right nd = Z.of_nat r /\ i < l /\ i < r)).
  Proof.
    intros Hin [_ HG] i nd Hi. rewrite HG in Hi. destruct (Nat.eqb (List.length (gt_nodes t)) 1); [destruct i; discriminate|].
    rewrite nth_error_map in Hi. destruct (nth_error (gt_nodes t) i) as [n|] eqn:En; [|discriminate]. injection Hi as <-.
    cbn [g_leaf g_type]. split; [reflexivity|]. split; [reflexivity|]. destruct (Hgrown t Hin) as [Hg _].
    pose proof (in_feat t _ Hg n (nth_error_In _ _ En)) as Hf. destruct Hfit as (F1 & _). destruct Hg as (_ & T & ET & _). rewrite ET in En.
    destruct (preorder_at T 0 i n En) as [L|(L1 & r & L2 & L3)].
    - left. unfold g_isleaf. cbn [g_left g_right]. destruct L as [-> ->]. reflexivity.
    - right. cbn [g_feat g_left g_right]. split; [lia|]. exists (S i), r. rewrite L1, L2. cbn [Nat.add] in *. split; [reflexivity|]. split; [reflexivity|]. lia.
  Qed.
  Lemma gone_walk t gt toint x : In t (m_trees m) -> gone t gt -> (m_nfeat m <= Z.of_nat (List.length x))%Z ->
    forall fuel i, List.length (gt_nodes gt) - i < fuel -> gwalk toint fuel gt (Z.of_nat i) x = Some (Ok n0).
  Proof.
    intros Hin HG Hx. induction fuel as [|fuel IH]; intros i Hf; [lia|]. cbn [gwalk]. rewrite getZ_nat.
    destruct (nth_error (gt_nodes gt) i) as [nd|] eqn:En; [|reflexivity].
    assert (Hi : i < List.length (gt_nodes gt)) by (apply nth_error_Some; congruence).
    destruct (gone_left t gt Hin HG i nd En) as (G1 & G2 & [G3|(G3 & l & r & G4 & G5 & G6 & G7)]); [now rewrite G3, G1|].
    assert (Hl : g_isleaf nd = false) by (unfold g_isleaf; rewrite G4; destruct (Z.eqb_spec (Z.of_nat l) (-1)); [lia|reflexivity]).
    rewrite Hl, G2. unfold getZ. destruct (Z.ltb_spec (g_feat nd) 0); [lia|].
    destruct (nth_error x (Z.to_nat (g_feat nd))) as [v|] eqn:Ev; [|apply nth_error_None in Ev; lia].
    unfold g_default. rewrite G4, G5. destruct (nisnan v); [destruct (g_defl nd)|destruct (nle v (g_thr nd))]; apply IH; lia.
  Qed.
  Lemma gone_pwalk t gt roundint x : In t (m_trees m) -> gone t gt -> (m_nfeat m <= Z.of_nat (List.length x))%Z ->
    forall fuel guard i, List.length (gt_nodes gt) - i < fuel -> pwalk roundint fuel guard gt (Z.of_nat i) x = Some (Ok n0).
  Proof.
    intros Hin HG Hx. induction fuel as [|fuel IH]; intros guard i Hf; [lia|]. cbn [pwalk]. rewrite getZ_nat.
    destruct (nth_error (gt_nodes gt) i) as [nd|] eqn:En; [|reflexivity]. destruct guard as [|guard]; [reflexivity|].
    assert (Hi : i < List.length (gt_nodes gt)) by (apply nth_error_Some; congruence).
    destruct (gone_left t gt Hin HG i nd En) as (G1 & G2 & [G3|(G3 & l & r & G4 & G5 & G6 & G7)]); [now rewrite G3, G1, ensure_0|].
    assert (Hl : g_isleaf nd = false) by (unfold g_isleaf; rewrite G4; destruct (Z.eqb_spec (Z.of_nat l) (-1)); [lia|reflexivity]).
    rewrite Hl, G2. destruct (Z.leb_spec (Z.of_nat (List.length x)) (g_feat nd)); [lia|].
    unfold getZ. destruct (Z.ltb_spec (g_feat nd) 0); [lia|].
    destruct (nth_error x (Z.to_nat (g_feat nd))) as [v|] eqn:Ev; [|apply nth_error_None in Ev; lia].
    unfold g_default, follow. rewrite G4, G5. destruct (nisnan v); [destruct (g_defl nd); apply IH; lia|].
    destruct (le_precise v (g_thr nd)).
    - destruct (Z.ltb_spec (Z.of_nat l) 0); [lia|]. apply IH. lia.
    - destruct (Z.ltb_spec (Z.of_nat r) 0); [lia|]. apply IH. lia.
  Qed.
End Whole.
