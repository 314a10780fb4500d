(** LoadFromReader on the files of SaveToText and SaveToFile. *)
From Coq Require Import String List Arith ZArith Bool Lia Ascii Reals Lra.
From Verif Require Import Base.Num Base.GoRes Base.ListX Base.RTac Model.LgbTransform Model.LgbTree Model.LgbText Spec.LgbText
  Proofs.LgbTreeP Proofs.LgbArrayP Proofs.LgbTransformP Proofs.LgbTextStrP Proofs.LgbTextTreeP Proofs.LgbTextP Proofs.LgbTextModelP.
Import ListNotations.
Local Open Scope string_scope.
Local Open Scope list_scope.

Section Head.
  Context {N : Num}.
  Variables (show_g show_f : N -> string) (parse_float : string -> option N).
  Implicit Types st : reading (N := N).
  Definition head_step st (k v : string) : reading :=
    if String.eqb k "num_class" then mkrd (atoi_lax v) (rd_nfeat st) (rd_obj st) (rd_names st) None (rd_trees st)
    else if String.eqb k "max_feature_idx" then mkrd (rd_class st) (atoi_lax v + 1) (rd_obj st) (rd_names st) None (rd_trees st)
    else if String.eqb k "objective" then
      match fields v with o :: _ => mkrd (rd_class st) (rd_nfeat st) o (rd_names st) None (rd_trees st) | [] => st end
    else if String.eqb k "feature_names" then mkrd (rd_class st) (rd_nfeat st) (rd_obj st) (fields v) None (rd_trees st)
    else st.
  Lemma read_line_head st k v : key_ok k = true -> rd_cur st = None -> read_line parse_float st (kv k v) = Ok (head_step st k (stored v)).
  Proof.
    intros Hk Hc. unfold read_line. pose proof (key_parts k Hk) as Hs. pose proof (key_solid k Hs) as Hs'.
    rewrite trim_kv by exact Hs'. rewrite prefix_kv by exact Hk. rewrite kv_not_word by exact Hs. rewrite split_kv by exact Hs.
    rewrite (trim_solid k Hs'), Hc. destruct (String.eqb_spec (kv k (trim_right v)) "") as [E|_]; [now apply kv_nonempty in E|].
    unfold head_step. fold (stored v). destruct (String.eqb k "num_class"), (String.eqb k "max_feature_idx"), (String.eqb k "objective"), (String.eqb k "feature_names");
      try reflexivity; destruct (fields (stored v)); reflexivity.
  Qed.
  Lemma short_of text : short_lines text -> Forall (fun l => too_long l = false) (lines text).
  Proof. unfold short_lines. apply Forall_impl. intros l H. unfold too_long. apply Z.ltb_ge. exact H. Qed.

  Variables (m : gmodel N) (names : list string).
  Hypothesis Hobj : token (m_obj m) = true.
  Hypothesis Hfit : fits m.
  Definition head_state (nm : list string) : reading (N := N) := mkrd (m_class m) (m_nfeat m) (m_obj m) nm None [].
  Lemma obj_fields : fields (m_obj m) = [m_obj m].
  Proof. apply (fields_join [m_obj m]). constructor; [exact Hobj|constructor]. Qed.
  Lemma read_head rest : Forall (fun l => too_long l = false) (header_lines names m) ->
    read_lines parse_float (header_lines names m ++ rest) (mkrd 0 0 "" [] None []) =
      read_lines parse_float rest (head_state (fields (join names))).
  Proof.
    intros Hl. rewrite header_kv in *. destruct Hfit as (F1 & F2 & _).
    apply Forall_app in Hl as [H1 H2]. apply Forall_app in H2 as [H2 H3].
    repeat (apply Forall_cons_iff in H1 as [? H1]). repeat (apply Forall_cons_iff in H3 as [? H3]).
    cbn [app]. erewrite read_lines_step; [|eassumption|reflexivity].
    do 6 (erewrite read_lines_step; [|eassumption|apply read_line_head; reflexivity];
      unfold head_step; cbn [String.eqb Ascii.eqb Bool.eqb]; cbn [rd_class rd_nfeat rd_obj rd_names rd_trees rd_cur];
      try rewrite (stored_token _ Hobj), obj_fields; cbn [rd_class rd_nfeat rd_obj rd_names rd_trees rd_cur]).
    rewrite (stored_token _ (show_int_token (m_class m))), (stored_token _ (show_int_token (m_nfeat m - 1))).
    rewrite !lax_show by lia. replace (m_nfeat m - 1 + 1)%Z with (m_nfeat m) by lia.
    assert (Hend : forall st, rd_cur st = None -> read_lines parse_float (kv "tree_sizes" (join (map (fun t => show_int (tree_size t)) (m_trees m))) :: "" :: rest) st
        = read_lines parse_float rest st).
    { intros st Hc. erewrite read_lines_step; [|eassumption|apply read_line_head; [reflexivity|exact Hc]].
      erewrite read_lines_step; [reflexivity|assumption|]. unfold read_line. change (trim "") with "". cbn [String.eqb]. unfold close_tree.
      unfold head_step. cbn [String.eqb Ascii.eqb Bool.eqb]. now rewrite Hc. }
    unfold names_line in *. destruct names as [|x nms].
    - cbn [app]. now rewrite Hend.
    - apply Forall_cons_iff in H2 as [H2 _]. cbn [app]. erewrite read_lines_step; [|eassumption|apply read_line_head; reflexivity].
      unfold head_step. cbn [String.eqb Ascii.eqb Bool.eqb]. cbn [rd_class rd_nfeat rd_obj rd_names rd_trees rd_cur].
      rewrite fields_stored. now rewrite Hend.
  Qed.
End Head.

Section Load.
  Context {N : Num}.
  Variables (show_g : N -> string) (parse_float : string -> option N).
  Hypothesis show_token : forall v, token (show_g v) = true.
  Hypothesis zero : parse_float "0" = Some n0.
  Variable m : gmodel N.
  Variable names : list string.
  Hypothesis Hnames : Forall (fun s => one_line s = true) names.
  Hypothesis Hobj : token (m_obj m) = true.
  Hypothesis Hfit : fits m.
  Hypothesis Hmany : (Z.of_nat (List.length (m_trees m)) < 2 ^ 63)%Z.
  Hypothesis Hgrown : forall t, In t (m_trees m) -> grown (m_nfeat m) t /\ exact_floats show_g parse_float t.
  Hypothesis Hshort : short_lines (save_text show_g names m).

  Lemma read_body_lines ts : (forall t, In t ts -> In t (m_trees m)) -> forall i st,
    rd_cur st = None -> (Z.of_nat (i + List.length ts) <= 2 ^ 63)%Z ->
    Forall (fun l => too_long l = false) (body show_g i ts ++ [""]) ->
    exists gts, read_lines parse_float (body show_g i ts ++ [""]) st =
        Ok (mkrd (rd_class st) (rd_nfeat st) (rd_obj st) (rd_names st) None (rd_trees st ++ gts)) /\ Forall2 gone ts gts.
  Proof.
    induction ts as [|t ts IH]; intros Hin i st Hc Hi Hl.
    - exists []. rewrite app_nil_r. split; [|constructor]. cbn [body flat_map List.length combine seq app read_lines].
      assert (E : read_line parse_float st "" = Ok st) by (unfold read_line; change (trim "") with ""; cbn [String.eqb]; unfold close_tree; now rewrite Hc).
      change (too_long "") with false. cbv iota. rewrite E. cbn [bind]. unfold close_tree. rewrite Hc. destruct st; cbn in *. now subst.
    - rewrite body_cons, <- app_assoc in *. apply Forall_app in Hl as [L1 L2].
      destruct (finalize_saved show_g parse_float show_token zero m Hfit Hgrown (Z.of_nat i) t (Hin t (or_introl eq_refl))) as (gt & Eg & G).
      destruct (IH (fun u Hu => Hin u (or_intror Hu)) (S i) (closed_with st gt) eq_refl ltac:(cbn [List.length] in Hi; lia) L2) as (gts & E & F).
      exists (gt :: gts). split; [|now constructor].
      rewrite (read_one_tree show_g parse_float st i t _ gt Hc ltac:(cbn [List.length] in Hi; lia) L1 Eg), E.
      unfold closed_with. cbn [rd_class rd_nfeat rd_obj rd_names rd_trees]. now rewrite <- app_assoc.
  Qed.
  Lemma gone_init (ts gts : list (gtree N)) : Forall2 gone ts gts ->
    (match gts with t :: _ => if neqb (gt_ival t) n0 then n0 else gt_ival t | [] => n0 end) = n0.
  Proof. intros H. destruct H as [|t lt ts lts [H _] _]; [reflexivity|]. rewrite H. now destruct (neqb n0 n0). Qed.
  Theorem load_reader_saved : exists gm, load_from_reader parse_float (save_text show_g names m) = Ok (gm, fields (join names))
    /\ m_class gm = m_class m /\ m_nfeat gm = m_nfeat m /\ m_obj gm = m_obj m /\ m_init gm = n0 /\ m_best gm = 0%Z
    /\ m_niter gm = Z.of_nat (List.length (m_trees m)) /\ Forall2 gone (m_trees m) (m_trees gm).
  Proof.
    pose proof (short_of _ Hshort) as HL. destruct Hfit as (F1 & F2 & _).
    unfold load_from_reader. rewrite text_lines in *; try exact Hnames; try (now apply token_line); try exact show_token.
    apply Forall_app in HL as [HL1 HL2]. rewrite (read_head parse_float m names Hobj Hfit _ HL1).
    destruct (read_body_lines (m_trees m) (fun t H => H) 0 (head_state m (fields (join names))) eq_refl ltac:(cbn [Nat.add]; lia) HL2) as (gts & E & F).
    rewrite E. cbn [bind head_state rd_class rd_nfeat rd_obj rd_names rd_trees app].
    rewrite (gone_init _ _ F). destruct (Z.eqb_spec (m_class m) 0) as [Z0|_]; [lia|].
    eexists. split; [reflexivity|]. cbn. do 5 (split; [reflexivity|]). split; [now rewrite (Forall2_len _ _ _ F)|exact F].
  Qed.
End Load.

(** ** SaveToFile *)
Section File.
  Context {N : Num}.
  Variables (show_f : N -> string) (parse_float : string -> option N).
  Hypothesis show_line : forall v, one_line (show_f v) = true.
  Definition node_lines (n : gnode N) : list string :=
    if g_isleaf n then [kv "leaf_value" (show_f (g_leaf n))] else [kv "split_feature" (show_int (g_feat n)); kv "threshold" (show_f (g_thr n))].
  Definition node_entries (n : gnode N) : params :=
    if g_isleaf n then [("leaf_value", stored (show_f (g_leaf n)))]
    else [("threshold", stored (show_f (g_thr n))); ("split_feature", show_int (g_feat n))].
  Fixpoint nodes_entries (ns : list (gnode N)) (p : params) : params :=
    match ns with [] => p | n :: r => nodes_entries r (node_entries n ++ p) end.
  Lemma file_tree_kv i t : file_tree_lines show_f i t =
    [ ""; kv "Tree" (show_int (Z.of_nat i)); kv "num_leaves" (show_int (gt_nleaves t)); kv "num_cat" "0"; kv "shrinkage" (show_f (gt_shrink t)) ]
    ++ flat_map node_lines (gt_nodes t).
  Proof.
    unfold file_tree_lines. apply f_equal, flat_map_ext. intros n. unfold node_lines. destruct (g_isleaf n); reflexivity.
  Qed.
  Definition fentries (t : gtree N) : params :=
    nodes_entries (gt_nodes t) [("shrinkage", stored (show_f (gt_shrink t))); ("num_cat", "0"); ("num_leaves", show_int (gt_nleaves t))].
  Lemma step_node rest st i n p : Forall (fun l => too_long l = false) (node_lines n) ->
    read_lines parse_float (node_lines n ++ rest) (opened st i p) = read_lines parse_float rest (opened st i (node_entries n ++ p)).
  Proof.
    unfold node_lines, node_entries. destruct (g_isleaf n); intros H1.
    - apply Forall_cons_iff in H1 as [H1 _]. cbn [app]. now rewrite step_kv by (assumption || reflexivity).
    - apply Forall_cons_iff in H1 as [H0 H1]. apply Forall_cons_iff in H1 as [H1 _]. cbn [app].
      do 2 (rewrite step_kv by (assumption || reflexivity)). now rewrite (stored_token (show_int (g_feat n)) (show_int_token _)).
  Qed.
  Lemma read_nodes rest st i : forall ns p, Forall (fun l => too_long l = false) (flat_map node_lines ns) ->
    read_lines parse_float (flat_map node_lines ns ++ rest) (opened st i p) = read_lines parse_float rest (opened st i (nodes_entries ns p)).
  Proof.
    induction ns as [|n ns IH]; intros p Hl; [reflexivity|]. cbn [flat_map nodes_entries] in *. apply Forall_app in Hl as [H1 H2].
    rewrite <- app_assoc, step_node by exact H1. now apply IH.
  Qed.
  Lemma nodes_look k : k <> "leaf_value" -> k <> "split_feature" -> k <> "threshold" ->
    forall ns p, look (nodes_entries ns p) k = look p k.
  Proof.
    intros K1 K2 K3. induction ns as [|n ns IH]; intros p; [reflexivity|]. cbn [nodes_entries]. rewrite IH. unfold node_entries.
    destruct (g_isleaf n); cbn [app look].
    - destruct (String.eqb_spec k "leaf_value"); [contradiction|reflexivity].
    - destruct (String.eqb_spec k "threshold"); [contradiction|]. destruct (String.eqb_spec k "split_feature"); [contradiction|reflexivity].
  Qed.
  Lemma nodes_feature : forall ns p, (exists n, In n ns /\ g_isleaf n = false) -> exists n, In n ns /\ g_isleaf n = false
    /\ look (nodes_entries ns p) "split_feature" = Some (show_int (g_feat n)).
  Proof.
    induction ns as [|n ns IH]; intros p (n1 & Hin & Hn1); [destruct Hin|]. cbn [nodes_entries].
    destruct (existsb (fun n => negb (g_isleaf n)) ns) eqn:Ex.
    - apply existsb_exists in Ex as (n2 & I2 & L2). apply negb_true_iff in L2.
      destruct (IH (node_entries n ++ p) (ex_intro _ n2 (conj I2 L2))) as (n3 & I3 & L3 & E3). exists n3. split; [now right|]. now split.
    - assert (Hall : forall x, In x ns -> g_isleaf x = true).
      { intros x Hx. destruct (g_isleaf x) eqn:E; [reflexivity|]. assert (existsb (fun n => negb (g_isleaf n)) ns = true); [|congruence].
        apply existsb_exists. exists x. now rewrite E. }
      destruct Hin as [->|Hin]; [|rewrite (Hall n1 Hin) in Hn1; discriminate].
      exists n1. split; [now left|]. split; [exact Hn1|].
      assert (Hrest : forall q, look (nodes_entries ns q) "split_feature" = look q "split_feature").
      { clear - Hall. induction ns as [|x ns IH]; intros q; [reflexivity|]. cbn [nodes_entries]. rewrite IH by (intros y Hy; apply Hall; now right).
        unfold node_entries. rewrite (Hall x (or_introl eq_refl)). reflexivity. }
      rewrite Hrest. unfold node_entries. rewrite Hn1. reflexivity.
  Qed.
  Definition vanished (gt : gtree N) : Prop := gt_ival gt = n0 /\ gt_nodes gt = [].
  Lemma finalize_leaf index t : gt_nleaves t = 1%Z -> exists gt, finalize_params parse_float index (fentries t) = Ok gt /\ vanished gt.
  Proof.
    intros E. unfold finalize_params, fentries. rewrite (nodes_look "num_leaves") by discriminate. cbn [look String.eqb Ascii.eqb Bool.eqb].
    rewrite E. change (atoi_lax (show_int 1) =? 1)%Z with true. cbv iota. eexists. split; [reflexivity|]. now split.
  Qed.
  Lemma finalize_split index t nf : (1 < gt_nleaves t < 2 ^ 63)%Z -> (nf < 2 ^ 32)%Z ->
    (forall n, In n (gt_nodes t) -> g_isleaf n = false -> (0 <= g_feat n < nf)%Z) ->
    (exists n, In n (gt_nodes t) /\ g_isleaf n = false) -> finalize_params parse_float index (fentries t) = Panic.
  Proof.
    intros HL Hnf Hf Hex. unfold finalize_params.
    assert (E1 : look (fentries t) "num_leaves" = Some (show_int (gt_nleaves t))).
    { unfold fentries. rewrite (nodes_look "num_leaves") by discriminate. reflexivity. }
    rewrite E1, lax_show by lia. destruct (Z.eqb_spec (gt_nleaves t) 1); [lia|].
    destruct (nodes_feature (gt_nodes t) [("shrinkage", stored (show_f (gt_shrink t))); ("num_cat", "0"); ("num_leaves", show_int (gt_nleaves t))] Hex)
      as (nd & I & L & E2). fold (fentries t) in E2.
    pose proof (Hf nd I L) as Hr.
    assert (E3 : array atoi (fentries t) "split_feature" = [g_feat nd]).
    { unfold array. rewrite E2. assert (Ef : fields (show_int (g_feat nd)) = [show_int (g_feat nd)])
        by (apply (fields_join [show_int (g_feat nd)]); constructor; [apply show_int_token|constructor]).
      rewrite Ef. cbn [flat_map app]. now rewrite atoi_show by lia. }
    assert (E4 : array atoi (fentries t) "left_child" = []).
    { unfold array, fentries. rewrite (nodes_look "left_child") by discriminate. reflexivity. }
    rewrite E3, E4. reflexivity.
  Qed.

  Lemma leaf_count_pos (T : dtree N) : 0 < leaf_count T /\ leaf_count T <= nodes_of T.
  Proof. induction T as [v|n l IHl r IHr]; cbn; lia. Qed.
  Lemma grown_split nf (t : gtree N) : grown nf t -> has_split t -> (1 < gt_nleaves t)%Z /\ (exists n, In n (gt_nodes t) /\ g_isleaf n = false)
     /\ (gt_nleaves t <= Z.of_nat (List.length (gt_nodes t)))%Z.
  Proof.
    intros (_ & T & ET & _ & EL) Hs. unfold has_split in Hs. rewrite ET in *. destruct T as [v|n l r]; [cbn in Hs; lia|].
    rewrite EL. pose proof (leaf_count_pos l). pose proof (leaf_count_pos r).
    split; [cbn; lia|]. split.
    - eexists. split; [now left|]. unfold g_isleaf. cbn [g_left g_right]. destruct (Z.eqb_spec (Z.of_nat 1) (-1)); [lia|reflexivity].
    - rewrite preorder_length. cbn [leaf_count nodes_of]. lia.
  Qed.
  Lemma grown_single nf (t : gtree N) : grown nf t -> ~ has_split t -> gt_nleaves t = 1%Z.
  Proof.
    intros (_ & T & ET & _ & EL) Hs. unfold has_split in Hs. rewrite ET, preorder_length in Hs. destruct T as [v|n l r]; [exact EL|].
    exfalso. apply Hs. cbn. pose proof (nodes_pos l). lia.
  Qed.

  Definition fbody (i : nat) (ts : list (gtree N)) : list string :=
    flat_map (fun it => file_tree_lines show_f (fst it) (snd it)) (combine (seq i (List.length ts)) ts).
  Lemma fbody_cons i t ts : fbody i (t :: ts) = file_tree_lines show_f i t ++ fbody (S i) ts.
  Proof. reflexivity. Qed.
  (** The trees read so far, once the open one is closed *)
  Definition pending (st st1 : reading (N := N)) : Prop := close_tree parse_float st = Ok st1 /\ rd_cur st1 = None.
  Lemma read_file_tree st st1 i t rest : pending st st1 -> (Z.of_nat i < 2 ^ 63)%Z ->
    Forall (fun l => too_long l = false) (file_tree_lines show_f i t) ->
    read_lines parse_float (file_tree_lines show_f i t ++ rest) st = read_lines parse_float rest (opened st1 (Z.of_nat i) (fentries t)).
  Proof.
    intros [H1 H2] Hi Hl. rewrite file_tree_kv in *. apply Forall_app in Hl as [L1 L2]. repeat (apply Forall_cons_iff in L1 as [? L1]).
    rewrite <- app_assoc. cbn [app]. rewrite step_blank, H1. cbn [bind]. rewrite step_tree by assumption.
    do 3 (rewrite step_kv by (assumption || reflexivity)). rewrite read_nodes by assumption.
    rewrite (stored_token (show_int (gt_nleaves t)) (show_int_token _)). reflexivity.
  Qed.
  Lemma fbody_blank i ts : exists r, fbody i ts ++ [""] = "" :: r.
  Proof. destruct ts as [|t ts]; [now exists []|]. rewrite fbody_cons, file_tree_kv. cbn [app]. eexists. reflexivity. Qed.
  Lemma opened_cur st i p : rd_cur (opened (N := N) st i p) = Some (i, p).
  Proof. reflexivity. Qed.

  Variable nf : Z.
  Hypothesis Hnf : (nf < 2 ^ 32)%Z.
  Lemma file_panics ts : (forall t, In t ts -> grown nf t /\ (Z.of_nat (List.length (gt_nodes t)) < 2 ^ 31)%Z) ->
    forall i st st1, pending st st1 -> (Z.of_nat (i + List.length ts) <= 2 ^ 63)%Z ->
    Forall (fun l => too_long l = false) (fbody i ts) -> (exists t, In t ts /\ has_split t) ->
    read_lines parse_float (fbody i ts ++ [""]) st = Panic.
  Proof.
    induction ts as [|t ts IH]; intros Hg i st st1 Hp Hi Hl (u & Hu & Hs); [destruct Hu|].
    rewrite fbody_cons, <- app_assoc in *. apply Forall_app in Hl as [L1 L2]. cbn [List.length] in Hi.
    rewrite (read_file_tree st st1) by (assumption || lia).
    destruct (Hg t (or_introl eq_refl)) as [Hgt Hsz].
    destruct (Nat.lt_ge_cases 1 (List.length (gt_nodes t))) as [Hsp|Hsp].
    - destruct (grown_split nf t Hgt Hsp) as (A & B & C).
      destruct (fbody_blank (S i) ts) as [r ->]. rewrite step_blank. unfold close_tree. rewrite opened_cur.
      rewrite (finalize_split (Z.of_nat i) t nf); [reflexivity|lia|exact Hnf| |exact B].
      intros n Hn Hln. destruct Hgt as (_ & T & ET & HT & _). rewrite ET in Hn. now apply (preorder_feat T nf 0 n).
    - assert (Hnot : ~ has_split t) by (unfold has_split; lia).
      destruct (finalize_leaf (Z.of_nat i) t (grown_single nf t Hgt Hnot)) as (gt & Eg & _).
      apply (IH (fun v Hv => Hg v (or_intror Hv)) (S i) _ (closed_with (opened st1 (Z.of_nat i) (fentries t)) gt)).
      + split; [|reflexivity]. unfold close_tree. rewrite opened_cur, Eg. reflexivity.
      + lia.
      + exact L2.
      + destruct Hu as [->|Hu]; [contradiction|]. now exists u.
  Qed.
  Lemma file_vanishes ts : (forall t, In t ts -> grown nf t /\ ~ has_split t) ->
    forall i st st1, pending st st1 -> (Z.of_nat (i + List.length ts) <= 2 ^ 63)%Z ->
    Forall (fun l => too_long l = false) (fbody i ts) ->
    exists gts, read_lines parse_float (fbody i ts ++ [""]) st =
      Ok (mkrd (rd_class st1) (rd_nfeat st1) (rd_obj st1) (rd_names st1) None (rd_trees st1 ++ gts))
      /\ List.length gts = List.length ts /\ Forall vanished gts.
  Proof.
    induction ts as [|t ts IH]; intros Hg i st st1 Hp Hi Hl.
    - exists []. split; [|split; [reflexivity|constructor]]. cbn [fbody flat_map combine seq List.length app]. rewrite step_blank.
      destruct Hp as [H1 H2]. rewrite H1. cbn [bind read_lines]. unfold close_tree. rewrite H2, app_nil_r. destruct st1; cbn in *. now subst.
    - rewrite fbody_cons, <- app_assoc in *. apply Forall_app in Hl as [L1 L2]. cbn [List.length] in Hi.
      rewrite (read_file_tree st st1) by (assumption || lia). destruct (Hg t (or_introl eq_refl)) as [Hgt Hnot].
      destruct (finalize_leaf (Z.of_nat i) t (grown_single nf t Hgt Hnot)) as (gt & Eg & V).
      destruct (IH (fun v Hv => Hg v (or_intror Hv)) (S i) (opened st1 (Z.of_nat i) (fentries t)) (closed_with st1 gt)) as (gts & E & EL & EV).
      + split; [|reflexivity]. unfold close_tree. rewrite opened_cur, Eg. reflexivity.
      + lia.
      + exact L2.
      + exists (gt :: gts). rewrite E. unfold closed_with. cbn [rd_class rd_nfeat rd_obj rd_names rd_trees]. rewrite <- app_assoc.
        split; [reflexivity|]. split; [cbn; now rewrite EL|now constructor].
  Qed.
End File.

Section FileLoad.
  Context {N : Num}.
  Variables (show_f : N -> string) (parse_float : string -> option N).
  Hypothesis show_line : forall v, one_line (show_f v) = true.
  Variable m : gmodel N.
  Variable names : list string.
  Hypothesis Hnames : Forall (fun s => one_line s = true) names.
  Hypothesis Hobj : token (m_obj m) = true.
  Hypothesis Hfit : fits m.
  Hypothesis Hmany : (Z.of_nat (List.length (m_trees m)) < 2 ^ 63)%Z.
  Hypothesis Hgrown : forall t, In t (m_trees m) -> grown (m_nfeat m) t.
  Hypothesis Hshort : short_lines (save_file show_f names m).
  Definition file_head : list string :=
    [ "tree"; kv "version" "v3"; kv "num_class" (show_int (m_class m)); kv "num_tree_per_iteration" "1"; kv "label_index" "0";
      kv "max_feature_idx" (show_int (m_nfeat m - 1)); kv "objective" (m_obj m); kv "feature_names" (join names);
      kv "feature_infos" "none"; kv "tree_sizes" (show_int (Z.of_nat (List.length (m_trees m)))) ].
  Lemma file_lines : lines (save_file show_f names m) = file_head ++ fbody show_f 0 (m_trees m) ++ [""].
  Proof.
    change (save_file show_f names m) with (text_of (file_head ++ fbody show_f 0 (m_trees m))).
    rewrite lines_text; [now rewrite <- app_assoc|]. apply Forall_app. split.
    - repeat constructor; apply one_line_kv; try reflexivity; try apply token_line, show_int_token; [now apply token_line|now apply one_line_join].
    - assert (H : forall ts i, Forall (fun l => one_line l = true) (fbody show_f i ts)); [|apply H].
      induction ts as [|t ts IH]; intros i; [constructor|]. rewrite fbody_cons, file_tree_kv.
      apply Forall_app. split; [|apply IH]. apply Forall_app. split.
      + repeat constructor; apply one_line_kv; try reflexivity; try apply token_line, show_int_token. apply show_line.
      + apply Forall_forall. intros l Hl. apply in_flat_map in Hl as (n & _ & Hl). unfold node_lines in Hl. destruct (g_isleaf n).
        * destruct Hl as [<-|[]]. apply one_line_kv; [reflexivity|apply show_line].
        * destruct Hl as [<-|[<-|[]]]; (apply one_line_kv; [reflexivity|]); [apply token_line, show_int_token|apply show_line].
  Qed.
  Lemma read_file_head rest : Forall (fun l => too_long l = false) file_head ->
    read_lines parse_float (file_head ++ rest) (mkrd 0 0 "" [] None []) = read_lines parse_float rest (head_state m (fields (join names))).
  Proof.
    intros Hl. unfold file_head in *. destruct Hfit as (F1 & F2 & _). repeat (apply Forall_cons_iff in Hl as [? Hl]).
    cbn [app]. erewrite read_lines_step; [|eassumption|reflexivity].
    do 9 (erewrite read_lines_step; [|eassumption|apply read_line_head; reflexivity];
      unfold head_step; cbn [String.eqb Ascii.eqb Bool.eqb]; cbn [rd_class rd_nfeat rd_obj rd_names rd_trees rd_cur];
      try rewrite (stored_token _ Hobj), (obj_fields m Hobj); cbn [rd_class rd_nfeat rd_obj rd_names rd_trees rd_cur]).
    rewrite (stored_token _ (show_int_token (m_class m))), (stored_token _ (show_int_token (m_nfeat m - 1))).
    rewrite !lax_show by lia. replace (m_nfeat m - 1 + 1)%Z with (m_nfeat m) by lia. rewrite fields_stored. reflexivity.
  Qed.
  Lemma head_pending nm : pending parse_float (head_state m nm) (head_state m nm).
  Proof. now split. Qed.
  Theorem file_load_panics : (exists t, In t (m_trees m) /\ has_split t) -> load_from_reader parse_float (save_file show_f names m) = Panic.
  Proof.
    intros Hs. pose proof (short_of _ Hshort) as HL. unfold load_from_reader. rewrite file_lines in *.
    apply Forall_app in HL as [HL1 HL2]. apply Forall_app in HL2 as [HL2 _]. rewrite read_file_head by exact HL1.
    destruct Hfit as (F1 & F2 & F3).
    rewrite (file_panics show_f parse_float (m_nfeat m) ltac:(lia) (m_trees m) (fun t Ht => conj (Hgrown t Ht) (F3 t Ht)) 0 _ _ (head_pending _)
      ltac:(cbn [Nat.add]; lia) HL2 Hs). reflexivity.
  Qed.
  Theorem file_load_vanishes : (forall t, In t (m_trees m) -> ~ has_split t) ->
    exists gm, load_from_reader parse_float (save_file show_f names m) = Ok (gm, fields (join names))
      /\ m_class gm = m_class m /\ m_nfeat gm = m_nfeat m /\ m_obj gm = m_obj m /\ m_init gm = n0 /\ m_best gm = 0%Z
      /\ m_niter gm = Z.of_nat (List.length (m_trees m)) /\ List.length (m_trees gm) = List.length (m_trees m) /\ Forall vanished (m_trees gm).
  Proof.
    intros Hs. pose proof (short_of _ Hshort) as HL. unfold load_from_reader. rewrite file_lines in *.
    apply Forall_app in HL as [HL1 HL2]. apply Forall_app in HL2 as [HL2 _]. rewrite read_file_head by exact HL1.
    destruct Hfit as (F1 & F2 & F3).
    destruct (file_vanishes show_f parse_float (m_nfeat m) (m_trees m) (fun t Ht => conj (Hgrown t Ht) (Hs t Ht)) 0 _ _ (head_pending (fields (join names)))
      ltac:(cbn [Nat.add]; lia) HL2) as (gts & E & EL & EV).
    rewrite E. cbn [bind head_state rd_class rd_nfeat rd_obj rd_names rd_trees app].
    assert (Ei : (match gts with t :: _ => if neqb (gt_ival t) n0 then n0 else gt_ival t | [] => n0 end) = n0).
    { destruct EV as [|g gs [V _] _]; [reflexivity|]. rewrite V. now destruct (neqb n0 n0). }
    rewrite Ei. destruct (Z.eqb_spec (m_class m) 0) as [Z0|_]; [lia|].
    eexists. split; [reflexivity|]. cbn. do 5 (split; [reflexivity|]). split; [now rewrite EL|]. now split.
  Qed.
End FileLoad.

(** ** Predictions of trees without values *)
Section Silent.
  Variable k : nat.
  Lemma upd_same {A} (g : A -> A) v (n i : nat) : g v = v -> upd i g (repeat v n) = repeat v n.
  Proof.
    intros H. revert i. induction n as [|n IH]; intros [|i]; cbn; try reflexivity; [now rewrite H|now rewrite IH].
  Qed.
  Lemma accumulate_still {N : Num} (add : N -> N -> N) (v : N) outs : (forall o, In o outs -> add v o = v) -> accumulate add k v outs = repeat v k.
  Proof.
    intros H. unfold accumulate. generalize 0. induction outs as [|o outs IH]; intros i; [reflexivity|].
    cbn [List.length seq combine fold_left fst snd]. rewrite upd_same by (apply H; now left). apply IH. intros o' Ho'. apply H. now right.
  Qed.
End Silent.
Definition silent (nf : Z) (gt : gtree RNum) : Prop := exists f0, forall toint roundint fuel (x : list R),
  (nf <= Z.of_nat (List.length x))%Z -> (f0 <= fuel)%nat ->
  @tree_predict RNum toint fuel gt x = Some (Ok (0%R : num RNum)) /\ @predict_tree RNum roundint fuel gt x = Some (Ok (0%R : num RNum)).
Lemma vanished_silent nf gt : vanished gt -> silent nf gt.
Proof.
  intros [_ V]. exists 1%nat. intros toint roundint fuel x _ Hf. destruct fuel as [|fuel]; [lia|].
  unfold tree_predict, predict_tree. cbn [gwalk pwalk]. rewrite V. split; reflexivity.
Qed.
Lemma silent_model nf (m : gmodel RNum) : (m_init m : R) = 0%R -> Forall (silent nf) (m_trees m) ->
  exists f0, forall toint roundint fuel (x : list R), (nf <= Z.of_nat (List.length x))%Z -> (f0 <= fuel)%nat ->
    @model_raw RNum toint fuel m x = Some (Ok (repeat (0%R : num RNum) (outputs_count m)))
    /\ @predictor_raw RNum roundint fuel m x = Some (Ok (repeat (0%R : num RNum) (outputs_count m))).
Proof.
  intros Hi HS.
  assert (HQ : exists f0, forall toint roundint fuel (x : list R), (nf <= Z.of_nat (List.length x))%Z -> (f0 <= fuel)%nat ->
    forall t, In t (m_trees m) -> @tree_predict RNum toint fuel t x = Some (Ok (0%R : num RNum)) /\ @predict_tree RNum roundint fuel t x = Some (Ok (0%R : num RNum))).
  { induction HS as [|t ts [f1 H1] _ [f2 H2]]; [exists 0%nat; intros ? ? ? ? ? ? ? []|].
    exists (f1 + f2)%nat. intros toint roundint fuel x Hl Hf u [<-|Hu]; [apply H1; (assumption || lia)|apply H2; (assumption || lia)]. }
  destruct HQ as [f0 HQ]. exists f0. intros toint roundint fuel x Hl Hf. split.
  - unfold model_raw. assert (E : sequence (fun t => @tree_predict RNum toint fuel t x) (m_trees m) = Some (Ok (map (fun _ => (0%R : num RNum)) (m_trees m)))).
    { pose proof (HQ toint roundint fuel x Hl Hf) as H. induction (m_trees m) as [|t ts IH]; [reflexivity|]. cbn [sequence map].
      rewrite (proj1 (H t (or_introl eq_refl))). inversion HS; subst. rewrite IH; [reflexivity|assumption| |intros u Hu; apply H; now right].
      intros toint' roundint' fuel' x' Hl' Hf' u Hu. apply HQ; [assumption|assumption|now right]. }
    rewrite E. do 2 f_equal. etransitivity; [apply f_equal3 with (f := fun a b c => @accumulate RNum nadd a b c); [reflexivity|exact Hi|reflexivity]|].
    apply accumulate_still. intros o Ho. apply in_map_iff in Ho as (u & <- & _). exact (Rplus_0_l 0).
  - unfold predictor_raw.
    assert (Hln : (nf <= Z.of_nat (List.length (@no_nan RNum x)))%Z) by (unfold no_nan; now rewrite map_length).
    assert (E : sequence (fun t => match @predict_tree RNum roundint fuel t (@no_nan RNum x) with
                             | Some (Ok o) => Some (Ok (nmul o (if neqb (gt_shrink t) n0 then m_lr m else gt_shrink t)))
                             | r => r
                             end) (used_trees m) = Some (Ok (map (fun _ => (0%R : num RNum)) (used_trees m)))).
    { assert (Hsub : forall t, In t (used_trees m) -> In t (m_trees m)).
      { intros t. unfold used_trees. destruct (if _ : bool then m_best m else m_niter m) as [|p|p]; cbn; try tauto; intros H.
        rewrite <- (firstn_skipn (Pos.to_nat p) (m_trees m)). apply in_or_app. now left. }
      pose proof (HQ toint roundint fuel (@no_nan RNum x) Hln Hf) as H. induction (used_trees m) as [|t ts IH]; [reflexivity|]. cbn [sequence map].
      rewrite (proj2 (H t (Hsub t (or_introl eq_refl)))).
      rewrite IH by (intros u Hu; apply Hsub; now right).
      do 3 f_equal. exact (Rmult_0_l _). }
    rewrite E. do 2 f_equal. etransitivity; [apply f_equal3 with (f := fun a b c => @accumulate RNum (fun a b => ensure (nadd a b)) a b c); [reflexivity|exact Hi|reflexivity]|].
    apply accumulate_still. intros o Ho. apply in_map_iff in Ho as (u & <- & _).
    assert (Z0 : @nadd RNum (0%R : num RNum) (0%R : num RNum) = 0%R) by exact (Rplus_0_l 0).
    etransitivity; [exact (f_equal (@ensure RNum) Z0)|]. exact (@ensure_0 RNum).
Qed.
