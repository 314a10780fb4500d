(** Saving a model as text and loading it. *)
From Coq Require Import String List Arith ZArith Bool Lia Ascii.
From Verif Require Import Base.Num Base.GoRes Base.ListX Model.LgbTree Model.LgbText Spec.LgbText Proofs.LgbTreeP Proofs.LgbTextStrP Proofs.LgbTextTreeP.
Import ListNotations.
Local Open Scope string_scope.
Local Open Scope list_scope.

Section Preorder.
  Context {N : Num}.
  Implicit Types T : dtree N.
  Lemma nodes_pos T : 0 < nodes_of T.
  Proof. destruct T; cbn; lia. Qed.
  Lemma preorder_length T : forall a, List.length (preorder a T) = nodes_of T.
  Proof. induction T as [v|nd l IHl r IHr]; intros a; cbn; [reflexivity|]. now rewrite app_length, IHl, IHr. Qed.
  Definition leafy (nd : gnode N) : Prop := g_left nd = (-1)%Z /\ g_right nd = (-1)%Z.
  Lemma preorder_at T : forall a i nd, nth_error (preorder a T) i = Some nd ->
    leafy nd \/ (g_left nd = Z.of_nat (S (a + i)) /\ exists r, g_right nd = Z.of_nat r /\ S (a + i) < r < a + nodes_of T).
  Proof.
    induction T as [v|n l IHl r IHr]; intros a i nd; cbn [preorder nodes_of].
    - destruct i as [|[|i]]; cbn; try discriminate. intros H. injection H as <-. now left.
    - destruct i as [|i]; cbn [nth_error].
      + intros H. injection H as <-. right. cbn [g_left g_right]. split; [f_equal; lia|]. exists (S a + nodes_of l). split; [reflexivity|].
        pose proof (nodes_pos l). pose proof (nodes_pos r). lia.
      + intros H. destruct (Nat.lt_ge_cases i (nodes_of l)) as [Hi|Hi].
        * rewrite nth_error_app1 in H by now rewrite preorder_length. destruct (IHl _ _ _ H) as [L|(L1 & rr & L2 & L3)]; [now left|right].
          split; [rewrite L1; f_equal; lia|]. exists rr. split; [exact L2|]. lia.
        * rewrite nth_error_app2, preorder_length in H by now rewrite preorder_length.
          destruct (IHr _ _ _ H) as [L|(L1 & rr & L2 & L3)]; [now left|right].
          split; [rewrite L1; f_equal; lia|]. exists rr. split; [exact L2|]. lia.
  Qed.
  Lemma preorder_last T : forall a nd, nth_error (preorder a T) (nodes_of T - 1) = Some nd -> leafy nd.
  Proof.
    intros a nd H. destruct (preorder_at T a _ nd H) as [L|(_ & r & _ & L)]; [exact L|]. lia.
  Qed.
  Lemma preorder_apart T : forall a i j ni nj, nth_error (preorder a T) i = Some ni -> nth_error (preorder a T) j = Some nj ->
    ~ leafy ni -> ~ leafy nj -> g_right nj <> Z.of_nat (S (a + i)).
  Proof.
    induction T as [v|n l IHl r IHr]; intros a i j ni nj Hi Hj Li Lj.
    - destruct i as [|[|i]]; cbn in Hi; try discriminate. injection Hi as <-. now destruct Li.
    - cbn [preorder] in Hi, Hj. pose proof (nodes_pos l) as Pl.
      destruct j as [|j].
      + cbn in Hj. injection Hj as <-. cbn [g_right]. intros E. assert (Ei : i = nodes_of l) by lia. subst i.
        destruct (nodes_of l) as [|k] eqn:Ek; [lia|]. cbn [nth_error] in Hi. rewrite nth_error_app1 in Hi by (rewrite preorder_length; lia).
        apply Li. apply (preorder_last l (S a)). now rewrite Ek, Nat.sub_succ, Nat.sub_0_r.
      + cbn [nth_error] in Hj. destruct (Nat.lt_ge_cases j (nodes_of l)) as [Hjl|Hjl].
        * rewrite nth_error_app1 in Hj by now rewrite preorder_length.
          destruct (preorder_at l _ _ _ Hj) as [L|(_ & rr & L2 & L3)]; [now destruct Lj|].
          destruct i as [|i]; [rewrite L2; lia|]. cbn [nth_error] in Hi. destruct (Nat.lt_ge_cases i (nodes_of l)) as [Hil|Hil].
          -- rewrite nth_error_app1 in Hi by now rewrite preorder_length. replace (a + S i) with (S a + i) by lia. now apply (IHl _ _ _ _ _ Hi Hj).
          -- rewrite L2. lia.
        * rewrite nth_error_app2, preorder_length in Hj by now rewrite preorder_length.
          destruct (preorder_at r _ _ _ Hj) as [L|(_ & rr & L2 & L3)]; [now destruct Lj|].
          destruct i as [|i]; [rewrite L2; lia|]. cbn [nth_error] in Hi. destruct (Nat.lt_ge_cases i (nodes_of l)) as [Hil|Hil].
          -- rewrite L2. lia.
          -- rewrite nth_error_app2, preorder_length in Hi by now rewrite preorder_length.
             replace (a + S i) with (S a + nodes_of l + (i - nodes_of l)) by lia. now apply (IHr _ _ _ _ _ Hi Hj).
  Qed.
  Lemma leafy_is nd : @g_isleaf N nd = true <-> leafy nd.
  Proof.
    unfold g_isleaf, leafy. rewrite andb_true_iff, !Z.eqb_eq. tauto.
  Qed.
  Lemma preorder_feat T nf : forall a nd, splits_below nf T -> In nd (preorder a T) -> g_isleaf nd = false -> (0 <= g_feat nd < nf)%Z.
  Proof.
    induction T as [v|n l IHl r IHr]; intros a nd Hs Hin Hl; cbn [preorder] in Hin.
    - destruct Hin as [<-|[]]. discriminate.
    - destruct Hs as (H1 & H2 & H3). destruct Hin as [<-|Hin]; [exact H1|]. apply in_app_or in Hin as [Hin|Hin]; eauto.
  Qed.
  Lemma preorder_leaf_root T : nodes_of T = 1%nat -> exists v, T = Leaf v.
  Proof. destruct T as [v|n l r]; [now exists v|]. cbn. pose proof (nodes_pos l). lia. Qed.
End Preorder.

Section Text.
  Context {N : Num}.
  Variables (show_g show_f : N -> string) (parse_float : string -> option N).
  Hypothesis show_token : forall v, token (show_g v) = true.
  Hypothesis zero : parse_float "0" = Some n0.

  (** The entries of one tree *)
  Definition entries (t : gtree N) : params :=
    let ns := gt_nodes t in
    [ ("shrinkage", stored (show_g (gt_shrink t)));
      ("leaf_value", stored (join (match gt_leaves t with [] => map (w_leaf show_g) ns | lv => map show_g lv end)));
      ("right_child", stored (join (map (fun n => show_int (g_right n)) ns)));
      ("left_child", stored (join (map (fun n => show_int (g_left n)) ns)));
      ("decision_type", stored (join (map w_type ns)));
      ("threshold", stored (join (map (w_thr show_g) ns)));
      ("split_feature", stored (join (map w_feat ns)));
      ("num_cat", "0");
      ("num_leaves", stored (show_int (Z.of_nat (List.length ns)))) ].
  Lemma tree_lines_kv i t : tree_lines show_g i t =
    let ns := gt_nodes t in
    [ kv "Tree" (show_int (Z.of_nat i)); kv "num_leaves" (show_int (Z.of_nat (List.length ns))); kv "num_cat" "0";
      kv "split_feature" (join (map w_feat ns)); kv "threshold" (join (map (w_thr show_g) ns)); kv "decision_type" (join (map w_type ns));
      kv "left_child" (join (map (fun n => show_int (g_left n)) ns)); kv "right_child" (join (map (fun n => show_int (g_right n)) ns));
      kv "leaf_value" (join (match gt_leaves t with [] => map (w_leaf show_g) ns | lv => map show_g lv end));
      kv "shrinkage" (show_g (gt_shrink t)); "" ].
  Proof. reflexivity. Qed.
  Lemma read_tree_params i t rest : read_params (tree_lines show_g i t ++ rest) 0 [] = (entries t, rest).
  Proof.
    rewrite tree_lines_kv. cbn zeta. cbn [app]. rewrite read_params_tree. do 9 (rewrite read_params_kv by reflexivity).
    cbn [read_params]. reflexivity.
  Qed.

  Lemma w_feat_token (nd : gnode N) : token (w_feat nd) = true.
  Proof. unfold w_feat. destruct (g_isleaf nd); [reflexivity|apply show_int_token]. Qed.
  Lemma w_thr_token nd : token (w_thr show_g nd) = true.
  Proof. unfold w_thr. destruct (g_isleaf nd); [reflexivity|apply show_token]. Qed.
  Lemma w_leaf_token nd : token (w_leaf show_g nd) = true.
  Proof. unfold w_leaf. destruct (g_isleaf nd); [apply show_token|reflexivity]. Qed.
  Lemma w_type_token (nd : gnode N) : token (w_type nd) = true.
  Proof. unfold w_type. destruct (g_isleaf nd); [reflexivity|]. now destruct (g_type nd). Qed.

  Lemma fields_mapped {A} (f : A -> string) (l : list A) : (forall a, token (f a) = true) -> fields (stored (join (map f l))) = map f l.
  Proof. intros H. rewrite fields_stored. apply fields_join. apply Forall_forall. intros s Hs. apply in_map_iff in Hs as (a & <- & _). apply H. Qed.
  Lemma mapM_ok {A B C} (g : A -> B) (f : B -> option C) (h : A -> C) (e : err) l : (forall a, In a l -> f (g a) = Some (h a)) ->
    mapM (fun b => match f b with Some x => Ok x | None => Err e end) (map g l) = Ok (map h l).
  Proof.
    induction l as [|a l IH]; intros H; [reflexivity|]. cbn [map mapM]. rewrite (H a) by now left. cbn [bind].
    rewrite IH by (intros b Hb; apply H; now right). reflexivity.
  Qed.
  Lemma keep_ok {A B C} (g : A -> B) (f : B -> option C) (h : A -> C) l : (forall a, In a l -> f (g a) = Some (h a)) ->
    flat_map (fun b => match f b with Some x => [x] | None => [] end) (map g l) = map h l.
  Proof.
    induction l as [|a l IH]; intros H; [reflexivity|]. cbn [map flat_map]. rewrite (H a) by now left. cbn [app]. f_equal. apply IH.
    intros b Hb. apply H. now right.
  Qed.

  (** The values written for the nodes *)
  Definition v_feat (nd : gnode N) : Z := if g_isleaf nd then 0 else g_feat nd.
  Definition v_thr (nd : gnode N) : N := if g_isleaf nd then n0 else g_thr nd.
  Definition v_leaf (nd : gnode N) : N := if g_isleaf nd then g_leaf nd else n0.
  Definition v_type (nd : gnode N) : Z := if g_isleaf nd then 0 else match g_type nd with TCat => 1 | _ => 2 end.
  Lemma r_type (nd : gnode N) : parse_uint32 (w_type nd) = Some (v_type nd) /\ atoi (w_type nd) = Some (v_type nd).
  Proof. unfold w_type, v_type. destruct (g_isleaf nd); [now split|]. now destruct (g_type nd). Qed.

  Section OneTree.
    Variables (t : gtree N) (nf : Z).
    Hypothesis Hg : grown nf t.
    Hypothesis Hnf : (nf < 2 ^ 32)%Z.
    Hypothesis Hsz : (Z.of_nat (List.length (gt_nodes t)) < 2 ^ 31)%Z.
    Hypothesis Hx : exact_floats show_g parse_float t.

    Lemma in_feat nd : In nd (gt_nodes t) -> (0 <= v_feat nd)%Z /\ (v_feat nd < nf \/ v_feat nd = 0)%Z.
    Proof.
      intros Hin. unfold v_feat. destruct Hg as (_ & T & ET & HT & _). destruct (g_isleaf nd) eqn:E; [split; [lia|now right]|].
      rewrite ET in Hin. pose proof (preorder_feat T nf 0 nd HT Hin E). lia.
    Qed.
    Lemma r_feat nd : In nd (gt_nodes t) -> parse_uint32 (w_feat nd) = Some (v_feat nd) /\ atoi (w_feat nd) = Some (v_feat nd).
    Proof.
      intros Hin. pose proof (in_feat nd Hin) as H. unfold w_feat, v_feat in *. destruct (g_isleaf nd); [now split|].
      split; [apply uint32_show|apply atoi_show]; lia.
    Qed.
    Lemma r_thr nd : In nd (gt_nodes t) -> parse_float (w_thr show_g nd) = Some (v_thr nd).
    Proof. intros Hin. unfold w_thr, v_thr. pose proof (Hx nd Hin) as H. cbn zeta in H. destruct (g_isleaf nd); [exact zero|exact H]. Qed.
    Lemma r_leaf nd : In nd (gt_nodes t) -> parse_float (w_leaf show_g nd) = Some (v_leaf nd).
    Proof. intros Hin. unfold w_leaf, v_leaf. pose proof (Hx nd Hin) as H. cbn zeta in H. destruct (g_isleaf nd); [exact H|exact zero]. Qed.
    Lemma in_links nd : In nd (gt_nodes t) -> (-1 <= g_left nd < 2 ^ 31)%Z /\ (-1 <= g_right nd < 2 ^ 31)%Z.
    Proof.
      intros Hin. apply In_nth_error in Hin as [i Hi]. destruct Hg as (_ & T & ET & _ & _). rewrite ET in Hi, Hsz. rewrite preorder_length in Hsz.
      destruct (preorder_at T 0 i nd Hi) as [[L1 L2]|(L1 & r & L2 & L3)]; rewrite L1, L2; lia.
    Qed.
    Lemma r_left nd : In nd (gt_nodes t) -> parse_int32 (show_int (g_left nd)) = Some (g_left nd) /\ atoi (show_int (g_left nd)) = Some (g_left nd).
    Proof. intros Hin. pose proof (in_links nd Hin) as H. split; [apply int32_show|apply atoi_show]; lia. Qed.
    Lemma r_right nd : In nd (gt_nodes t) -> parse_int32 (show_int (g_right nd)) = Some (g_right nd) /\ atoi (show_int (g_right nd)) = Some (g_right nd).
    Proof. intros Hin. pose proof (in_links nd Hin) as H. split; [apply int32_show|apply atoi_show]; lia. Qed.

    Definition ns := gt_nodes t.
    Definition the_doc (shrink : N) : tdoc N :=
      mkdoc (Z.of_nat (List.length ns)) shrink (map v_leaf ns) [] (map g_left ns) (map g_right ns) (map v_type ns) (map Z.to_nat (map v_feat ns)) (map v_thr ns).
    Lemma nodes_len : 0 < List.length ns.
    Proof. unfold ns. destruct Hg as (_ & T & -> & _). rewrite preorder_length. apply nodes_pos. Qed.
    Lemma doc_read first : exists shrink, tree_doc parse_float first (entries t) =
      Ok (if (Z.of_nat (List.length ns) =? 1)%Z then mkdoc 1 shrink (map v_leaf ns) [] [] [] [] [] [] else the_doc shrink).
    Proof.
      destruct Hg as (Hl & _).
      unfold tree_doc. pose proof nodes_len as Hn.
      assert (E1 : look (entries t) "num_leaves" = Some (show_int (Z.of_nat (List.length ns)))).
      { unfold entries. cbn [look]. cbn. now rewrite (stored_token _ (show_int_token _)). }
      rewrite E1. rewrite atoi_show by (fold ns in Hsz; lia). cbn [bind].
      eexists. destruct (Z.ltb_spec (Z.of_nat (List.length ns)) 1); [lia|].
      assert (E2 : slice parse_float (entries t) "leaf_value" = Ok (map v_leaf ns)).
      { unfold slice. replace (look (entries t) "leaf_value") with (Some (stored (join (map (w_leaf show_g) ns)))) by (unfold entries, ns; now rewrite Hl).
        rewrite (fields_mapped (w_leaf show_g) ns w_leaf_token). apply mapM_ok. exact r_leaf. }
      rewrite E2. cbn [bind].
      assert (E3 : (if first then match slice parse_float (entries t) "internal_value" with Ok l => l | _ => [] end else []) = []) by now destruct first.
      rewrite E3.
      destruct (Z.eqb_spec (Z.of_nat (List.length ns)) 1) as [E|E]; [rewrite E; reflexivity|].
      assert (E4 : slice parse_int32 (entries t) "left_child" = Ok (map g_left ns)).
      { unfold slice. change (look (entries t) "left_child") with (Some (stored (join (map (fun n => show_int (g_left n)) ns)))).
        cbv iota beta. rewrite (fields_mapped (fun n => show_int (g_left n)) ns (fun n => show_int_token _)). apply mapM_ok. intros nd Hin. now apply r_left. }
      assert (E5 : slice parse_int32 (entries t) "right_child" = Ok (map g_right ns)).
      { unfold slice. change (look (entries t) "right_child") with (Some (stored (join (map (fun n => show_int (g_right n)) ns)))).
        cbv iota beta. rewrite (fields_mapped (fun n => show_int (g_right n)) ns (fun n => show_int_token _)). apply mapM_ok. intros nd Hin. now apply r_right. }
      assert (E6 : slice parse_uint32 (entries t) "decision_type" = Ok (map v_type ns)).
      { unfold slice. change (look (entries t) "decision_type") with (Some (stored (join (map w_type ns)))).
        cbv iota beta. rewrite (fields_mapped w_type ns w_type_token). apply mapM_ok. intros nd Hin. now apply r_type. }
      assert (E7 : slice parse_uint32 (entries t) "split_feature" = Ok (map v_feat ns)).
      { unfold slice. change (look (entries t) "split_feature") with (Some (stored (join (map w_feat ns)))).
        cbv iota beta. rewrite (fields_mapped w_feat ns w_feat_token). apply mapM_ok. intros nd Hin. now apply r_feat. }
      assert (E8 : slice parse_float (entries t) "threshold" = Ok (map v_thr ns)).
      { unfold slice. change (look (entries t) "threshold") with (Some (stored (join (map (w_thr show_g) ns)))).
        cbv iota beta. rewrite (fields_mapped (w_thr show_g) ns w_thr_token). apply mapM_ok. exact r_thr. }
      rewrite E4, E5, E6, E7, E8. reflexivity.
    Qed.

    (** ** The tree of leaves_loader.go *)
    Lemma reread_tree first : exists lt, match tree_doc parse_float first (entries t) with Ok d => read_tree first d | _ => None end = Some (Ok lt)
      /\ lt_ival lt = n0
      /\ forall toint32 zthr fuel x, (nf <= Z.of_nat (List.length x))%Z -> (0 < nf)%Z -> List.length (lt_nodes lt) <= fuel ->
           lpredict toint32 zthr fuel lt x = Some (Ok (left_over t)).
    Proof.
      destruct (doc_read first) as [shrink E]. rewrite E. clear E. pose proof nodes_len as Hn.
      destruct (Z.eqb_spec (Z.of_nat (List.length ns)) 1) as [E|E].
      - unfold read_tree. cbn [d_leaves]. eexists. split; [reflexivity|]. cbn [lt_ival lt_nodes d_ival]. split; [now destruct first|].
        intros toint32 zthr fuel x _ _ _. unfold lpredict. cbn [lt_nodes lt_leaves d_lv]. unfold left_over, ns in *.
        destruct (gt_nodes t) as [|nd [|? ?]] eqn:En; cbn [List.length] in *; try lia. cbn [map]. do 2 f_equal.
        unfold v_leaf. assert (L : g_isleaf nd = true); [|now rewrite L].
        apply leafy_is. destruct Hg as (_ & T & ET & _). apply (preorder_last T 0). rewrite <- ET, En.
        assert (nodes_of T = 1) by (rewrite <- (preorder_length T 0), <- ET, En; reflexivity). now rewrite H.
      - destruct Hg as (_ & T & ET & HT & _).
        assert (Hnth : forall {A} (f : gnode N -> A) i a, nth_error (map f ns) i = Some a -> exists nd, nth_error ns i = Some nd /\ f nd = a).
        { intros A f i a H. rewrite nth_error_map in H. destruct (nth_error ns i) as [nd|]; [|discriminate]. injection H as <-. now exists nd. }
        assert (Hm : forall {A} (f : gnode N -> A) i nd, nth_error ns i = Some nd -> nth_error (map f ns) i = Some (f nd)).
        { intros A f i nd H. now rewrite nth_error_map, H. }
        assert (Hin : forall i, inner_at (the_doc shrink) i -> exists nd, nth_error ns i = Some nd /\ ~ leafy nd).
        { intros i Hi. unfold inner_at in Hi. cbn [d_left the_doc] in Hi. apply Hnth in Hi as (nd & Hnd & El). exists nd. split; [exact Hnd|].
          intros [L _]. lia. }
        destruct (read_tree_first (the_doc shrink) (List.length ns) (Z.to_nat (Z.max nf 1))
            ltac:(cbn; now rewrite map_length) ltac:(cbn; now rewrite map_length) ltac:(cbn; now rewrite map_length)
            ltac:(cbn; now rewrite !map_length) ltac:(cbn; now rewrite map_length)) with (first := first)
          as (lt & E1 & E2 & E3 & E4 & E5 & E6); [| | | lia|reflexivity|].
        + intros i Hi. destruct (nth_error ns i) as [nd|] eqn:En; [|apply nth_error_None in En; lia].
          pose proof En as En'. unfold ns in En'. rewrite ET in En'.
          destruct (preorder_at T 0 i nd En') as [[L1 L2]|(L1 & r & L2 & L3)].
          * left. cbn [the_doc d_left d_right]. rewrite !(Hm _ _ _ _ En), L1, L2. now split.
          * right. unfold inner_at. cbn [the_doc d_left d_right]. rewrite !(Hm _ _ _ _ En), L1, L2. cbn [Nat.add] in *. split; [reflexivity|].
            exists r. split; [reflexivity|]. unfold ns. rewrite ET, preorder_length. lia.
        + intros i j Hi Hj Hr. destruct (Hin i Hi) as (ni & Ni & Li). destruct (Hin j Hj) as (nj & Nj & Lj).
          cbn [the_doc d_right] in Hr. apply Hnth in Hr as (nj' & Nj' & Er). rewrite Nj in Nj'. injection Nj' as <-.
          unfold ns in Ni, Nj. rewrite ET in Ni, Nj. exact (preorder_apart T 0 i j ni nj Ni Nj Li Lj Er).
        + intros f Hf. cbn [the_doc d_feat] in Hf. rewrite map_map in Hf. apply in_map_iff in Hf as (nd & <- & Hnd).
          pose proof (in_feat nd Hnd) as H. lia.
        + exists lt. split; [exact E1|]. split; [rewrite E6; now destruct first|].
          intros toint32 zthr fuel x Hxl Hnf0 Hf. unfold lpredict. destruct (lt_nodes lt) as [|n0' r0] eqn:En; [now destruct E4|]. rewrite <- En in *.
          assert (Hw : nth_error (lt_leaves lt) 0 = Some (left_over t)).
          { rewrite E3. cbn [the_doc d_lv]. unfold left_over. fold ns. destruct ns as [|a [|b l]] eqn:Ens; cbn [List.length] in *; try lia.
            cbn [map nth_error]. f_equal. unfold v_leaf. assert (L : g_isleaf a = false); [|now rewrite L].
            assert (Ha : nth_error (preorder 0 T) 0 = Some a) by (rewrite <- ET; unfold ns in Ens; now rewrite Ens).
            destruct (g_isleaf a) eqn:La; [|reflexivity]. exfalso. apply leafy_is in La. destruct T as [v|n l' r'].
            - unfold ns in Ens. rewrite ET in Ens. discriminate.
            - cbn in Ha. injection Ha as <-. destruct La as [La _]. cbn in La. lia. }
          apply (walk_first (Z.to_nat (Z.max nf 1))); [exact E2|lia|exact Hw| |lia].
          destruct (lt_nodes lt); [now destruct E4|cbn; lia].
    Qed.
  End OneTree.
End Text.
