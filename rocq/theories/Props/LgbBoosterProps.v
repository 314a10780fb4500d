(** C117: the answers of a Booster over any history of calls. *)
From Coq Require Import String List Arith ZArith QArith Bool Lia Ascii.
From Verif Require Import Base.Num Base.GoRes Base.GoMap Base.Mat Base.ListX Model.LgbTransform Model.LgbTree Model.LgbEstimator Model.LgbText Model.LgbLeaf Model.LgbBooster
  Spec.LgbText Spec.LgbBooster Proofs.LgbTextModelP Proofs.LgbBoosterP Props.LgbTreeProps Props.LgbLeafProps.
Import ListNotations.
Local Open Scope nat_scope.
Local Open Scope string_scope.
Local Open Scope list_scope.

Section AnyNumber.
  Context {N : Num}.
  Variables (toint toint32 roundint : N -> Z) (zthr : N) (show_g : N -> string) (parse_float : string -> option N).

  (** After any history the booster answers with the model file loaded last, unless it was cloned since; otherwise with
      the model given last by InitFromModel or SetModel; otherwise with an error. *)
  Theorem C117_answers fuel (h : heap N) ops h' b X : run ops (h, new_booster) = Ok (h', b) -> forall opts,
    match loaded (rev ops) with
    | Some lm => predict toint32 roundint zthr fuel opts h' b X = leaves_predict toint32 zthr fuel lm X
        /\ predict_proba toint32 roundint zthr fuel opts h' b X = leaves_predict toint32 zthr fuel lm X
        /\ predict_raw toint toint32 zthr fuel opts h' b X = leaves_predict toint32 zthr fuel lm X
        /\ predict_leaf toint fuel opts h' b X = Some (Err (EOther 3))
    | None =>
        match last_given (rev ops) with
        | Some a => exists m names, nth_error h' a = Some (m, names) /\ (a < List.length h -> option_map fst (nth_error h a) = Some m)
            /\ predict toint32 roundint zthr fuel opts h' b X = predict_model roundint fuel m X
            /\ predict_proba toint32 roundint zthr fuel opts h' b X = proba_model roundint fuel m X
            /\ predict_raw toint toint32 zthr fuel opts h' b X = raw_model toint fuel m X
            /\ predict_leaf toint fuel opts h' b X = leaf_model toint fuel m X
        | None => predict toint32 roundint zthr fuel opts h' b X = Some (Err (EOther 2))
            /\ predict_proba toint32 roundint zthr fuel opts h' b X = Some (Err (EOther 2))
            /\ predict_raw toint toint32 zthr fuel opts h' b X = Some (Err (EOther 2))
            /\ predict_leaf toint fuel opts h' b X = Some (Err (EOther 2))
        end
    end.
  Proof.
    intros E opts. pose proof (run_grows _ _ _ E) as G. cbn [fst] in G.
    destruct (history_run ops [] (h, new_booster) (h', b) (history_new h) E) as [H1 H2 H3 _ _]. rewrite app_nil_r in *. cbn [fst snd] in *.
    unfold predict, predict_proba, predict_raw, predict_leaf, with_options, ask. rewrite H1, H2. destruct (loaded (rev ops)) as [lm|]; [repeat split|].
    destruct (last_given (rev ops)) as [a|]; [|repeat split]. destruct (H3 a eq_refl) as [m Hm]. pose proof Hm as Hm'. apply models_at in Hm' as [names En]. exists m, names. split; [exact En|].
    split.
    - intros Ha. destruct (nth_error h a) as [[m0 n0']|] eqn:E0; [|apply nth_error_None in E0; lia]. cbn [option_map fst]. f_equal.
      assert (K : nth_error (models h) a = Some m0) by (apply models_at; eauto). apply (grows_at _ _ _ _ G) in K. congruence.
    - cbn [deref]. rewrite En. repeat split.
  Qed.
  (** NumTrees and NumFeatures follow the newest of InitFromModel, SetModel and loading a file, which counts as no trees. *)
  Theorem C117_reported (h : heap N) ops h' b : run ops (h, new_booster) = Ok (h', b) ->
    let now_ := newest (map fst h') (rev ops) in
    num_trees h' b = Ok (match now_ with Some (k, _) => Z.of_nat k | None => 0%Z end)
    /\ num_features h' b = Ok (match now_ with Some (_, f) => f | None => 0%Z end).
  Proof.
    intros E. destruct (history_run ops [] (h, new_booster) (h', b) (history_new h) E) as [_ _ _ H4 _]. rewrite app_nil_r in *. cbn [fst snd] in *.
    fold (models h'). unfold num_trees, num_features, of_model. destruct (b_model b) as [a|]; cbn zeta; [|rewrite H4; split; reflexivity].
    destruct H4 as (m & M1 & M2). rewrite M2. apply models_at in M1 as [names En]. cbn [deref]. rewrite En. split; reflexivity.
  Qed.
  (** No option of the prediction methods has an effect. *)
  Theorem C117_options_ignored fuel (h : heap N) b X opts :
    predict toint32 roundint zthr fuel opts h b X = predict toint32 roundint zthr fuel [] h b X
    /\ predict_proba toint32 roundint zthr fuel opts h b X = predict_proba toint32 roundint zthr fuel [] h b X
    /\ predict_raw toint toint32 zthr fuel opts h b X = predict_raw toint toint32 zthr fuel [] h b X
    /\ predict_leaf toint fuel opts h b X = predict_leaf toint fuel [] h b X.
  Proof. repeat split. Qed.
  (** The results recorded for a key are the values added for it, in the order of the calls. *)
  Theorem C117_recorded (h : heap N) ops h' b key : run ops (h, new_booster) = Ok (h', b) -> evals_of key b = values_for key ops.
  Proof.
    intros E. destruct (history_run ops [] (h, new_booster) (h', b) (history_new h) E) as [_ _ _ _ H5]. rewrite app_nil_r in *. cbn [snd] in H5.
    now rewrite H5, rev_involutive.
  Qed.
  (** The importances returned once are returned for ever, whatever model is given or loaded later. *)
  Theorem C117_importance_frozen kind (h : heap N) b l b1 ops h2 b2 : feature_importance kind h b = Ok (Some l, b1) ->
    run ops (h, b1) = Ok (h2, b2) -> feature_importance kind h2 b2 = Ok (Some l, b2).
  Proof.
    intros F E. destruct (first_answer _ _ _ _ _ F) as [H1 H2]. destruct (cached_run kind l ops (h, b1) (h2, b2) E H1 H2). now apply cached_answer.
  Qed.
  (** A booster that was loaded has importance 0 for every feature. *)
  Theorem C117_loaded_importance kind (h : heap N) text h1 b1 lm : nadd n0 n0 = n0 :> N -> nlt (n0 : N) n0 = false -> load parse_float h text = Some (Ok (h1, b1)) ->
    b_leaves b1 = Some lm -> (0 <= lm_nfeat lm)%Z ->
    rmap fst (feature_importance kind h1 b1) = Ok (Some (repeat (n0 : N) (Z.to_nat (lm_nfeat lm)))).
  Proof.
    intros A0 L0 E Hl Hn. unfold load in E. destruct (load_leaves_text parse_float text) as [[lm'| |]|]; try discriminate. injection E as <- <-. cbn in Hl. injection Hl as ->.
    unfold feature_importance. cbn [b_model b_imp sget new_booster init_from_leaves snd]. cbn [deref]. rewrite nth_error_app2, Nat.sub_diag by lia. cbn [nth_error bind fst].
    unfold importance. cbn [m_nfeat shell m_trees flat_map foldM bind]. destruct (Z.ltb_spec (lm_nfeat lm) 0); [lia|].
    assert (S0 : nsum (repeat (n0 : N) (Z.to_nat (lm_nfeat lm))) = n0).
    { unfold nsum. induction (Z.to_nat (lm_nfeat lm)) as [|k IH]; cbn [repeat fold_left]; [reflexivity|]. now rewrite A0. }
    rewrite S0, L0. cbn [bind]. reflexivity.
  Qed.

  (** Saving a loaded booster loses the trees: loaded again it gives the same answer to every row. *)
  Hypothesis show_token : forall v, token (show_g v) = true.
  Hypothesis zero : parse_float "0" = Some n0.
  Theorem C117_resaved (h : heap N) text h1 b1 lm : load parse_float h text = Some (Ok (h1, b1)) -> b_leaves b1 = Some lm ->
    token (lm_obj lm) = true -> (0 < lm_nfeat lm < 2 ^ 32)%Z -> (0 < lm_class lm < 2 ^ 63)%Z ->
    exists text2 h2 b2, save show_g h1 b1 = Ok text2 /\ load parse_float h1 text2 = Some (Ok (h2, b2))
      /\ exists f0, forall fuel X, f0 <= fuel -> mrows X <> [] -> Z.of_nat (mcols X) = lm_nfeat lm -> Forall (fun x => List.length x = mcols X) (mrows X) ->
        predict toint32 roundint zthr fuel [] h2 b2 X
        = Some (Ok (mkmat (leaves_count lm) (repeat (leaves_transform lm (repeat n0 (leaves_count lm))) (nrows X)))).
  Proof.
    intros E Hl Ho Hn Hc. unfold load in E. destruct (load_leaves_text parse_float text) as [[lm'| |]|]; try discriminate. injection E as <- <-. cbn in Hl. injection Hl as ->.
    set (m := shell lm).
    assert (F : fits m) by (split; [exact Hn|split; [exact Hc|intros t []]]).
    destruct (load_saved show_g parse_float show_token zero m [] (Forall_nil _) Ho F (fun t H => match H with end)) as (lm2 & E2 & C1 & C2 & C3 & C4 & f0 & P).
    exists (save_text show_g [] m), (fst (init_from_leaves (h ++ [(shell lm, [])]) lm2 new_booster)), (snd (init_from_leaves (h ++ [(shell lm, [])]) lm2 new_booster)). split.
    { unfold save, init_from_leaves. cbn [b_model snd deref]. rewrite nth_error_app2, Nat.sub_diag by lia. cbn [nth_error bind fst snd]. reflexivity. }
    split; [unfold load; rewrite E2; reflexivity|].
    exists f0. intros fuel X Hf Hne Hcols Hrows. unfold predict, with_options, ask. cbn [b_leaves snd init_from_leaves]. unfold leaves_predict, by_rows.
    cbn [m m_class shell m_nfeat m_obj] in C1, C2, C3. rewrite C2, Hcols, Z.eqb_refl. cbn [negb].
    assert (K : leaves_count lm2 = leaves_count lm) by (unfold leaves_count; now rewrite C1). rewrite K.
    assert (K0 : leaves_count lm <> 0) by (unfold leaves_count; destruct (Z.ltb_spec 2 (lm_class lm)); lia).
    unfold newdense. assert (K1 : nrows X <> 0) by (unfold nrows; destruct (mrows X); [congruence|discriminate]).
    apply Nat.eqb_neq in K0, K1. rewrite K0, K1. cbn [orb].
    assert (T : forall l : list N, leaves_transform lm2 l = leaves_transform lm l) by (intros l; unfold leaves_transform; now rewrite C1, C3).
    assert (S1 : sequence (leaves_single toint32 zthr fuel lm2) (mrows X) = Some (Ok (repeat (leaves_transform lm (repeat n0 (leaves_count lm))) (nrows X)))).
    { unfold nrows. clear Hne K1. induction (mrows X) as [|x rows IH]; [reflexivity|]. inversion Hrows as [|? ? Hx Hr]; subst. specialize (IH Hr). cbn [sequence List.length repeat].
      rewrite <- C77_batch_is_single by (left; exact C4). destruct (P toint32 zthr fuel x) as [_ P2]; [cbn [m shell m_nfeat]; lia|exact Hf|]. rewrite P2, IH.
      rewrite T, K. reflexivity. }
    rewrite S1. reflexivity.
  Qed.
  (** Clone shares the model: feature names set on the copy are written when the original is saved. *)
  Theorem C117_names_shared (h : heap N) b a m old names : b_model b = Some a -> nth_error h a = Some (m, old) ->
    let '(h', c) := set_names names h (clone b) in save show_g h' b = Ok (save_text show_g names m) /\ save show_g h' c = Ok (save_text show_g names m).
  Proof.
    intros Hb Ha. unfold set_names, clone. cbn [b_model]. rewrite Hb. unfold save. rewrite Hb. cbn [b_model deref].
    rewrite nth_error_upd_same, Ha. split; reflexivity.
  Qed.
End AnyNumber.

(** Keys of different datasets and metrics differ if the names of the datasets have no hyphen. *)
Theorem C117_keys d m d' m' : all_chars (fun c => negb (Ascii.eqb c "-")) d = true -> all_chars (fun c => negb (Ascii.eqb c "-")) d' = true ->
  eval_key d m = eval_key d' m' -> d = d' /\ m = m'.
Proof.
  unfold eval_key. revert d'. induction d as [|c d IH]; intros [|c' d'] H H' E; cbn [append] in E; cbn [all_chars] in *.
  - injection E as ->. now split.
  - injection E as <- E. cbn in H'. discriminate.
  - injection E as -> E. cbn in H. discriminate.
  - injection E as -> E. apply andb_true_iff in H as [_ H]. apply andb_true_iff in H' as [_ H']. destruct (IH d' H H' E) as [-> ->]. now split.
Qed.
Theorem C117_keys_refuted : exists d m d' m', d <> d' /\ m <> m' /\ eval_key d m = eval_key d' m'.
Proof. exists "valid", "a-b", "valid-a", "b". repeat split; discriminate. Qed.

(** Two models over Q: one tree with leaves 10, 20 and 30, and no trees at all; a file model with one tree of four leaves. *)
Definition two_models : heap QNum := [(one_tree QNum, []); (@mkgm QNum "regression" 1 1 0 (1 # 1)%Q [] 2 (5 # 1)%Q, ["u"; "v"])].
Definition from_file : lmodel QNum := @mklm QNum [four] 1 1 "regression" (0 # 1)%Q.
Definition row2 : matrix QNum := mkmat 2 [[(1 # 1)%Q : QNum; (2 # 1)%Q : QNum]].
Definition row1 : matrix QNum := mkmat 1 [[(1 # 1)%Q : QNum]].
Notation ask_Q := (@predict QNum floorQ nearQ (0 # 1)%Q 9).

(** WithNumIteration(0) does not change the answer: all trees are used. *)
Theorem C117_num_iteration_refuted : exists (h : heap QNum) b X, ask_Q [WithNumIteration 0] h b X = Some (Ok (mkmat 1 [[(20 # 1)%Q : QNum]])).
Proof. exists two_models, (mkb (Some 0) (Some 0) None 1 1 0 [] [] []), row2. vm_compute. reflexivity. Qed.
(** A loaded booster keeps answering with the file after SetModel, although it reports the trees of the new model. *)
Theorem C117_set_model_refuted : exists ops h b, run ops (two_models, new_booster) = Ok (h, b) /\ last_given (rev ops) = Some 0
  /\ num_trees h b = Ok 1%Z /\ ask_Q [] h b row1 = Some (Ok (mkmat 1 [[(3 # 1)%Q : QNum]])).
Proof. exists [Load from_file; Set_ 0]. eexists. eexists. split; [reflexivity|]. split; [reflexivity|]. split; vm_compute; reflexivity. Qed.
(** The copy of a loaded booster has no model: it answers with an error where the original predicts 3. *)
Theorem C117_clone_refuted : exists ops h b, run ops (two_models, new_booster) = Ok (h, b)
  /\ ask_Q [] h b row1 = Some (Ok (mkmat 1 [[(3 # 1)%Q : QNum]])) /\ ask_Q [] h (clone b) row1 = Some (Err (EOther 2)).
Proof. exists [Load from_file]. eexists. eexists. split; [reflexivity|]. split; vm_compute; reflexivity. Qed.
(** A loaded booster has one iteration and no trees. *)
Theorem C117_loaded_counts_refuted : exists ops h b, run ops (two_models, new_booster) = Ok (h, b) /\ num_trees h b = Ok 0%Z /\ b_cur b = 1%Z.
Proof. exists [Load from_file]. eexists. eexists. split; [reflexivity|]. split; vm_compute; reflexivity. Qed.
(** The importances of the first model are returned after the second, which has no trees, was given. *)
Theorem C117_importance_refuted : exists ops h b m names, run ops (two_models, new_booster) = Ok (h, b) /\ last_given (rev ops) = Some 1 /\ nth_error h 1 = Some (m, names)
  /\ importance "gain" m = Ok [(0 # 1)%Q : QNum; (0 # 1)%Q : QNum] /\ rmap fst (feature_importance "gain" h b) = Ok (Some [(3 # 4)%Q : QNum; (1 # 4)%Q : QNum]).
Proof. exists [Init 0; Importance "gain"; Init 1]. eexists. eexists. eexists. eexists. split; [reflexivity|]. split; [reflexivity|]. split; [reflexivity|]. split; vm_compute; reflexivity. Qed.
(** Results for ("valid", "a-b") and ("valid-a", "b") are mixed. *)
Example C117_recorded_example : exists h b, run [Eval "valid" "a-b" ((1 # 1)%Q : QNum); Clone; Eval "valid-a" "b" ((2 # 1)%Q : QNum); Eval "train" "b" ((7 # 1)%Q : QNum)] (two_models, new_booster) = Ok (h, b)
  /\ evals_of (eval_key "valid" "a-b") b = [(1 # 1)%Q : QNum; (2 # 1)%Q : QNum].
Proof. eexists. eexists. split; [reflexivity|]. vm_compute. reflexivity. Qed.
(** A history with all kinds of calls *)
Example C117_example : exists h b, run [Init 1; Names ["p"; "q"]; Update_; Load from_file; Clone; Best 4; Set_ 0; Importance "split"] (two_models, new_booster) = Ok (h, b)
  /\ ask_Q [] h b row2 = Some (Ok (mkmat 1 [[(20 # 1)%Q : QNum]])) /\ b_cur b = 1%Z /\ b_best b = 4%Z /\ map snd h = [[]; ["p"; "q"]; []].
Proof. eexists. eexists. split; [reflexivity|]. split; [vm_compute; reflexivity|]. split; [vm_compute; reflexivity|]. split; vm_compute; reflexivity. Qed.
(** A file that is loaded: the header only, then saved and loaded again *)
Definition header_only : string := save_text (fun _ : QNum => "0") [] (@mkgm QNum "regression" 1 0 0 (1 # 1)%Q [] 2 (0 # 1)%Q).
Example C117_resaved_example : exists h b lm, load (fun _ => Some ((0 # 1)%Q : QNum)) two_models header_only = Some (Ok (h, b)) /\ b_leaves b = Some lm
  /\ token (lm_obj lm) = true /\ lm_nfeat lm = 2%Z /\ lm_class lm = 1%Z.
Proof.
  destruct (load (fun _ => Some ((0 # 1)%Q : QNum)) two_models header_only) as [[[h b]| |]|] eqn:E; [|exfalso; vm_compute in E; discriminate ..].
  exists h, b. assert (K : match load (fun _ => Some ((0 # 1)%Q : QNum)) two_models header_only with Some (Ok (_, b)) => match b_leaves b with Some lm => (token (lm_obj lm), lm_nfeat lm, lm_class lm) | None => (false, 0, 0)%Z end | _ => (false, 0, 0)%Z end = (true, 2, 1)%Z)
    by (vm_compute; reflexivity).
  rewrite E in K. destruct (b_leaves b) as [lm|]; [|discriminate]. exists lm. injection K as K1 K2 K3. repeat split; assumption.
Qed.

Print Assumptions C117_answers.
Print Assumptions C117_reported.
Print Assumptions C117_options_ignored.
Print Assumptions C117_recorded.
Print Assumptions C117_importance_frozen.
Print Assumptions C117_loaded_importance.
Print Assumptions C117_resaved.
Print Assumptions C117_names_shared.
Print Assumptions C117_keys.
Print Assumptions C117_keys_refuted.
Print Assumptions C117_num_iteration_refuted.
Print Assumptions C117_set_model_refuted.
Print Assumptions C117_clone_refuted.
Print Assumptions C117_loaded_counts_refuted.
Print Assumptions C117_importance_refuted.
