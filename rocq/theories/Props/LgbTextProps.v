(** C112, C113 and C114: what survives in a model file in text form. *)
From Coq Require Import String List Arith ZArith QArith Bool Lia Ascii Reals Lra.
From Verif Require Import Base.Num Base.GoRes Base.ListX Base.RTac Model.LgbTransform Model.LgbTree Model.LgbHist Model.LgbTrain Model.LgbText
  Spec.LgbText Proofs.LgbTransformP Proofs.LgbTextStrP Proofs.LgbTextModelP Proofs.LgbTextFileP Proofs.LgbTextTrainP Props.LgbTrainProps.
Import ListNotations.
Local Open Scope nat_scope.
Local Open Scope string_scope.
Local Open Scope list_scope.

Section AnyNumber.
  Context {N : Num}.
  (** %g and ParseFloat: a number is printed as a word, "0" is read as 0. *)
  Variables (show_g show_f : N -> string) (parse_float : string -> option N).
  Hypothesis show_token : forall v, token (show_g v) = true.
  Hypothesis show_line : forall v, one_line (show_f v) = true.
  Hypothesis zero : parse_float "0" = Some n0.
  Notation saved := (save_text show_g).
  Notation load := (load_leaves_text parse_float).

  (** *** C112 *)
  (** A model saved as text and loaded by the Booster gives every row the same score: the single-leaf
      trees keep their value, all other trees contribute 0, the initial score is gone. *)
  Theorem C112_text names (m : gmodel N) : Forall (fun s => one_line s = true) names -> token (m_obj m) = true -> fits m ->
    (forall t, In t (m_trees m) -> grown (m_nfeat m) t /\ exact_floats show_g parse_float t) ->
    exists lm, load (saved names m) = Some (Ok lm) /\ lm_init lm = n0 /\ exists f0, forall toint32 zthr fuel x,
      (m_nfeat m <= Z.of_nat (List.length x))%Z -> f0 <= fuel ->
      let score := accumulate nadd (if (2 <? m_class m)%Z then Z.to_nat (m_class m) else 1) n0 (map left_over (m_trees m)) in
      leaves_raw toint32 zthr fuel lm x = Some (Ok score) /\ leaves_batch_row toint32 zthr fuel lm x = Some (Ok (leaves_transform lm score)).
  Proof.
    intros H1 H2 H3 H4. destruct (load_saved show_g parse_float show_token zero m names H1 H2 H3 H4) as (lm & E & C1 & C2 & C3 & C4 & f0 & P).
    exists lm. split; [exact E|]. split; [exact C4|]. exists f0. intros toint32 zthr fuel x Hx Hf. cbn zeta.
    specialize (P toint32 zthr fuel x Hx Hf). unfold leaves_count in P. rewrite C1 in P. exact P.
  Qed.
  (** If every tree has a split, the score of every row is 0 in each class. *)
  Theorem C112_all_zero names (m : gmodel N) : nadd n0 n0 = n0 :> N ->
    Forall (fun s => one_line s = true) names -> token (m_obj m) = true -> fits m ->
    (forall t, In t (m_trees m) -> grown (m_nfeat m) t /\ exact_floats show_g parse_float t /\ has_split t) ->
    exists lm, load (saved names m) = Some (Ok lm) /\ exists f0, forall toint32 zthr fuel x,
      (m_nfeat m <= Z.of_nat (List.length x))%Z -> f0 <= fuel ->
      let score := repeat n0 (if (2 <? m_class m)%Z then Z.to_nat (m_class m) else 1) in
      leaves_raw toint32 zthr fuel lm x = Some (Ok score) /\ leaves_batch_row toint32 zthr fuel lm x = Some (Ok (leaves_transform lm score)).
  Proof.
    intros Z0 H1 H2 H3 H4. destruct (C112_text names m H1 H2 H3) as (lm & E & _ & f0 & P); [intros t Ht; destruct (H4 t Ht) as (A & B & _); now split|].
    exists lm. split; [exact E|]. exists f0. intros toint32 zthr fuel x Hx Hf. cbn zeta. specialize (P toint32 zthr fuel x Hx Hf). cbn zeta in P.
    rewrite (accumulate_still _ nadd n0) in P; [exact P|]. intros o Ho. apply in_map_iff in Ho as (t & <- & Ht).
    destruct (H4 t Ht) as (_ & _ & Hs). unfold left_over. unfold has_split in Hs. destruct (gt_nodes t) as [|a [|b l]]; cbn in Hs; (lia || exact Z0).
  Qed.
  (** The hypotheses on the trees hold for every model that was trained. *)
  Theorem C112_trained toint (X : nat -> nat -> N) cols sortf sortr ograd ohess y w fuel p init bags ts preds obj ncl :
    fit toint X cols sortf sortr ograd ohess y w fuel p init bags = Some (Ok (ts, preds)) ->
    let m := get_model cols obj ncl p init ts in forall t, In t (m_trees m) -> grown (m_nfeat m) t.
  Proof. intros E m t Ht. exact (fit_grown _ _ _ _ _ _ _ _ _ _ _ _ _ _ _ E t Ht). Qed.

  (** *** C113 *)
  (** The file written by SaveModel of LGBMRegressor and LGBMClassifier cannot be loaded again: reading it panics
      as soon as one tree has a split. *)
  Theorem C113_panics names (m : gmodel N) : Forall (fun s => one_line s = true) names -> token (m_obj m) = true -> fits m ->
    (Z.of_nat (List.length (m_trees m)) < 2 ^ 63)%Z -> (forall t, In t (m_trees m) -> grown (m_nfeat m) t) ->
    short_lines (save_file show_f names m) -> (exists t, In t (m_trees m) /\ has_split t) ->
    load_from_reader parse_float (save_file show_f names m) = Panic.
  Proof. exact (file_load_panics show_f parse_float show_line m names). Qed.
  Theorem C113_trained toint (X : nat -> nat -> N) cols sortf sortr ograd ohess y w fuel p init bags ts preds obj ncl names :
    fit toint X cols sortf sortr ograd ohess y w fuel p init bags = Some (Ok (ts, preds)) ->
    let m := get_model cols obj ncl p init ts in
    Forall (fun s => one_line s = true) names -> token obj = true -> fits m -> (Z.of_nat (List.length ts) < 2 ^ 63)%Z ->
    short_lines (save_file show_f names m) -> (exists t, In t ts /\ has_split t) ->
    load_from_reader parse_float (save_file show_f names m) = Panic.
  Proof. intros E m H1 H2 H3 H4 H5 H6. apply C113_panics; try assumption. exact (C112_trained _ _ _ _ _ _ _ _ _ _ _ _ _ _ _ obj ncl E). Qed.

  (** *** C114 *)
  (** Number of classes, number of features and objective survive, with both readers. *)
  Theorem C114_header names (m : gmodel N) : Forall (fun s => one_line s = true) names -> token (m_obj m) = true -> fits m ->
    (forall t, In t (m_trees m) -> grown (m_nfeat m) t /\ exact_floats show_g parse_float t) ->
    exists lm, load (saved names m) = Some (Ok lm) /\ lm_class lm = m_class m /\ lm_nfeat lm = m_nfeat m /\ lm_obj lm = m_obj m.
  Proof.
    intros H1 H2 H3 H4. destruct (load_saved show_g parse_float show_token zero m names H1 H2 H3 H4) as (lm & E & C1 & C2 & C3 & _).
    now exists lm.
  Qed.
  (** Feature names come back exactly if they are words. *)
  Theorem C114_names names (m : gmodel N) : Forall (fun s => one_line s = true) names -> token (m_obj m) = true -> fits m ->
    (Z.of_nat (List.length (m_trees m)) < 2 ^ 63)%Z ->
    (forall t, In t (m_trees m) -> grown (m_nfeat m) t /\ exact_floats show_g parse_float t) -> short_lines (saved names m) ->
    exists gm names', load_from_reader parse_float (saved names m) = Ok (gm, names')
      /\ m_class gm = m_class m /\ m_nfeat gm = m_nfeat m /\ m_obj gm = m_obj m /\ m_niter gm = Z.of_nat (List.length (m_trees m))
      /\ List.length (m_trees gm) = List.length (m_trees m)
      /\ (names' = names <-> Forall (fun s => token s = true) names).
  Proof.
    intros H1 H2 H3 H4 H5 H6.
    destruct (load_reader_saved show_g parse_float show_token zero m names H1 H2 H3 H4 H5 H6) as (gm & E & C1 & C2 & C3 & _ & _ & C6 & C7).
    exists gm, (fields (join names)). do 5 (split; [assumption|]). split.
    - clear - C7. induction C7; cbn; [reflexivity|now f_equal].
    - split; [|apply fields_join]. intros E'. rewrite <- E'. apply fields_tokens.
  Qed.
End AnyNumber.

(** ** Over the reals *)
Lemma sigmoid_0 : @leaves_sigmoid RNum (n0 : num RNum) = (1 / 2)%R.
Proof.
  unfold leaves_sigmoid, sigmoid_with. rewrite !nlit_R. cbn. rdecide. rewrite Ropp_0, exp_0. lra.
Qed.
Section Reals.
  Variables (show_g show_f : RNum -> string) (parse_float : string -> option RNum).
  Hypothesis show_token : forall v, token (show_g v) = true.
  Hypothesis show_line : forall v, one_line (show_f v) = true.
  Hypothesis zero : parse_float "0" = Some (0%R : RNum).
  (** A binary classifier with splits in all trees gives probability 1/2 to every row after loading. *)
  Theorem C112_binary names (m : gmodel RNum) : Forall (fun s => one_line s = true) names -> m_obj m = "binary" -> fits m -> m_class m = 1%Z ->
    (forall t, In t (m_trees m) -> grown (m_nfeat m) t /\ exact_floats show_g parse_float t /\ has_split t) ->
    exists lm, @load_leaves_text RNum parse_float (save_text show_g names m) = Some (Ok lm) /\ exists f0, forall toint32 zthr fuel (x : list R),
      (m_nfeat m <= Z.of_nat (List.length x))%Z -> f0 <= fuel -> @leaves_batch_row RNum toint32 zthr fuel lm x = Some (Ok [(1 / 2)%R : num RNum]).
  Proof.
    intros H1 H2 H3 Hc H4. assert (Ht : token (m_obj m) = true) by now rewrite H2.
    destruct (@C114_header RNum show_g parse_float show_token zero names m H1 Ht H3) as (lm & E & C1 & C2 & C3);
      [intros t Ht'; destruct (H4 t Ht') as (A & B & _); now split|].
    destruct (@C112_all_zero RNum show_g parse_float show_token zero names m (Rplus_0_l 0) H1 Ht H3 H4) as (lm' & E' & f0 & P).
    assert (lm' = lm) as -> by congruence. exists lm. split; [exact E|]. exists f0. intros toint32 zthr fuel x Hx Hf.
    destruct (P toint32 zthr fuel x Hx Hf) as [_ ->]. rewrite Hc. cbn [Z.ltb Z.compare repeat]. unfold leaves_transform. rewrite C1, C3, H2, Hc.
    change (Some (Ok [@leaves_sigmoid RNum (n0 : num RNum)]) = Some (Ok [(1 / 2)%R : num RNum])). now rewrite sigmoid_0.
  Qed.
  (** Read with LoadFromFile instead, the text file gives raw score 0 to every row, whatever the trees. *)
  Theorem C112_reader names (m : gmodel RNum) : Forall (fun s => one_line s = true) names -> token (m_obj m) = true -> fits m ->
    (Z.of_nat (List.length (m_trees m)) < 2 ^ 63)%Z ->
    (forall t, In t (m_trees m) -> grown (m_nfeat m) t /\ exact_floats show_g parse_float t) -> short_lines (save_text show_g names m) ->
    exists gm names', @load_from_reader RNum parse_float (save_text show_g names m) = Ok (gm, names')
      /\ exists f0, forall toint roundint fuel (x : list R), (m_nfeat m <= Z.of_nat (List.length x))%Z -> f0 <= fuel ->
        let zeros := repeat (0%R : num RNum) (if (2 <? m_class m)%Z then Z.to_nat (m_class m) else 1) in
        @model_raw RNum toint fuel gm x = Some (Ok zeros) /\ @predictor_raw RNum roundint fuel gm x = Some (Ok zeros).
  Proof.
    intros H1 H2 H3 H4 H5 H6.
    destruct (@load_reader_saved RNum show_g parse_float show_token zero m names H1 H2 H3 H4 H5 H6) as (gm & E & C1 & C2 & C3 & C4 & _ & _ & C7).
    exists gm, (fields (join names)). split; [exact E|].
    destruct (silent_model (m_nfeat m) gm C4) as [f0 P].
    - pose proof (gone_silent show_g parse_float m H3 H5) as G. clear - C7 G. revert C7 G. generalize (m_trees gm). induction (m_trees m) as [|t ts IH]; intros l F G.
      + inversion F. constructor.
      + inversion F; subst. constructor; [apply (G t); [now left|assumption]|]. apply IH; [assumption|]. intros t' gt' H. apply G. now right.
    - exists f0. intros toint roundint fuel x Hx Hf. cbn zeta. specialize (P toint roundint fuel x Hx Hf). unfold outputs_count in P. rewrite C1 in P. exact P.
  Qed.
  (** Where reading the file of SaveModel does not panic, the loaded model gives raw score 0 to every row. *)
  Theorem C113_constant names (m : gmodel RNum) : Forall (fun s => one_line s = true) names -> token (m_obj m) = true -> fits m ->
    (Z.of_nat (List.length (m_trees m)) < 2 ^ 63)%Z -> (forall t, In t (m_trees m) -> grown (m_nfeat m) t) ->
    short_lines (save_file show_f names m) -> (forall t, In t (m_trees m) -> ~ has_split t) ->
    exists gm names', @load_from_reader RNum parse_float (save_file show_f names m) = Ok (gm, names')
      /\ exists f0, forall toint roundint fuel (x : list R), (m_nfeat m <= Z.of_nat (List.length x))%Z -> f0 <= fuel ->
        let zeros := repeat (0%R : num RNum) (if (2 <? m_class m)%Z then Z.to_nat (m_class m) else 1) in
        @model_raw RNum toint fuel gm x = Some (Ok zeros) /\ @predictor_raw RNum roundint fuel gm x = Some (Ok zeros).
  Proof.
    intros H1 H2 H3 H4 H5 H6 H7.
    destruct (@file_load_vanishes RNum show_f parse_float show_line m names H1 H2 H3 H4 H5 H6 H7) as (gm & E & C1 & C2 & C3 & C4 & _ & _ & _ & C8).
    exists gm, (fields (join names)). split; [exact E|].
    destruct (silent_model (m_nfeat m) gm C4) as [f0 P].
    - apply Forall_forall. intros t Ht. apply vanished_silent. revert t Ht. now apply Forall_forall.
    - exists f0. intros toint roundint fuel x Hx Hf. cbn zeta. specialize (P toint roundint fuel x Hx Hf). unfold outputs_count in P. rewrite C1 in P. exact P.
  Qed.
End Reals.

(** ** Concrete files *)
(** A stump: 1/5 for feature values up to 1/2, -1/5 above.  The printer knows the numbers that occur. *)
Definition ex_show (v : QNum) : string :=
  if Qeq_bool v (1 # 2) then "0.5" else if Qeq_bool v (1 # 5) then "0.2" else if Qeq_bool v (-1 # 5) then "-0.2" else if Qeq_bool v (1 # 10) then "0.1" else "0".
Definition ex_parse (s : string) : option QNum :=
  if String.eqb s "0.5" then Some (1 # 2)%Q else if String.eqb s "0.2" then Some (1 # 5)%Q else if String.eqb s "-0.2" then Some (-1 # 5)%Q
  else if String.eqb s "0.1" then Some (1 # 10)%Q else if String.eqb s "0" then Some 0%Q else None.
Definition ex_node : gnode QNum := mkgn 0 0 TNum 0 ((1 # 2)%Q : QNum) [] false ((1 # 10)%Q : QNum) (0%Q : QNum) (0%Q : QNum).
Definition ex_stump : gtree QNum := mkgt (preorder 0 (Split ex_node (Leaf ((1 # 5)%Q : QNum)) (Leaf ((-1 # 5)%Q : QNum)))) [] ((1 # 10)%Q : QNum) (0%Q : QNum) 2.
Definition ex_leaf : gtree QNum := mkgt (preorder 0 (Leaf ((1 # 5)%Q : QNum))) [] ((1 # 10)%Q : QNum) (0%Q : QNum) 1.
Definition ex_model (ts : list (gtree QNum)) : gmodel QNum := mkgm "regression" 1 1 0 ((1 # 10)%Q : QNum) ts 1 (0%Q : QNum).
Definition no_int (_ : QNum) : Z := 0%Z.
Example C112_text_example : let m := ex_model [ex_stump] in
  (forall v, token (ex_show v) = true) /\ ex_parse "0" = Some n0 /\ Forall (fun s => one_line s = true) ["x"] /\ token (m_obj m) = true /\ fits m
  /\ (Z.of_nat (List.length (m_trees m)) < 2 ^ 63)%Z /\ short_lines (save_text ex_show ["x"] m) /\ short_lines (save_file ex_show ["x"] m)
  /\ forall t, In t (m_trees m) -> grown (m_nfeat m) t /\ exact_floats ex_show ex_parse t /\ has_split t.
Proof.
  cbn zeta. split; [intros v; unfold ex_show; repeat destruct (Qeq_bool v _); reflexivity|]. split; [reflexivity|]. split; [repeat constructor|].
  split; [reflexivity|]. split; [split; [cbn; lia|split; [cbn; lia|intros t [<-|[]]; cbn; lia]]|]. split; [cbn; lia|].
  split; [apply Forall_forall; intros l Hl; vm_compute in Hl; repeat (destruct Hl as [<-|Hl]; [vm_compute; discriminate|]); destruct Hl|].
  split; [apply Forall_forall; intros l Hl; vm_compute in Hl; repeat (destruct Hl as [<-|Hl]; [vm_compute; discriminate|]); destruct Hl|].
  intros t [<-|[]]. split; [split; [reflexivity|eexists; split; [reflexivity|split; [cbn; lia|reflexivity]]]|]. split; [|cbn; unfold has_split; cbn; lia].
  intros nd Hn. cbn in Hn. repeat (destruct Hn as [<-|Hn]; [reflexivity|]). destruct Hn.
Qed.
(** The same over the reals, for any printer that knows the numbers; the single leaf as well *)
Section ExampleR.
  Definition r_node : gnode RNum := mkgn 0 0 TNum 0 ((1 / 2)%R : RNum) [] false ((1 / 10)%R : RNum) (0%R : RNum) (0%R : RNum).
  Definition r_stump : gtree RNum := mkgt (preorder 0 (Split r_node (Leaf ((1 / 5)%R : RNum)) (Leaf ((-1 / 5)%R : RNum)))) [] ((1 / 10)%R : RNum) (0%R : RNum) 2.
  Definition r_leaf : gtree RNum := mkgt (preorder 0 (Leaf ((1 / 5)%R : RNum))) [] ((1 / 10)%R : RNum) (0%R : RNum) 1.
  Definition r_model (obj : string) (ts : list (gtree RNum)) : gmodel RNum := mkgm obj 1 1 0 ((1 / 10)%R : RNum) ts 1 (0%R : RNum).
  Definition r_show (v : RNum) : string :=
    if Reqb v (1 / 2) then "0.5" else if Reqb v (1 / 5) then "0.2" else if Reqb v (-1 / 5) then "-0.2" else if Reqb v (1 / 10) then "0.1" else "0".
  Definition r_parse (s : string) : option RNum :=
    if String.eqb s "0.5" then Some (1 / 2)%R else if String.eqb s "0.2" then Some (1 / 5)%R else if String.eqb s "-0.2" then Some (-1 / 5)%R
    else if String.eqb s "0.1" then Some (1 / 10)%R else if String.eqb s "0" then Some 0%R else None.
  Lemma r_shows : r_show (1 / 2)%R = "0.5" /\ r_show (1 / 5)%R = "0.2" /\ r_show (-1 / 5)%R = "-0.2" /\ r_show (1 / 10)%R = "0.1".
  Proof. unfold r_show. repeat split; rdecide; reflexivity. Qed.
  Lemma r_words v : token (r_show v) = true /\ one_line (r_show v) = true.
  Proof. unfold r_show. repeat destruct (Reqb v _); split; reflexivity. Qed.
  Opaque r_show.
  Example C112_reals_example : let m := r_model "binary" [r_stump] in let m1 := r_model "binary" [r_leaf] in
    (forall v, token (r_show v) = true) /\ (forall v, one_line (r_show v) = true) /\ r_parse "0" = Some (0%R : RNum)
    /\ fits m /\ fits m1 /\ short_lines (save_text r_show ["x"] m) /\ short_lines (save_file r_show ["x"] m1)
    /\ (forall t, In t (m_trees m) -> grown (m_nfeat m) t /\ exact_floats r_show r_parse t /\ has_split t)
    /\ (forall t, In t (m_trees m1) -> grown (m_nfeat m1) t /\ ~ has_split t).
  Proof.
    cbn zeta. destruct r_shows as (S1 & S2 & S3 & S4).
    split; [intros v; apply r_words|]. split; [intros v; apply r_words|]. split; [reflexivity|].
    split; [split; [cbn; lia|split; [cbn; lia|intros t [<-|[]]; cbn; lia]]|].
    split; [split; [cbn; lia|split; [cbn; lia|intros t [<-|[]]; cbn; lia]]|].
    split.
    { assert (E : save_text r_show ["x"] (r_model "binary" [r_stump]) = save_text ex_show ["x"] (mkgm "binary" 1 1 0 ((1 # 10)%Q : QNum) [ex_stump] 1 (0%Q : QNum))).
      { unfold save_text, header_lines, r_model, m_trees, m_class, m_nfeat, m_obj. cbn [indexed List.length seq combine flat_map fst snd app].
        unfold tree_lines, r_stump, ex_stump, r_node, ex_node, gt_nodes, gt_leaves, gt_shrink.
        cbn [preorder nodes_of app map List.length Nat.add g_type g_feat g_thr g_cats g_defl g_gain g_leaf g_ival].
        unfold w_feat, w_thr, w_type, w_leaf, g_isleaf.
        cbn [g_left g_right g_type g_feat g_thr g_leaf Z.of_nat Pos.of_succ_nat Pos.succ Z.eqb Pos.eqb andb]. rewrite S1, S2, S3, S4. reflexivity. }
      rewrite E. apply Forall_forall; intros l Hl; vm_compute in Hl; repeat (destruct Hl as [<-|Hl]; [vm_compute; discriminate|]); destruct Hl. }
    split.
    { assert (E : save_file r_show ["x"] (r_model "binary" [r_leaf]) = save_file ex_show ["x"] (mkgm "binary" 1 1 0 ((1 # 10)%Q : QNum) [ex_leaf] 1 (0%Q : QNum))).
      { unfold save_file, r_model, m_trees, m_class, m_nfeat, m_obj. cbn [indexed List.length seq combine flat_map fst snd app].
        unfold file_tree_lines, r_leaf, ex_leaf, gt_nodes, gt_nleaves, gt_shrink.
        cbn [preorder flat_map app g_isleaf g_left g_right g_leaf Z.eqb Pos.eqb andb]. unfold g_isleaf. cbn [g_left g_right g_leaf Z.eqb Pos.eqb andb].
        rewrite S2, S4. reflexivity. }
      rewrite E. apply Forall_forall; intros l Hl; vm_compute in Hl; repeat (destruct Hl as [<-|Hl]; [vm_compute; discriminate|]); destruct Hl. }
    split.
    - intros t [<-|[]]. split; [split; [reflexivity|eexists; split; [reflexivity|split; [cbn; lia|reflexivity]]]|]. split; [|unfold has_split; cbn; lia].
      intros nd Hn. cbn [gt_nodes r_stump preorder In app nodes_of] in Hn. destruct Hn as [<-|[<-|[<-|[]]]]; cbn zeta; unfold g_isleaf;
        cbn [g_left g_right g_thr g_leaf Z.of_nat Pos.of_succ_nat Z.eqb Pos.eqb andb r_node]; [rewrite S1|rewrite S2|rewrite S3]; reflexivity.
    - intros t [<-|[]]. split; [split; [reflexivity|eexists; split; [reflexivity|split; [exact I|reflexivity]]]|]. unfold has_split. cbn. lia.
  Qed.
End ExampleR.
(** A training run that meets the hypotheses of [C112_trained] and [C113_trained] *)
Example C113_trained_example : match fitted with
  | Some (Ok ([t], _)) => List.length (gt_nodes t) = 3
      /\ match load_from_reader (fun _ => Some (f 0 1)) (save_file (fun _ => "0") ["x"] (get_model 1 "regression" 1 rate_half (f 0 1) [t])) with
         | Panic => True | _ => False end
  | _ => False
  end.
Proof. vm_compute. split; [reflexivity|exact I]. Qed.
(** Saved and loaded again, the stump predicts 0 instead of 1/5 and -1/5. *)
Theorem C112_text_refuted : exists (m : gmodel QNum) lm, load_leaves_text ex_parse (save_text ex_show ["x"] m) = Some (Ok lm)
  /\ model_raw no_int 5 m [0%Q : QNum] = Some (Ok [(1 # 5)%Q : QNum]) /\ model_raw no_int 5 m [1%Q : QNum] = Some (Ok [(-1 # 5)%Q : QNum])
  /\ leaves_raw no_int (0%Q : QNum) 5 lm [0%Q : QNum] = Some (Ok [0%Q : QNum]) /\ leaves_raw no_int (0%Q : QNum) 5 lm [1%Q : QNum] = Some (Ok [0%Q : QNum]).
Proof. exists (ex_model [ex_stump]). eexists. split; [vm_compute; reflexivity|]. vm_compute. repeat split; reflexivity. Qed.
(** A tree without splits, saved, loaded with LoadFromFile and saved again, makes a file that cannot be loaded. *)
Theorem C112_again_refuted : exists (m gm : gmodel QNum) ns e, load_from_reader ex_parse (save_text ex_show ["x"] m) = Ok (gm, ns)
  /\ load_leaves_text ex_parse (save_text ex_show ["x"] gm) = Some (Err e).
Proof. exists (ex_model [ex_leaf]). do 3 eexists. split; [vm_compute; reflexivity|vm_compute; reflexivity]. Qed.
Theorem C113_panics_refuted : exists m : gmodel QNum, model_raw no_int 5 m [0%Q : QNum] = Some (Ok [(1 # 5)%Q : QNum])
  /\ load_from_reader ex_parse (save_file ex_show ["x"] m) = Panic.
Proof. exists (ex_model [ex_stump]). split; vm_compute; reflexivity. Qed.
(** A model with one leaf loads, but predicts 0 instead of 1/5. *)
Theorem C113_constant_refuted : exists (m gm : gmodel QNum) ns, load_from_reader ex_parse (save_file ex_show ["x"] m) = Ok (gm, ns)
  /\ model_raw no_int 5 m [0%Q : QNum] = Some (Ok [(1 # 5)%Q : QNum]) /\ model_raw no_int 5 gm [0%Q : QNum] = Some (Ok [0%Q : QNum]).
Proof. exists (ex_model [ex_leaf]). do 2 eexists. split; [vm_compute; reflexivity|]. split; vm_compute; reflexivity. Qed.
(** A name with a blank comes back as two. *)
Theorem C114_names_refuted : exists (m gm : gmodel QNum), load_from_reader ex_parse (save_text ex_show ["petal length"] m) = Ok (gm, ["petal"; "length"]).
Proof. exists (ex_model [ex_stump]). eexists. vm_compute. reflexivity. Qed.
(** A name with an empty line in it makes the file unreadable for the Booster. *)
Theorem C114_line_refuted : exists (m : gmodel QNum) name e, load_leaves_text ex_parse (save_text ex_show [name] m) = Some (Err e).
Proof. exists (ex_model [ex_stump]), ("a" ^^ String newline (String newline "b")). eexists. vm_compute. reflexivity. Qed.

Print Assumptions C112_text.
Print Assumptions C112_all_zero.
Print Assumptions C112_trained.
Print Assumptions C112_binary.
Print Assumptions C112_reader.
Print Assumptions C112_text_refuted.
Print Assumptions C112_again_refuted.
Print Assumptions C113_panics.
Print Assumptions C113_trained.
Print Assumptions C113_constant.
Print Assumptions C113_panics_refuted.
Print Assumptions C113_constant_refuted.
Print Assumptions C114_header.
Print Assumptions C114_names.
Print Assumptions C114_names_refuted.
Print Assumptions C114_line_refuted.
