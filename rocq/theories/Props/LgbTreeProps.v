(** C41-C43, C73-C78 - trees of sklearn/lightgbm, their file formats and predictors. *)
From Coq Require Import String List Arith ZArith Bool Lia Reals Lra.
From Flocq Require Import Core.Core IEEE754.BinarySingleNaN.
From Verif Require Import Base.Num Base.GoRes Base.Mat Base.ListX Base.RTac Base.FTac
  Model.LgbTransform Model.LgbTree Spec.LgbTree Proofs.LgbTreeP Proofs.LgbArrayP.
Import ListNotations.
Local Open Scope list_scope.

(** ** C41.  The compact layout read from the text format *)

(** A well-formed tree is loaded, and the loaded tree answers every sample with the leaf
    the tree prescribes; a sample without a tested feature panics.  [fuel] only has to
    reach the number of tests. *)
Theorem C41_compact_layout : forall (N : Num) (toint32 : N -> Z) (zthr : N) (d : tdoc N) t first,
  well_formed d t ->
  exists T, read_tree first d = Some (Ok T) /\
  forall fuel x, isize t <= fuel ->
    lpredict toint32 zthr fuel T x = Some (match eval (passes zthr) t x with Some v => Ok v | None => Panic end).
Proof.
  intros N toint32 zthr d t first H. destruct (read_tree_spec toint32 zthr d t first H) as [ns [iv [E [Hl [Hi P]]]]].
  eexists. split; [exact E|]. intros fuel x Hf. unfold lpredict. cbn [lt_nodes].
  destruct ns as [|n ns]; [destruct t; [discriminate|cbn in Hl; lia]|]. now apply walk_placed.
Qed.

(** Loading ends for every document, well formed or not. *)
Theorem C41_loading_ends : forall (N : Num) (d : tdoc N) first, read_tree first d <> None.
Proof. intros. apply read_tree_ends. Qed.

(** A document with three splits: root 0 has the inner children 1 (left) and 2 (right). *)
Definition doc3 : tdoc F0 := mkdoc 4 (f 1 2) [f 1 1; f 2 1; f 3 1; f 4 1] [f 5 2; f 3 2; f 7 2]
  [1; -1; -3]%Z [2; -2; -4]%Z [2; 2; 10]%Z [0; 1; 1] [f 0 1; f 1 1; f 2 1].
Definition tree3 : btree F0 :=
  BNode (mktest 0 (f 0 1) MissNone true)
    (BNode (mktest 1 (f 1 1) MissNone true) (BLeaf (f 1 1)) (BLeaf (f 2 1)))
    (BNode (mktest 1 (f 2 1) MissNaN true) (BLeaf (f 3 1)) (BLeaf (f 4 1))).
Lemma doc3_wf : well_formed doc3 tree3.
Proof.
  exists [0; 2; 1], [0; 1; 2; 3]. split.
  - refine (desc_node doc3 0 0 (f 0 1) 2 1 2 _ _ [1] [2] [0; 1] [2; 3] eq_refl eq_refl eq_refl eq_refl eq_refl eq_refl _ _).
    + refine (desc_node doc3 1 1 (f 1 1) 2 (-1) (-2) _ _ [] [] [0] [1] eq_refl eq_refl eq_refl eq_refl eq_refl eq_refl _ _).
      * exact (desc_leaf doc3 0 (f 1 1) eq_refl).
      * exact (desc_leaf doc3 1 (f 2 1) eq_refl).
    + refine (desc_node doc3 2 1 (f 2 1) 10 (-3) (-4) _ _ [] [] [2] [3] eq_refl eq_refl eq_refl eq_refl eq_refl eq_refl _ _).
      * exact (desc_leaf doc3 2 (f 3 1) eq_refl).
      * exact (desc_leaf doc3 3 (f 4 1) eq_refl).
  - split; [repeat constructor; cbn; lia|]. split; [repeat constructor; cbn; lia|].
    split; [reflexivity|]. split; [reflexivity|]. split; [reflexivity|]. split; reflexivity.
Qed.
Definition tz : F0 -> Z := fun _ => 0%Z.
Definition shown (r : option (res F0)) : option (res SpecFloat.spec_float) := option_map (rmap fs) r.
Example C41_example :
  match read_tree true doc3 with
  | Some (Ok T) =>
      shown (lpredict tz (f 0 1) 3 T [f (-1) 1; f 5 1]) = Some (Ok (fs (f 2 1)))
      /\ shown (lpredict tz (f 0 1) 3 T [f 1 1; f 5 1]) = Some (Ok (fs (f 4 1)))
      /\ shown (lpredict tz (f 0 1) 3 T [f 1 1; f64_nan]) = Some (Ok (fs (f 3 1)))
      /\ List.map (fun n => (l_left n, l_feat n)) (lt_nodes T) = [(2, 0); (2, 1); (0, 1)]
  | _ => False
  end.
Proof. vm_compute. repeat split. Qed.

(** ** C42.  The JSON loader of the compact layout *)

(** What the loaded tree computes for any JSON tree: wherever both children of a node are
    inner nodes, the right child has been replaced by the left one. *)
Theorem C42_json_layout : forall (N : Num) (toint32 : N -> Z) (zthr shrink : N) j t fuel x,
  json_tree j t -> isize t <= fuel ->
  lpredict toint32 zthr fuel (convert_json shrink j) x
  = Some (match eval (passes zthr) (right_lost t) x with Some v => Ok v | None => Panic end).
Proof. intros. now apply convert_json_spec. Qed.

Theorem C42_chain_trees : forall (N : Num) (toint32 : N -> Z) (zthr shrink : N) j t fuel x,
  json_tree j t -> chain t = true -> isize t <= fuel ->
  lpredict toint32 zthr fuel (convert_json shrink j) x
  = Some (match eval (passes zthr) t x with Some v => Ok v | None => Panic end).
Proof. intros N toint32 zthr shrink j t fuel x H Hc Hf. rewrite C42_json_layout with (t := t) by assumption. now rewrite right_lost_chain. Qed.

Definition jf (feat : Z) (th leaf : F0) : jfields F0 := mkjf feat (f 0 1) th false [] "None" false (f 0 1) leaf.
Definition jl (v : F0) : jnode F0 := JNode (jf 0 (f 0 1) v) JNil JNil.
Definition jn (feat : Z) (th : F0) (l r : jnode F0) : jnode F0 := JNode (jf feat th (f 0 1)) l r.
Definition tn (feat : nat) (th : F0) (l r : btree F0) : btree F0 := BNode (mktest feat th MissNone false) l r.

(** The balanced tree with three tests on one feature sends 3 to the leaf 4; the loaded
    tree answers 2. *)
Theorem C42_misrouted_refuted : exists (j : jnode F0) t x v w,
  json_tree j t /\ eval (passes (f 0 1)) t x = Some v
  /\ (forall toint32 fuel, isize t <= fuel -> lpredict toint32 (f 0 1) fuel (convert_json (f 1 1) j) x = Some (Ok w))
  /\ fs v = fs (f 4 1) /\ fs w = fs (f 2 1).
Proof.
  exists (jn 0 (f 0 1) (jn 0 (f (-2) 1) (jl (f 1 1)) (jl (f 2 1))) (jn 0 (f 2 1) (jl (f 3 1)) (jl (f 4 1)))).
  exists (tn 0 (f 0 1) (tn 0 (f (-2) 1) (BLeaf (f 1 1)) (BLeaf (f 2 1))) (tn 0 (f 2 1) (BLeaf (f 3 1)) (BLeaf (f 4 1)))).
  exists [f 3 1], (f 4 1), (f 2 1).
  assert (J : json_tree (jn 0 (f 0 1) (jn 0 (f (-2) 1) (jl (f 1 1)) (jl (f 2 1))) (jn 0 (f 2 1) (jl (f 3 1)) (jl (f 4 1))))
     (tn 0 (f 0 1) (tn 0 (f (-2) 1) (BLeaf (f 1 1)) (BLeaf (f 2 1))) (tn 0 (f 2 1) (BLeaf (f 3 1)) (BLeaf (f 4 1))))).
  { assert (leafJ : forall v, json_tree (jl v) (BLeaf v)) by (intros v; exact (json_leaf (jf 0 (f 0 1) v))).
    assert (nodeJ : forall th l r tl tr, l <> JNil -> r <> JNil -> json_tree l tl -> json_tree r tr -> json_tree (jn 0 th l r) (tn 0 th tl tr)).
    { intros th l r tl tr H1 H2 H3 H4. exact (json_node (jf 0 th (f 0 1)) l r tl tr H1 H2 eq_refl (Z.le_refl 0) H3 H4). }
    apply nodeJ; try discriminate; apply nodeJ; try discriminate; apply leafJ. }
  split; [exact J|]. split; [reflexivity|]. split; [|split; reflexivity].
  intros toint32 fuel Hf. rewrite (C42_json_layout _ _ _ _ _ _ _ _ J Hf). reflexivity.
Qed.

(** ** C43.  JSON dump and reload *)

Lemma zero_compare_R : zero_compare RNum.
Proof. intros u v H. cbn in H. unfold Reqb in H. destruct (Req_EM_T v 0) as [->|]; [reflexivity|discriminate]. Qed.
Lemma zero_compare_F : forall fexp flog, zero_compare (FNum fexp flog).
Proof.
  intros fexp flog u v H. cbn in *. destruct v as [s|s| |s m e Hm]; try reflexivity; try discriminate; try now destruct s.
Qed.

(** For every stored numeric tree and every sample: dump and reload either report an
    error (a NaN or infinity cannot be written) or give a tree with the same predictions -
    up to the sign of a zero leaf; with finite numbers there is no error. *)
Theorem C43_trees : forall (N : Num) (toint : N -> Z) (T : gtree N) t fuel,
  zero_compare N -> stores (gt_nodes T) 0 t -> isize t < fuel ->
  (reload_tree fuel T = Some (Err (EOther 4))
   \/ exists T', reload_tree fuel T = Some (Ok T') /\ forall x,
        tree_predict toint fuel T' x = option_map (rmap omit) (tree_predict toint fuel T x))
  /\ (@finite N n0 = true -> finite (gt_shrink T) = true -> forallb node_finite (gt_nodes T) = true ->
      exists T', reload_tree fuel T = Some (Ok T')).
Proof.
  intros N toint T t fuel Hz S Hf. destruct (reload_spec T t fuel S Hf) as [H1 H2]. split; [|exact H2].
  destruct H1 as [H1|[T' [H1 [S' _]]]]; [now left|]. right. exists T'. split; [exact H1|]. intros x. unfold tree_predict.
  rewrite (gwalk_stores toint n0 T' x _ _ _ S') by (rewrite isize_map; exact Hf).
  rewrite (gwalk_stores toint n0 T x _ _ _ S) by exact Hf. rewrite (eval_omit t x n0 Hz).
  now destruct (eval (passes n0) t x).
Qed.

(** Over the reals every model of stored numeric trees is reloaded; the result predicts
    what the original would predict with initial score 0. *)
Definition zero_init {N : Num} (m : gmodel N) : gmodel N :=
  mkgm (m_obj m) (m_class m) (m_niter m) (m_best m) (m_lr m) (m_trees m) (m_nfeat m) n0.
Lemma omit_R : forall v : R, @omit RNum v = v.
Proof. intros v. unfold omit. cbn. unfold Reqb. now destruct (Req_EM_T v 0) as [->|]. Qed.
Lemma objective_alias a o : In (a, o) objective_aliases -> json_objective a = o.
Proof. intros H. repeat (destruct H as [H|H]; [injection H as <- <-; reflexivity|]). destruct H. Qed.
Lemma objective_other a : (forall o, ~ In (a, o) objective_aliases) -> json_objective a = a.
Proof.
  intros H.
  assert (K : forall l : list string, (forall x, In x l -> exists o, In (x, o) objective_aliases) -> existsb (String.eqb a) l = false).
  { intros l Hl. destruct (existsb (String.eqb a) l) eqn:E; [|reflexivity]. apply existsb_exists in E as [x [Hx Ex]].
    apply String.eqb_eq in Ex. subst x. destruct (Hl a Hx) as [o Ho]. now apply H in Ho. }
  unfold json_objective. rewrite !K; [reflexivity| | | |];
    intros x Hx; repeat (destruct Hx as [<-|Hx]; [eexists; cbn; tauto|]); destruct Hx.
Qed.
Theorem C43_model : forall (toint : R -> Z) (m : gmodel RNum) (ts : list (btree RNum)) fuel,
  Forall2 (fun T t => stores (gt_nodes T) 0 t /\ isize t < fuel) (m_trees m) ts ->
  exists m', reload fuel m = Some (Ok m') /\ m_class m' = m_class m /\ m_nfeat m' = m_nfeat m /\
  (forall o, In (m_obj m, o) objective_aliases -> m_obj m' = o) /\
  ((forall o, ~ In (m_obj m, o) objective_aliases) -> m_obj m' = m_obj m) /\
  forall x, @model_raw RNum toint fuel m' x = @model_raw RNum toint fuel (zero_init m) x.
Proof.
  intros toint m ts fuel H.
  assert (HS : exists Ts', sequence (reload_tree fuel) (m_trees m) = Some (Ok Ts')
     /\ Forall2 (fun T T' => forall x, @tree_predict RNum toint fuel T' x = @tree_predict RNum toint fuel T x) (m_trees m) Ts').
  { induction H as [|T t Tl tl [S Hf] H IH]; [exists []; split; [reflexivity|constructor]|].
    destruct IH as [Ts' [E F]]. destruct (C43_trees RNum toint T t fuel zero_compare_R S Hf) as [A B].
    destruct B as [T' ET']; [reflexivity|reflexivity| |].
    { apply forallb_forall. intros n _. unfold node_finite. now destruct (g_type n). }
    destruct A as [A|[T'' [A P]]]; [rewrite ET' in A; discriminate|]. rewrite ET' in A. injection A as <-.
    exists (T' :: Ts'). split; [cbn; now rewrite ET', E|]. constructor; [|exact F]. intros x. rewrite P.
    destruct (@tree_predict RNum toint fuel T x) as [[v| |]|]; cbn; try reflexivity. now rewrite omit_R. }
  destruct HS as [Ts' [E F]]. unfold reload. rewrite E. eexists. split; [reflexivity|]. split; [reflexivity|]. split; [reflexivity|].
  split; [apply objective_alias|]. split; [apply objective_other|].
  intros x. unfold model_raw. cbn [m_trees zero_init].
  assert (Es : sequence (fun t => @tree_predict RNum toint fuel t x) Ts' = sequence (fun t => @tree_predict RNum toint fuel t x) (m_trees m)).
  { clear E H. induction F as [|T T' l l' H1 F IH]; [reflexivity|]. cbn [sequence]. rewrite H1, IH. reflexivity. }
  rewrite Es. reflexivity.
Qed.

(** a two-leaf tree of the array layout *)
Definition arr2 : gtree F0 := mkgt
  [mkgn 1 2 TNum 0 (f 1 1) [] true (f 1 1) (f 0 1) (f 0 1); mkgn (-1) (-1) TLeaf 0 (f 0 1) [] false (f 0 1) (f 3 1) (f 0 1);
   mkgn (-1) (-1) TLeaf 0 (f 0 1) [] false (f 0 1) (f 4 1) (f 0 1)] [] (f 1 1) (f 0 1) 2.
Definition tarr2 : btree F0 := BNode (mktest 0 (f 1 1) MissNaN true) (BLeaf (f 3 1)) (BLeaf (f 4 1)).
Lemma arr2_stores : stores (gt_nodes arr2) 0 tarr2.
Proof.
  refine (st_node (gt_nodes arr2) 0 (mkgn 1 2 TNum 0 (f 1 1) [] true (f 1 1) (f 0 1) (f 0 1)) _ _ eq_refl eq_refl _ _ _ _ _); cbn [g_left g_right g_feat]; try lia.
  - exact (st_leaf (gt_nodes arr2) 1 (mkgn (-1) (-1) TLeaf 0 (f 0 1) [] false (f 0 1) (f 3 1) (f 0 1)) eq_refl eq_refl eq_refl).
  - exact (st_leaf (gt_nodes arr2) 2 (mkgn (-1) (-1) TLeaf 0 (f 0 1) [] false (f 0 1) (f 4 1) (f 0 1)) eq_refl eq_refl eq_refl).
Qed.
Definition shownl (r : option (res (list F0))) : option (res (list SpecFloat.spec_float)) := option_map (rmap (List.map fs)) r.

(** A regression model with initial score 10 predicts 13 and, saved and reloaded, 3. *)
Theorem C43_initial_score_refuted : exists (m m' : gmodel F0) x,
  reload 2 m = Some (Ok m') /\ shownl (model_raw tz 2 m x) = Some (Ok [fs (f 13 1)])
  /\ shownl (model_raw tz 2 m' x) = Some (Ok [fs (f 3 1)]).
Proof.
  exists (mkgm "regression" 1 1 0 (f 1 10) [arr2] 1 (f 10 1)).
  destruct (reload 2 (mkgm "regression" 1 1 0 (f 1 10) [arr2] 1 (f 10 1))) as [[m'| |]|] eqn:E.
  - exists m', [f 1 2]. split; [reflexivity|]. split; [vm_compute; reflexivity|].
    assert (H : match reload 2 (mkgm "regression" 1 1 0 (f 1 10) [arr2] 1 (f 10 1)) with Some (Ok m0) => shownl (model_raw tz 2 m0 [f 1 2]) | _ => None end = Some (Ok [fs (f 3 1)])) by (vm_compute; reflexivity).
    rewrite E in H. exact H.
  - exfalso. assert (H : match reload 2 (mkgm "regression" 1 1 0 (f 1 10) [arr2] 1 (f 10 1)) with Some (Ok m0) => true | _ => false end = true) by (vm_compute; reflexivity).
    rewrite E in H. discriminate.
  - exfalso. assert (H : match reload 2 (mkgm "regression" 1 1 0 (f 1 10) [arr2] 1 (f 10 1)) with Some (Ok m0) => true | _ => false end = true) by (vm_compute; reflexivity).
    rewrite E in H. discriminate.
  - exfalso. assert (H : match reload 2 (mkgm "regression" 1 1 0 (f 1 10) [arr2] 1 (f 10 1)) with Some (Ok m0) => true | _ => false end = true) by (vm_compute; reflexivity).
    rewrite E in H. discriminate.
Qed.

(** ** C73, C74.  The predictors on a model read from a text file *)

Lemma doc_cases : forall (N : Num) (roundint toint : N -> Z) (d : tdoc N) t first, doc_of d t ->
  exists T, finalize first d = Ok T /\ gt_shrink T = d_shrink d
    /\ gt_ival T = (if (d_leaves d =? 1)%Z then n0 else if first then match d_ival d with [] => n0 | v :: _ => v end else n0)
    /\ (forall x fuel, fits x t -> isize t < fuel -> tree_predict toint fuel T x = Some (Ok n0))
    /\ (forall x fuel, fits x t -> ~ has_nan x -> isize t < fuel ->
         predict_tree roundint fuel T x
         = Some (Ok (if inner t then match eval close_left t x with Some w => ensure w | None => n0 end else n0))).
Proof.
  intros N roundint toint d t first [W|[v [E1 [E2 ->]]]].
  - destruct (finalize_spec d t first W) as [ns [E [Hl HF]]]. rewrite E. eexists. split; [reflexivity|]. split; [reflexivity|].
    destruct W as [is [ls [D [Hnd [Hls [L1 _]]]]]].
    pose proof (describes_inner _ _ _ _ _ D) as Hi. cbn in Hi.
    assert (Hlt : (0 < List.length (d_left d))%nat).
    { destruct (describes_node _ _ _ _ _ D Hi) as [i0 [is0 [Ei0 ->]]].
      destruct (describes_range _ _ _ _ _ D i0 (or_introl eq_refl)) as [Hr _]. lia. }
    split; [cbn [gt_ival]; replace (d_leaves d =? 1)%Z with false by (symmetry; apply Z.eqb_neq; lia); reflexivity|]. split.
    + intros x fuel Hx Hf. unfold tree_predict. rewrite (gwalk_text toint d (mkgt ns (d_lv d) (d_shrink d) _ (d_leaves d)) x HF t 0 is ls fuel D Hls Hf).
      assert (Hev : eval plain_left t x <> None); [|destruct (eval plain_left t x); [reflexivity|contradiction]].
      clear - Hx. induction t as [v|q l IHl r IHr]; [discriminate|]. cbn [eval].
      destruct (nth_error x (q_feat q)) as [v|] eqn:Ev; [|apply nth_error_None in Ev; specialize (Hx (q_feat q) (or_introl eq_refl)); lia].
      destruct (plain_left q v); [apply IHl|apply IHr]; intros f' Hf'; apply Hx; right; apply in_or_app; auto.
    + intros x fuel Hx Hn Hf. rewrite Hi. unfold predict_tree.
      destruct (pwalk_text roundint d (mkgt ns (d_lv d) (d_shrink d) (if first then match d_ival d with [] => n0 | v :: _ => v end else n0) (d_leaves d)) x HF eq_refl) with (t := t) (c := 0%Z) (is := is) (ls := ls) (fuel := fuel) (guard := 2 * List.length ns) as [w [E3 E4]]; try assumption; try lia.
      * apply Forall_forall. intros v Hv. destruct (nisnan v) eqn:Ev; [|reflexivity]. exfalso. apply Hn. now exists v.
      * rewrite Hl. rewrite <- (describes_isize _ _ _ _ _ D).
        assert (List.length is <= List.length (d_left d)); [|lia].
        apply NoDup_bound; [exact Hnd|]. intros j Hj. exact (proj1 (describes_range _ _ _ _ _ D j Hj)).
      * cbn [gt_nodes]. rewrite E3. exact E4.
  - exists (mkgt [] [v] (d_shrink d) n0 1). unfold finalize. rewrite E1, E2. cbn [Z.eqb Pos.eqb]. split; [reflexivity|]. split; [reflexivity|].
    split; [reflexivity|]. split; intros; (destruct fuel as [|fuel]; [lia|]); reflexivity.
Qed.

Lemma load_cases : forall (N : Num) (roundint toint : N -> Z) (docs : list (tdoc N)) (ts : list (btree N)) s,
  Forall2 doc_of docs ts ->
  exists Ts, mapM (fun id => finalize (Nat.eqb (fst id) 0) (snd id)) (combine (seq s (List.length docs)) docs) = Ok Ts
    /\ Forall2 (fun dt T => gt_shrink T = d_shrink (fst dt)
        /\ (forall x fuel, fits x (snd dt) -> isize (snd dt) < fuel -> tree_predict toint fuel T x = Some (Ok n0))
        /\ (forall x fuel, fits x (snd dt) -> ~ has_nan x -> isize (snd dt) < fuel ->
             predict_tree roundint fuel T x
             = Some (Ok (if inner (snd dt) then match eval close_left (snd dt) x with Some w => ensure w | None => n0 end else n0))))
       (combine docs ts) Ts.
Proof.
  intros N roundint toint docs ts s H. revert s. induction H as [|d t docs ts Hd H IH]; intros s; [exists []; split; [reflexivity|constructor]|].
  cbn [List.length seq combine mapM fst snd].
  destruct (doc_cases N roundint toint d t (Nat.eqb s 0) Hd) as [T [E1 [E2 [_ [E4 E5]]]]]. rewrite E1. cbn [bind].
  destruct (IH (S s)) as [Ts [-> F]]. cbn [bind]. exists (T :: Ts). split; [reflexivity|]. constructor; [|exact F]. auto.
Qed.

(** Model.PredictSingle on a model read from a text file: every tree contributes 0, so the
    raw output is the initial score, for every sample (reals). *)
Theorem C73_trees_ignored : forall (toint : R -> Z) obj ncl nfeat (docs : list (tdoc RNum)) ts fuel x,
  Forall2 doc_of docs ts -> (ncl <= 2)%Z ->
  Forall (fun t => fits x t /\ isize t < fuel) ts ->
  exists m, load_text obj ncl nfeat docs = Ok m /\ List.length (m_trees m) = List.length docs
    /\ @model_raw RNum toint fuel m x = Some (Ok [m_init m]).
Proof.
  intros toint obj ncl nfeat docs ts fuel x H Hn HF.
  destruct (load_cases RNum (fun _ => 0%Z) toint docs ts 0 H) as [Ts [E F]]. unfold load_text. rewrite E. cbn [bind].
  eexists. split; [reflexivity|]. cbn [m_trees m_init].
  assert (HL : List.length Ts = List.length docs).
  { rewrite <- (Forall2_len _ _ _ F), combine_length, (Forall2_len _ _ _ H). apply Nat.min_id. }
  split; [exact HL|]. unfold model_raw. cbn [m_trees m_init].
  assert (HS : sequence (fun t => @tree_predict RNum toint fuel t x) Ts = Some (Ok (repeat (0%R : RNum) (List.length Ts)))).
  { apply sequence_ok. clear - F HF H. revert Ts F. induction H as [|d t docs ts Hd H IH]; intros Ts F; inversion F; subst; [constructor|].
    inversion HF as [|t' ts' [Q1 Q2] HF']; subst. cbn [List.length repeat combine fst snd] in *. constructor; [now apply H2|now apply IH]. }
  rewrite HS. f_equal. f_equal. unfold outputs_count. cbn [m_class].
  replace (2 <? (if (ncl =? 0)%Z then 1 else ncl))%Z with false
    by (symmetry; apply Z.ltb_ge; destruct (Z.eqb_spec ncl 0); lia).
  rewrite accumulate_one. f_equal. generalize (List.length Ts) as k.
  match goal with |- forall k, fold_left _ _ ?i = _ => generalize i as a end.
  intros a k. revert a. induction k as [|k IH]; intros a; [reflexivity|]. cbn [repeat fold_left]. rewrite IH.
  cbn. apply Rplus_0_r.
Qed.

(** The compact predictor on the same file: PredictRaw is the initial score plus the leaf
    values, PredictSingle the leaf values alone (one output; any arithmetic). *)
Lemma leaves_cases : forall (N : Num) (toint32 : N -> Z) (zthr : N) (docs : list (tdoc N)) ts s,
  Forall2 doc_of docs ts ->
  exists Ts, sequence (fun id => read_tree (Nat.eqb (fst id) 0) (snd id)) (combine (seq s (List.length docs)) docs) = Some (Ok Ts)
    /\ Forall2 (fun t T => forall fuel x, isize t <= fuel ->
         lpredict toint32 zthr fuel T x = Some (match eval (passes zthr) t x with Some v => Ok v | None => Panic end)) ts Ts
    /\ (forall d docs', docs = d :: docs' -> s = 0 -> exists T Ts', Ts = T :: Ts' /\
          lt_ival T = match d_ival d with [] => n0 | v :: _ => v end).
Proof.
  intros N toint32 zthr docs ts s H. revert s. induction H as [|d t docs ts Hd H IH]; intros s.
  - exists []. split; [reflexivity|]. split; [constructor|]. discriminate.
  - cbn [List.length seq combine sequence fst snd].
    assert (HT : exists T, read_tree (Nat.eqb s 0) d = Some (Ok T)
       /\ lt_ival T = (if Nat.eqb s 0 then match d_ival d with [] => n0 | v :: _ => v end else n0)
       /\ forall fuel x, isize t <= fuel ->
         lpredict toint32 zthr fuel T x = Some (match eval (passes zthr) t x with Some v => Ok v | None => Panic end)).
    { destruct Hd as [W|[v [E1 [E2 ->]]]].
      - destruct (C41_compact_layout N toint32 zthr d t (Nat.eqb s 0) W) as [T [E P]]. exists T. split; [exact E|]. split; [|exact P].
        clear - E. unfold read_tree in E. destruct (d_leaves d <? 1)%Z; [discriminate|]. destruct (d_leaves d =? 1)%Z; [now injection E as <-|].
        destruct (create_node d 0); try discriminate. destruct (dfs _ _ _ _ _) as [[| |]|]; try discriminate. now injection E as <-.
      - unfold read_tree. rewrite E1, E2. cbn. eexists. split; [reflexivity|]. split; [reflexivity|]. intros. reflexivity. }
    destruct HT as [T [-> [ET PT]]]. destruct (IH (S s)) as [Ts [-> [F _]]]. exists (T :: Ts). split; [reflexivity|].
    split; [constructor; assumption|]. intros d' docs' E ->. injection E as <- <-. cbn in ET. eauto.
Qed.

Lemma eval_fits : forall (N : Num) (p : test N -> N -> bool) (t : btree N) x, fits x t -> exists v, eval p t x = Some v.
Proof.
  intros N p t x Hx. induction t as [v|q l IHl r IHr]; [eexists; reflexivity|]. cbn [eval].
  destruct (nth_error x (q_feat q)) as [v|] eqn:Ev; [|apply nth_error_None in Ev; specialize (Hx (q_feat q) (or_introl eq_refl)); lia].
  destruct (p q v); [apply IHl|apply IHr]; intros f' Hf'; apply Hx; right; apply in_or_app; auto.
Qed.

Theorem C74_leaves_predictor : forall (N : Num) (toint32 : N -> Z) (zthr : N) obj ncl nfeat (docs : list (tdoc N)) ts fuel x,
  Forall2 doc_of docs ts -> (ncl <= 2)%Z -> Forall (fun t => fits x t /\ isize t <= fuel) ts ->
  exists m vs, load_leaves obj ncl nfeat docs = Some (Ok m)
    /\ Forall2 (fun t v => eval (passes zthr) t x = Some v) ts vs
    /\ leaves_raw toint32 zthr fuel m x = Some (Ok [fold_left nadd vs (first_value docs)])
    /\ leaves_single toint32 zthr fuel m x
       = Some (Ok [if is_binary obj then leaves_sigmoid (nsum vs) else nsum vs]).
Proof.
  intros N toint32 zthr obj ncl nfeat docs ts fuel x H Hn HF.
  destruct (leaves_cases N toint32 zthr docs ts 0 H) as [Ts [E [F Hiv]]]. unfold load_leaves. rewrite E.
  assert (HV : exists vs, Forall2 (fun t v => eval (passes zthr) t x = Some v) ts vs).
  { clear - HF. induction ts as [|t ts IH]; [exists []; constructor|]. inversion HF as [|t' ts' [H1 H2] HF']; subst.
    destruct (IH HF') as [vs Fv]. destruct (eval_fits N (passes zthr) t x H1) as [v Ev]. exists (v :: vs). now constructor. }
  destruct HV as [vs Fv]. eexists; exists vs. split; [reflexivity|]. split; [exact Fv|].
  assert (HS : sequence (fun t => lpredict toint32 zthr fuel t x) Ts = Some (Ok vs)).
  { apply sequence_ok. clear - F Fv HF. revert vs Fv HF. induction F as [|t T ts Ts P F IH]; intros vs Fv HF; inversion Fv; subst; [constructor|].
    inversion HF as [|t' ts' [H1' H2] HF']; subst. constructor; [|now apply IH]. rewrite P by assumption. now rewrite H1. }
  assert (Hc : (2 <? (if (ncl =? 0)%Z then 1 else ncl))%Z = false)
    by (apply Z.ltb_ge; destruct (Z.eqb_spec ncl 0); lia).
  unfold leaves_raw, leaves_single, leaves_sum, leaves_count, leaves_transform. cbn [lm_trees lm_class lm_init lm_obj].
  rewrite HS, Hc, !accumulate_one. split.
  - f_equal. f_equal. f_equal. f_equal. unfold first_value. destruct docs as [|d docs]; [destruct Ts; [reflexivity|inversion H; subst; inversion F]|].
    destruct (Hiv d docs eq_refl eq_refl) as [T [Ts' [-> ->]]]. destruct (d_ival d); [now destruct (neqb n0 n0)|reflexivity].
  - cbn. now destruct (is_binary obj).
Qed.

(** Predictor.Predict on the same file: the initial score, then every tree's leaf value
    once more multiplied by the tree's shrinkage; NaN features count as zero, thresholds
    are compared with tolerance 1e-15, and a tree with a single leaf contributes 0. *)
Theorem C74_predictor : forall (N : Num) (roundint : N -> Z) obj ncl nfeat (docs : list (tdoc N)) ts fuel x,
  Forall2 doc_of docs ts -> (ncl <= 2)%Z -> Forall (fun t => fits x t /\ isize t < fuel) ts ->
  nisnan (n0 : N) = false -> docs <> [] ->
  exists m vs, load_text obj ncl nfeat docs = Ok m
    /\ m_init m = match docs with d :: _ => if (d_leaves d =? 1)%Z then n0 else first_value docs | [] => n0 end
    /\ Forall2 (fun t v => v = if inner t then match eval close_left t (no_nan x) with Some w => ensure w | None => n0 end else n0) ts vs
    /\ predictor_raw roundint fuel m x
       = Some (Ok [fold_left (fun a b => ensure (nadd a b))
                     (map (fun dv => nmul (snd dv) (if neqb (d_shrink (fst dv)) n0 then nlit 1 10 else d_shrink (fst dv))) (combine docs vs))
                     (m_init m)]).
Proof.
  intros N roundint obj ncl nfeat docs ts fuel x H Hn HF H0 Hne.
  destruct (load_cases N roundint (fun _ => 0%Z) docs ts 0 H) as [Ts [E F]]. unfold load_text. rewrite E. cbn [bind].
  exists (mkgm obj (if (ncl =? 0)%Z then 1%Z else ncl) (Z.of_nat (List.length Ts)) 0 (nlit 1 10) Ts nfeat
            (match Ts with t :: _ => if neqb (gt_ival t) n0 then n0 else gt_ival t | [] => n0 end)).
  exists (map (fun t => if inner t then match eval close_left t (no_nan x) with Some w => ensure w | None => n0 end else n0) ts).
  split; [reflexivity|].
  assert (HL : List.length Ts = List.length docs).
  { rewrite <- (Forall2_len _ _ _ F), combine_length, (Forall2_len _ _ _ H). apply Nat.min_id. }
  split; [|split].
  - destruct docs as [|d docs]; [contradiction|]. cbn [m_init]. destruct ts as [|t ts]; [inversion H|].
    cbn [List.length seq combine mapM fst snd] in E. inversion H as [|d' t' ds' ts' Hd Hds]; subst.
    destruct (doc_cases N roundint (fun _ => 0%Z) d t true Hd) as [T [E1 [_ [E3 _]]]]. rewrite Nat.eqb_refl, E1 in E. cbn [bind] in E.
    destruct (mapM _ _) as [Ts'| |]; try discriminate. cbn [bind] in E. injection E as <-. rewrite E3. unfold first_value.
    destruct (d_leaves d =? 1)%Z; [now destruct (neqb n0 n0)|]. destruct (d_ival d) as [|v]; [now destruct (neqb n0 n0)|]. reflexivity.
  - clear. induction ts as [|t ts IH]; constructor; [reflexivity|exact IH].
  - unfold predictor_raw, used_trees. cbn [m_best m_niter m_trees m_lr m_init]. rewrite andb_false_l.
    replace (if (Z.of_nat (List.length Ts) =? 0)%Z then Ts else firstn (Z.to_nat (Z.of_nat (List.length Ts))) Ts) with Ts
      by (rewrite Nat2Z.id, firstn_all; now destruct (_ =? 0)%Z).
    assert (Hnn : ~ has_nan (no_nan x)).
    { intros [v [Hv Ev]]. apply in_map_iff in Hv. destruct Hv as [u [<- _]]. destruct (nisnan u) eqn:Eu; congruence. }
    assert (HS : sequence (fun t => match predict_tree roundint fuel t (no_nan x) with
                             | Some (Ok o) => Some (Ok (nmul o (if neqb (gt_shrink t) n0 then nlit 1 10 else gt_shrink t)))
                             | r => r
                             end) Ts = Some (Ok (map (fun dv => nmul (snd dv) (if neqb (d_shrink (fst dv)) n0 then nlit 1 10 else d_shrink (fst dv)))
                (combine docs (map (fun t => if inner t then match eval close_left t (no_nan x) with Some w => ensure w | None => n0 end else n0) ts))))).
    { apply sequence_ok. clear - F HF H Hnn. revert Ts F. induction H as [|d t docs ts Hd H IH]; intros Ts F; inversion F; subst; [constructor|].
      inversion HF as [|t' ts' [H1' H2'] HF']; subst. cbn [combine map fst snd] in *. constructor; [|now apply IH].
      destruct H2 as [E1 [_ E2]]. rewrite E2; try assumption; [|intros f' Hf'; unfold no_nan; rewrite map_length; now apply H1']. now rewrite E1. }
    rewrite HS. f_equal. f_equal. unfold outputs_count. cbn [m_class].
    replace (2 <? (if (ncl =? 0)%Z then 1 else ncl))%Z with false by (symmetry; apply Z.ltb_ge; destruct (Z.eqb_spec ncl 0); lia).
    now rewrite accumulate_one.
Qed.

(** The file with the single tree [doc3] (shrinkage 1/2, internal_value 5/2): for the
    sample (1, 5) the tree gives the leaf 4; LeavesPredictor.PredictSingle answers 4 and
    Predictor 4.5. *)
Definition leaves3 : option (res (lmodel F0)) := load_leaves "regression" 1 2 [doc3].
Definition text3 : res (gmodel F0) := load_text "regression" 1 2 [doc3].
Theorem C74_predictors_disagree_refuted :
  Forall2 doc_of [doc3] [tree3]
  /\ exists lm m x, leaves3 = Some (Ok lm) /\ text3 = Ok m
     /\ shownl (leaves_single tz (f 0 1) 3 lm x) = Some (Ok [fs (f 4 1)])
     /\ shownl (leaves_raw tz (f 0 1) 3 lm x) = Some (Ok [fs (f 13 2)])
     /\ shownl (omap (predictor_transform "regression") (predictor_raw tz 4 m x)) = Some (Ok [fs (f 9 2)]).
Proof.
  split; [constructor; [left; exact doc3_wf|constructor]|].
  assert (H1 : match leaves3 with Some (Ok lm) => shownl (leaves_single tz (f 0 1) 3 lm [f 1 1; f 5 1]) = Some (Ok [fs (f 4 1)])
      /\ shownl (leaves_raw tz (f 0 1) 3 lm [f 1 1; f 5 1]) = Some (Ok [fs (f 13 2)]) | _ => False end) by (vm_compute; split; reflexivity).
  assert (H2 : match text3 with Ok m => shownl (omap (predictor_transform "regression") (predictor_raw tz 4 m [f 1 1; f 5 1])) = Some (Ok [fs (f 9 2)]) | _ => False end)
    by (vm_compute; reflexivity).
  destruct leaves3 as [[lm| |]|]; try contradiction. destruct text3 as [m| |]; try contradiction.
  exists lm, m, [f 1 1; f 5 1]. destruct H1. repeat split; assumption.
Qed.

(** C73 on the same file: the raw output is 5/2 on both sides of the first test. *)
Example C73_example : match text3 with
  | Ok m => shownl (model_raw tz 4 m [f 1 1; f 5 1]) = Some (Ok [fs (f 5 2)])
      /\ shownl (model_raw tz 4 m [f (-1) 1; f 5 1]) = Some (Ok [fs (f 5 2)])
  | _ => False end.
Proof. vm_compute. split; reflexivity. Qed.

(** ** C75.  Categorical tests of the compact layout *)

Lemma dfs_not_hot : forall (N : Num) (d : tdoc N) fuel K V ns ns', Forall (fun n => l_hot n = false) ns ->
  dfs fuel d K V ns = Some (Ok ns') -> Forall (fun n => l_hot n = false) ns'.
Proof.
  intros N d. assert (HC : forall i n, create_node d i = Ok n -> l_hot n = false).
  { intros i n. unfold create_node. destruct (nth_error (d_dtype d) i), (nth_error (d_feat d) i), (nth_error (d_thr d) i), (nth_error (d_left d) i), (nth_error (d_right d) i); try discriminate.
    intros E. now injection E as <-. }
  assert (HU : forall c k (ns : list (lnode N)), Forall (fun n => l_hot n = false) ns -> Forall (fun n => l_hot n = false) (upd c (set_left k) ns)).
  { intros c k ns. revert c. induction ns as [|n ns IH]; intros c H; [destruct c; constructor|]. inversion H; subst.
    destruct c; cbn; constructor; auto. }
  induction fuel as [|fuel IH]; intros K V ns ns' H E; [discriminate|]. cbn [dfs] in E.
  destruct K as [|[o c] K]; [now injection E as <-|]. destruct (nth_error ns c) as [n|]; [|discriminate].
  assert (HLft : (if l_lleaf n then dfs fuel d K V ns
                  else match nth_error (d_left d) o with
                       | None => Some (Err (EOther 1))
                       | Some lc =>
                           match enter V lc with
                           | None => dfs fuel d K V ns
                           | Some k =>
                               match create_node d k with
                               | Ok nd => dfs fuel d ((k, List.length ns) :: (o, c) :: K) (upd k (fun _ => true) V)
                                            (upd c (set_left (List.length ns)) ns ++ [nd])
                               | Err e => Some (Err e)
                               | Panic => Some Panic
                               end
                           end
                       end) = Some (Ok ns') -> Forall (fun n => l_hot n = false) ns').
  { clear E. destruct (l_lleaf n); [now apply IH|]. destruct (nth_error (d_left d) o) as [lc|]; [|discriminate].
    destruct (enter V lc) as [k|]; [|now apply IH]. destruct (create_node d k) as [nd| |] eqn:Ec; try discriminate.
    apply IH. apply Forall_app. split; [now apply HU|]. constructor; [eapply HC; exact Ec|constructor]. }
  destruct (l_rleaf n); [exact (HLft E)|]. destruct (nth_error (d_right d) o) as [rc|]; [|discriminate].
  destruct (enter V rc) as [k|]; [|exact (HLft E)]. destruct (create_node d k) as [nd| |] eqn:Ec; try discriminate.
  revert E. apply IH. apply Forall_app. split; [exact H|]. constructor; [eapply HC; exact Ec|constructor].
Qed.
Lemma build_not_hot : forall (N : Num) (j : jnode N) ns lv, Forall (fun n => l_hot n = false) ns ->
  Forall (fun n => l_hot n = false) (fst (snd (build_nodes j (ns, lv)))).
Proof.
  intros N. induction j as [|fl l IHl r IHr]; intros ns lv H; [exact H|]. cbn [build_nodes fst snd].
  destruct (is_nil l && is_nil r); [exact H|].
  assert (H1 : Forall (fun n => l_hot n = false) (ns ++ [json_lnode fl])) by (apply Forall_app; split; [exact H|now repeat constructor]).
  specialize (IHl _ lv H1). destruct (build_nodes l (ns ++ [json_lnode fl], lv)) as [lr [ns1 lv1]]. cbn [fst snd] in IHl.
  specialize (IHr _ lv1 IHl). destruct (build_nodes r (ns1, lv1)) as [rr [ns2 lv2]]. cbn [fst snd] in *.
  set (g := set_refs _ _ _). assert (Hg : forall n, l_hot (g n) = l_hot n) by reflexivity. clearbody g.
  revert IHr. generalize (List.length ns) as c.
  induction ns2 as [|n ns2 IH]; intros c F; [destruct c; constructor|]. inversion F; subst.
  destruct c; cbn; constructor; try rewrite Hg; auto.
Qed.

(** Both loaders: a categorical node sends every value to the right, whatever the
    categories in the file. *)
Theorem C75_categorical_goes_right : forall (N : Num) (toint32 : N -> Z) (zthr : N) (T : ltree N),
  (exists d first, read_tree first d = Some (Ok T)) \/ (exists shrink j, T = convert_json shrink j) ->
  forall n, In n (lt_nodes T) -> l_cat n = true -> forall v, decision toint32 zthr n v = false.
Proof.
  intros N toint32 zthr T H n Hn Hc v.
  assert (HH : l_hot n = false).
  { assert (F : Forall (fun n => l_hot n = false) (lt_nodes T)); [|rewrite Forall_forall in F; now apply F].
    destruct H as [[d [first E]]|[sh [j ->]]].
    - unfold read_tree in E. destruct (d_leaves d <? 1)%Z; [discriminate|]. destruct (d_leaves d =? 1)%Z; [injection E as <-; constructor|].
      destruct (create_node d 0) as [root| |] eqn:Ec; try discriminate.
      destruct (dfs _ d _ _ _) as [[ns| |]|] eqn:Ed; try discriminate. injection E as <-. cbn [lt_nodes].
      eapply dfs_not_hot; [|exact Ed]. constructor; [|constructor]. revert Ec. unfold create_node.
      destruct (nth_error (d_dtype d) 0), (nth_error (d_feat d) 0), (nth_error (d_thr d) 0), (nth_error (d_left d) 0), (nth_error (d_right d) 0); try discriminate.
      intros E. now injection E as <-.
    - destruct j as [|fl l r]; [constructor|]. unfold convert_json. destruct (is_nil l && is_nil r); [constructor|].
      cbn [lt_nodes]. apply build_not_hot. constructor. }
  unfold decision. rewrite Hc. unfold cat_decision. rewrite HH.
  destruct (toint32 v <? 0)%Z; [reflexivity|]. now destruct (nisnan v && l_mnan n).
Qed.
(** The category 1 itself goes right: a text tree "x in {1}" with leaves 10 and 20. *)
Definition doccat : tdoc F0 := mkdoc 2 (f 1 1) [f 10 1; f 20 1] [] [-1]%Z [-2]%Z [1]%Z [0] [f 0 1].
Example C75_example : match read_tree true doccat with
  | Some (Ok T) => List.map l_cat (lt_nodes T) = [true]
      /\ shown (lpredict (fun _ => 1%Z) (f 0 1) 1 T [f 1 1]) = Some (Ok (fs (f 20 1)))
  | _ => False end.
Proof. vm_compute. split; reflexivity. Qed.

(** ** C76.  Malformed files make prediction run forever *)

(** A two-leaf tree whose left child reference is 0 (itself) is accepted by the compact
    loader; for a sample going left the walk never ends. *)
Definition docloop : tdoc F0 := mkdoc 2 (f 1 1) [f 1 1; f 2 1] [] [0]%Z [-1]%Z [0]%Z [0] [f 0 1].
Definition loopnode (k : nat) : lnode F0 := mkln (f 0 1) k 0 0 false false false true false false false.
Theorem C76_leaves_runs_forever_refuted : exists T x, read_tree true docloop = Some (Ok T)
  /\ forall fuel, lpredict tz (f 1 1000000) fuel T x = None.
Proof.
  exists (mklt [loopnode 1; loopnode 0] [f 1 1; f 2 1] (f 1 1) (f 0 1)), [f (-1) 1]. split; [reflexivity|].
  assert (D : forall k, decision tz (f 1 1000000) (loopnode k) (f (-1) 1) = true) by (intros k; vm_compute; reflexivity).
  assert (W : forall fuel, lwalk tz (f 1 1000000) fuel (mklt [loopnode 1; loopnode 0] [f 1 1; f 2 1] (f 1 1) (f 0 1)) 0 [f (-1) 1] = None
           /\ lwalk tz (f 1 1000000) fuel (mklt [loopnode 1; loopnode 0] [f 1 1; f 2 1] (f 1 1) (f 0 1)) 1 [f (-1) 1] = None).
  { induction fuel as [|fuel [IH0 IH1]]; [split; reflexivity|]. split.
    - cbn [lwalk lt_nodes nth_error loopnode l_feat]. change (mkln (f 0 1) 1 0 0 false false false true false false false) with (loopnode 1).
      rewrite D. exact IH1.
    - cbn [lwalk lt_nodes nth_error loopnode l_feat]. change (mkln (f 0 1) 0 0 0 false false false true false false false) with (loopnode 0).
      rewrite D. exact IH0. }
  intros fuel. exact (proj1 (W fuel)).
Qed.

(** predictTree counts its rounds to stop on cycles, but not those following the default
    direction: a tree with children 0, 0 and a feature index beyond the sample. *)
Definition docguard : tdoc F0 := mkdoc 2 (f 1 1) [f 1 1; f 2 1] [] [0]%Z [0]%Z [0]%Z [7] [f 0 1].
Theorem C76_predictor_runs_forever_refuted : exists T x, finalize true docguard = Ok T
  /\ forall fuel, predict_tree tz fuel T x = None.
Proof.
  exists (mkgt [mkgn 0 0 TNum 7 (f 0 1) [] false (f 0 1) (f 0 1) (f 0 1)] [f 1 1; f 2 1] (f 1 1) (f 0 1) 2), [f 1 1].
  split; [reflexivity|]. unfold predict_tree. cbn [gt_nodes List.length Nat.mul Nat.add].
  induction fuel as [|fuel IH]; [reflexivity|]. exact IH.
Qed.

(** ** C77.  LeavesPredictor: batch and single-row prediction *)

(** They agree on every row when the initial score is zero, and for more than two
    classes. *)
Theorem C77_batch_is_single : forall (N : Num) (toint32 : N -> Z) (zthr : N) (m : lmodel N) fuel x,
  (lm_init m = n0 \/ (2 < lm_class m)%Z /\ neqb (lm_init m) n0 = false) ->
  leaves_batch_row toint32 zthr fuel m x = leaves_single toint32 zthr fuel m x.
Proof.
  intros N toint32 zthr m fuel x [H|[H1 H2]]; unfold leaves_batch_row, leaves_single.
  - rewrite H. now destruct (neqb n0 n0), (2 <? lm_class m)%Z.
  - apply Z.ltb_lt in H1. now rewrite H1, H2.
Qed.
(** For the model of [doc3] PredictBatch gives 6.5 where PredictSingle gives 4. *)
Theorem C77_batch_differs_refuted : exists lm x, leaves3 = Some (Ok lm)
  /\ shownl (leaves_single tz (f 0 1) 3 lm x) = Some (Ok [fs (f 4 1)])
  /\ shownl (leaves_batch_row tz (f 0 1) 3 lm x) = Some (Ok [fs (f 13 2)]).
Proof.
  assert (H1 : match leaves3 with Some (Ok lm) => shownl (leaves_single tz (f 0 1) 3 lm [f 1 1; f 5 1]) = Some (Ok [fs (f 4 1)])
      /\ shownl (leaves_batch_row tz (f 0 1) 3 lm [f 1 1; f 5 1]) = Some (Ok [fs (f 13 2)]) | _ => False end) by (vm_compute; split; reflexivity).
  destruct leaves3 as [[lm| |]|]; try contradiction. exists lm, [f 1 1; f 5 1]. destruct H1. repeat split; assumption.
Qed.

(** With several classes, the raw score of class c is the initial score plus the outputs of the
    trees number c, c+k, c+2k, ..., added in this order. *)
Lemma accumulate_nth {N : Num} (add : N -> N -> N) k init (outs : list N) c : c < k ->
  nth_error (accumulate add k init outs) c = Some (fold_left add (class_outputs k c outs) init).
Proof.
  intros Hc. unfold accumulate, class_outputs. generalize (combine (seq 0 (List.length outs)) outs). intros l.
  assert (K : forall acc a, nth_error acc c = Some a ->
    nth_error (fold_left (fun acc io => upd (Nat.modulo (fst io) k) (fun v => add v (snd io)) acc) l acc) c
    = Some (fold_left add (map snd (filter (fun io => Nat.eqb (Nat.modulo (fst io) k) c) l)) a)).
  { induction l as [|io l IH]; intros acc a Ha; cbn [fold_left filter map]; [exact Ha|].
    destruct (Nat.eqb_spec (Nat.modulo (fst io) k) c) as [E|E].
    - cbn [map fold_left]. apply IH. rewrite E, nth_error_upd_same, Ha. reflexivity.
    - apply IH. rewrite nth_error_upd_other by congruence. exact Ha. }
  apply K. rewrite nth_error_repeat by exact Hc. reflexivity.
Qed.
Theorem C77_classes : forall (N : Num) (toint32 : N -> Z) (zthr : N) (m : lmodel N) fuel x outs k,
  (2 < lm_class m)%Z -> k = Z.to_nat (lm_class m) ->
  Forall2 (fun t o => lpredict toint32 zthr fuel t x = Some (Ok o)) (lm_trees m) outs ->
  exists raw, leaves_raw toint32 zthr fuel m x = Some (Ok raw) /\ List.length raw = k
    /\ forall c, c < k -> nth_error raw c = Some (fold_left nadd (class_outputs k c outs) (lm_init m)).
Proof.
  intros N toint32 zthr m fuel x outs k Hk -> HF.
  assert (E : sequence (fun t => lpredict toint32 zthr fuel t x) (lm_trees m) = Some (Ok outs)).
  { induction HF as [|t o ts os H _ IH]; [reflexivity|]. cbn [sequence]. now rewrite H, IH. }
  assert (Hn : leaves_count m = Z.to_nat (lm_class m)) by (unfold leaves_count; apply Z.ltb_lt in Hk; now rewrite Hk).
  unfold leaves_raw, leaves_sum. rewrite E, Hn. eexists. split; [reflexivity|]. split.
  - unfold accumulate. generalize (combine (seq 0 (List.length outs)) outs). intros l.
    assert (K : forall acc, List.length (fold_left (fun acc io => upd (Nat.modulo (fst io) (Z.to_nat (lm_class m))) (fun v => nadd v (snd io)) acc) l acc) = List.length acc).
    { induction l as [|io l IH]; intros acc; [reflexivity|]. cbn [fold_left]. now rewrite IH, upd_length. }
    rewrite K. apply repeat_length.
  - intros c Hc. now apply accumulate_nth.
Qed.
Example C77_classes_example : map fs (class_outputs 3 1 [f 1 1; f 2 1; f 3 1; f 4 1; f 5 1; f 6 1]) = map fs [f 2 1; f 5 1].
Proof. vm_compute. reflexivity. Qed.

(** ** C78.  Saving a model read from a text file as JSON loses its leaf values *)

(** The reloaded tree contributes 0 for every sample. *)
Theorem C78_leaf_values_lost : forall (N : Num) (roundint : N -> Z) (d : tdoc N) t first fuel,
  well_formed d t -> isize t < fuel ->
  exists T, finalize first d = Ok T /\
  forall T', reload_tree fuel T = Some (Ok T') -> forall x, fits x t -> ~ has_nan x ->
    predict_tree roundint fuel T' x = Some (Ok n0).
Proof.
  intros N roundint d t first fuel W Hf. destruct (finalize_spec d t first W) as [ns [E [Hl HF]]].
  exists (mkgt ns (d_lv d) (d_shrink d) (if first then match d_ival d with [] => n0 | v :: _ => v end else n0) (d_leaves d)).
  split; [exact E|]. intros T' E' x Hx Hn. destruct W as [is [ls [D [Hnd [Hls _]]]]].
  pose proof (describes_inner _ _ _ _ _ D) as Hi. cbn in Hi.
  unfold reload_tree in E'. cbn [gt_nodes gt_shrink gt_nleaves] in E'.
  destruct (dump_text d (mkgt ns (d_lv d) (d_shrink d) (if first then match d_ival d with [] => n0 | v :: _ => v end else n0) (d_leaves d)) HF t 0 is ls fuel D Hf Hi) as [j [Ej Hj]].
  destruct ns as [|n ns].
  { destruct (describes_node _ _ _ _ _ D Hi) as [i0 [is0 [Ei0 ->]]].
    destruct (describes_range _ _ _ _ _ D i0 (or_introl eq_refl)) as [Hr _]. cbn in Hl. lia. }
  rewrite Ej in E'. destruct (finite (d_shrink d) && json_ok j); [|discriminate]. injection E' as <-.
  destruct (flatten_text roundint j t Hj []) as [L [EL [HL HP]]]. rewrite EL. cbn [snd app gt_nodes]. unfold predict_tree. cbn [gt_nodes].
  specialize (HP [] []). rewrite app_nil_r in HP. cbn [app List.length] in HP. rewrite Hi in HP. apply HP; try assumption; try reflexivity.
  - apply Forall_forall. intros v Hv. destruct (nisnan v) eqn:Ev; [|reflexivity]. exfalso. apply Hn. now exists v.
  - lia.
Qed.
Example C78_example : match finalize true doc3 with
  | Ok T => match reload_tree 4 T with
            | Some (Ok T') => shown (predict_tree tz 4 T [f 1 1; f 5 1]) = Some (Ok (fs (f 4 1)))
                /\ shown (predict_tree tz 4 T' [f 1 1; f 5 1]) = Some (Ok (fs (f 0 1)))
            | _ => False end
  | _ => False end.
Proof. vm_compute. split; reflexivity. Qed.

Print Assumptions C41_compact_layout.
Print Assumptions C41_loading_ends.
Print Assumptions C42_json_layout.
Print Assumptions C42_chain_trees.
Print Assumptions C42_misrouted_refuted.
Print Assumptions C43_trees.
Print Assumptions C43_model.
Print Assumptions C43_initial_score_refuted.
Print Assumptions C73_trees_ignored.
Print Assumptions C74_leaves_predictor.
Print Assumptions C74_predictor.
Print Assumptions C74_predictors_disagree_refuted.
Print Assumptions C75_categorical_goes_right.
Print Assumptions C76_leaves_runs_forever_refuted.
Print Assumptions C76_predictor_runs_forever_refuted.
Print Assumptions C77_batch_is_single.
Print Assumptions C77_classes.
Print Assumptions C77_batch_differs_refuted.
Print Assumptions C78_leaf_values_lost.
