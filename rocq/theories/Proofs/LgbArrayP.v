(** Proofs about the array layout of sklearn/lightgbm: JSON dump and reload, trees read
    from the text format, ensembles. *)
From Coq Require Import String List Arith ZArith Bool Lia.
From Verif Require Import Base.Num Base.GoRes Base.Mat Base.ListX Model.LgbTransform Model.LgbTree Spec.LgbTree Proofs.LgbTreeP.
Import ListNotations.
Local Open Scope list_scope.

Lemma getZ_app {A} (l m : list A) z v : getZ l z = Some v -> getZ (l ++ m) z = Some v.
Proof.
  unfold getZ. destruct (z <? 0)%Z; [discriminate|]. intros H. rewrite nth_error_app1; [exact H|].
  apply nth_error_Some. congruence.
Qed.
Lemma getZ_pos {A} (l : list A) z : (0 <= z)%Z -> getZ l z = nth_error l (Z.to_nat z).
Proof. intros H. unfold getZ. destruct (Z.ltb_spec z 0); [lia|reflexivity]. Qed.
Lemma getZ_some {A} (l : list A) z v : getZ l z = Some v -> (0 <= z)%Z.
Proof. unfold getZ. destruct (Z.ltb_spec z 0); [discriminate|lia]. Qed.

Lemma Forall2_len {A B} (R : A -> B -> Prop) l m : Forall2 R l m -> List.length l = List.length m.
Proof. induction 1; cbn; congruence. Qed.

Section P.
  Context {N : Num}.
  Variables toint32 toint roundint : N -> Z.
  Variable zthr : N.

  (** ** Walking a stored tree *)
  Lemma gwalk_stores (T : gtree N) x : forall t id fuel, stores (gt_nodes T) id t -> isize t < fuel ->
    gwalk toint fuel T id x = Some (match eval (passes zthr) t x with Some v => Ok v | None => Panic end).
  Proof.
    induction t as [v|q l IHl r IHr]; intros id fuel S Hf; (destruct fuel as [|fuel]; [lia|]).
    - inversion S as [id' n E T1 L|]; subst. cbn [gwalk]. now rewrite E, L.
    - inversion S as [|id' n l' r' E T1 Hl Hr Hq SL SR]; subst. cbn [gwalk eval q_feat]. rewrite E.
      replace (g_isleaf n) with false by (symmetry; unfold g_isleaf; apply andb_false_intro1, Z.eqb_neq; lia).
      rewrite (getZ_pos x _ Hq). destruct (nth_error x (Z.to_nat (g_feat n))) as [v|]; [|reflexivity].
      unfold passes. cbn [q_missing q_left q_thr]. unfold g_default. cbn [isize] in Hf.
      destruct (nisnan v).
      + destruct (g_defl n); [apply IHl|apply IHr]; try assumption; lia.
      + rewrite T1. destruct (nle v (g_thr n)); [apply IHl|apply IHr]; try assumption; lia.
  Qed.

  (** ** Dump and reload *)
  Inductive dumped : jnode N -> btree N -> Prop :=
  | du_leaf f : dumped (JNode f JNil JNil) (BLeaf (j_leaf f))
  | du_node f l r tl tr : (0 <= j_feat f)%Z -> dumped l tl -> dumped r tr ->
      dumped (JNode f l r) (BNode (mktest (Z.to_nat (j_feat f)) (j_thr f) MissNaN (j_defl f)) tl tr).

  Lemma dump_stores (T : gtree N) : forall t id fuel, stores (gt_nodes T) id t -> isize t < fuel ->
    exists j, dump_node fuel T id = Some j /\ dumped j t
      /\ (@finite N n0 = true -> forallb node_finite (gt_nodes T) = true -> json_ok j = true).
  Proof.
    induction t as [v|q l IHl r IHr]; intros id fuel S Hf; (destruct fuel as [|fuel]; [lia|]).
    - inversion S as [id' n E T1 L|]; subst. cbn [dump_node]. rewrite E, T1. eexists. split; [reflexivity|]. split.
      + apply (du_leaf (mkjf 0 n0 n0 false [] "" false n0 (g_leaf n))).
      + intros F0 F. cbn [json_ok j_gain j_thr j_ival j_leaf]. rewrite F0. cbn [andb].
        assert (Hn : node_finite n = true) by (eapply forallb_forall; [exact F|]; unfold getZ in E; destruct (id <? 0)%Z; [discriminate|]; eapply nth_error_In; exact E).
        unfold node_finite in Hn. rewrite T1 in Hn. now rewrite Hn.
    - inversion S as [|id' n l' r' E T1 Hl Hr Hq SL SR]; subst. cbn [dump_node]. rewrite E, T1. cbn [isize] in Hf.
      replace (g_left n <? 0)%Z with false by (symmetry; apply Z.ltb_ge; lia).
      replace (g_right n <? 0)%Z with false by (symmetry; apply Z.ltb_ge; lia).
      destruct (IHl _ fuel SL ltac:(lia)) as [jl [-> [DL FL]]]. destruct (IHr _ fuel SR ltac:(lia)) as [jr [-> [DR FR]]].
      eexists. split; [reflexivity|]. split.
      + apply (du_node (mkjf (g_feat n) (g_gain n) (g_thr n) false [] "None" (g_defl n) (g_ival n) n0)); assumption.
      + intros F0 F. cbn [json_ok j_gain j_thr j_ival j_leaf]. rewrite F0, FL, FR by assumption.
        assert (Hn : node_finite n = true) by (eapply forallb_forall; [exact F|]; unfold getZ in E; destruct (id <? 0)%Z; [discriminate|]; eapply nth_error_In; exact E).
        unfold node_finite in Hn. rewrite T1 in Hn. now rewrite Hn.
  Qed.

  Lemma stores_app ns M id t : stores ns id t -> stores (ns ++ M) id t (N := N).
  Proof.
    intros H. induction H as [id n E T1 L|id n l r E T1 Hl Hr Hq SL IHl SR IHr].
    - eapply st_leaf; eauto using getZ_app.
    - eapply st_node; eauto using getZ_app.
  Qed.

  Lemma dumped_not_nil j t : dumped j t -> is_nil (reread j) = false.
  Proof. intros H. now inversion H. Qed.

  Lemma flatten_spec : forall j t, dumped j t -> forall nodes,
    exists L, flatten (reread j) nodes = (Z.of_nat (List.length nodes), nodes ++ L)
      /\ forall P, List.length P = List.length nodes -> stores (P ++ L) (Z.of_nat (List.length nodes)) (map_tree omit t).
  Proof.
    intros j t H. induction H as [f|f l r tl tr Hf JL IHl JR IHr]; intros nodes.
    - cbn [reread flatten is_nil andb]. eexists. split; [reflexivity|]. intros P HP. cbn [map_tree].
      eapply (st_leaf _ _ (mkgn (-1) (-1) TLeaf 0 n0 [] false n0 (omit (j_leaf f)) n0)); [|reflexivity|reflexivity].
      rewrite getZ_nat, <- HP. apply nth_error_snoc.
    - cbn [reread flatten]. rewrite (dumped_not_nil _ _ JL). cbn [andb].
      set (g := mkgn 0 0 TNum _ _ _ _ _ _ _).
      destruct (IHl (nodes ++ [g])) as [L1 [-> S1]]. destruct (IHr ((nodes ++ [g]) ++ L1)) as [L2 [-> S2]].
      set (lc := Z.of_nat (List.length (nodes ++ [g]))). set (rc := Z.of_nat (List.length ((nodes ++ [g]) ++ L1))).
      exists (set_children lc rc g :: L1 ++ L2). rewrite <- !app_assoc. cbn [app]. rewrite upd_mid. split; [reflexivity|].
      intros P HP. cbn [map_tree q_feat q_thr q_missing q_left].
      apply (st_node _ _ (set_children lc rc g)).
      + rewrite getZ_nat, <- HP, nth_error_app2, Nat.sub_diag by lia. reflexivity.
      + reflexivity.
      + cbn. lia.
      + cbn. lia.
      + exact Hf.
      + cbn [set_children g_left].
        replace (P ++ set_children lc rc g :: L1 ++ L2) with (((P ++ [set_children lc rc g]) ++ L1) ++ L2) by (now rewrite <- !app_assoc).
        apply stores_app, S1. rewrite !app_length, HP. reflexivity.
      + cbn [set_children g_right].
        replace (P ++ set_children lc rc g :: L1 ++ L2) with (((P ++ [set_children lc rc g]) ++ L1) ++ L2) by (now rewrite <- !app_assoc).
        apply S2. rewrite !app_length, HP. reflexivity.
  Qed.

  Lemma isize_map g (t : btree N) : isize (map_tree g t) = isize t.
  Proof. induction t as [v|q l IHl r IHr]; cbn; congruence. Qed.

  Lemma reload_spec (T : gtree N) t fuel : stores (gt_nodes T) 0 t -> isize t < fuel ->
    (reload_tree fuel T = Some (Err (EOther 4))
     \/ exists T', reload_tree fuel T = Some (Ok T') /\ stores (gt_nodes T') 0 (map_tree omit t) /\ gt_shrink T' = gt_shrink T)
    /\ (@finite N n0 = true -> finite (gt_shrink T) = true -> forallb node_finite (gt_nodes T) = true ->
        exists T', reload_tree fuel T = Some (Ok T')).
  Proof.
    intros S Hf. unfold reload_tree.
    destruct (gt_nodes T) as [|n ns] eqn:E; [inversion S; discriminate|]. rewrite <- E in S |- *.
    destruct (dump_stores T t 0 fuel S Hf) as [j [-> [D FJ]]].
    destruct (flatten_spec j t D []) as [L [EF SF]]. rewrite EF. cbn [snd app] in *. split.
    - destruct (finite (gt_shrink T) && json_ok j); [|now left]. right. eexists. split; [reflexivity|].
      split; [|reflexivity]. exact (SF [] eq_refl).
    - intros F0 F1 F2. rewrite F1, FJ by assumption. eexists. reflexivity.
  Qed.

  Lemma eval_omit (t : btree N) x (z : N) : (forall u v : N, neqb v n0 = true -> nle u v = nle u n0) ->
    eval (passes z) (map_tree omit t) x = option_map omit (eval (passes z) t x).
  Proof.
    intros law. induction t as [v|q l IHl r IHr]; [reflexivity|]. cbn [map_tree eval q_feat].
    destruct (nth_error x (q_feat q)) as [v|]; [|reflexivity].
    assert (E : forall u, nle u (omit (q_thr q)) = nle u (q_thr q)).
    { intros u. unfold omit. destruct (neqb (q_thr q) n0) eqn:E; [|reflexivity]. symmetry. now apply law. }
    replace (passes z (mktest (q_feat q) (omit (q_thr q)) (q_missing q) (q_left q)) v) with (passes z q v).
    - destruct (passes z q v); assumption.
    - unfold passes. cbn [q_missing q_thr q_left]. now rewrite !E.
  Qed.

  (** ** Trees read from the text format *)
  Lemma mapM_ok {A B} (f : A -> res B) : forall l, (forall a, In a l -> exists b, f a = Ok b) ->
    exists bs, mapM f l = Ok bs /\ Forall2 (fun a b => f a = Ok b) l bs.
  Proof.
    induction l as [|a l IH]; intros H; [exists []; split; [reflexivity|constructor]|].
    destruct (H a (or_introl eq_refl)) as [b Eb]. destruct IH as [bs [E F]]; [intros a' Ha; apply H; now right|].
    exists (b :: bs). split; [|now constructor]. cbn. rewrite Eb. cbn. rewrite E. reflexivity.
  Qed.
  Lemma Forall2_seq {B} (R : nat -> B -> Prop) : forall bs s k, Forall2 R (seq s k) bs -> forall i b, nth_error bs i = Some b -> R (s + i) b.
  Proof.
    intros bs s k. revert bs s. induction k as [|k IH]; intros bs s H; inversion H; subst; intros [|i] b E; cbn in E; try discriminate.
    - injection E as <-. now rewrite Nat.add_0_r.
    - rewrite <- Nat.add_succ_comm. now apply (IH l').
  Qed.

  Definition fin_node (d : tdoc N) (ns : list (gnode N)) : Prop :=
    forall i f th code lc rc, nth_error (d_feat d) i = Some f -> nth_error (d_thr d) i = Some th ->
      nth_error (d_dtype d) i = Some code -> nth_error (d_left d) i = Some lc -> nth_error (d_right d) i = Some rc ->
      nth_error ns i = Some (mkgn lc rc TNum (Z.of_nat f) th [] (Z.testbit code 1) n0 n0 n0).

  Lemma finalize_spec (d : tdoc N) t first : well_formed d t ->
    exists ns, finalize first d = Ok (mkgt ns (d_lv d) (d_shrink d)
        (if first then match d_ival d with [] => n0 | v :: _ => v end else n0) (d_leaves d))
      /\ List.length ns = List.length (d_left d) /\ fin_node d ns.
  Proof.
    intros [is [ls [D [_ [_ [E1 [E2 [E3 [E4 E5]]]]]]]]]. unfold finalize.
    pose proof (describes_inner _ _ _ _ _ D) as Hi. cbn in Hi.
    destruct (describes_node _ _ _ _ _ D Hi) as [i [is' [Ei ->]]]. destruct i as [|i]; [|lia].
    destruct (describes_range _ _ _ _ _ D 0 (or_introl eq_refl)) as [R1 _].
    replace (d_leaves d =? 1)%Z with false by (symmetry; apply Z.eqb_neq; lia).
    match goal with |- context [mapM ?f _] => set (g := f) end.
    destruct (mapM_ok g (seq 0 (List.length (d_feat d)))) as [ns [-> F]].
    { intros i Hs. apply in_seq in Hs. unfold g.
      destruct (nth_error (d_left d) i) eqn:X1; [|apply nth_error_None in X1; lia].
      destruct (nth_error (d_right d) i) eqn:X2; [|apply nth_error_None in X2; lia].
      destruct (nth_error (d_feat d) i) eqn:X3; [|apply nth_error_None in X3; lia].
      destruct (nth_error (d_thr d) i) eqn:X4; [|apply nth_error_None in X4; lia]. eexists. reflexivity. }
    exists ns. split; [reflexivity|]. pose proof (Forall2_len _ _ _ F) as HL. rewrite seq_length in HL. split; [lia|].
    intros i f th code lc rc H1 H2 H3 H4 H5.
    assert (Hin : i < List.length ns) by (rewrite <- HL; apply nth_error_Some; congruence).
    destruct (nth_error ns i) as [n|] eqn:En; [|apply nth_error_None in En; lia].
    pose proof (Forall2_seq _ _ _ _ F _ _ En) as G. cbn in G. unfold g in G. rewrite H1, H2, H3, H4, H5 in G. now injection G as <-.
  Qed.

  (** no node has two leaf children -1, -1 *)
  Lemma not_marked_leaf (d : tdoc N) l r il ir ll lr lc rc :
    describes d lc l il ll -> describes d rc r ir lr -> NoDup (ll ++ lr) ->
    ((lc =? -1)%Z && (rc =? -1)%Z) = false.
  Proof.
    intros D1 D2 H. destruct (Z.eqb_spec lc (-1)) as [->|]; [|reflexivity]. destruct (Z.eqb_spec rc (-1)) as [->|]; [|reflexivity].
    exfalso. inversion D1 as [k1 v1 _ Ek1|]; [|lia]. inversion D2 as [k2 v2 _ Ek2|]; [|lia]. subst.
    assert (k1 = k2) by lia. subst. cbn in H. inversion H; subst. apply H2. now left.
  Qed.

  (** Model.Predict's tree walk never reaches a leaf value *)
  Lemma gwalk_text (d : tdoc N) (T : gtree N) x : fin_node d (gt_nodes T) -> forall t c is ls fuel,
    describes d c t is ls -> NoDup ls -> isize t < fuel ->
    gwalk toint fuel T c x = Some (match eval plain_left t x with Some _ => Ok n0 | None => Panic end).
  Proof.
    intros HF. induction t as [v|q l IHl r IHr]; intros c is ls fuel D Hls Hf; (destruct fuel as [|fuel]; [lia|]).
    - inversion D; subst. cbn [gwalk]. rewrite getZ_neg by lia. reflexivity.
    - inversion D as [|i f th code lc rc l' r' il ir ll lr E1 E2 E3 E4 E5 E6 DL DR]; subst. cbn [gwalk eval isize] in *.
      rewrite getZ_nat, (HF i f th code lc rc) by assumption. unfold g_isleaf, g_default. cbn [g_left g_right g_feat g_defl g_type g_thr test_of q_feat].
      rewrite (not_marked_leaf d _ _ _ _ _ _ _ _ DL DR Hls). rewrite getZ_nat.
      destruct (nth_error x f) as [v|]; [|reflexivity]. unfold plain_left at 1. cbn [test_of q_left q_thr].
      assert (HL : NoDup ll) by (now apply NoDup_app_remove_r in Hls).
      assert (HR : NoDup lr) by (now apply NoDup_app_remove_l in Hls).
      destruct (nisnan v); [destruct (Z.testbit code 1)|destruct (nle v th)];
        first [eapply IHl; [exact DL|exact HL|lia] | eapply IHr; [exact DR|exact HR|lia]].
  Qed.

  (** predictTree *)
  Lemma pwalk_text (d : tdoc N) (T : gtree N) x : fin_node d (gt_nodes T) -> gt_leaves T = d_lv d ->
    Forall (fun v => nisnan v = false) x -> forall t c is ls fuel guard,
    describes d c t is ls -> NoDup ls -> inner t = true -> isize t <= fuel -> isize t <= guard ->
    (forall f, In f (feats t) -> f < List.length x) ->
    exists w, eval close_left t x = Some w /\ pwalk roundint fuel guard T c x = Some (Ok (ensure w)).
  Proof.
    intros HF HLv Hnan. induction t as [v|q l IHl r IHr]; intros c is ls fuel guard D Hls Hi Hf Hg Hx; [discriminate|].
    inversion D as [|i f th code lc rc l' r' il ir ll lr E1 E2 E3 E4 E5 E6 DL DR]; subst. cbn [eval isize feats] in *.
    destruct fuel as [|fuel]; [lia|]. destruct guard as [|guard]; [lia|]. cbn [pwalk].
    rewrite getZ_nat, (HF i f th code lc rc) by assumption. unfold g_isleaf, g_default. cbn [g_left g_right g_feat g_defl g_type g_thr test_of q_feat].
    rewrite (not_marked_leaf d _ _ _ _ _ _ _ _ DL DR Hls). rewrite getZ_nat.
    assert (Hfx : f < List.length x) by (apply Hx; now left).
    replace (Z.of_nat (List.length x) <=? Z.of_nat f)%Z with false by (symmetry; apply Z.leb_gt; lia).
    destruct (nth_error x f) as [v|] eqn:Ev; [|apply nth_error_None in Ev; lia].
    assert (Hv : nisnan v = false) by (rewrite Forall_forall in Hnan; apply Hnan; eapply nth_error_In; exact Ev).
    rewrite Hv. change (close_left (test_of f th code) v) with (le_precise v th).
    assert (HL : NoDup ll) by (now apply NoDup_app_remove_r in Hls).
    assert (HR : NoDup lr) by (now apply NoDup_app_remove_l in Hls).
    destruct (le_precise v th); unfold follow.
    - destruct l as [w|ql l1 l2].
      + inversion DL as [k w' Ek|]; subst. replace (- Z.of_nat k - 1 <? 0)%Z with true by (symmetry; apply Z.ltb_lt; lia).
        replace (- (- Z.of_nat k - 1) - 1)%Z with (Z.of_nat k) by lia. rewrite getZ_nat, HLv, Ek. exists w. split; reflexivity.
      + destruct (describes_node _ _ _ _ _ DL eq_refl) as [k [il' [-> _]]].
        replace (Z.of_nat k <? 0)%Z with false by (symmetry; apply Z.ltb_ge; lia).
        eapply IHl; [exact DL|exact HL|reflexivity|lia|lia|]. intros f' Hf'. apply Hx. right. apply in_or_app. now left.
    - destruct r as [w|qr r1 r2].
      + inversion DR as [k w' Ek|]; subst. replace (- Z.of_nat k - 1 <? 0)%Z with true by (symmetry; apply Z.ltb_lt; lia).
        replace (- (- Z.of_nat k - 1) - 1)%Z with (Z.of_nat k) by lia. rewrite getZ_nat, HLv, Ek. exists w. split; reflexivity.
      + destruct (describes_node _ _ _ _ _ DR eq_refl) as [k [il' [-> _]]].
        replace (Z.of_nat k <? 0)%Z with false by (symmetry; apply Z.ltb_ge; lia).
        eapply IHr; [exact DR|exact HR|reflexivity|lia|lia|]. intros f' Hf'. apply Hx. right. apply in_or_app. now right.
  Qed.

  (** *** Dump and reload of a tree read from the text format *)
  Lemma omit_0 : @omit N n0 = n0.
  Proof. unfold omit. now destruct (neqb n0 n0). Qed.
  Lemma ensure_0 : @ensure N n0 = n0.
  Proof. unfold ensure. destruct (nisnan n0 || nisinf n0); [reflexivity|]. now destruct (nlt (nabs n0) peps). Qed.

  Inductive emptied : jnode N -> btree N -> Prop :=
  | em_leaf v : emptied JNil (BLeaf v)
  | em_node f l r q tl tr : q_feat q = Z.to_nat (j_feat f) -> (0 <= j_feat f)%Z -> j_leaf f = n0 ->
      emptied l tl -> emptied r tr -> emptied (JNode f l r) (BNode q tl tr).

  Lemma dump_text (d : tdoc N) (T : gtree N) : fin_node d (gt_nodes T) -> forall t c is ls fuel,
    describes d c t is ls -> isize t < fuel -> inner t = true ->
    exists j, dump_node fuel T c = Some j /\ emptied j t.
  Proof.
    intros HF. induction t as [v|q l IHl r IHr]; intros c is ls fuel D Hf Hi; [discriminate|]. destruct fuel as [|fuel]; [lia|].
    inversion D as [|i f th code lc rc l' r' il ir ll lr E1 E2 E3 E4 E5 E6 DL DR]; subst. cbn [dump_node isize] in *.
    rewrite getZ_nat, (HF i f th code lc rc) by assumption. cbn [g_type g_left g_right g_feat g_gain g_thr g_defl g_ival].
    assert (HL : exists j, (if (lc <? 0)%Z then Some JNil else dump_node fuel T lc) = Some j /\ emptied j l).
    { destruct l as [v|ql l1 l2].
      - inversion DL; subst. replace (- Z.of_nat k - 1 <? 0)%Z with true by (symmetry; apply Z.ltb_lt; lia). eexists. split; [reflexivity|constructor].
      - destruct (describes_node _ _ _ _ _ DL eq_refl) as [k [il' [-> ->]]].
        replace (Z.of_nat k <? 0)%Z with false by (symmetry; apply Z.ltb_ge; lia). eapply IHl; [exact DL|lia|reflexivity]. }
    assert (HR : exists j, (if (rc <? 0)%Z then Some JNil else dump_node fuel T rc) = Some j /\ emptied j r).
    { destruct r as [v|qr r1 r2].
      - inversion DR; subst. replace (- Z.of_nat k - 1 <? 0)%Z with true by (symmetry; apply Z.ltb_lt; lia). eexists. split; [reflexivity|constructor].
      - destruct (describes_node _ _ _ _ _ DR eq_refl) as [k [il' [-> ->]]].
        replace (Z.of_nat k <? 0)%Z with false by (symmetry; apply Z.ltb_ge; lia). eapply IHr; [exact DR|lia|reflexivity]. }
    destruct HL as [jl [-> EL]]. destruct HR as [jr [-> ER]]. eexists. split; [reflexivity|].
    constructor; try assumption; cbn; [now rewrite Nat2Z.id|lia|reflexivity].
  Qed.

  Lemma flatten_text : forall j t, emptied j t -> forall nodes,
    exists L, flatten (reread j) nodes = ((if inner t then Z.of_nat (List.length nodes) else (-1)%Z), nodes ++ L)
      /\ List.length L = isize t
      /\ forall P Q x sh iv nl, List.length P = List.length nodes -> Forall (fun v => nisnan v = false) x ->
           (forall f, In f (feats t) -> f < List.length x) -> forall fuel guard, isize t < fuel -> isize t <= guard ->
           pwalk roundint fuel guard (mkgt ((P ++ L) ++ Q) [] sh iv nl) (if inner t then Z.of_nat (List.length nodes) else (-1)%Z) x = Some (Ok n0).
  Proof.
    intros j t H. induction H as [v|f l r q tl tr Eq Hf El EL IHl ER IHr]; intros nodes.
    - exists []. rewrite app_nil_r. split; [reflexivity|]. split; [reflexivity|]. intros.
      destruct fuel as [|fuel]; [cbn in *; lia|]. reflexivity.
    - cbn [reread flatten]. destruct (is_nil (reread l) && is_nil (reread r)) eqn:En.
      + eexists. split; [reflexivity|]. apply andb_prop in En. destruct En as [Enl Enr].
        assert (Etl : isize tl = 0) by (inversion EL; subst; [reflexivity|discriminate]).
        assert (Etr : isize tr = 0) by (inversion ER; subst; [reflexivity|discriminate]).
        split; [cbn; lia|]. intros P Q x sh iv nl HP Hx Hft fuel guard Hfu Hgu. cbn [isize] in *.
        destruct fuel as [|fuel]; [lia|]. destruct guard as [|guard]; [lia|]. cbn [pwalk gt_nodes inner].
        rewrite getZ_nat, <- HP, nth_error_app1 by (rewrite app_length; cbn; lia).
        rewrite nth_error_snoc. cbn [g_isleaf g_left g_right g_leaf Z.eqb andb]. cbn [j_leaf]. rewrite El, omit_0, ensure_0. reflexivity.
      + set (g := mkgn 0 0 TNum _ _ _ _ _ _ _).
        destruct (IHl (nodes ++ [g])) as [L1 [-> [Z1 S1]]]. destruct (IHr ((nodes ++ [g]) ++ L1)) as [L2 [-> [Z2 S2]]].
        match goal with |- context [set_children ?a ?b] => set (lc := a); set (rc := b) end.
        exists (set_children lc rc g :: L1 ++ L2). rewrite <- !app_assoc. cbn [app]. rewrite upd_mid. split; [reflexivity|].
        split; [cbn [List.length isize]; rewrite app_length; lia|].
        intros P Q x sh iv nl HP Hx Hft fuel guard Hfu Hgu. cbn [isize inner feats] in *.
        destruct fuel as [|fuel]; [lia|]. destruct guard as [|guard]; [lia|]. cbn [pwalk gt_nodes].
        rewrite getZ_nat, <- HP.
        rewrite nth_error_app1 by (rewrite app_length; cbn; lia). rewrite nth_error_app2, Nat.sub_diag by lia. cbn [nth_error].
        destruct (g_isleaf (set_children lc rc g)).
        { cbn [set_children g_leaf g]. now rewrite ensure_0. }
        cbn [set_children g_feat g_type g_thr g_left g_right g].
        assert (Hfx : q_feat q < List.length x) by (apply Hft; now left). rewrite Eq in Hfx.
        cbn [j_feat]. replace (Z.of_nat (List.length x) <=? j_feat f)%Z with false by (symmetry; apply Z.leb_gt; lia).
        rewrite (getZ_pos x _ Hf). destruct (nth_error x (Z.to_nat (j_feat f))) as [v|] eqn:Ev; [|apply nth_error_None in Ev; lia].
        assert (Hv : nisnan v = false) by (rewrite Forall_forall in Hx; apply Hx; eapply nth_error_In; exact Ev).
        rewrite Hv.
        assert (HLc : follow (mkgt ((P ++ set_children lc rc g :: L1 ++ L2) ++ Q) [] sh iv nl) lc
             (fun nx => pwalk roundint fuel guard (mkgt ((P ++ set_children lc rc g :: L1 ++ L2) ++ Q) [] sh iv nl) nx x) = Some (Ok n0)).
        { unfold follow. destruct (lc <? 0)%Z eqn:Elc; [cbn [gt_leaves]; unfold getZ; destruct (- lc - 1 <? 0)%Z; [reflexivity|now destruct (Z.to_nat (- lc - 1))]|].
          replace ((P ++ set_children lc rc g :: L1 ++ L2) ++ Q) with (((P ++ [set_children lc rc g]) ++ L1) ++ L2 ++ Q) by (repeat (rewrite <- app_assoc; cbn [app]); reflexivity).
          apply S1; [rewrite !app_length, HP; reflexivity|exact Hx| |lia|lia]. intros f' Hf'. apply Hft. right. apply in_or_app. now left. }
        assert (HRc : follow (mkgt ((P ++ set_children lc rc g :: L1 ++ L2) ++ Q) [] sh iv nl) rc
             (fun nx => pwalk roundint fuel guard (mkgt ((P ++ set_children lc rc g :: L1 ++ L2) ++ Q) [] sh iv nl) nx x) = Some (Ok n0)).
        { unfold follow. destruct (rc <? 0)%Z eqn:Erc; [cbn [gt_leaves]; unfold getZ; destruct (- rc - 1 <? 0)%Z; [reflexivity|now destruct (Z.to_nat (- rc - 1))]|].
          replace ((P ++ set_children lc rc g :: L1 ++ L2) ++ Q) with ((((P ++ [set_children lc rc g]) ++ L1) ++ L2) ++ Q) by (repeat (rewrite <- app_assoc; cbn [app]); reflexivity).
          apply S2; [rewrite !app_length, HP; reflexivity|exact Hx| |lia|lia]. intros f' Hf'. apply Hft. right. apply in_or_app. now right. }
        cbn [j_thr]. destruct (le_precise v (omit (j_thr f))); assumption.
  Qed.

  (** ** Ensembles *)
  Lemma accumulate_one add (init : N) : forall outs, accumulate add 1 init outs = [fold_left add outs init].
  Proof.
    intros outs. unfold accumulate. cbn [repeat].
    assert (H : forall outs s a, fold_left (fun acc io => upd (Nat.modulo (fst io) 1) (fun v => add v (snd io)) acc)
              (combine (seq s (List.length outs)) outs) [a] = [fold_left add outs a]); [|apply H].
    clear. induction outs as [|o outs IH]; intros s a; [reflexivity|]. cbn [List.length seq combine fold_left fst snd].
    rewrite Nat.mod_1_r. cbn [upd]. apply IH.
  Qed.
  Lemma sequence_ok {A B} (f : A -> option (res B)) : forall l bs,
    Forall2 (fun a b => f a = Some (Ok b)) l bs -> sequence f l = Some (Ok bs).
  Proof. induction 1 as [|a b l bs H1 H2 IH]; [reflexivity|]. cbn. now rewrite H1, IH. Qed.
  Lemma sequence_inv {A B} (f : A -> option (res B)) : forall l bs,
    sequence f l = Some (Ok bs) -> Forall2 (fun a b => f a = Some (Ok b)) l bs.
  Proof.
    induction l as [|a l IH]; cbn; intros bs H; [injection H as <-; constructor|].
    destruct (f a) as [[b| |]|] eqn:E; try discriminate. destruct (sequence f l) as [[bs'| |]|]; try discriminate.
    injection H as <-. constructor; [exact E|now apply IH].
  Qed.
End P.
