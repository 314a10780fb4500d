(** Reading back the arrays of a tree that was saved with its leaves as nodes. *)
From Coq Require Import String List Arith ZArith Bool Lia.
From Verif Require Import Base.Num Base.GoRes Base.ListX Model.LgbTree Model.LgbText Spec.LgbText Proofs.LgbTreeP.
Import ListNotations.
Local Open Scope list_scope.

Section Reread.
  Context {N : Num}.
  Variables (d : tdoc N) (n nf : nat).
  Hypothesis Ll : List.length (d_left d) = n.
  Hypothesis Lr : List.length (d_right d) = n.
  Hypothesis Lt : List.length (d_dtype d) = n.
  Hypothesis Lf : List.length (d_feat d) = n.
  Hypothesis Lh : List.length (d_thr d) = n.
  Definition inner_at (i : nat) : Prop := nth_error (d_left d) i = Some (Z.of_nat (S i)).
  Hypothesis node_at : forall i, i < n ->
    (nth_error (d_left d) i = Some (-1)%Z /\ nth_error (d_right d) i = Some (-1)%Z)
    \/ (inner_at i /\ exists r, nth_error (d_right d) i = Some (Z.of_nat r) /\ S i < r < n).
  Hypothesis apart : forall i j, inner_at i -> inner_at j -> nth_error (d_right d) j <> Some (Z.of_nat (S i)).
  Hypothesis feats : forall f, In f (d_feat d) -> f < nf.

  Definition shape_ok (len c : nat) (nd : lnode N) : Prop :=
    l_feat nd < nf /\
    ((l_lleaf nd = true /\ l_rleaf nd = true /\ l_left nd = 0 /\ l_right nd = 0)
     \/ (l_lleaf nd = false /\ l_rleaf nd = false /\ (l_left nd = 0 \/ c < l_left nd < len))).
  Lemma create_ok i : i < n -> exists nd, create_node d i = Ok nd /\ l_feat nd < nf /\ l_left nd = 0 /\ l_right nd = 0
    /\ ((l_lleaf nd = true /\ l_rleaf nd = true) \/ (inner_at i /\ l_lleaf nd = false /\ l_rleaf nd = false)).
  Proof.
    intros Hi. unfold create_node.
    destruct (nth_error (d_dtype d) i) as [c|] eqn:E1; [|apply nth_error_None in E1; lia].
    destruct (nth_error (d_feat d) i) as [f|] eqn:E2; [|apply nth_error_None in E2; lia].
    destruct (nth_error (d_thr d) i) as [th|] eqn:E3; [|apply nth_error_None in E3; lia].
    pose proof (feats f (nth_error_In _ _ E2)) as Hf.
    destruct (node_at i Hi) as [[El Er]|[El (r & Er & Hr)]].
    - rewrite El, Er. eexists. split; [reflexivity|]. cbn. auto 10.
    - pose proof El as El'. unfold inner_at in El'. rewrite El', Er. eexists. split; [reflexivity|].
      cbn [l_feat l_left l_right l_lleaf l_rleaf].
      destruct (Z.ltb_spec (Z.of_nat (S i)) 0); [lia|]. destruct (Z.ltb_spec (Z.of_nat r) 0); [lia|]. auto 10.
  Qed.
  Record inv (K : list (nat * nat)) (V : list bool) (ns : list (lnode N)) : Prop := mkinv {
    i_len : List.length V = n - 1;
    i_shape : forall c nd, nth_error ns c = Some nd -> shape_ok (List.length ns) c nd;
    i_pend : forall c nd, nth_error ns c = Some nd -> l_lleaf nd = false -> l_left nd = 0 -> exists o, In (o, c) K;
    i_stack : forall o c, In (o, c) K -> o < n /\ exists nd, nth_error ns c = Some nd
       /\ ((l_lleaf nd = true /\ l_rleaf nd = true)
           \/ (inner_at o /\ l_lleaf nd = false /\ l_rleaf nd = false /\ (l_left nd = 0 -> nth_error V (S o) = Some false)));
    i_seen : forall o c, In (o, c) K -> o = 0 \/ nth_error V o = Some true;
    i_once : NoDup (map fst K);
    i_up : forall i, inner_at i -> nth_error V (S i) = Some true -> i = 0 \/ nth_error V i = Some true }.

  Lemma shape_mono a b c nd : a <= b -> shape_ok a c nd -> shape_ok b c nd.
  Proof. intros H [H1 [H2|(H2 & H3 & [H4|H4])]]; (split; [exact H1|]); [now left|right; auto|right; repeat split; auto; right; lia]. Qed.

  Lemma enter_some V c k : enter V c = Some k -> c = Z.of_nat k /\ nth_error V k = Some false.
  Proof.
    unfold enter. destruct (Z.ltb_spec c 0); [discriminate|]. destruct (nth_error V (Z.to_nat c)) as [[|]|] eqn:E; try discriminate.
    intros H1. injection H1 as <-. split; [lia|exact E].
  Qed.
  Lemma seen_upd V k i : k < List.length V -> nth_error (upd k (fun _ => true) V) i = Some true <-> i = k \/ nth_error V i = Some true.
  Proof.
    intros Hk. destruct (Nat.eq_dec i k) as [->|Hne].
    - split; [now left|]. intros _. destruct (nth_error V k) eqn:E; [|apply nth_error_None in E; lia].
      now rewrite nth_error_upd_same, E.
    - rewrite nth_error_upd_other by lia. split; [now right|]. intros [H|H]; [now destruct Hne|exact H].
  Qed.
  (** Entering the child [k] of [o] *)
  Lemma inv_push o c K V ns ns0 k nd : inv ((o, c) :: K) V ns -> inner_at o ->
    nth_error V k = Some false -> k <> 0 ->
    (k = S o \/ nth_error (d_right d) o = Some (Z.of_nat k)) ->
    create_node d k = Ok nd ->
    List.length ns0 = List.length ns ->
    (forall i m, nth_error ns0 i = Some m -> shape_ok (S (List.length ns)) i m) ->
    (forall i m, nth_error ns0 i = Some m -> exists m', nth_error ns i = Some m' /\ l_lleaf m = l_lleaf m' /\ l_rleaf m = l_rleaf m'
        /\ (l_left m = 0 -> l_left m' = 0)) ->
    (k = S o -> forall m, nth_error ns0 c = Some m -> l_left m <> 0) ->
    inv ((k, List.length ns) :: (o, c) :: K) (upd k (fun _ => true) V) (ns0 ++ [nd]).
  Proof.
    intros I Ho Vk Hk0 Hch Hc HL Hs Hm Hleft.
    assert (Hkl : k < List.length V) by (apply nth_error_Some; congruence).
    assert (Hkn : k < n) by (rewrite (i_len _ _ _ I) in Hkl; lia).
    destruct (create_ok k Hkn) as (nd' & E' & F1 & F2 & F3 & F4). rewrite Hc in E'. injection E' as <-.
    assert (Hstay : forall i, inner_at i -> i <> o \/ k <> S o -> nth_error V (S i) = Some false -> nth_error (upd k (fun _ => true) V) (S i) = Some false).
    { intros i Hi Hne Hv. rewrite nth_error_upd_other; [exact Hv|]. intros ->.
      destruct Hch as [E|E]; [injection E as ->; destruct Hne as [H|H]; now destruct H|]. now apply (apart i o). }
    constructor.
    - rewrite upd_length. apply (i_len _ _ _ I).
    - intros i m Hi. rewrite app_length, HL. cbn [List.length]. rewrite Nat.add_1_r. destruct (Nat.lt_ge_cases i (List.length ns0)) as [Hlt|Hge].
      + rewrite nth_error_app1 in Hi by lia. now apply Hs.
      + rewrite nth_error_app2 in Hi by lia. destruct (i - List.length ns0) as [|[|?]] eqn:Ei; cbn in Hi; try discriminate.
        injection Hi as <-. split; [exact F1|]. destruct F4 as [[G1 G2]|(G0 & G1 & G2)]; [left; auto|right; auto].
    - intros i m Hi Hl Hz. destruct (Nat.lt_ge_cases i (List.length ns0)) as [Hlt|Hge].
      + rewrite nth_error_app1 in Hi by lia. destruct (Hm i m Hi) as (m' & Em & A1 & A2 & A3).
        rewrite A1 in Hl. destruct (i_pend _ _ _ I i m' Em Hl (A3 Hz)) as [o' Ho']. exists o'. now right.
      + rewrite nth_error_app2 in Hi by lia. destruct (i - List.length ns0) as [|[|?]] eqn:Ei; cbn in Hi; try discriminate.
        exists k. left. f_equal. lia.
    - intros o' c' [E|E].
      + injection E as <- <-. split; [exact Hkn|]. exists nd. split; [rewrite nth_error_app2, HL, Nat.sub_diag by lia; reflexivity|].
        destruct F4 as [G|(G0 & G1 & G2)]; [now left|right]. split; [exact G0|]. split; [exact G1|]. split; [exact G2|]. intros _.
        assert (Hk2 : S k < n - 1).
        { destruct (node_at k Hkn) as [[X _]|[_ (r & _ & X)]]; [unfold inner_at in G0; rewrite G0 in X; injection X; lia|lia]. }
        rewrite nth_error_upd_other by lia. destruct (nth_error V (S k)) as [[|]|] eqn:EV; [|reflexivity|apply nth_error_None in EV; rewrite (i_len _ _ _ I) in EV; lia].
        destruct (i_up _ _ _ I k G0 EV) as [Z|Z]; [now destruct Hk0|congruence].
      + destruct (i_stack _ _ _ I o' c' E) as (Ho' & m' & Em' & D).
        split; [exact Ho'|]. assert (Hc' : c' < List.length ns0) by (rewrite HL; apply nth_error_Some; congruence).
        destruct (nth_error ns0 c') as [m|] eqn:Em; [|apply nth_error_None in Em; lia].
        exists m. split; [rewrite nth_error_app1 by lia; exact Em|]. destruct (Hm c' m Em) as (m2 & Em2 & A1 & A2 & A3).
        rewrite Em' in Em2. injection Em2 as <-. rewrite A1, A2.
        destruct D as [D|(D0 & D1 & D2 & D3)]; [now left|right]. split; [exact D0|]. split; [exact D1|]. split; [exact D2|].
        intros Hz. apply Hstay; [exact D0| |apply D3, A3, Hz].
        destruct E as [E|E].
        * injection E as <- <-. right. intros Ek. now apply (Hleft Ek m).
        * left. intros ->. pose proof (i_once _ _ _ I) as Hn. cbn [map fst] in Hn. inversion Hn as [|? ? Hni _]; subst.
          apply Hni. apply in_map_iff. exists (o, c'). now split.
    - intros o' c' [E|E]; [injection E as <- <-; right; apply seen_upd; [exact Hkl|now left]|].
      destruct (i_seen _ _ _ I o' c' E) as [Z|Z]; [now left|right]. apply seen_upd; [exact Hkl|now right].
    - change (NoDup (k :: map fst ((o, c) :: K))). constructor; [|exact (i_once _ _ _ I)]. intros Hin. apply in_map_iff in Hin as ([o' c'] & E1 & E2). cbn [fst] in E1. subst o'.
      destruct (i_seen _ _ _ I k c' E2) as [Z|Z]; [now destruct Hk0|congruence].
    - intros i Hi Hv. apply seen_upd in Hv; [|exact Hkl]. destruct Hv as [Hv|Hv].
      + assert (Eo : i = o).
        { destruct Hch as [E|E]; [congruence|]. exfalso. apply (apart i o Hi Ho). congruence. }
        subst i. destruct (i_seen _ _ _ I o c (or_introl eq_refl)) as [Z|Z]; [now left|right]. apply seen_upd; [exact Hkl|now right].
      + destruct (i_up _ _ _ I i Hi Hv) as [Z|Z]; [now left|right]. apply seen_upd; [exact Hkl|now right].
  Qed.
  Lemma inv_pop o c K V ns : inv ((o, c) :: K) V ns ->
    (forall nd, nth_error ns c = Some nd -> l_lleaf nd = false -> l_left nd <> 0) -> inv K V ns.
  Proof.
    intros I Hd. constructor.
    - apply (i_len _ _ _ I).
    - apply (i_shape _ _ _ I).
    - intros i m Hi Hl Hz. destruct (i_pend _ _ _ I i m Hi Hl Hz) as [o' [E|E]]; [|now exists o'].
      injection E as <- <-. now destruct (Hd m Hi Hl).
    - intros o' c' E. apply (i_stack _ _ _ I). now right.
    - intros o' c' E. apply (i_seen _ _ _ I o' c'). now right.
    - pose proof (i_once _ _ _ I) as Hn. cbn in Hn. now inversion Hn.
    - apply (i_up _ _ _ I).
  Qed.
  Definition finished (ns : list (lnode N)) : Prop := forall c nd, nth_error ns c = Some nd ->
    l_feat nd < nf /\ ((l_lleaf nd = true /\ l_rleaf nd = true /\ l_left nd = 0 /\ l_right nd = 0)
                       \/ (l_lleaf nd = false /\ l_rleaf nd = false /\ c < l_left nd < List.length ns)).
  Lemma dfs_inv : forall fuel K V ns r, inv K V ns -> dfs fuel d K V ns = Some r ->
    exists ns', r = Ok ns' /\ finished ns' /\ List.length ns <= List.length ns'.
  Proof.
    induction fuel as [|fuel IH]; intros K V ns r I E; [discriminate|]. cbn [dfs] in E.
    destruct K as [|[o c] K].
    - injection E as <-. exists ns. split; [reflexivity|]. split; [|lia]. intros c nd Hc. destruct (i_shape _ _ _ I c nd Hc) as [H1 H2].
      split; [exact H1|]. destruct H2 as [H2|(H2 & H3 & [H4|H4])]; [now left| |now right].
      destruct (i_pend _ _ _ I c nd Hc H2 H4) as [o []].
    - destruct (i_stack _ _ _ I o c (or_introl eq_refl)) as (Ho & nd & En & D). rewrite En in E.
      destruct D as [[D1 D2]|(D0 & D1 & D2 & D3)].
      + rewrite D1, D2 in E. apply (IH K V ns r); [|exact E]. apply (inv_pop o c); [exact I|]. intros m Em Hl.
        rewrite En in Em. injection Em as <-. congruence.
      + rewrite D1, D2 in E. destruct (node_at o Ho) as [[X _]|[_ (rc & Er & Hr)]];
          [unfold inner_at in D0; rewrite D0 in X; injection X; lia|].
        rewrite Er in E. pose proof D0 as El. unfold inner_at in El. rewrite El in E.
        assert (Hdone : enter V (Z.of_nat (S o)) = None -> forall m, nth_error ns c = Some m -> l_lleaf m = false -> l_left m <> 0).
        { intros He m Em _ Hz. rewrite En in Em. injection Em as <-. specialize (D3 Hz). unfold enter in He.
          destruct (Z.ltb_spec (Z.of_nat (S o)) 0); [lia|]. rewrite Nat2Z.id, D3 in He. discriminate. }
        assert (Hleft : (match enter V (Z.of_nat (S o)) with
                 | Some k => match create_node d k with
                             | Ok nd => dfs fuel d ((k, List.length ns) :: (o, c) :: K) (upd k (fun _ => true) V)
                                          (upd c (set_left (List.length ns)) ns ++ [nd])
                             | Err e => Some (Err e)
                             | Panic => Some Panic
                             end
                 | None => dfs fuel d K V ns
                 end) = Some r -> exists ns', r = Ok ns' /\ finished ns' /\ List.length ns <= List.length ns').
        { clear E. intros E. destruct (enter V (Z.of_nat (S o))) as [k|] eqn:Ek.
          - destruct (enter_some _ _ _ Ek) as [Ek1 Ek2]. assert (k = S o) by lia. subst k. clear Ek1.
            assert (Hkl : S o < List.length V) by (apply nth_error_Some; congruence).
            rewrite (i_len _ _ _ I) in Hkl.
            destruct (create_ok (S o) ltac:(lia)) as (nd' & Ec & _). rewrite Ec in E.
            destruct (IH _ _ _ r (inv_push o c K V ns (upd c (set_left (List.length ns)) ns) (S o) nd' I D0 Ek2 ltac:(lia) (or_introl eq_refl) Ec
               (upd_length _ _ _) ltac:(
                 intros i m Hi; destruct (Nat.eq_dec i c) as [->|Hne];
                   [rewrite nth_error_upd_same, En in Hi; injection Hi as <-; destruct (i_shape _ _ _ I c nd En) as [S1 _];
                    split; [exact S1|right]; cbn; split; [exact D1|]; split; [exact D2|]; right;
                    assert (c < List.length ns) by (apply nth_error_Some; congruence); lia
                   |rewrite nth_error_upd_other in Hi by lia; apply (shape_mono (List.length ns)); [lia|]; apply (i_shape _ _ _ I i m Hi)])
               ltac:(
                 intros i m Hi; destruct (Nat.eq_dec i c) as [->|Hne];
                   [rewrite nth_error_upd_same, En in Hi; injection Hi as <-; exists nd; cbn; split; [exact En|];
                    split; [reflexivity|]; split; [reflexivity|]; intros Hz;
                    assert (c < List.length ns) by (apply nth_error_Some; congruence); lia
                   |rewrite nth_error_upd_other in Hi by lia; exists m; auto])
               ltac:(
                 intros _ m Hi; rewrite nth_error_upd_same, En in Hi; injection Hi as <-; cbn;
                 assert (c < List.length ns) by (apply nth_error_Some; congruence); lia)) E) as (ns' & R1 & R2 & R3).
            exists ns'. split; [exact R1|]. split; [exact R2|]. rewrite app_length, upd_length in R3. cbn in R3. lia.
          - apply (IH K V ns r); [|exact E]. apply (inv_pop o c); [exact I|]. apply Hdone. reflexivity. }
        destruct (enter V (Z.of_nat rc)) as [k|] eqn:Ek; [|apply Hleft, E]. clear Hleft.
        destruct (enter_some _ _ _ Ek) as [Ek1 Ek2]. assert (k = rc) by lia. subst k. clear Ek1.
        assert (Hkl : rc < List.length V) by (apply nth_error_Some; congruence).
        rewrite (i_len _ _ _ I) in Hkl.
        destruct (create_ok rc ltac:(lia)) as (nd' & Ec & _). rewrite Ec in E.
        destruct (IH _ _ _ r (inv_push o c K V ns ns rc nd' I D0 Ek2 ltac:(lia) (or_intror Er) Ec eq_refl
           ltac:(intros i m Hi; apply (shape_mono (List.length ns)); [lia|]; apply (i_shape _ _ _ I i m Hi))
           ltac:(intros i m Hi; exists m; auto)
           ltac:(intros X; lia)) E) as (ns' & R1 & R2 & R3).
        exists ns'. split; [exact R1|]. split; [exact R2|]. rewrite app_length in R3. cbn in R3. lia.
  Qed.

  Lemma walk_first toint32 zthr (t : ltree N) (x : list N) w : finished (lt_nodes t) -> nf <= List.length x ->
    nth_error (lt_leaves t) 0 = Some w ->
    forall fuel idx, idx < List.length (lt_nodes t) -> List.length (lt_nodes t) - idx <= fuel ->
    lwalk toint32 zthr fuel t idx x = Some (Ok w).
  Proof.
    clear - nf. intros HF Hx Hw. induction fuel as [|fuel IH]; intros idx Hi Hf; [lia|]. cbn [lwalk].
    destruct (nth_error (lt_nodes t) idx) as [nd|] eqn:En; [|apply nth_error_None in En; lia].
    destruct (HF idx nd En) as [H1 H2]. destruct (nth_error x (l_feat nd)) as [v|] eqn:Ev; [|apply nth_error_None in Ev; lia].
    destruct H2 as [(A & B & C & D)|(A & B & C)]; rewrite A, B.
    - rewrite C, D, Hw. now destruct (decision _ _ _ _).
    - destruct (decision _ _ _ _); apply IH; lia.
  Qed.
  Lemma read_tree_first first : 2 <= n -> d_leaves d = Z.of_nat n -> exists t, read_tree first d = Some (Ok t)
    /\ finished (lt_nodes t) /\ lt_leaves t = d_lv d /\ lt_nodes t <> [] /\ lt_shrink t = d_shrink d
    /\ lt_ival t = (if first then match d_ival d with [] => n0 | v :: _ => v end else n0).
  Proof.
    intros Hn Hl. unfold read_tree. rewrite Hl. destruct (Z.ltb_spec (Z.of_nat n) 1); [lia|]. destruct (Z.eqb_spec (Z.of_nat n) 1); [lia|].
    replace (Z.to_nat (Z.of_nat n - 1)) with (n - 1) by lia.
    destruct (create_ok 0 ltac:(lia)) as (nd & Ec & F1 & F2 & F3 & F4). rewrite Ec.
    assert (I : inv [(0, 0)] (repeat false (n - 1)) [nd]).
    { assert (Hrep : forall i, nth_error (repeat false (n - 1)) i <> Some true).
      { intros i Hi. apply nth_error_In, repeat_spec in Hi. discriminate. }
      constructor.
      - apply repeat_length.
      - intros c m Hc. destruct c as [|[|?]]; cbn in Hc; try discriminate. injection Hc as <-. split; [exact F1|].
        destruct F4 as [[G1 G2]|(G0 & G1 & G2)]; [left|right]; auto.
      - intros c m Hc _ _. destruct c as [|[|?]]; cbn in Hc; try discriminate. exists 0. now left.
      - intros o c [E|[]]. injection E as <- <-. split; [lia|]. exists nd. split; [reflexivity|].
        destruct F4 as [G|(G0 & G1 & G2)]; [now left|right]. split; [exact G0|]. split; [exact G1|]. split; [exact G2|]. intros _.
        destruct (node_at 0 ltac:(lia)) as [[X _]|[_ (r & _ & X)]]; [unfold inner_at in G0; rewrite G0 in X; injection X; lia|].
        destruct (n - 1) as [|[|k]] eqn:Ek; [lia|lia|]. reflexivity.
      - intros o c [E|[]]. injection E as <- <-. now left.
      - cbn. constructor; [tauto|constructor].
      - intros i _ Hi. now apply Hrep in Hi. }
    pose proof (dfs_ends d (2 * (n - 1) + 2) [(0, 0)] (repeat false (n - 1)) [nd]) as Hends.
    destruct (dfs (2 * (n - 1) + 2) d [(0, 0)] (repeat false (n - 1)) [nd]) as [r|] eqn:Ed.
    - destruct (dfs_inv _ _ _ _ _ I Ed) as (ns' & -> & HF & HL). eexists. split; [reflexivity|]. cbn [lt_nodes lt_leaves lt_shrink lt_ival].
      split; [exact HF|]. split; [reflexivity|]. split; [|split; reflexivity]. intros ->. cbn in HL. lia.
    - exfalso. apply Hends; [|reflexivity]. cbn [List.length].
      assert (unvisited (repeat false (n - 1)) <= n - 1) by (unfold unvisited; eapply Nat.le_trans; [apply filter_length_le|rewrite repeat_length; lia]). lia.
  Qed.
End Reread.
