(** Sampling, leaf outputs and tree growth. *)
From Coq Require Import List Arith ZArith Bool Lia Reals Lra Permutation.
From Verif Require Import Base.Num Base.GoRes Base.ListX Base.RTac Base.GoSort Spec.Order Model.LgbTree Model.LgbHist Model.LgbTrain
  Spec.LgbTree Spec.LgbHist Spec.LgbTrain Proofs.OrderP Proofs.LgbTreeP Proofs.LgbArrayP Proofs.LgbHistP Proofs.LgbSplitP Spec.LgbSplit.
Import ListNotations.
Local Open Scope list_scope.

(** ** Sampling *)
Section Fisher.
  Context {St A : Type} (intn : nat -> St -> nat * St).
  Lemma fisher_perm n k : forall i (l : list A) g, Permutation l (fst (fisher intn n i k l g)).
  Proof.
    induction k as [|k IH]; intros i l g; cbn [fisher]; [reflexivity|].
    destruct (intn (n - i) g) as [r g']. rewrite (exch_perm i (i + r) l) at 1. apply IH.
  Qed.
  Lemma fisher_length n k i (l : list A) g : List.length (fst (fisher intn n i k l g)) = List.length l.
  Proof. symmetry. apply Permutation_length, fisher_perm. Qed.
  Lemma fisher_selection n k (l : list A) g : NoDup l -> k <= List.length l ->
    selection l k (firstn k (fst (fisher intn n 0 k l g))).
  Proof.
    intros Hn Hk. set (m := fst (fisher intn n 0 k l g)).
    assert (P : Permutation l m) by apply fisher_perm. clearbody m.
    assert (Hm : NoDup m) by (eapply Permutation_NoDup; eauto).
    split; [|split].
    - rewrite <- (firstn_skipn k m) in Hm. now apply NoDup_app_remove_r in Hm.
    - rewrite firstn_length, <- (Permutation_length P). lia.
    - intros a Ha. apply (Permutation_in a (Permutation_sym P)). rewrite <- (firstn_skipn k m). apply in_or_app. now left.
  Qed.
End Fisher.

Lemma fisher_reach {A} n k : forall (P R T : list A),
  List.length (P ++ R) = n -> NoDup (P ++ R) -> NoDup T -> incl T R -> List.length T = k ->
  exists g, firstn (List.length P + k) (fst (fisher replay n (List.length P) k (P ++ R) g)) = P ++ T.
Proof.
  induction k as [|k IH]; intros P R T Hn HN HT Hi Hk.
  - destruct T; [|discriminate]. exists []. cbn [fisher fst]. rewrite Nat.add_0_r, firstn_app, firstn_all, Nat.sub_diag.
    now rewrite firstn_O.
  - destruct T as [|t T]; [discriminate|]. injection Hk as Hk. inversion HT as [|? ? Ht HT']; subst.
    destruct (in_split t R (Hi t (or_introl eq_refl))) as (R1 & R2 & ->).
    assert (E : exists R', exch (List.length P) (List.length P + List.length R1) (P ++ R1 ++ t :: R2) = (P ++ [t]) ++ R'
               /\ Permutation (R1 ++ t :: R2) (t :: R')).
    { destruct R1 as [|a R1].
      - exists R2. cbn [List.length app]. rewrite Nat.add_0_r, exch_same, <- app_assoc. split; reflexivity.
      - exists (R1 ++ a :: R2). cbn [List.length app]. rewrite exch_split, <- app_assoc. split; [reflexivity|].
        rewrite <- !Permutation_middle. apply perm_swap. }
    destruct E as (R' & E & PR).
    assert (PL : Permutation (P ++ R1 ++ t :: R2) ((P ++ [t]) ++ R')).
    { rewrite <- app_assoc. cbn [app]. now apply Permutation_app_head. }
    destruct (IH (P ++ [t]) R' T) as [g Hg]; [| | |  |reflexivity|].
    + now rewrite <- (Permutation_length PL).
    + now apply (Permutation_NoDup PL).
    + exact HT'.
    + intros x Hx. assert (Hx' : In x (t :: R')) by (apply (Permutation_in x PR), Hi; now right).
      destruct Hx' as [<-|Hx']; [contradiction|exact Hx'].
    + exists (List.length R1 :: g). cbn [fisher replay].
      assert (Em : Nat.modulo (List.length R1) (List.length (P ++ R1 ++ t :: R2) - List.length P) = List.length R1).
      { apply Nat.mod_small. rewrite !app_length. cbn. lia. }
      rewrite Em, E. rewrite app_length in Hg. cbn [List.length] in Hg.
      rewrite Nat.add_1_r in Hg.
      replace (List.length P + S (List.length T)) with (S (List.length P) + List.length T) by lia.
      rewrite Hg, <- app_assoc. reflexivity.
Qed.

(** ** Leaf outputs *)
Local Open Scope R_scope.
Lemma square_pos x : x <> 0 -> 0 < x * x.
Proof. intros H. destruct (Rtotal_order x 0) as [L|[E|L]]; nra. Qed.
(** A parabola plus l1 |w|, around the point w0 *)
Lemma parabola d l1 sg w0 w s : 0 < d -> -1 <= s <= 1 -> 0 <= l1 ->
  s * w0 = Rabs w0 -> d * w0 = - (sg + l1 * s) -> w <> w0 ->
  sg * w0 + 1 / 2 * d * (w0 * w0) + l1 * Rabs w0 < sg * w + 1 / 2 * d * (w * w) + l1 * Rabs w.
Proof.
  intros Hd Hs Hl Ha Hw Hn. assert (Hw' : w - w0 <> 0) by lra. apply square_pos in Hw'.
  assert (Hs' : s * w <= Rabs w) by (unfold Rabs; destruct (Rcase_abs w); nra).
  assert (K : l1 * (s * w) <= l1 * Rabs w) by nra.
  rewrite <- Ha. assert (sg = - d * w0 - l1 * s) by lra. subst sg. nra.
Qed.
Lemma leaf_reg_R l1 l2 sg sh : @leaf_reg RNum l1 l2 sg sh =
  let d := sh + l2 + 1 / 10000000000 in
  if Rltb 0 l1 then if Rltb l1 sg then - (sg - l1) / d else if Rltb sg (- l1) then - (sg + l1) / d else 0 else - sg / d.
Proof. unfold leaf_reg, eps10. unR. reflexivity. Qed.
Lemma leaf_reg_optimal l1 l2 sg sh w : 0 <= l1 -> 0 < sh + l2 + 1 / 10000000000 -> w <> @leaf_reg RNum l1 l2 sg sh ->
  leaf_objective l1 l2 sg sh (@leaf_reg RNum l1 l2 sg sh) < leaf_objective l1 l2 sg sh w.
Proof.
  rewrite leaf_reg_R. unfold leaf_objective. cbn zeta. set (d := sh + l2 + 1 / 10000000000). intros Hl Hd Hw.
  pose proof (Rinv_0_lt_compat d Hd) as Hi.
  assert (Ediv : forall a, d * (a / d) = a) by (intros a; field; lra).
  destruct (Rltb_spec 0 l1) as [H1|H1]; [destruct (Rltb_spec l1 sg) as [H2|H2]; [|destruct (Rltb_spec sg (- l1)) as [H3|H3]]|].
  - apply (parabola d l1 sg _ w (-1)); [exact Hd|lra|lra| |rewrite Ediv; lra|exact Hw].
    assert (- (sg - l1) / d < 0) by (unfold Rdiv; nra). rewrite Rabs_left by assumption. lra.
  - apply (parabola d l1 sg _ w 1); [exact Hd|lra|lra| |rewrite Ediv; lra|exact Hw].
    assert (0 < - (sg + l1) / d) by (unfold Rdiv; nra). rewrite Rabs_right by lra. lra.
  - rewrite Rabs_R0. assert (W : 0 < w * w) by (apply square_pos; lra).
    assert (- (l1 * Rabs w) <= sg * w) by (unfold Rabs; destruct (Rcase_abs w); nra). nra.
  - assert (l1 = 0) by lra. subst l1. rewrite !Rmult_0_l.
    assert (E : sg = - d * (- sg / d)) by (rewrite Ropp_mult_distr_l_reverse, Ediv; lra).
    set (w0 := - sg / d) in *. clearbody w0. subst sg.
    assert (Hw' : w - w0 <> 0) by lra. apply square_pos in Hw'. nra.
Qed.
Lemma node_score_R l1 l2 sg sh : 0 <= l1 -> 0 <= sh -> 0 <= l2 ->
  @node_score RNum l1 l2 sg sh = - leaf_objective l1 l2 sg sh (@leaf_reg RNum l1 l2 sg sh).
Proof.
  intros Hl Hs H2. rewrite leaf_reg_R. unfold leaf_objective.
  assert (E : @node_score RNum l1 l2 sg sh =
    let d := sh + l2 + 1 / 10000000000 in
    if Rltb (Rabs d) (1 / 10000000000) then 0
    else if Rltb 0 l1 then if Rltb l1 sg then 1 / 2 * (sg - l1) * (sg - l1) / d
                           else if Rltb sg (- l1) then 1 / 2 * (sg + l1) * (sg + l1) / d else 0
         else 1 / 2 * sg * sg / d) by reflexivity.
  rewrite E. clear E. cbn zeta. match goal with |- @eq _ ?a ?b => change (@eq R a b) end.
  set (d := sh + l2 + 1 / 10000000000). assert (Hd : 1 / 10000000000 <= d) by (unfold d; lra).
  assert (Hd0 : 0 < d) by lra. pose proof (Rinv_0_lt_compat d Hd0) as Hi.
  rewrite (Rabs_right d) by lra. destruct (Rltb_spec d (1 / 10000000000)) as [E|_]; [lra|].
  destruct (Rltb_spec 0 l1) as [H1|H1]; [destruct (Rltb_spec l1 sg) as [H3|H3]; [|destruct (Rltb_spec sg (- l1)) as [H4|H4]]|].
  - rewrite Rabs_left by (unfold Rdiv; nra). field. lra.
  - rewrite Rabs_right by (unfold Rdiv; nra). field. lra.
  - rewrite Rabs_R0. lra.
  - assert (l1 = 0) by lra. subst l1. rewrite !Rmult_0_l. field. lra.
Qed.
Local Close Scope R_scope.

(** ** Tree growth *)
Section Grow.
  Context {N : Num}.
  Variables (toint : N -> Z) (X : nat -> nat -> N) (G H : nat -> N) (find : list nat -> res (split N)) (p : tparams N).
  Notation left_of s := (goes_left toint X p s).
  Notation value := (leaf_value G H p).
  Notation grow := (build_node toint X G H).

  Inductive shape := SL (rows : list nat) | SN (s : split N) (l r : shape).
  Fixpoint height (T : shape) : nat := match T with SL _ => 0 | SN _ l r => S (Nat.max (height l) (height r)) end.
  Fixpoint parts (T : shape) : list (list nat) := match T with SL rows => [rows] | SN _ l r => parts l ++ parts r end.
  Fixpoint size (T : shape) : nat := match T with SL _ => 1 | SN _ l r => S (size l + size r) end.
  (** The nodes from [id] on are those of the tree. *)
  Fixpoint laid (ns : list (gnode N)) (id : nat) (T : shape) : Prop :=
    match T with
    | SL rows => nth_error ns id = Some (leaf_node (value rows))
    | SN s l r => exists a b, nth_error ns id = Some (set_children (Z.of_nat a) (Z.of_nat b) (inner_node p s))
                    /\ id < a /\ id < b /\ laid ns a l /\ laid ns b r
    end.
  (** The tree divides the rows with the splits found. *)
  Fixpoint divided (T : shape) (rows : list nat) : Prop :=
    match T with
    | SL r => r = rows
    | SN s l r => find rows = Ok s /\ s_feat s <> (-1)%Z /\ nlt (s_gain s) (tp_mingain p) = false
                  /\ (tp_mindata p <= Z.of_nat (List.length rows))%Z
                  /\ divided l (filter (left_of s) rows) /\ divided r (filter (fun i => negb (left_of s i)) rows)
    end.
  Lemma laid_app ns m T : forall id, laid ns id T -> laid (ns ++ m) id T.
  Proof.
    induction T as [rows|s l IHl r IHr]; intros id; cbn [laid].
    - intros E. rewrite nth_error_app1; [exact E|]. apply nth_error_Some. congruence.
    - intros (a & b & E & Ha & Hb & Hl & Hr). exists a, b. split.
      + rewrite nth_error_app1; [exact E|]. apply nth_error_Some. congruence.
      + repeat split; auto.
  Qed.
  Lemma laid_upd ns k g T : forall id, k < id -> laid ns id T -> laid (upd k g ns) id T.
  Proof.
    induction T as [rows|s l IHl r IHr]; intros id Hk; cbn [laid].
    - intros E. rewrite nth_error_upd_other by lia. exact E.
    - intros (a & b & E & Ha & Hb & Hl & Hr). exists a, b. rewrite nth_error_upd_other by lia.
      split; [exact E|]. split; [exact Ha|]. split; [exact Hb|]. split; [apply IHl; [lia|exact Hl]|apply IHr; [lia|exact Hr]].
  Qed.
  Lemma size_height T : S (height T) <= size T.
  Proof. induction T as [rows|s l IHl r IHr]; cbn [height size]; lia. Qed.
  Lemma parts_pos T : 0 < List.length (parts T).
  Proof. induction T as [rows|s l IHl r IHr]; cbn [parts]; [cbn; lia|]. rewrite app_length. lia. Qed.

  Lemma inner_counts s : counts_leaf (inner_node p s) = false.
  Proof. unfold counts_leaf, inner_node. cbn [g_type]. now destruct (is_cat _ _). Qed.
  Lemma leaves_app (a b : list (gnode N)) : leaves_so_far (a ++ b) = (leaves_so_far a + leaves_so_far b)%Z.
  Proof. unfold leaves_so_far. rewrite filter_app, app_length. lia. Qed.
  Lemma counts_children l r (n : gnode N) : g_type n <> TLeaf -> (0 <= l)%Z -> counts_leaf n = false ->
    counts_leaf (set_children l r n) = false.
  Proof.
    intros Ht Hl. unfold counts_leaf, set_children, g_isleaf. cbn [g_type g_left g_right].
    destruct (g_type n); [now destruct Ht| |]; intros _; destruct (Z.eqb_spec l (-1)); try lia; reflexivity.
  Qed.
  Lemma inner_type s : g_type (inner_node p s) <> TLeaf.
  Proof. unfold inner_node. cbn. now destruct (is_cat _ _). Qed.

  Definition depth_ok (d : nat) (T : shape) : Prop :=
    (0 < tp_maxdepth p)%Z -> (Z.of_nat d <= tp_maxdepth p)%Z -> (Z.of_nat (d + height T) <= tp_maxdepth p)%Z.
  Definition count_ok (c : Z) (T : shape) : Prop :=
    (0 < tp_leaves p)%Z ->
    (c + Z.of_nat (List.length (parts T)) <= Z.max (c + 1) (tp_leaves p - 1 + Z.of_nat (height T)))%Z.
  Lemma grow_laid fuel : forall ns idxs depth ns' id,
    grow fuel find p ns idxs depth = Some (Ok (ns', id)) ->
    id = List.length ns /\ exists ext T, ns' = ns ++ ext /\ laid ns' id T /\ divided T idxs
      /\ List.length ext = size T /\ leaves_so_far ext = Z.of_nat (List.length (parts T))
      /\ count_leaf_nodes ext = List.length (parts T)
      /\ List.length (leaves_of ext) = List.length (parts T)
      /\ S (height T) <= fuel /\ depth_ok depth T /\ count_ok (leaves_so_far ns) T.
  Proof.
    induction fuel as [|fuel IH]; intros ns idxs depth ns' id E; [discriminate|]. cbn [build_node] in E.
    assert (Hleaf : Some (Ok (ns ++ [leaf_node (value idxs)], List.length ns)) = Some (Ok (ns', id)) ->
      id = List.length ns /\ exists ext T, ns' = ns ++ ext /\ laid ns' id T /\ divided T idxs
      /\ List.length ext = size T /\ leaves_so_far ext = Z.of_nat (List.length (parts T))
      /\ count_leaf_nodes ext = List.length (parts T)
      /\ List.length (leaves_of ext) = List.length (parts T)
      /\ S (height T) <= S fuel /\ depth_ok depth T /\ count_ok (leaves_so_far ns) T).
    { intros K. injection K as <- <-. split; [reflexivity|]. exists [leaf_node (value idxs)], (SL idxs).
      split; [reflexivity|]. split; [cbn [laid]; apply nth_error_snoc|]. do 5 (split; [reflexivity|]). split; [cbn; lia|].
      split; [intros _ Hd; cbn [height]; rewrite Nat.add_0_r; exact Hd|]. intros _. cbn. lia. }
    destruct (stop p ns depth idxs) eqn:Es; [now apply Hleaf|].
    destruct (find idxs) as [s| |] eqn:Ef; try discriminate.
    destruct ((s_feat s =? -1)%Z || nlt (s_gain s) (tp_mingain p)) eqn:Ea; [now apply Hleaf|]. clear Hleaf.
    destruct (grow fuel find p (ns ++ [inner_node p s]) (filter (left_of s) idxs) (S depth)) as [[[ns1 l]| |]|] eqn:E1; try discriminate.
    destruct (grow fuel find p ns1 (filter (fun i => negb (left_of s i)) idxs) (S depth)) as [[[ns2 r]| |]|] eqn:E2; try discriminate.
    injection E as <- <-. split; [reflexivity|].
    destruct (IH _ _ _ _ _ E1) as (El & ext1 & T1 & X1 & L1 & D1 & S1 & C1 & K1 & V1 & F1 & P1 & Q1).
    destruct (IH _ _ _ _ _ E2) as (Er & ext2 & T2 & X2 & L2 & D2 & S2 & C2 & K2 & V2 & F2 & P2 & Q2).
    assert (Ens : ns2 = ns ++ inner_node p s :: ext1 ++ ext2) by (rewrite X2, X1, <- !app_assoc; reflexivity).
    assert (Hl : l = S (List.length ns)) by (rewrite El, app_length; cbn; lia).
    assert (Hr : r = S (List.length ns) + List.length ext1) by (rewrite Er, X1, !app_length; cbn; lia).
    set (nd := set_children (Z.of_nat l) (Z.of_nat r) (inner_node p s)).
    assert (Eu : upd (List.length ns) (set_children (Z.of_nat l) (Z.of_nat r)) ns2 = ns ++ nd :: ext1 ++ ext2)
      by (rewrite Ens; apply upd_mid).
    exists (nd :: ext1 ++ ext2), (SN s T1 T2). split; [exact Eu|].
    assert (Hn : counts_leaf nd = false) by (apply counts_children; [apply inner_type|lia|apply inner_counts]).
    assert (Hty : g_type nd <> TLeaf) by (unfold nd, set_children; cbn [g_type]; apply inner_type).
    assert (Hil : g_isleaf nd = false) by (unfold counts_leaf in Hn; destruct (g_type nd); [now destruct Hty|exact Hn|exact Hn]).
    apply orb_false_iff in Ea as [Ea1 Ea2]. apply Z.eqb_neq in Ea1.
    unfold stop in Es. apply orb_false_iff in Es as [Es Es3]. apply orb_false_iff in Es as [Es1 Es2]. apply Z.ltb_ge in Es2.
    split; [|split; [|split; [|split; [|split; [|split; [|split; [|split]]]]]]].
    - cbn [laid]. exists l, r. split; [rewrite Eu, nth_error_app2, Nat.sub_diag by lia; reflexivity|].
      split; [lia|]. split; [lia|]. split.
      + apply laid_upd; [lia|]. rewrite X2. apply laid_app. exact L1.
      + apply laid_upd; [lia|]. exact L2.
    - cbn [divided]. auto 10.
    - cbn [List.length size]. rewrite app_length, S1, S2. reflexivity.
    - change (nd :: ext1 ++ ext2) with ([nd] ++ (ext1 ++ ext2)). rewrite !leaves_app, C1, C2. cbn [parts]. rewrite app_length.
      replace (leaves_so_far [nd]) with 0%Z by (unfold leaves_so_far; cbn [filter]; rewrite Hn; reflexivity). lia.
    - unfold count_leaf_nodes in *. cbn [filter]. destruct (g_type nd); [now destruct Hty| |];
        rewrite filter_app, app_length, K1, K2; cbn [parts]; rewrite app_length; reflexivity.
    - unfold leaves_of in *. cbn [filter]. unfold is_leaf at 1. rewrite Hil, filter_app, app_length, V1, V2. cbn [parts]. now rewrite app_length.
    - cbn [height]. lia.
    - intros Hm Hd. cbn [height]. assert (Hd' : (Z.of_nat (S depth) <= tp_maxdepth p)%Z).
      { apply Z.ltb_lt in Hm. rewrite Hm in Es1. cbn [andb] in Es1. apply Z.leb_gt in Es1. lia. }
      specialize (P1 Hm Hd'). specialize (P2 Hm Hd'). lia.
    - intros Hc. specialize (Q1 Hc). specialize (Q2 Hc). cbn [height parts]. rewrite app_length.
      rewrite X1, !leaves_app, C1 in Q2. rewrite leaves_app in Q1.
      replace (leaves_so_far [inner_node p s]) with 0%Z in Q1, Q2
        by (unfold leaves_so_far; cbn [filter]; rewrite inner_counts; reflexivity).
      assert (Hlt : (leaves_so_far ns < tp_leaves p - 1)%Z).
      { apply Z.ltb_lt in Hc. rewrite Hc in Es3. cbn [andb] in Es3. now apply Z.leb_gt in Es3. }
      lia.
  Qed.

  Lemma leaf_isleaf v : @g_isleaf N (leaf_node v) = true.
  Proof. reflexivity. Qed.
  Lemma path_height ns T : forall id j b, laid ns id T -> path ns (Z.of_nat id) j b -> j <= height T.
  Proof.
    induction T as [rows|s l IHl r IHr]; intros id j b HL HP.
    - cbn [laid] in HL. inversion HP as [|? n ? ? En Hn _|? n ? ? En Hn _]; subst; [lia| |];
        rewrite getZ_nat, HL in En; injection En as <-; discriminate.
    - cbn [laid] in HL. destruct HL as (a & c & E & Ha & Hb & Hl & Hr). cbn [height].
      inversion HP as [|? n k ? En Hn Hp|? n k ? En Hn Hp]; subst; [lia| |];
        rewrite getZ_nat, E in En; injection En as <-; cbn [set_children g_left g_right] in Hp.
      + specialize (IHl _ _ _ Hl Hp). lia.
      + specialize (IHr _ _ _ Hr Hp). lia.
  Qed.
  Lemma parts_in T : forall rows part i, divided T rows -> In part (parts T) -> In i part -> In i rows.
  Proof.
    induction T as [rs|s l IHl r IHr]; intros rows part i HD; cbn [parts divided] in *.
    - intros [<-|[]] Hi. now subst.
    - destruct HD as (_ & _ & _ & _ & Dl & Dr). intros Hp Hi. apply in_app_or in Hp as [Hp|Hp].
      + specialize (IHl _ _ _ Dl Hp Hi). now apply filter_In in IHl.
      + specialize (IHr _ _ _ Dr Hp Hi). now apply filter_In in IHr.
  Qed.
  Lemma filter_both {A} (f : A -> bool) l : Permutation (filter f l ++ filter (fun a => negb (f a)) l) l.
  Proof.
    induction l as [|a l IH]; [reflexivity|]. cbn [filter]. destruct (f a); cbn [negb app].
    - now apply perm_skip.
    - rewrite <- Permutation_middle. now apply perm_skip.
  Qed.
  Lemma parts_perm T : forall rows, divided T rows -> Permutation (concat (parts T)) rows.
  Proof.
    induction T as [rs|s l IHl r IHr]; intros rows HD; cbn [parts divided] in *.
    - subst. cbn. now rewrite app_nil_r.
    - destruct HD as (_ & _ & _ & _ & Dl & Dr). rewrite concat_app, (IHl _ Dl), (IHr _ Dr). apply filter_both.
  Qed.
  (** ** Termination *)
  Lemma grow_depth fuel : forall ns idxs depth, (0 < tp_maxdepth p)%Z ->
    (tp_maxdepth p < Z.of_nat (fuel + depth))%Z -> (Z.of_nat depth <= tp_maxdepth p)%Z ->
    grow fuel find p ns idxs depth <> None.
  Proof.
    induction fuel as [|fuel IH]; intros ns idxs depth Hm Hf Hd; [cbn in Hf; lia|]. cbn [build_node].
    destruct (stop p ns depth idxs) eqn:Es; [discriminate|].
    destruct (find idxs) as [s| |]; try discriminate. destruct (_ || _); [discriminate|].
    assert (Hlt : (Z.of_nat depth < tp_maxdepth p)%Z).
    { unfold stop in Es. apply orb_false_iff in Es as [Es _]. apply orb_false_iff in Es as [Es _].
      apply Z.ltb_lt in Hm. rewrite Hm in Es. cbn [andb] in Es. now apply Z.leb_gt in Es. }
    destruct (grow fuel find p (ns ++ [inner_node p s]) (filter (left_of s) idxs) (S depth)) as [[[ns1 l]| |]|] eqn:E1; try discriminate.
    - destruct (grow fuel find p ns1 (filter (fun i => negb (left_of s i)) idxs) (S depth)) as [[[ns2 r]| |]|] eqn:E2; try discriminate.
      exfalso. revert E2. apply IH; lia.
    - exfalso. revert E1. apply IH; lia.
  Qed.
  Lemma grow_progress (P : list nat -> Prop) :
    (forall f rows, P rows -> P (filter f rows)) ->
    (forall rows s, P rows -> (tp_mindata p <= Z.of_nat (List.length rows))%Z -> find rows = Ok s -> s_feat s <> (-1)%Z ->
       nlt (s_gain s) (tp_mingain p) = false ->
       filter (left_of s) rows <> [] /\ filter (fun i => negb (left_of s i)) rows <> []) ->
    forall fuel ns idxs depth, P idxs -> List.length idxs < fuel -> grow fuel find p ns idxs depth <> None.
  Proof.
    intros HP HF. induction fuel as [|fuel IH]; intros ns idxs depth Hi Hf; [lia|]. cbn [build_node].
    destruct (stop p ns depth idxs) eqn:Es; [discriminate|].
    destruct (find idxs) as [s| |] eqn:Ef; try discriminate. destruct (_ || _) eqn:Ea; [discriminate|].
    apply orb_false_iff in Ea as [Ea1 Ea2]. apply Z.eqb_neq in Ea1.
    unfold stop in Es. apply orb_false_iff in Es as [Es _]. apply orb_false_iff in Es as [_ Es]. apply Z.ltb_ge in Es.
    destruct (HF idxs s Hi Es Ef Ea1 Ea2) as [Hl Hr].
    pose proof (Permutation_length (filter_both (left_of s) idxs)) as HL. rewrite app_length in HL.
    assert (0 < List.length (filter (left_of s) idxs)) by (destruct (filter (left_of s) idxs); [now destruct Hl|cbn; lia]).
    assert (0 < List.length (filter (fun i => negb (left_of s i)) idxs)) by (destruct (filter (fun i => negb (left_of s i)) idxs); [now destruct Hr|cbn; lia]).
    destruct (grow fuel find p (ns ++ [inner_node p s]) (filter (left_of s) idxs) (S depth)) as [[[ns1 l]| |]|] eqn:E1; try discriminate.
    - destruct (grow fuel find p ns1 (filter (fun i => negb (left_of s i)) idxs) (S depth)) as [[[ns2 r]| |]|] eqn:E2; try discriminate.
      exfalso. revert E2. apply IH; [now apply HP|lia].
    - exfalso. revert E1. apply IH; [now apply HP|lia].
  Qed.
  (** A split accepted at a node that sends all rows to the left repeats forever. *)
  Lemma grow_forever idxs s : (tp_maxdepth p <= 0)%Z -> (tp_mindata p <= Z.of_nat (List.length idxs))%Z ->
    find idxs = Ok s -> s_feat s <> (-1)%Z -> nlt (s_gain s) (tp_mingain p) = false ->
    (forall i, In i idxs -> left_of s i = true) ->
    forall fuel ns depth, (tp_leaves p <= 0 \/ leaves_so_far ns < tp_leaves p - 1)%Z ->
    grow fuel find p ns idxs depth = None.
  Proof.
    intros Hm Hd Ef Hs Hg Hl. induction fuel as [|fuel IH]; intros ns depth Hc; [reflexivity|]. cbn [build_node].
    assert (Es : stop p ns depth idxs = false).
    { unfold stop. destruct (Z.ltb_spec 0 (tp_maxdepth p)); [lia|]. cbn [andb orb].
      destruct (Z.ltb_spec (Z.of_nat (List.length idxs)) (tp_mindata p)); [lia|]. cbn [orb].
      destruct (Z.ltb_spec 0 (tp_leaves p)); [|reflexivity]. cbn [andb]. apply Z.leb_gt. lia. }
    apply Z.eqb_neq in Hs. rewrite Es, Ef, Hs, Hg. cbn [orb].
    assert (Ei : filter (left_of s) idxs = idxs).
    { clear -Hl. induction idxs as [|i l IH]; [reflexivity|]. cbn [filter]. rewrite (Hl i) by now left. f_equal. apply IH. intros j Hj. apply Hl. now right. }
    rewrite Ei, IH; [reflexivity|]. rewrite leaves_app. replace (leaves_so_far [inner_node p s]) with 0%Z; [lia|].
    unfold leaves_so_far. cbn [filter]. now rewrite inner_counts.
  Qed.
  (** ** Prediction of a row used in training *)
  Variable cols : nat.
  Hypothesis feats : forall rows s, find rows = Ok s -> s_feat s = (-1)%Z \/ (0 <= s_feat s < Z.of_nat cols)%Z.
  Hypothesis nan_le : forall a b : N, nisnan a = true -> nle a b = false.
  Lemma laid_walk t T : forall id rows part i fuel, laid (gt_nodes t) id T -> divided T rows ->
    (forall f, is_cat (tp_cats p) f = true -> f < cols -> nisnan (X i f) = false) ->
    In part (parts T) -> In i part -> S (height T) <= fuel ->
    gwalk toint fuel t (Z.of_nat id) (row X cols i) = Some (Ok (value part)).
  Proof.
    induction T as [rs|s l IHl r IHr]; intros id rows part i fuel HL HD Hn Hp Hi Hf;
      (destruct fuel as [|fuel]; [lia|]); cbn [gwalk]; rewrite getZ_nat; cbn [laid divided parts height] in *.
    - rewrite HL, leaf_isleaf. destruct Hp as [<-|[]]. reflexivity.
    - destruct HL as (a & b & E & Ha & Hb & Ll & Lr). rewrite E. destruct HD as (F1 & F2 & _ & _ & Dl & Dr).
      assert (Hnl : g_isleaf (set_children (Z.of_nat a) (Z.of_nat b) (inner_node p s)) = false).
      { unfold g_isleaf, set_children. cbn [g_left]. destruct (Z.eqb_spec (Z.of_nat a) (-1)); [lia|reflexivity]. }
      rewrite Hnl. destruct (feats _ _ F1) as [Ef|Ef]; [contradiction|].
      assert (Ev : getZ (row X cols i) (g_feat (set_children (Z.of_nat a) (Z.of_nat b) (inner_node p s))) = Some (X i (Z.to_nat (s_feat s)))).
      { cbn [set_children g_feat inner_node]. unfold getZ. destruct (Z.ltb_spec (s_feat s) 0); [lia|].
        unfold row. rewrite nth_error_map. replace (nth_error (seq 0 cols) (Z.to_nat (s_feat s))) with (Some (Z.to_nat (s_feat s))); [reflexivity|].
        symmetry. rewrite (nth_error_nth' _ 0) by (rewrite seq_length; lia). now rewrite seq_nth by lia. }
      rewrite Ev.
      set (nx := if left_of s i then Z.of_nat a else Z.of_nat b).
      assert (Enx : (if nisnan (X i (Z.to_nat (s_feat s)))
                     then gwalk toint fuel t (g_default (set_children (Z.of_nat a) (Z.of_nat b) (inner_node p s))) (row X cols i)
                     else match g_type (set_children (Z.of_nat a) (Z.of_nat b) (inner_node p s)) with
                          | TLeaf => Some (Ok n0)
                          | TNum => gwalk toint fuel t (if nle (X i (Z.to_nat (s_feat s))) (g_thr (set_children (Z.of_nat a) (Z.of_nat b) (inner_node p s)))
                                       then g_left (set_children (Z.of_nat a) (Z.of_nat b) (inner_node p s)) else g_right (set_children (Z.of_nat a) (Z.of_nat b) (inner_node p s))) (row X cols i)
                          | TCat => gwalk toint fuel t (if existsb (Z.eqb (toint (X i (Z.to_nat (s_feat s))))) (g_cats (set_children (Z.of_nat a) (Z.of_nat b) (inner_node p s)))
                                       then g_left (set_children (Z.of_nat a) (Z.of_nat b) (inner_node p s)) else g_right (set_children (Z.of_nat a) (Z.of_nat b) (inner_node p s))) (row X cols i)
                          end) = gwalk toint fuel t nx (row X cols i)).
      { unfold nx, goes_left, g_default. cbn [set_children inner_node g_type g_thr g_cats g_left g_right g_defl].
        destruct (is_cat (tp_cats p) (Z.to_nat (s_feat s))) eqn:Ec.
        - rewrite Hn by (auto; lia). reflexivity.
        - destruct (nisnan (X i (Z.to_nat (s_feat s)))) eqn:En; [now rewrite nan_le|reflexivity]. }
      rewrite Enx. clear Enx. unfold nx. apply in_app_or in Hp as [Hp|Hp].
      + pose proof (parts_in l _ _ _ Dl Hp Hi) as Hin. apply filter_In in Hin as [_ Hg]. rewrite Hg.
        apply (IHl a (filter (left_of s) rows)); auto. lia.
      + pose proof (parts_in r _ _ _ Dr Hp Hi) as Hin. apply filter_In in Hin as [_ Hg]. apply negb_true_iff in Hg. rewrite Hg.
        apply (IHr b (filter (fun i => negb (left_of s i)) rows)); auto. lia.
  Qed.
End Grow.
Arguments SL {N} rows.
Arguments SN {N} s l r.
Arguments shape N : clear implicits.

(** ** The split search names a feature *)
Section Finder.
  Context {N : Num}.
  Lemma scan_feat (lambda alpha tg th : N) mindata mark bins : forall left lg lh lc best,
    s_feat (scan lambda alpha tg th mindata mark left lg lh lc bins best) = s_feat best.
  Proof.
    induction bins as [|b bins IH]; intros left lg lh lc best; [reflexivity|]. destruct bins as [|b2 bins]; [reflexivity|].
    cbn [scan] in *. rewrite IH. destruct (_ || _); [reflexivity|]. cbn zeta. destruct (nlt _ _); reflexivity.
  Qed.
  Variables (toint : N -> Z) (X : nat -> nat -> N) (G H : nat -> N) (sortf : list N -> list N) (sortr : list (N * bin N) -> list (N * bin N)).
  Lemma feature_split_feat maxbin cats lambda alpha mindata idxs j s :
    feature_split sortf toint X G H sortr maxbin cats lambda alpha mindata idxs j = Ok s -> s_feat s = Z.of_nat j.
  Proof.
    unfold feature_split, totals. destruct (is_cat cats j).
    - intros E. injection E as <-. unfold cat_split, cat_hist. cbn [h_bins h_feat].
      destruct (map _ _) as [|b [|b2 bs]]; try reflexivity. rewrite scan_feat. reflexivity.
    - unfold cont_hist. destruct (boundaries _ _ _) as [bs| |]; cbn [bind]; try discriminate.
      intros E. injection E as <-. unfold num_split. rewrite scan_feat. reflexivity.
  Qed.
  Lemma finder_feat p cols idxs s : finder toint X G H sortf sortr p cols idxs = Ok s ->
    s_feat s = (-1)%Z \/ (0 <= s_feat s < Z.of_nat cols)%Z.
  Proof.
    unfold finder, find_best_split.
    destruct (mapM (feature_split sortf toint X G H sortr (tp_maxbin p) (tp_cats p) (tp_l2 p) (tp_l1 p) (tp_findmin p) idxs) (seq 0 cols)) as [ss| |] eqn:Em;
      cbn [bind]; try discriminate.
    intros E. injection E as <-.
    assert (F : Forall (fun b => s_feat b = (-1)%Z \/ (0 <= s_feat b < Z.of_nat cols)%Z) ss).
    { assert (Hl : forall j, In j (seq 0 cols) -> j < cols) by (intros j Hj; apply in_seq in Hj; lia).
      revert ss Em Hl. generalize (seq 0 cols). induction l as [|j l IH]; intros ss Em Hl; cbn [mapM] in Em; [injection Em as <-; constructor|].
      destruct (feature_split _ _ _ _ _ _ _ _ _ _ _ _ j) as [s| |] eqn:Ej; cbn [bind] in Em; try discriminate.
      destruct (mapM _ l) as [ss'| |] eqn:El; cbn [bind] in Em; try discriminate. injection Em as <-.
      constructor; [|apply IH; [reflexivity|intros; apply Hl; now right]]. right. rewrite (feature_split_feat _ _ _ _ _ _ _ _ Ej).
      specialize (Hl j (or_introl eq_refl)). lia. }
    assert (K : forall b0, s_feat b0 = (-1)%Z \/ (0 <= s_feat b0 < Z.of_nat cols)%Z ->
                let b := fold_left better ss b0 in s_feat b = (-1)%Z \/ (0 <= s_feat b < Z.of_nat cols)%Z).
    { revert F. clear. induction ss as [|s ss IH]; intros F b0 Hb; [exact Hb|]. inversion F; subst. cbn [fold_left]. apply IH; [assumption|].
      unfold better. now destruct (nlt _ _). }
    specialize (K nothing (or_introl eq_refl)). cbn zeta in K. destruct (nlt _ _); exact K.
  Qed.
End Finder.

(** ** Too few rows for any split *)
Section Few.
  Context {N : Num} (L : lt_laws N).
  Lemma few_rows_split (lambda alpha tg th : N) mindata find bs feat (ss : list (N * (N * N))) :
    (forall s, In s ss -> 2 <= List.length bs -> (0 <= find (fst s) bs < Z.of_nat (List.length bs - 1))%Z) ->
    (Z.of_nat (List.length ss) < 2 * mindata)%Z ->
    num_split lambda alpha tg th mindata (mkhist feat (fill find bs ss) bs) = no_split feat.
  Proof.
    intros Hf Hn. unfold num_split. cbn [h_bins h_feat].
    destruct (scan_spec L lambda alpha tg th mindata (fun _ b => (b_hi b, [])) (fill find bs ss) [] (no_split feat)) as [[E _]|(k & [_ K] & _)].
    - exact E.
    - exfalso. cbn [app List.length] in K. destruct K as [K0 [K1 K2]]. rewrite fill_length in K0.
      assert (Hc : count_all (fill find bs ss) = Z.of_nat (List.length ss)) by (apply fill_count; intros s Hs; apply Hf; [exact Hs|lia]).
      rewrite <- (firstn_skipn k (fill find bs ss)), count_all_app in Hc. lia.
  Qed.
  Variables (toint : N -> Z) (X : nat -> nat -> N) (G H : nat -> N) (sortf : list N -> list N) (sortr : list (N * bin N) -> list (N * bin N)).
  Lemma few_rows_finder p cols idxs s : tp_cats p = [] -> 0 < cols -> nlt (nlit (-1) 1) (@n0 N) = true ->
    (Z.of_nat (List.length idxs) < 2 * tp_findmin p)%Z -> nlt n0 (tp_mingain p) = false ->
    finder toint X G H sortf sortr p cols idxs = Ok s -> s = no_split 0.
  Proof.
    intros Hc Hcols Hneg Hn Hg. unfold finder, find_best_split. rewrite Hc.
    destruct (mapM (feature_split sortf toint X G H sortr (tp_maxbin p) [] (tp_l2 p) (tp_l1 p) (tp_findmin p) idxs) (seq 0 cols)) as [ss| |] eqn:Em;
      cbn [bind]; try discriminate.
    assert (Ess : ss = map no_split (seq 0 cols)).
    { revert ss Em. generalize (seq 0 cols). clear Hcols Hneg Hg. induction l as [|j l IH]; intros ss Em; cbn [mapM] in Em; [injection Em as <-; reflexivity|].
      destruct (feature_split _ _ _ _ _ _ _ _ _ _ _ _ j) as [b| |] eqn:Ej; cbn [bind] in Em; try discriminate.
      destruct (mapM _ l) as [ss'| |] eqn:El; cbn [bind] in Em; try discriminate. injection Em as <-.
      cbn [map]. f_equal; [|now apply IH]. revert Ej. unfold feature_split, totals. cbn [is_cat existsb]. unfold cont_hist.
      destruct (boundaries _ _ _) as [bs| |]; cbn [bind]; try discriminate. intros Ej. injection Ej as <-.
      apply few_rows_split; [|unfold samples; now rewrite map_length]. intros s0 _ H2. now apply find_bin_range. }
    subst ss. destruct cols as [|cols]; [lia|]. cbn [seq map fold_left].
    assert (E0 : better nothing (no_split 0) = no_split 0) by (unfold better, nothing, no_split at 1; cbn [s_gain]; now rewrite Hneg).
    rewrite E0.
    assert (E1 : forall l, fold_left better (map no_split l) (@no_split N 0) = no_split 0).
    { induction l as [|j l IH]; [reflexivity|]. cbn [map fold_left].
      replace (better (no_split 0) (no_split j)) with (@no_split N 0); [exact IH|]. unfold better. cbn [no_split s_gain]. now rewrite (lt_irrefl N L). }
    rewrite E1. cbn [no_split s_gain]. rewrite Hg. intros E. injection E as <-. reflexivity.
  Qed.
End Few.
