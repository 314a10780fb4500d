From Coq Require Import String List Arith ZArith Bool Lia.
From Verif Require Import Base.Num Base.GoRes Base.ListX Model.LgbTree Spec.LgbTree Proofs.LgbTreeP Proofs.LgbArrayP Model.LgbDump Spec.LgbDump.
Import ListNotations.
Local Open Scope list_scope.

Fixpoint omap_all {A B} (f : A -> option B) (l : list A) : option (list B) :=
  match l with [] => Some [] | a :: r => match f a, omap_all f r with Some b, Some bs => Some (b :: bs) | _, _ => None end end.
Section P.
  Context {N : Num}.
  Lemma dump_stores (T : gtree N) z : forall t id fuel, stores (gt_nodes T) id t -> isize t < fuel ->
    exists d, dump fuel T id = Some d /\ forall x, read_dump d x = eval (passes z) t x.
  Proof.
    induction t as [v|q l IHl r IHr]; intros id fuel S Hf; (destruct fuel as [|fuel]; [lia|]).
    - inversion S as [id' n E T1 L|]; subst. exists (DLeaf id (g_leaf n)). split; [cbn [dump]; now rewrite E, L | reflexivity].
    - inversion S as [|id' n l' r' E T1 Hl Hr Hq SL SR]; subst. cbn [isize] in Hf.
      destruct (IHl _ fuel SL) as (dl & El & Rl); [lia|]. destruct (IHr _ fuel SR) as (dr & Er & Rr); [lia|].
      exists (DSplit id (g_feat n) (g_gain n) (g_thr n) (g_defl n) (g_ival n) dl dr). split.
      + cbn [dump]. rewrite E. unfold g_isleaf. replace (g_left n =? -1)%Z with false by (symmetry; apply Z.eqb_neq; lia).
        cbn [andb]. rewrite (proj2 (Z.leb_le _ _) Hl), (proj2 (Z.leb_le _ _) Hr), El, Er. reflexivity.
      + intros x. cbn [read_dump eval q_feat]. unfold getZ. replace (g_feat n <? 0)%Z with false by (symmetry; apply Z.ltb_ge; lia).
        destruct (nth_error x (Z.to_nat (g_feat n))) as [v|]; auto. unfold passes. cbn [q_missing q_left q_thr].
        destruct (nisnan v); [destruct (g_defl n) | destruct (nle v (g_thr n))]; auto.
  Qed.
  Lemma dump_text_values (d : tdoc N) (T : gtree N) : fin_node d (gt_nodes T) -> forall t c is ls fuel,
    describes d c t is ls -> NoDup ls -> isize t < fuel -> inner t = true ->
    exists j, dump fuel T c = Some j /\ dump_values j = [] /\ forall x, read_dump j x = None.
  Proof.
    intros HF. induction t as [v|q l IHl r IHr]; intros c is ls fuel D Hn Hf Hi; [discriminate|]. destruct fuel as [|fuel]; [lia|].
    inversion D as [|i f th code lc rc l' r' il ir ll lr E1 E2 E3 E4 E5 E6 DL DR]; subst. cbn [dump isize] in *.
    rewrite getZ_nat, (HF i f th code lc rc) by assumption. cbn [g_type g_left g_right g_feat g_gain g_thr g_defl g_ival].
    assert (HL : exists j, (if (0 <=? lc)%Z then dump fuel T lc else Some DAbsent) = Some j /\ dump_values j = [] /\ forall x, read_dump j x = None).
    { destruct l as [v|ql l1 l2].
      - inversion DL; subst. replace (0 <=? - Z.of_nat k - 1)%Z with false by (symmetry; apply Z.leb_gt; lia). exists DAbsent. auto.
      - destruct (describes_node _ _ _ _ _ DL eq_refl) as [k [il' [-> ->]]].
        replace (0 <=? Z.of_nat k)%Z with true by (symmetry; apply Z.leb_le; lia). eapply IHl; [exact DL| |lia|reflexivity].
        eapply NoDup_app_remove_r; exact Hn. }
    assert (HR : exists j, (if (0 <=? rc)%Z then dump fuel T rc else Some DAbsent) = Some j /\ dump_values j = [] /\ forall x, read_dump j x = None).
    { destruct r as [v|qr r1 r2].
      - inversion DR; subst. replace (0 <=? - Z.of_nat k - 1)%Z with false by (symmetry; apply Z.leb_gt; lia). exists DAbsent. auto.
      - destruct (describes_node _ _ _ _ _ DR eq_refl) as [k [il' [-> ->]]].
        replace (0 <=? Z.of_nat k)%Z with true by (symmetry; apply Z.leb_le; lia). eapply IHr; [exact DR| |lia|reflexivity].
        eapply NoDup_app_remove_l; exact Hn. }
    assert (L : g_isleaf (mkgn lc rc TNum (Z.of_nat f) th [] (Z.testbit code 1) n0 n0 n0) = false).
    { unfold g_isleaf. cbn [g_left g_right]. destruct (Z.eqb_spec lc (-1)) as [->|]; auto. destruct (Z.eqb_spec rc (-1)) as [->|]; auto. exfalso.
      inversion DL as [k v Ek Ec|]; [|lia]. inversion DR as [k' v' Ek' Ec'|]; [|lia]. subst ll lr. assert (k = k') by lia. subst k'.
      cbn in Hn. inversion Hn as [|? ? Hx _]. apply Hx. now left. }
    rewrite L.
    destruct HL as [jl [-> [VL RL]]]. destruct HR as [jr [-> [VR RR]]]. eexists. split; [reflexivity|]. cbn [dump_values]. rewrite VL, VR. split; auto.
    intros x. cbn [read_dump]. destruct (getZ x (Z.of_nat f)) as [v|]; auto. destruct (if nisnan v then _ else _); auto.
  Qed.
End P.

Section M.
  Context {N : Num}.
  Lemma dump_trees_ok (z : N) : forall Ts ts fuel i, Forall2 (fun T t => stores (gt_nodes T) 0 t /\ isize t < fuel) Ts ts ->
    exists ds, dump_trees fuel i Ts = Some ds /\ map dt_index ds = seq i (length Ts) /\ map dt_leaves ds = map gt_nleaves Ts /\ map dt_shrink ds = map gt_shrink Ts
      /\ forall x, read_all x ds = omap_all (fun t => eval (passes z) t x) ts.
  Proof.
    intros Ts ts fuel i F. revert i. induction F as [|T t Tr tr [S Hf] F IH]; intros i; [exists []; repeat split|].
    destruct (IH (Datatypes.S i)) as (ds & E & I1 & I2 & I3 & R). destruct (dump_stores T z t 0 fuel S Hf) as (d & Ed & Rd).
    exists (mkdt i (gt_nleaves T) (gt_shrink T) (SNodes d) :: ds). cbn [dump_trees]. rewrite E.
    assert (Es : dump_structure fuel T = Some (SNodes d)).
    { unfold dump_structure. destruct (gt_nodes T) as [|n ns] eqn:Q; [|now rewrite Ed].
      exfalso. inversion S as [id n X|id n l r X]; unfold getZ in X; cbn in X; discriminate. }
    rewrite Es. split; [reflexivity|]. cbn [map dt_index dt_leaves dt_shrink length seq]. rewrite I1, I2, I3. repeat split.
    intros x. cbn [read_all omap_all]. unfold read_tree_info at 1. cbn [dt_structure]. rewrite Rd, R. reflexivity.
  Qed.
  Lemma sequence_eval (toint : N -> Z) z x : forall Ts ts fuel, Forall2 (fun T t => stores (gt_nodes T) 0 t /\ isize t < fuel) Ts ts ->
    sequence (fun T => tree_predict toint fuel T x) Ts = Some (match omap_all (fun t => eval (passes z) t x) ts with Some l => Ok l | None => Panic end).
  Proof.
    intros Ts ts fuel F. induction F as [|T t Tr tr [S Hf] F IH]; [reflexivity|]. cbn [sequence omap_all]. rewrite IH.
    unfold tree_predict. rewrite (gwalk_stores toint z T x t 0%Z fuel S Hf). destruct (eval (passes z) t x); auto.
    destruct (omap_all _ tr); auto.
  Qed.
  Lemma omap_all_len {A B} (f : A -> option B) : forall l r, omap_all f l = Some r -> length r = length l.
  Proof.
    induction l as [|a l IH]; cbn; intros r E; [injection E as <-; auto|]. destruct (f a); [|discriminate]. destruct (omap_all f l) eqn:Q; [|discriminate].
    injection E as <-. cbn. f_equal. now apply IH.
  Qed.
  Lemma upd_seq_map {A} (g : nat -> A) h : forall k s n, map (fun c => if Nat.eqb n c then h (g c) else g c) (seq s k) = upd (n - s) h (map g (seq s k)) \/ n < s.
  Proof.
    induction k as [|k IH]; intros s n; [left; cbn; now destruct (n - s)|]. destruct (Nat.lt_ge_cases n s) as [L|L]; [now right|]. left. cbn [seq map].
    destruct (Nat.eqb_spec n s) as [->|D].
    - rewrite Nat.sub_diag. cbn [upd]. f_equal. apply map_ext_in. intros c Hc. apply in_seq in Hc. destruct (Nat.eqb_spec s c); [lia|auto].
    - replace (n - s) with (Datatypes.S (n - Datatypes.S s)) by lia. cbn [upd]. f_equal. destruct (IH (Datatypes.S s) n) as [E|E]; [exact E|lia].
  Qed.
  Lemma accumulate_map (add : N -> N -> N) k : forall l (acc : nat -> N),
    fold_left (fun a io => upd (Nat.modulo (fst io) k) (fun v => add v (snd io)) a) l (map acc (seq 0 k))
    = map (fun c => fold_left (fun a (t : nat * N) => if Nat.eqb (Nat.modulo (fst t) k) c then add a (snd t) else a) l (acc c)) (seq 0 k).
  Proof.
    induction l as [|[i v] l IH]; intros acc; [reflexivity|]. cbn [fold_left fst snd].
    destruct (upd_seq_map acc (fun w => add w v) k 0 (Nat.modulo i k)) as [E|E]; [|lia]. rewrite Nat.sub_0_r in E. rewrite <- E.
    rewrite (IH (fun c => if Nat.eqb (Nat.modulo i k) c then add (acc c) v else acc c)). reflexivity.
  Qed.
  Lemma map_const_repeat {A} (a : A) : forall k s, map (fun _ => a) (seq s k) = repeat a k.
  Proof. induction k; intros s; cbn; auto. now rewrite IHk. Qed.
End M.
