(** Proofs about the tree loaders of sklearn/lightgbm. *)
From Coq Require Import String List Arith ZArith Bool Lia.
From Verif Require Import Base.Num Base.GoRes Base.Mat Base.ListX Model.LgbTransform Model.LgbTree Spec.LgbTree.
Import ListNotations.
Local Open Scope list_scope.

Lemma nth_error_snoc {A} (l : list A) a : nth_error (l ++ [a]) (List.length l) = Some a.
Proof. rewrite nth_error_app2 by lia. now rewrite Nat.sub_diag. Qed.
Lemma upd_mid {A} (g : A -> A) P n Q : upd (List.length P) g (P ++ n :: Q) = P ++ g n :: Q.
Proof. induction P as [|p P IH]; cbn; [reflexivity|]. now rewrite IH. Qed.
Lemma NoDup_app_remove_r {A} (a b : list A) : NoDup (a ++ b) -> NoDup a.
Proof.
  induction a as [|x a IH]; cbn; intros H; [constructor|]. inversion H; subst. constructor; [|auto].
  intros Hc. apply H2. apply in_or_app. now left.
Qed.
Lemma NoDup_app_remove_l {A} (a b : list A) : NoDup (a ++ b) -> NoDup b.
Proof. induction a as [|x a IH]; cbn; intros H; [exact H|]. inversion H; subst. auto. Qed.
Lemma getZ_nat {A} (l : list A) i : getZ l (Z.of_nat i) = nth_error l i.
Proof. unfold getZ. destruct (Z.ltb_spec (Z.of_nat i) 0); [lia|]. now rewrite Nat2Z.id. Qed.
Lemma getZ_neg {A} (l : list A) z : (z < 0)%Z -> getZ l z = None.
Proof. intros H. unfold getZ. now apply Z.ltb_lt in H as ->. Qed.

Lemma mtype_bits c : mtype c = ((if Z.testbit c 3 then 2 else 0) + (if Z.testbit c 2 then 1 else 0))%Z.
Proof.
  unfold mtype. change (Z.land (Z.shiftr c 2) 3) with (Z.land (Z.shiftr c 2) (Z.ones 2)). rewrite Z.land_ones by lia. change (2 ^ 2)%Z with 4%Z.
  set (x := Z.shiftr c 2).
  assert (E2 : Z.testbit c 2 = Z.testbit x 0) by (unfold x; rewrite Z.shiftr_spec by lia; reflexivity).
  assert (E3 : Z.testbit c 3 = Z.testbit x 1) by (unfold x; rewrite Z.shiftr_spec by lia; reflexivity).
  rewrite E2, E3. clear.
  assert (B0 : Z.testbit x 0 = Z.odd x) by apply Z.bit0_odd.
  assert (B1 : Z.testbit x 1 = Z.odd (Z.div2 x)).
  { rewrite <- Z.bit0_odd, Z.div2_spec, Z.shiftr_spec by lia. reflexivity. }
  rewrite B0, B1. clear B0 B1. pose proof (Z.div2_odd x) as H1. pose proof (Z.div2_odd (Z.div2 x)) as H2.
  generalize dependent (Z.odd x). generalize dependent (Z.odd (Z.div2 x)).
  intros b Hb a Ha.
  replace x with (2 * Z.b2z b + Z.b2z a + (Z.div2 (Z.div2 x)) * 4)%Z by lia.
  rewrite Z.mod_add by lia. destruct a, b; reflexivity.
Qed.

Section P.
  Context {N : Num}.
  Variables toint32 toint roundint : N -> Z.
  Variable zthr : N.

  (** ** The compact layout *)
  Definition good_node (n : lnode N) (q : test N) : Prop :=
    l_feat n = q_feat q /\ forall v, decision toint32 zthr n v = passes zthr q v.
  Fixpoint placed (ns : list (lnode N)) (lv : list N) (base : nat) (t : btree N) : Prop :=
    match t with
    | BLeaf _ => True
    | BNode q l r => exists n, nth_error ns base = Some n /\ good_node n q
        /\ match l with
           | BLeaf v => l_lleaf n = true /\ nth_error lv (l_left n) = Some v
           | _ => l_lleaf n = false /\ l_left n = S base + isize r /\ placed ns lv (S base + isize r) l
           end
        /\ match r with
           | BLeaf v => l_rleaf n = true /\ nth_error lv (l_right n) = Some v
           | _ => l_rleaf n = false /\ placed ns lv (S base) r
           end
    end.

  Lemma placed_agree lv t : forall ns ns' base,
    (forall j, base <= j < base + isize t -> nth_error ns j = nth_error ns' j) ->
    placed ns lv base t -> placed ns' lv base t.
  Proof.
    induction t as [v|q l IHl r IHr]; intros ns ns' base H P; [exact I|].
    cbn [placed isize] in *. destruct P as [n [E [G [PL PR]]]]. exists n.
    rewrite <- H by lia. split; [exact E|]. split; [exact G|]. split.
    - destruct l as [v|q' l1 l2]; [exact PL|]. destruct PL as [A [B C]]. split; [exact A|]. split; [exact B|].
      refine (IHl ns ns' _ _ C). intros j Hj. apply H. cbn [isize] in *. lia.
    - destruct r as [v|q' r1 r2]; [exact PR|]. destruct PR as [A C]. split; [exact A|].
      refine (IHr ns ns' _ _ C). intros j Hj. apply H. cbn [isize] in *. lia.
  Qed.

  Lemma walk_placed ns lv sh iv x : forall t base fuel, inner t = true -> placed ns lv base t -> isize t <= fuel ->
    lwalk toint32 zthr fuel (mklt ns lv sh iv) base x
    = Some (match eval (passes zthr) t x with Some v => Ok v | None => Panic end).
  Proof.
    induction t as [v|q l IHl r IHr]; intros base fuel Hi P Hf; [discriminate|].
    cbn [placed isize] in *. destruct P as [n [E [[Gf Gd] [PL PR]]]].
    destruct fuel as [|fuel]; [lia|]. cbn [lwalk lt_nodes lt_leaves eval]. rewrite E, Gf.
    destruct (nth_error x (q_feat q)) as [v|]; [|reflexivity]. rewrite Gd.
    destruct (passes zthr q v).
    - destruct l as [w|q' l1 l2].
      + destruct PL as [-> ->]. reflexivity.
      + destruct PL as [-> [-> P]]. apply IHl; [reflexivity|exact P|lia].
    - destruct r as [w|q' r1 r2].
      + destruct PR as [-> ->]. reflexivity.
      + destruct PR as [-> P]. apply IHr; [reflexivity|exact P|lia].
  Qed.

  (** *** Nodes created from a document *)
  Lemma create_good (d : tdoc N) i f th code lc rc :
    nth_error (d_feat d) i = Some f -> nth_error (d_thr d) i = Some th ->
    nth_error (d_dtype d) i = Some code -> Z.testbit code 0 = false ->
    nth_error (d_left d) i = Some lc -> nth_error (d_right d) i = Some rc ->
    exists n, create_node d i = Ok n /\ good_node n (test_of f th code)
      /\ l_lleaf n = (lc <? 0)%Z /\ l_rleaf n = (rc <? 0)%Z
      /\ ((lc < 0)%Z -> l_left n = Z.to_nat (- lc - 1)) /\ ((rc < 0)%Z -> l_right n = Z.to_nat (- rc - 1)).
  Proof.
    intros E1 E2 E3 E4 E5 E6. unfold create_node. rewrite E1, E2, E3, E5, E6. eexists. split; [reflexivity|].
    split; [|cbn [l_lleaf l_rleaf l_left l_right]; repeat split; intros H; apply Z.ltb_lt in H; now rewrite H].
    split; [reflexivity|]. intros v. unfold decision. cbn [l_cat]. rewrite E4. cbn [negb andb].
    unfold num_decision, passes, test_of, near_zero. cbn [l_mzero l_mnan l_defl l_thr q_missing q_thr q_left].
    rewrite mtype_bits. destruct (Z.testbit code 2), (Z.testbit code 3); cbn; rewrite ?andb_true_r, ?andb_false_r;
      destruct (nisnan v) eqn:Ev; cbn; rewrite ?Ev, ?orb_false_r; reflexivity.
  Qed.

  Lemma good_set_left k n q : good_node n q -> good_node (set_left k n) q.
  Proof. intros [G1 G2]. split; [exact G1|]. intros v. rewrite <- G2. reflexivity. Qed.

  Lemma describes_inner (d : tdoc N) c t is ls : describes d c t is ls -> inner t = (0 <=? c)%Z.
  Proof.
    intros H. inversion H; subst; cbn [inner]; symmetry; [apply Z.leb_gt; lia|apply Z.leb_le; lia].
  Qed.
  Lemma describes_isize (d : tdoc N) c t is ls : describes d c t is ls -> List.length is = isize t.
  Proof. induction 1; cbn [isize List.length]; [reflexivity|]. rewrite app_length. congruence. Qed.
  Lemma describes_range (d : tdoc N) c t is ls : describes d c t is ls -> forall i, In i is -> i < List.length (d_left d) /\ i < List.length (d_feat d).
  Proof.
    induction 1 as [|i f th code lc rc l r il ir ll lr E1 E2 E3 E4 E5 E6 D1 I1 D2 I2]; intros j Hj; [easy|].
    destruct Hj as [<-|Hj]; [split; apply nth_error_Some; congruence|]. apply in_app_or in Hj. destruct Hj; eauto.
  Qed.
  (** the index of the child, when it is an inner node *)
  Lemma describes_node (d : tdoc N) c t is ls : describes d c t is ls -> inner t = true -> exists i is', c = Z.of_nat i /\ is = i :: is'.
  Proof. intros H. inversion H; subst; cbn; [discriminate|]. eauto. Qed.

  Lemma enter_fresh V i : nth_error V i = Some false -> enter V (Z.of_nat i) = Some i.
  Proof. intros H. unfold enter. destruct (Z.ltb_spec (Z.of_nat i) 0); [lia|]. now rewrite Nat2Z.id, H. Qed.
  Lemma enter_seen V i : nth_error V i = Some true -> enter V (Z.of_nat i) = None.
  Proof. intros H. unfold enter. destruct (Z.ltb_spec (Z.of_nat i) 0); [lia|]. now rewrite Nat2Z.id, H. Qed.

  (** marking a list of nodes as visited *)
  Definition marked (is : list nat) (V V' : list bool) : Prop :=
    List.length V' = List.length V
    /\ (forall j, In j is -> nth_error V' j = Some true) /\ (forall j, ~ In j is -> nth_error V' j = nth_error V j).
  Lemma marked_nil V : marked [] V V.
  Proof. split; [reflexivity|]. split; [easy|reflexivity]. Qed.
  Lemma marked_cons i is V V' : i < List.length V -> marked is (upd i (fun _ => true) V) V' -> ~ In i is -> marked (i :: is) V V'.
  Proof.
    intros Hi [H1 [H2 H3]] Hn. split; [now rewrite H1, upd_length|]. split.
    - intros j [<-|Hj]; [|auto]. rewrite H3 by assumption. rewrite nth_error_upd_same.
      destruct (nth_error V i) eqn:E; [reflexivity|]. apply nth_error_None in E. lia.
    - intros j Hj. rewrite H3 by (intros Hc; apply Hj; now right). apply nth_error_upd_other. intros ->. apply Hj. now left.
  Qed.
  Lemma marked_app a b V V1 V2 : marked a V V1 -> marked b V1 V2 -> marked (a ++ b) V V2.
  Proof.
    intros [H1 [H2 H3]] [G1 [G2 G3]]. split; [congruence|]. split.
    - intros j Hj. apply in_app_or in Hj. destruct (in_dec Nat.eq_dec j b) as [Hb|Hb]; [auto|].
      rewrite G3 by assumption. destruct Hj; [auto|contradiction].
    - intros j Hj. rewrite G3, H3; [reflexivity| |]; intros Hc; apply Hj; apply in_or_app; auto.
  Qed.

  Lemma dfs_spec (d : tdoc N) : forall t i is ls,
    describes d (Z.of_nat i) t (i :: is) ls -> NoDup (i :: is) ->
    forall n P K V, create_node d i = Ok n ->
      (forall j, In j is -> nth_error V j = Some false) ->
      exists L V', List.length L = isize t /\ marked is V V'
        /\ placed (P ++ L) (d_lv d) (List.length P) t
        /\ forall fuel, dfs (2 * isize t - 1 + fuel) d ((i, List.length P) :: K) V (P ++ [n]) = dfs fuel d K V' (P ++ L).
  Proof.
    induction t as [v|q l IHl r IHr]; intros i is ls D Hnd n P K V Hc Hfresh.
    - apply describes_inner in D. cbn in D. symmetry in D. apply Z.leb_gt in D. lia.
    - inversion D as [|i' f th code lc rc l' r' il ir ll lr E1 E2 E3 E4 E5 E6 DL DR Ei Et Ei2]; subst.
      destruct (create_good d i f th code lc rc E1 E2 E3 E4 E5 E6) as [n' [Hc' [G [Gl [Gr [Gll Grr]]]]]].
      rewrite Hc in Hc'. injection Hc' as <-.
      assert (HndR : NoDup (ir ++ il)) by (now inversion Hnd).
      assert (Hdisj : forall j, In j ir -> In j il -> False).
      { clear - HndR. induction ir as [|a ir IH]; [easy|]. cbn in HndR. inversion HndR; subst. intros j [<-|Hj] Hl; [|eauto].
        apply H1. apply in_or_app. now right. }
      (* the right subtree *)
      assert (HR : exists R V1, List.length R = isize r /\ marked ir V V1
          /\ (match r with
              | BLeaf v => l_rleaf n = true /\ nth_error (d_lv d) (l_right n) = Some v
              | _ => l_rleaf n = false /\ placed (P ++ n :: R) (d_lv d) (S (List.length P)) r
              end)
          /\ (inner r = true -> enter V1 rc = None)
          /\ forall fuel, dfs (2 * isize r + fuel) d ((i, List.length P) :: K) V (P ++ [n])
                          = dfs fuel d ((i, List.length P) :: K) V1 (P ++ n :: R)).
      { destruct r as [v|qr r1 r2].
        - inversion DR; subst. exists [], V. split; [reflexivity|]. split; [apply marked_nil|].
          split; [|split; [discriminate|intros; reflexivity]].
          rewrite Gr, Grr by lia. split; [apply Z.ltb_lt; lia|]. now replace (Z.to_nat (- (- Z.of_nat k - 1) - 1)) with k by lia.
        - destruct (describes_node _ _ _ _ _ DR eq_refl) as [k [ir' [-> ->]]].
          assert (Hk : nth_error V k = Some false) by (apply Hfresh; apply in_or_app; left; now left).
          assert (Hlen : k < List.length V) by (apply nth_error_Some; congruence).
          inversion DR as [|k' fk thk codek lck rck lk rk ilk irk llk lrk K1 K2 K3 K4 K5 K6]; subst.
          destruct (create_good d k _ _ _ _ _ K1 K2 K3 K4 K5 K6) as [nk [Hck _]].
          assert (Hnd1 : NoDup (k :: irk ++ ilk)) by (now apply NoDup_app_remove_r in HndR).
          destruct (IHr k (irk ++ ilk) _ DR Hnd1 nk (P ++ [n]) ((i, List.length P) :: K) (upd k (fun _ => true) V) Hck) as [R [V1 [R1 [R2 [R3 R4]]]]].
          { intros j Hj. rewrite nth_error_upd_other; [apply Hfresh; apply in_or_app; left; now right|].
            intros ->. now inversion Hnd1. }
          exists R, V1. split; [exact R1|].
          assert (HM : marked (k :: irk ++ ilk) V V1) by (apply marked_cons; [exact Hlen|exact R2|now inversion Hnd1]).
          split; [exact HM|]. split; [|split].
          + rewrite Gr. split; [apply Z.ltb_ge; lia|].
            rewrite <- app_assoc in R3. cbn [app] in R3. rewrite app_length in R3. cbn [List.length] in R3.
            rewrite Nat.add_1_r in R3. exact R3.
          + intros _. apply enter_seen. apply (proj1 (proj2 HM)). now left.
          + intros fuel. cbn [isize] in *. set (m := (S (isize r2 + isize r1))) in *.
            replace (2 * m + fuel) with (S (2 * m - 1 + fuel)) by lia.
            cbn [dfs]. rewrite nth_error_snoc, Gr.
            replace (Z.of_nat k <? 0)%Z with false by (symmetry; apply Z.ltb_ge; lia).
            rewrite E6, (enter_fresh _ _ Hk), Hck.
            specialize (R4 fuel). rewrite <- !app_assoc in R4. cbn [app] in R4. rewrite app_length in *. cbn [List.length] in *.
            rewrite Nat.add_1_r in *. rewrite <- app_assoc. exact R4. }
      destruct HR as [R [V1 [R1 [R2 [R3 [R4 R5]]]]]].
      assert (HV1 : forall j, In j ir -> nth_error V1 j = Some true) by apply R2.
      (* one round at node i once the right side is done *)
      assert (Hround : forall m fuel Q V2, l_rleaf m = l_rleaf n -> l_lleaf m = l_lleaf n -> (forall j, In j ir -> nth_error V2 j = Some true) ->
        dfs (S fuel) d ((i, List.length P) :: K) V2 (P ++ m :: Q) =
          (if l_lleaf n then dfs fuel d K V2 (P ++ m :: Q)
           else match enter V2 lc with
                | None => dfs fuel d K V2 (P ++ m :: Q)
                | Some k => match create_node d k with
                            | Ok nd => dfs fuel d ((k, List.length (P ++ m :: Q)) :: (i, List.length P) :: K) (upd k (fun _ => true) V2)
                                         (upd (List.length P) (set_left (List.length (P ++ m :: Q))) (P ++ m :: Q) ++ [nd])
                            | Err e => Some (Err e)
                            | Panic => Some Panic
                            end
                end)).
      { intros m fuel Q V2 Hm1 Hm2 HV2. cbn [dfs]. rewrite nth_error_app2, Nat.sub_diag by lia. cbn [nth_error].
        rewrite Hm1, Hm2, E5.
        destruct (l_rleaf n) eqn:Er; [reflexivity|]. rewrite E6.
        assert (Hrc : enter V2 rc = None).
        { symmetry in Gr. apply Z.ltb_ge in Gr.
          assert (Hri : inner r = true) by (rewrite (describes_inner _ _ _ _ _ DR); now apply Z.leb_le).
          destruct (describes_node _ _ _ _ _ DR Hri) as [k [ir' [-> ->]]]. apply enter_seen. apply HV2. now left. }
        now rewrite Hrc. }
      destruct l as [v|ql l1 l2].
      + inversion DL; subst. exists (n :: R), V1. split; [cbn; lia|]. rewrite app_nil_r. split; [exact R2|]. split.
        * cbn [placed]. exists n. split; [rewrite nth_error_app2, Nat.sub_diag by lia; reflexivity|]. split; [exact G|].
          split; [|exact R3]. rewrite Gl, Gll by lia. split; [apply Z.ltb_lt; lia|].
          now replace (Z.to_nat (- (- Z.of_nat k - 1) - 1)) with k by lia.
        * intros fuel. cbn [isize]. replace (2 * S (isize r + 0) - 1 + fuel) with (2 * isize r + S fuel) by lia.
          rewrite R5, Hround by auto. rewrite Gl. replace (- Z.of_nat k - 1 <? 0)%Z with true by (symmetry; apply Z.ltb_lt; lia). reflexivity.
      + destruct (describes_node _ _ _ _ _ DL eq_refl) as [k [il' [-> ->]]].
        assert (Hk : nth_error V1 k = Some false).
        { rewrite (proj2 (proj2 R2)); [apply Hfresh; apply in_or_app; right; now left|]. intros Hc1. apply (Hdisj k Hc1). now left. }
        assert (Hlen : k < List.length V1) by (apply nth_error_Some; congruence).
        inversion DL as [|k' fk thk codek lck rck lk rk ilk irk llk lrk K1 K2 K3 K4 K5 K6]; subst.
        destruct (create_good d k _ _ _ _ _ K1 K2 K3 K4 K5 K6) as [nk [Hck _]].
        assert (Hnd1 : NoDup (k :: irk ++ ilk)) by (now apply NoDup_app_remove_l in HndR).
        set (n2 := set_left (List.length (P ++ n :: R)) n).
        destruct (IHl k (irk ++ ilk) _ DL Hnd1 nk (P ++ n2 :: R) ((i, List.length P) :: K) (upd k (fun _ => true) V1) Hck) as [L [V2 [L1 [L2 [L3 L4]]]]].
        { intros j Hj. rewrite nth_error_upd_other.
          - rewrite (proj2 (proj2 R2)); [apply Hfresh; apply in_or_app; right; now right|]. intros Hc1. apply (Hdisj j Hc1). now right.
          - intros ->. now inversion Hnd1. }
        assert (HM : marked (k :: irk ++ ilk) V1 V2) by (apply marked_cons; [exact Hlen|exact L2|now inversion Hnd1]).
        exists (n2 :: R ++ L), V2. split; [cbn [List.length isize]; rewrite app_length; cbn [isize] in L1; lia|].
        split; [now apply (marked_app _ _ V V1)|].
        assert (Elen : List.length (P ++ n2 :: R) = S (List.length P) + isize r) by (rewrite app_length; cbn [List.length]; lia).
        split.
        * cbn [placed]. exists n2. split; [rewrite nth_error_app2, Nat.sub_diag by lia; reflexivity|].
          split; [now apply good_set_left|]. split.
          -- split; [cbn [n2 set_left l_lleaf]; rewrite Gl; apply Z.ltb_ge; lia|].
             split; [cbn [n2 set_left l_left]; rewrite app_length; cbn [List.length]; lia|].
             rewrite Elen in L3. rewrite <- app_assoc in L3. exact L3.
          -- destruct r as [w|qr r1 r2]; [exact R3|]. destruct R3 as [A B]. split; [exact A|].
             revert B. apply placed_agree. intros j Hj.
             rewrite !nth_error_app2 by lia. destruct (j - List.length P) as [|j'] eqn:Ej; [lia|]. cbn [nth_error].
             rewrite nth_error_app1 by lia. reflexivity.
        * intros fuel. cbn [isize] in L4 |- *. set (sl := S (isize l2 + isize l1)) in *.
          replace (2 * S (isize r + sl) - 1 + fuel) with (2 * isize r + S (2 * sl - 1 + S fuel)) by lia.
          rewrite R5, Hround by auto. rewrite Gl. replace (Z.of_nat k <? 0)%Z with false by (symmetry; apply Z.ltb_ge; lia).
          rewrite (enter_fresh _ _ Hk), Hck, upd_mid. fold n2.
          replace (List.length (P ++ n :: R)) with (List.length (P ++ n2 :: R)) by (rewrite !app_length; reflexivity).
          rewrite L4. rewrite <- app_assoc. cbn [app]. rewrite Hround.
          -- rewrite Gl. replace (Z.of_nat k <? 0)%Z with false by (symmetry; apply Z.ltb_ge; lia).
             rewrite (enter_seen V2 k); [reflexivity|]. apply (proj1 (proj2 HM)). now left.
          -- reflexivity.
          -- reflexivity.
          -- intros j Hj. rewrite (proj2 (proj2 HM)); [auto|]. intros Hc1. exact (Hdisj j Hj Hc1).
  Qed.

  (** *** The whole loader *)
  Lemma NoDup_bound (is : list nat) n : NoDup is -> (forall i, In i is -> i < n) -> List.length is <= n.
  Proof.
    intros H1 H2. rewrite <- (seq_length n 0). apply NoDup_incl_length; [exact H1|].
    intros i Hi. apply in_seq. specialize (H2 i Hi). lia.
  Qed.

  Lemma read_tree_spec (d : tdoc N) t first : well_formed d t ->
    exists ns iv, read_tree first d = Some (Ok (mklt ns (d_lv d) (d_shrink d) iv)) /\ List.length ns = isize t
      /\ inner t = true /\ placed ns (d_lv d) 0 t.
  Proof.
    intros [is [ls [D [Hnd [_ [Hlen _]]]]]].
    pose proof (describes_inner _ _ _ _ _ D) as Hi. cbn in Hi.
    destruct (describes_node _ _ _ _ _ D Hi) as [i [is' [Ei ->]]]. destruct i as [|i]; [|lia]. clear Ei.
    assert (Hl : (1 < d_leaves d)%Z).
    { destruct (describes_range _ _ _ _ _ D 0 (or_introl eq_refl)). lia. }
    unfold read_tree. replace (d_leaves d <? 1)%Z with false by (symmetry; apply Z.ltb_ge; lia).
    replace (d_leaves d =? 1)%Z with false by (symmetry; apply Z.eqb_neq; lia).
    replace (Z.to_nat (d_leaves d - 1)) with (List.length (d_left d)) by lia.
    inversion D as [|i0 f th code lc rc l r il ir ll lr E1 E2 E3 E4 E5 E6]; subst.
    destruct (create_good d 0 _ _ _ _ _ E1 E2 E3 E4 E5 E6) as [n [Hc _]]. rewrite Hc.
    change (0%Z) with (Z.of_nat 0) in D.
    pose proof (describes_isize _ _ _ _ _ D) as Hs.
    assert (Hsz : isize (BNode (test_of f th code) l r) <= List.length (d_left d)).
    { rewrite <- Hs. apply NoDup_bound; [exact Hnd|]. intros j Hj. exact (proj1 (describes_range _ _ _ _ _ D j Hj)). }
    destruct (dfs_spec d _ _ _ _ D Hnd n [] [] (repeat false (List.length (d_left d))) Hc) as [L [V' [L1 [L2 [L3 L4]]]]].
    { intros j Hj. apply nth_error_repeat. apply (describes_range _ _ _ _ _ D). now right. }
    set (sz := isize _) in *. cbn [app List.length] in *.
    specialize (L4 (3 + 2 * (List.length (d_left d) - sz))).
    assert (1 <= sz) by (unfold sz; cbn [isize]; lia).
    replace (2 * sz - 1 + (3 + 2 * (List.length (d_left d) - sz))) with (2 * List.length (d_left d) + 2) in L4 by lia.
    rewrite L4. cbn [dfs]. exists L. eexists. split; [reflexivity|]. split; [exact L1|]. split; [reflexivity|exact L3].
  Qed.

  (** *** The loader always ends *)
  Definition unvisited (V : list bool) : nat := List.length (filter negb V).
  Lemma unvisited_upd V : forall k, nth_error V k = Some false -> unvisited V = S (unvisited (upd k (fun _ => true) V)).
  Proof.
    unfold unvisited. induction V as [|b V IH]; intros [|k] H; cbn in H; try discriminate.
    - injection H as ->. reflexivity.
    - cbn. specialize (IH k H). destruct b; cbn; lia.
  Qed.
  Lemma enter_some V c k : enter V c = Some k -> nth_error V k = Some false.
  Proof.
    unfold enter. destruct (c <? 0)%Z; [discriminate|]. destruct (nth_error V (Z.to_nat c)) as [[|]|] eqn:E; try discriminate.
    intros H. injection H as <-. exact E.
  Qed.
  Lemma dfs_ends (d : tdoc N) : forall fuel K V ns, 2 * unvisited V + List.length K < fuel -> dfs fuel d K V ns <> None.
  Proof.
    induction fuel as [|fuel IH]; intros K V ns H; [lia|]. cbn [dfs].
    destruct K as [|[o c] K]; [discriminate|]. cbn [List.length] in H.
    destruct (nth_error ns c) as [n|]; [|discriminate].
    assert (Hl : (if l_lleaf n then dfs fuel d K V ns
                  else match nth_error (d_left d) o with
                       | None => Some (Err (EOther 1))
                       | Some lc =>
                           match enter V lc with
                           | None => dfs fuel d K V ns
                           | Some k =>
                               match create_node d k with
                               | Ok nd => dfs fuel d ((k, List.length ns) :: (o, c) :: K) (upd k (fun _ => true) V)
                                            (upd c (set_left (List.length ns)) ns ++ [nd])
                               | Err e => Some (Err e)
                               | Panic => Some Panic
                               end
                           end
                       end) <> None).
    { destruct (l_lleaf n); [apply IH; lia|]. destruct (nth_error (d_left d) o) as [lc|]; [|discriminate].
      destruct (enter V lc) as [k|] eqn:E; [|apply IH; lia].
      apply enter_some, unvisited_upd in E. destruct (create_node d k); try discriminate.
      apply IH. cbn [List.length]. lia. }
    destruct (l_rleaf n); [exact Hl|]. destruct (nth_error (d_right d) o) as [rc|]; [|discriminate].
    destruct (enter V rc) as [k|] eqn:E; [|exact Hl].
    apply enter_some, unvisited_upd in E. destruct (create_node d k); try discriminate.
    apply IH. cbn [List.length]. lia.
  Qed.
  Lemma read_tree_ends (d : tdoc N) first : read_tree first d <> None.
  Proof.
    unfold read_tree. destruct (d_leaves d <? 1)%Z; [discriminate|]. destruct (d_leaves d =? 1)%Z; [discriminate|].
    destruct (create_node d 0) as [n| |]; try discriminate.
    set (nn := Z.to_nat _).
    assert (H : dfs (2 * nn + 2) d [(0, 0)] (repeat false nn) [n] <> None).
    { apply dfs_ends. cbn [List.length].
      assert (unvisited (repeat false nn) <= nn) by (unfold unvisited; eapply Nat.le_trans; [apply filter_length_le|rewrite repeat_length; lia]). lia. }
    destruct (dfs _ _ _ _ _) as [[| |]|]; try discriminate. contradiction.
  Qed.

  (** ** The JSON loader of the compact layout *)
  Fixpoint jplaced (ns : list (lnode N)) (lv : list N) (base : nat) (t : btree N) : Prop :=
    match t with
    | BLeaf _ => True
    | BNode q l r => exists n, nth_error ns base = Some n /\ good_node n q
        /\ match l with
           | BLeaf v => l_lleaf n = true /\ nth_error lv (l_left n) = Some v
           | _ => l_lleaf n = false /\ l_left n = S base /\ jplaced ns lv (S base) l
           end
        /\ match r with
           | BLeaf v => l_rleaf n = true /\ nth_error lv (l_right n) = Some v
           | _ => l_rleaf n = false /\ jplaced ns lv (S base + isize l) r
           end
    end.

  Lemma jplaced_agree lv lv' t : forall ns ns' base,
    (forall j, base <= j < base + isize t -> nth_error ns j = nth_error ns' j) ->
    (forall j v, nth_error lv j = Some v -> nth_error lv' j = Some v) ->
    jplaced ns lv base t -> jplaced ns' lv' base t.
  Proof.
    induction t as [v|q l IHl r IHr]; intros ns ns' base H Hv P; [exact I|].
    cbn [jplaced isize] in *. destruct P as [n [E [G [PL PR]]]]. exists n.
    rewrite <- H by lia. split; [exact E|]. split; [exact G|]. split.
    - destruct l as [v|q' l1 l2]; [destruct PL; auto|]. destruct PL as [A [B C]]. split; [exact A|]. split; [exact B|].
      refine (IHl ns ns' _ _ Hv C). intros j Hj. apply H. cbn [isize] in *. lia.
    - destruct r as [v|q' r1 r2]; [destruct PR; auto|]. destruct PR as [A C]. split; [exact A|].
      refine (IHr ns ns' _ _ Hv C). intros j Hj. apply H. cbn [isize] in *. lia.
  Qed.

  Lemma walk_jplaced ns lv sh iv x : forall t base fuel, inner t = true -> jplaced ns lv base t -> isize t <= fuel ->
    lwalk toint32 zthr fuel (mklt ns lv sh iv) base x
    = Some (match eval (passes zthr) (right_lost t) x with Some v => Ok v | None => Panic end).
  Proof.
    induction t as [v|q l IHl r IHr]; intros base fuel Hi P Hf; [discriminate|].
    cbn [jplaced isize] in *. destruct P as [n [E [[Gf Gd] [PL PR]]]].
    destruct fuel as [|fuel]; [lia|]. cbn [lwalk lt_nodes lt_leaves right_lost eval]. rewrite E, Gf.
    destruct (nth_error x (q_feat q)) as [v|]; [|reflexivity]. rewrite Gd.
    destruct (passes zthr q v).
    - destruct l as [w|q' l1 l2].
      + destruct PL as [-> ->]. reflexivity.
      + destruct PL as [-> [-> P]]. apply IHl; [reflexivity|exact P|lia].
    - destruct r as [w|q' r1 r2].
      + destruct PR as [-> ->]. rewrite andb_false_r. reflexivity.
      + destruct PR as [-> P]. destruct l as [w|q2 l1 l2].
        * cbn [inner andb]. rewrite Nat.add_0_r in P. apply IHr; [reflexivity|exact P|lia].
        * cbn [inner andb]. destruct PL as [_ [_ PL]]. apply IHl; [reflexivity|exact PL|lia].
  Qed.

  Lemma json_good f : j_cat f = false ->
    good_node (json_lnode f) (mktest (Z.to_nat (j_feat f)) (j_thr f) (missing_of (j_missing f)) (j_defl f)).
  Proof.
    intros E. split; [reflexivity|]. intros v. unfold decision, json_lnode. cbn [l_cat]. rewrite E.
    unfold num_decision, passes, missing_of, near_zero. cbn [l_mzero l_mnan l_defl l_thr q_missing q_thr q_left].
    destruct (String.eqb_spec (j_missing f) "Zero") as [->|Hz].
    - cbn. rewrite andb_true_r. destruct (nisnan v) eqn:Ev; cbn; rewrite ?orb_false_r; reflexivity.
    - destruct (String.eqb (j_missing f) "NaN"); cbn; rewrite ?andb_false_r, ?andb_true_r; cbn; [|reflexivity].
      destruct (nisnan v) eqn:Ev; reflexivity.
  Qed.
  Lemma good_set_refs idx lr rr n q : good_node n q -> good_node (set_refs idx lr rr n) q.
  Proof. intros [G1 G2]. split; [exact G1|]. intros v. rewrite <- G2. reflexivity. Qed.

  Lemma json_not_nil (j : jnode N) t : json_tree j t -> is_nil j = false.
  Proof. intros H. now inversion H. Qed.
  Lemma json_leaf_case (j : jnode N) t : json_tree j t -> inner t = negb (jleaf j).
  Proof.
    intros H. inversion H as [|f l r tl tr H1 H2]; subst; [reflexivity|]. cbn.
    destruct l; [contradiction|]. reflexivity.
  Qed.

  Lemma build_spec : forall j t, json_tree j t -> forall ns lv,
    exists L W, build_nodes j (ns, lv) = ((if inner t then RNode (List.length ns) else RLeaf (List.length lv)), (ns ++ L, lv ++ W))
      /\ List.length L = isize t /\ jplaced (ns ++ L) (lv ++ W) (List.length ns) t
      /\ (forall v, t = BLeaf v -> nth_error (lv ++ W) (List.length lv) = Some v).
  Proof.
    intros j t H. induction H as [f|f l r tl tr Hl Hr Hc Hf JL IHl JR IHr]; intros ns lv.
    - exists [], [j_leaf f]. cbn [build_nodes is_nil andb]. rewrite app_nil_r. cbn. split; [reflexivity|]. split; [reflexivity|].
      split; [exact I|]. intros v E. injection E as <-. apply nth_error_snoc.
    - cbn [build_nodes]. rewrite (json_not_nil _ _ JL). cbn [andb fst snd inner].
      destruct (IHl (ns ++ [json_lnode f]) lv) as [L1 [W1 [-> [EL1 [PL1 VL1]]]]].
      destruct (IHr ((ns ++ [json_lnode f]) ++ L1) (lv ++ W1)) as [L2 [W2 [-> [EL2 [PL2 VL2]]]]].
      cbn [fst snd].
      set (lr := if inner tl then RNode (List.length (ns ++ [json_lnode f])) else RLeaf (List.length lv)).
      set (rr := if inner tr then RNode (List.length ((ns ++ [json_lnode f]) ++ L1)) else RLeaf (List.length (lv ++ W1))).
      exists (set_refs (List.length ns) lr rr (json_lnode f) :: L1 ++ L2), (W1 ++ W2).
      rewrite <- !app_assoc. cbn [app]. rewrite upd_mid. split; [reflexivity|].
      split; [cbn [List.length isize]; rewrite app_length; lia|]. split; [|discriminate].
      assert (Eln : List.length (ns ++ [json_lnode f]) = S (List.length ns)) by (rewrite app_length; cbn; lia).
      assert (Eln2 : List.length ((ns ++ [json_lnode f]) ++ L1) = S (List.length ns) + isize tl) by (rewrite app_length; lia).
      set (m := set_refs _ _ _ _).
      assert (Agr : forall j, S (List.length ns) <= j < S (List.length ns) + isize tl + isize tr ->
         nth_error (((ns ++ [json_lnode f]) ++ L1) ++ L2) j = nth_error (ns ++ m :: L1 ++ L2) j).
      { intros j Hj. rewrite <- !app_assoc. cbn [app]. rewrite !nth_error_app2 by lia.
        destruct (j - List.length ns) eqn:Ej; [lia|reflexivity]. }
      cbn [jplaced]. exists m. split; [rewrite nth_error_app2, Nat.sub_diag by lia; reflexivity|].
      split; [apply good_set_refs, json_good; exact Hc|]. split.
      + destruct tl as [v|ql l1 l2].
        * split; [reflexivity|]. cbn [m set_refs l_left lr inner ref_index].
          rewrite app_assoc. rewrite nth_error_app1; [now apply VL1|]. apply nth_error_Some. now rewrite (VL1 v).
        * split; [reflexivity|]. split; [cbn [m set_refs l_left lr inner ref_index]; exact Eln|].
          rewrite Eln in PL1. revert PL1. apply jplaced_agree.
          -- intros j Hj. rewrite <- Agr by lia. rewrite nth_error_app1 with (l := (ns ++ [json_lnode f]) ++ L1) by lia. reflexivity.
          -- intros j v Hv. rewrite app_assoc. rewrite nth_error_app1; [exact Hv|]. apply nth_error_Some. congruence.
      + destruct tr as [v|qr r1 r2].
        * split; [reflexivity|]. cbn [m set_refs l_right rr inner].
          rewrite <- app_assoc in VL2. now apply VL2.
        * split; [reflexivity|]. rewrite Eln2 in PL2. rewrite <- (app_assoc lv) in PL2. revert PL2. apply jplaced_agree; [|auto].
          intros j Hj. rewrite <- Agr by lia. reflexivity.
  Qed.

  Lemma convert_json_spec j t sh x fuel : json_tree j t -> isize t <= fuel ->
    lpredict toint32 zthr fuel (convert_json sh j) x
    = Some (match eval (passes zthr) (right_lost t) x with Some v => Ok v | None => Panic end).
  Proof.
    intros H Hf. pose proof (json_leaf_case _ _ H) as Hi. unfold convert_json.
    destruct j as [|f l r]; [inversion H|]. cbn [jleaf] in Hi. destruct (is_nil l && is_nil r) eqn:E.
    - inversion H as [|f' l' r' tl tr Hl Hr]; subst; [reflexivity|]. destruct l; [contradiction|discriminate].
    - cbn [negb] in Hi. destruct (build_spec _ _ H [] []) as [L [W [EB [EL [PJ _]]]]]. rewrite EB. cbn [snd fst app] in *.
      unfold lpredict. cbn [lt_nodes].
      destruct L as [|n0 L0]; [destruct t; [discriminate|cbn in EL; lia]|]. now apply walk_jplaced.
  Qed.
  Lemma right_lost_chain (t : btree N) : chain t = true -> right_lost t = t.
  Proof.
    induction t as [v|q l IHl r IHr]; intros H; [reflexivity|]. cbn in *. apply andb_prop in H. destruct H as [H H3].
    apply andb_prop in H. destruct H as [H1 H2]. apply negb_true_iff in H1. now rewrite H1, IHl, IHr.
  Qed.
End P.
