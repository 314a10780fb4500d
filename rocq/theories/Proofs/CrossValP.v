(** Proofs about the fold splitters. *)
From Coq Require Import List Arith ZArith Bool Lia Permutation Reals.
From Flocq Require Import Core.Core IEEE754.BinarySingleNaN.
From Verif Require Import Base.Num Base.GoRes Base.Mat Base.ListX Base.RTac Model.CrossVal Spec.CrossVal Spec.Order Spec.Stats.
Import ListNotations.

(** * Cutting a list *)
Lemma cut_length sizes l : length (cut sizes l) = length sizes.
Proof. revert l; induction sizes as [|s r IH]; intros l; simpl; auto. Qed.

Lemma cut_concat sizes : forall l, length l <= list_sum sizes -> concat (cut sizes l) = l.
Proof.
  induction sizes as [|s r IH]; intros l H; cbn [cut concat] in *.
  - destruct l; [reflexivity|simpl in H; lia].
  - rewrite IH, firstn_skipn; [reflexivity|]. rewrite skipn_length. simpl in H. lia.
Qed.

Lemma cut_lens sizes : forall l, list_sum sizes = length l -> map (@length nat) (cut sizes l) = sizes.
Proof.
  induction sizes as [|s r IH]; intros l H; cbn [cut map] in *; [reflexivity|].
  simpl in H. rewrite firstn_length_le by lia. f_equal. apply IH. rewrite skipn_length. lia.
Qed.

Lemma cut_incl sizes : forall l c x, In c (cut sizes l) -> In x c -> In x l.
Proof.
  induction sizes as [|s r IH]; intros l c x Hc Hx; [easy|].
  rewrite <- (firstn_skipn s l). apply in_or_app. destruct Hc as [<-|Hc]; [now left|].
  right. eapply IH; eauto.
Qed.

Lemma list_sum_cons a l : list_sum (a :: l) = a + list_sum l.
Proof. reflexivity. Qed.

Lemma extra_sum k r s : list_sum (map (fun i => if Nat.ltb i r then 1 else 0) (seq s k)) = Nat.min k (r - s).
Proof.
  revert s; induction k as [|k IH]; intros s; [reflexivity|].
  cbn [seq map]. rewrite list_sum_cons, IH. destruct (Nat.ltb_spec s r); lia.
Qed.

Lemma list_sum_plus {A} (f g : A -> nat) l :
  list_sum (map (fun i => f i + g i) l) = list_sum (map f l) + list_sum (map g l).
Proof. induction l; simpl; lia. Qed.

Lemma list_sum_const {A} c (l : list A) : list_sum (map (fun _ => c) l) = length l * c.
Proof. induction l; simpl; lia. Qed.

Lemma fold_len_sum k n : 0 < k -> list_sum (map (fold_len k n) (seq 0 k)) = n.
Proof.
  intros Hk. unfold fold_len. rewrite list_sum_plus, extra_sum, list_sum_const, seq_length.
  pose proof (Nat.mod_upper_bound n k ltac:(lia)). rewrite (Nat.div_mod n k) at 3 by lia. lia.
Qed.

Lemma chunks_length k l : length (chunks k l) = k.
Proof. unfold chunks. now rewrite cut_length, map_length, seq_length. Qed.

Lemma chunks_concat k l : 0 < k -> concat (chunks k l) = l.
Proof. intros. apply cut_concat. rewrite fold_len_sum; lia. Qed.

Lemma chunks_len k l i : i < k -> length (nth i (chunks k l) []) = fold_len k (length l) i.
Proof.
  intros Hi. change 0 with (length (@nil nat)).
  rewrite <- (map_nth (@length nat)). unfold chunks. rewrite cut_lens by (apply fold_len_sum; lia).
  rewrite (nth_indep _ _ (fold_len k (length l) 0)) by (rewrite map_length, seq_length; lia).
  rewrite map_nth, seq_nth by lia. reflexivity.
Qed.

Lemma fold_len_near k n i j : fold_len k n i <= fold_len k n j + 1.
Proof. unfold fold_len. destruct (Nat.ltb i _), (Nat.ltb j _); lia. Qed.

(** * Complements *)
Lemma mem_spec i l : mem i l = true <-> In i l.
Proof.
  unfold mem. rewrite existsb_exists. split.
  - intros [x [H1 H2]]. apply Nat.eqb_eq in H2. now subst.
  - intros H. exists i. now rewrite Nat.eqb_refl.
Qed.

Lemma filter_complement l t :
  NoDup l -> NoDup t -> incl t l -> Permutation (filter (fun i => negb (mem i t)) l ++ t) l.
Proof.
  intros Hl Ht Hi. apply NoDup_Permutation; auto.
  - apply NoDup_app_intro; auto; [now apply NoDup_filter|].
    intros x Hx Hx'. apply filter_In in Hx as [_ Hx]. apply mem_spec in Hx'. rewrite Hx' in Hx. easy.
  - intros x. rewrite in_app_iff, filter_In. split.
    + intros [[H _]|H]; auto.
    + intros H. destruct (mem x t) eqn:E; [right; now apply mem_spec|left; auto].
Qed.

Lemma concat_in {A} (c : list A) ls x : In c ls -> In x c -> In x (concat ls).
Proof. intros. apply in_concat. eauto. Qed.

Lemma NoDup_app_parts {A} (l1 l2 : list A) : NoDup (l1 ++ l2) -> NoDup l1 /\ NoDup l2.
Proof.
  induction l1 as [|a l1 IH]; simpl; intros H; [split; [constructor|exact H]|].
  inversion H as [|? ? Ha Hr]; subst. destruct (IH Hr). split; auto.
  constructor; auto. intros Hi. apply Ha, in_or_app. auto.
Qed.

Lemma NoDup_concat_in {A} (ls : list (list A)) c : NoDup (concat ls) -> In c ls -> NoDup c.
Proof.
  induction ls as [|a ls IH]; [easy|]. simpl. intros H [<-|Hc].
  - now apply NoDup_app_parts in H.
  - apply IH; auto. now apply NoDup_app_parts in H.
Qed.

Lemma partition_complement n tests all c :
  partition_of n tests -> Permutation all (seq 0 n) -> In c tests ->
  complement n (filter (fun i => negb (mem i c)) all) c.
Proof.
  intros Hp Ha Hc. unfold complement.
  assert (Hn : NoDup (concat tests))
    by (eapply Permutation_NoDup; [symmetry; exact Hp|apply seq_NoDup]).
  etransitivity; [|exact Ha]. apply filter_complement.
  - eapply Permutation_NoDup; [symmetry; exact Ha|apply seq_NoDup].
  - eapply NoDup_concat_in; eauto.
  - intros x Hx. eapply Permutation_in; [symmetry; exact Ha|].
    eapply Permutation_in; [exact Hp|]. eapply concat_in; eauto.
Qed.

(** * KFold *)
Lemma map_test_mk (fs : list (list nat)) (tr : list nat -> list nat) :
  map test (map (fun t => mkfold (tr t) t) fs) = fs.
Proof. rewrite map_map. simpl. apply map_id. Qed.

Lemma kfold_ok shuf k n : (0 < k)%Z ->
  exists folds, kfold_split shuf k n = Ok folds /\ length folds = Z.to_nat k /\
    concat (map test folds) = shuf (seq 0 n) /\
    map (fun f => length (test f)) folds = map (fold_len (Z.to_nat k) (length (shuf (seq 0 n)))) (seq 0 (Z.to_nat k)) /\
    forall f, In f folds -> In (test f) (map test folds) /\
      train f = filter (fun i => negb (mem i (test f))) (shuf (seq 0 n)).
Proof.
  intros Hk. unfold kfold_split. destruct (Z.leb_spec k 0); [lia|].
  eexists; split; [reflexivity|]. rewrite map_test_mk. split.
  - now rewrite map_length, chunks_length.
  - split; [apply chunks_concat; lia|]. split.
    + rewrite map_map. cbn [test]. unfold chunks. apply cut_lens, fold_len_sum. lia.
    + intros f Hf. split.
      * apply in_map_iff in Hf as [t [<- Ht]]. exact Ht.
      * apply in_map_iff in Hf as [t [<- Ht]]. reflexivity.
Qed.

(** * Stratified *)
Lemma append_each_length fs cs : length fs = length cs -> length (append_each fs cs) = length fs.
Proof.
  revert cs; induction fs as [|f fs IH]; intros [|c cs] H; simpl in *; try lia. rewrite IH; lia.
Qed.

Lemma append_each_nth fs cs i : length fs = length cs ->
  nth i (append_each fs cs) [] = nth i fs [] ++ nth i cs [].
Proof.
  revert cs i; induction fs as [|f fs IH]; intros [|c cs] [|i] H; simpl in *; try lia; auto.
Qed.

Lemma append_each_perm fs cs : length fs = length cs ->
  Permutation (concat (append_each fs cs)) (concat fs ++ concat cs).
Proof.
  revert cs; induction fs as [|f fs IH]; intros [|c cs] H; simpl in *; try lia; [reflexivity|].
  rewrite IH by lia. rewrite <- !app_assoc. apply Permutation_app_head.
  rewrite !app_assoc. apply Permutation_app_tail. apply Permutation_app_comm.
Qed.

Section Distribute.
  Variable k : nat.
  Hypothesis Hk : 0 < k.
  Let distribute groups acc := fold_left (fun fs g => append_each fs (chunks k g)) groups acc.

  Lemma distribute_length groups : forall acc, length acc = k -> length (distribute groups acc) = k.
  Proof.
    induction groups as [|g gs IH]; intros acc H; [exact H|]. apply IH.
    rewrite append_each_length; [exact H|]. now rewrite chunks_length.
  Qed.

  Lemma distribute_nth groups i : forall acc, length acc = k ->
    nth i (distribute groups acc) [] = nth i acc [] ++ concat (map (fun g => nth i (chunks k g) []) groups).
  Proof.
    induction groups as [|g gs IH]; intros acc H; simpl; [now rewrite app_nil_r|].
    unfold distribute in IH. rewrite IH, append_each_nth, <- app_assoc; [reflexivity| |].
    - now rewrite chunks_length.
    - rewrite append_each_length; [exact H|]. now rewrite chunks_length.
  Qed.

  Lemma distribute_perm groups : forall acc, length acc = k ->
    Permutation (concat (distribute groups acc)) (concat acc ++ concat groups).
  Proof.
    induction groups as [|g gs IH]; intros acc H; simpl; [now rewrite app_nil_r|].
    etransitivity; [apply IH; rewrite append_each_length; [exact H|]; now rewrite chunks_length|].
    rewrite append_each_perm by now rewrite chunks_length. now rewrite chunks_concat, app_assoc by exact Hk.
  Qed.
End Distribute.

Lemma concat_repeat_nil {A} k : concat (repeat (@nil A) k) = [].
Proof. induction k; simpl; auto. Qed.
Lemma nth_repeat_nil {A} k i : nth i (repeat (@nil A) k) [] = [].
Proof. revert i; induction k; intros [|i]; simpl; auto. Qed.

Lemma Permutation_concat {A} (l l' : list (list A)) :
  Permutation l l' -> Permutation (concat l) (concat l').
Proof.
  induction 1; simpl.
  - reflexivity.
  - now apply Permutation_app_head.
  - rewrite !app_assoc. apply Permutation_app_tail, Permutation_app_comm.
  - etransitivity; eauto.
Qed.

Lemma Permutation_concat_map {A B} (f g : A -> list B) l :
  (forall a, Permutation (f a) (g a)) -> Permutation (concat (map f l)) (concat (map g l)).
Proof. intros H. induction l; simpl; [reflexivity|]. now apply Permutation_app. Qed.

Lemma Permutation_filter_length {A} (p : A -> bool) l l' :
  Permutation l l' -> length (filter p l) = length (filter p l').
Proof.
  induction 1; simpl; auto.
  - destruct (p x); simpl; lia.
  - destruct (p x), (p y); simpl; lia.
  - congruence.
Qed.

Lemma Permutation_list_sum l l' : Permutation l l' -> list_sum l = list_sum l'.
Proof. induction 1; simpl; lia. Qed.

Lemma filter_concat {A} (p : A -> bool) ls : filter p (concat ls) = concat (map (filter p) ls).
Proof. induction ls; simpl; auto. now rewrite filter_app, IHls. Qed.

Lemma length_concat_map {A B} (f : A -> list B) ls :
  length (concat (map f ls)) = list_sum (map (fun a => length (f a)) ls).
Proof. induction ls; simpl; auto. rewrite app_length. lia. Qed.

Lemma filter_all {A} (p : A -> bool) l : (forall x, In x l -> p x = true) -> filter p l = l.
Proof.
  induction l as [|a l IH]; simpl; intros H; auto. rewrite H by auto. f_equal. auto.
Qed.
Lemma filter_none {A} (p : A -> bool) l : (forall x, In x l -> p x = false) -> filter p l = [].
Proof.
  induction l as [|a l IH]; simpl; intros H; auto. rewrite H by auto. auto.
Qed.

Section Groups.
  Context {N : Num}.
  Hypothesis per : eq_per N.

  Lemma neqb_same_r (a b v : N) : neqb a b = true -> neqb a v = neqb b v.
  Proof.
    destruct per as [Hs Ht]. intros H.
    destruct (neqb a v) eqn:E1, (neqb b v) eqn:E2; auto.
    - rewrite <- E2. symmetry. apply (Ht b a v); auto.
    - rewrite <- E1. apply (Ht a b v); auto.
  Qed.

  (** Invariant of the grouping loop after the first [m] labels of [y]. *)
  Definition ginv (y : list N) (m : nat) (gs : list (N * list nat)) : Prop :=
    Permutation (concat (map snd gs)) (seq 0 m) /\
    (forall g i v, In g gs -> In i (snd g) -> neqb (nth i y n0) v = neqb (fst g) v) /\
    ForallOrdPairs (fun g h => neqb (fst g) (fst h) = false) gs.

  Lemma add_class_perm (gs : list (N * list nat)) (l : N) i :
    Permutation (concat (map snd (add_class gs l i))) (concat (map snd gs) ++ [i]).
  Proof.
    induction gs as [|[l' is] gs IH]; simpl; [reflexivity|].
    destruct (neqb l' l); simpl.
    - rewrite <- !app_assoc. apply Permutation_app_head. apply Permutation_app_comm.
    - rewrite IH. now rewrite app_assoc.
  Qed.

  Lemma add_class_in (gs : list (N * list nat)) (l : N) i g : In g (add_class gs l i) ->
    In g gs \/ g = (l, [i]) \/
    exists l' is, In (l', is) gs /\ neqb l' l = true /\ g = (l', is ++ [i]).
  Proof.
    induction gs as [|[l' is] gs IH]; simpl.
    - intros [<-|[]]; auto.
    - destruct (neqb l' l) eqn:E; simpl.
      + intros [<-|H]; [|auto]. right; right. exists l', is. auto.
      + intros [<-|H]; [auto|]. destruct (IH H) as [H1|[H1|[a [b [H1 H2]]]]]; auto.
        right; right. exists a, b. auto.
  Qed.

  Lemma add_class_keys (gs : list (N * list nat)) (l : N) i g : In g (add_class gs l i) ->
    (exists h, In h gs /\ fst h = fst g) \/ fst g = l.
  Proof.
    intros H. apply add_class_in in H as [H|[->|[a [b [H [_ ->]]]]]]; [left; exists g; auto|now right|].
    left. now exists (a, b).
  Qed.

  Lemma add_class_pairs (gs : list (N * list nat)) (l : N) i :
    ForallOrdPairs (fun g h => neqb (fst g) (fst h) = false) gs ->
    ForallOrdPairs (fun g h => neqb (fst g) (fst h) = false) (add_class gs l i).
  Proof.
    induction gs as [|[l' is] gs IH]; simpl; intros H.
    - repeat constructor.
    - inversion H as [|? ? Hf Hr]; subst. destruct (neqb l' l) eqn:E.
      + constructor; auto.
      + constructor; [|now apply IH]. rewrite Forall_forall in *. intros g Hg. simpl.
        destruct (add_class_keys _ _ _ _ Hg) as [[h [Hh <-]]| ->]; auto.
  Qed.

  Lemma classes_from_inv y : forall rest pre gs,
    y = pre ++ rest -> ginv y (length pre) gs -> ginv y (length y) (classes_from (length pre) rest gs).
  Proof.
    induction rest as [|l r IH]; intros pre gs Hy Hg; simpl.
    - rewrite app_nil_r in Hy. now subst.
    - replace (S (length pre)) with (length (pre ++ [l])) by (rewrite app_length; simpl; lia).
      apply IH; [now rewrite <- app_assoc|].
      destruct Hg as [Hp [Hl Ho]]. split; [|split].
      + rewrite add_class_perm, app_length. simpl length. rewrite Nat.add_1_r, seq_S.
        now apply Permutation_app_tail.
      + assert (Hn : nth (length pre) y n0 = l)
          by (rewrite Hy, app_nth2, Nat.sub_diag by lia; reflexivity).
        intros g i v Hg Hi. apply add_class_in in Hg as [Hg|[->|[a [b [Ha [Hab ->]]]]]].
        * eauto.
        * simpl in Hi. destruct Hi as [<-|[]]. now rewrite Hn.
        * simpl in Hi |- *. apply in_app_iff in Hi as [Hi|[<-|[]]].
          -- apply (Hl (a, b)); auto.
          -- rewrite Hn. symmetry. now apply neqb_same_r.
      + now apply add_class_pairs.
  Qed.

  Lemma classes_inv y : ginv y (length y) (classes_from 0 y []).
  Proof.
    apply (classes_from_inv y y []); [reflexivity|]. split; [reflexivity|]. split; [easy|constructor].
  Qed.

  Lemma ForallOrdPairs_filter {A} (R : A -> A -> Prop) p l :
    ForallOrdPairs R l -> ForallOrdPairs R (filter p l).
  Proof.
    induction 1 as [|a l Hf Hr IH]; simpl; [constructor|].
    destruct (p a); auto. constructor; auto. rewrite Forall_forall in *.
    intros x Hx. apply filter_In in Hx. now apply Hf.
  Qed.

  Lemma one_group gs v :
    ForallOrdPairs (fun g h : N * list nat => neqb (fst g) (fst h) = false) gs ->
    length (filter (fun g => neqb (fst g) v) gs) <= 1.
  Proof.
    intros H. apply (ForallOrdPairs_filter _ (fun g => neqb (fst g) v)) in H.
    assert (Ha : forall g, In g (filter (fun g => neqb (fst g) v) gs) -> neqb (fst g) v = true)
      by (intros g Hg; now apply filter_In in Hg).
    destruct (filter _ gs) as [|a [|b l]]; simpl; try lia.
    inversion H as [|? ? Hf _]; subst. rewrite Forall_forall in Hf.
    specialize (Hf b (or_introl eq_refl)).
    destruct per as [Hs Ht]. rewrite (Ht (fst a) v (fst b)) in Hf; [easy| |].
    - apply Ha; simpl; auto.
    - apply Hs, Ha; simpl; auto.
  Qed.

  Lemma sum_filter {A} (p : A -> bool) (f : A -> nat) l :
    list_sum (map (fun a => if p a then f a else 0) l) = list_sum (map f (filter p l)).
  Proof. induction l as [|a l IH]; simpl; auto. destruct (p a); simpl; lia. Qed.

  Lemma stratified_ok shuf order k n (y : list N) :
    rearranges shuf -> rearranges order -> (0 < k)%Z -> n <= length y ->
    exists folds, stratified_split shuf order k n y = Ok folds /\ length folds = Z.to_nat k /\
      partition_of n (map test folds) /\
      (forall f, In f folds -> train f = filter (fun i => negb (mem i (test f))) (seq 0 n)) /\
      forall f g v, In f folds -> In g folds -> count_label y v (test f) <= count_label y v (test g) + 1.
  Proof.
    intros Hs Ho Hk Hy. unfold stratified_split.
    destruct (Nat.ltb_spec (length y) n); [lia|]. destruct (Z.ltb_spec k 0); [lia|].
    destruct (Z.eqb_spec k 0) as [?|Hk0]; [lia|]. set (kk := Z.to_nat k). assert (Hkk : 0 < kk) by lia.
    pose proof (classes_inv (firstn n y)) as [Hp [Hl Hd]].
    rewrite firstn_length_le in Hp by lia.
    set (gs := classes_from 0 (firstn n y) []) in *.
    set (groups := order (map (fun g => shuf (snd g)) gs)).
    assert (Hg : Permutation groups (map (fun g => shuf (snd g)) gs)) by (symmetry; apply Ho).
    assert (Hgc : Permutation (concat groups) (seq 0 n)).
    { rewrite (Permutation_concat _ _ Hg), <- Hp. apply Permutation_concat_map.
      intros a. symmetry. apply Hs. }
    assert (Hpart : Permutation (concat (fold_left (fun fs g => append_each fs (chunks kk g)) groups (repeat [] kk))) (seq 0 n)).
    { rewrite (distribute_perm kk Hkk groups) by apply repeat_length. now rewrite concat_repeat_nil. }
    eexists; split; [reflexivity|]. rewrite map_test_mk. split; [|split; [exact Hpart|split]].
    - rewrite map_length. apply distribute_length; auto. apply repeat_length.
    - intros f Hf. apply in_map_iff in Hf as [t [<- _]]. reflexivity.
    - intros f g v Hf Hg'.
      apply in_map_iff in Hf as [t [<- Ht]]. apply in_map_iff in Hg' as [u [<- Hu]]. cbn [test].
      assert (Hcount : forall t, In t (fold_left (fun fs g => append_each fs (chunks kk g)) groups (repeat [] kk)) ->
        exists i, i < kk /\ count_label y v t =
          list_sum (map (fun g => fold_len kk (length (snd g)) i) (filter (fun g => neqb (fst g) v) gs))).
      { clear t u Ht Hu. intros t Ht. apply (In_nth _ _ []) in Ht as [i [Hi Hti]].
        rewrite (distribute_length kk groups) in Hi by apply repeat_length.
        exists i. split; [exact Hi|]. rewrite <- Hti. rewrite distribute_nth by apply repeat_length.
        rewrite nth_repeat_nil. cbn [app]. unfold count_label.
        rewrite filter_concat, map_map, length_concat_map.
        rewrite (Permutation_list_sum _ _ (Permutation_map _ Hg)), map_map, <- sum_filter.
        f_equal. apply map_ext_in. intros [key is] Hin. cbn [fst snd].
        assert (Hsub : forall x, In x (nth i (chunks kk (shuf is)) []) -> neqb (nth x y n0) v = neqb key v).
        { intros x Hx. assert (Hx' : In x is).
          { apply (Permutation_in _ (Permutation_sym (Hs is))).
            eapply cut_incl; [|exact Hx]. apply nth_In. fold (chunks kk (shuf is)). now rewrite chunks_length. }
          pose proof (Hl (key, is) x v Hin Hx') as Hkey. cbn [fst] in Hkey. rewrite <- Hkey.
          assert (x < n).
          { assert (In x (seq 0 n)).
            { apply (Permutation_in _ Hp). eapply concat_in; [apply (in_map snd _ _ Hin)|exact Hx']. }
            rewrite in_seq in *. lia. }
          f_equal. transitivity (nth x (firstn n y ++ skipn n y) n0); [now rewrite firstn_skipn|].
          apply app_nth1. rewrite firstn_length_le; lia. }
        destruct (neqb key v) eqn:E.
        - rewrite filter_all by (intros x Hx; rewrite (Hsub x Hx); reflexivity).
          rewrite chunks_len by exact Hi. now rewrite <- (Permutation_length (Hs is)).
        - now rewrite filter_none by (intros x Hx; rewrite (Hsub x Hx); reflexivity). }
      destruct (Hcount t Ht) as [i [Hi ->]]. destruct (Hcount u Hu) as [j [Hj ->]].
      pose proof (one_group gs v Hd) as H1.
      destruct (filter _ gs) as [|a [|b l]]; simpl in *; try lia.
      pose proof (fold_len_near kk (length (snd a)) i j). lia.
  Qed.

  (** Counting all label values counts every sample once. *)
  Lemma count_total (y vs : list N) idx :
    (forall i, In i idx -> i < length y) -> label_values y vs ->
    list_sum (map (fun v => count_label y v idx) vs) = length idx.
  Proof.
    intros Hi [Hc Hd]. induction idx as [|i idx IH].
    - unfold count_label. simpl. rewrite list_sum_const. lia.
    - assert (E : forall v, count_label y v (i :: idx) =
                    (if neqb (nth i y n0) v then 1 else 0) + count_label y v idx).
      { intros v. unfold count_label. simpl. now destruct (neqb (nth i y n0) v). }
      rewrite (map_ext _ _ E), list_sum_plus, IH by (intros; apply Hi; simpl; auto).
      simpl. replace (S (length idx)) with (1 + length idx) by lia. f_equal.
      assert (Hl : In (nth i y n0) y) by (apply nth_In, Hi; simpl; auto).
      set (l := nth i y n0) in *. destruct (Hc l Hl) as [v [Hv Hlv]]. clear - Hd Hv Hlv per.
      assert (Hz : forall vs', (forall w, In w vs' -> neqb l w = false) ->
                   list_sum (map (fun w => if neqb l w then 1 else 0) vs') = 0).
      { induction vs' as [|a vs' IH]; simpl; intros H; auto. rewrite H by auto. apply IH. auto. }
      destruct per as [Hs Ht].
      induction Hd as [|a vs Hf Hd IH]; [easy|]. simpl. rewrite Forall_forall in Hf.
      destruct (neqb l a) eqn:E.
      + rewrite Hz; [lia|]. intros w Hw. specialize (Hf w Hw).
        destruct (neqb l w) eqn:E'; auto. rewrite (Ht a l w) in Hf; auto.
      + destruct Hv as [->|Hv]; [congruence|]. simpl. auto.
  Qed.

  Lemma list_sum_le {A} (f g : A -> nat) l :
    (forall a, In a l -> f a <= g a + 1) -> list_sum (map f l) <= list_sum (map g l) + length l.
  Proof.
    induction l as [|a l IH]; simpl; intros H; [lia|].
    pose proof (H a (or_introl eq_refl)). assert (list_sum (map f l) <= list_sum (map g l) + length l) by auto. lia.
  Qed.
End Groups.

(** == is a partial equivalence on both carriers. *)
Lemma per_R : eq_per RNum.
Proof.
  split; intros *; cbn; unfold Reqb; repeat destruct Req_EM_T; congruence.
Qed.

Lemma Beqb_sym_true (a b : F64) : Beqb a b = true -> Beqb b a = true.
Proof.
  unfold Beqb, SpecFloat.SFeqb. change (SpecFloat.SFcompare (B2SF a) (B2SF b)) with (Bcompare a b).
  change (SpecFloat.SFcompare (B2SF b) (B2SF a)) with (Bcompare b a).
  rewrite (Bcompare_swap _ _ a b). destruct (Bcompare a b) as [[]|]; easy.
Qed.

Lemma Beqb_finite (a b : F64) : is_finite a = true -> is_finite b = true ->
  Beqb a b = Raux.Req_bool (B2R a) (B2R b).
Proof. intros. now apply Beqb_correct. Qed.

Lemma Beqb_finite_l (a b : F64) : Beqb a b = true -> is_finite a = is_finite b.
Proof. destruct a as [[]|[]| |[]], b as [[]|[]| |[]]; cbn; easy. Qed.

Lemma Beqb_trans_true (a b c : F64) : Beqb a b = true -> Beqb b c = true -> Beqb a c = true.
Proof.
  intros H1 H2. pose proof (Beqb_finite_l _ _ H1) as F1. pose proof (Beqb_finite_l _ _ H2) as F2.
  destruct (is_finite b) eqn:E.
  - rewrite Beqb_finite in * by congruence.
    destruct (Raux.Req_bool_spec (B2R a) (B2R b)); [|easy].
    destruct (Raux.Req_bool_spec (B2R b) (B2R c)); [|easy].
    destruct (Raux.Req_bool_spec (B2R a) (B2R c)); [easy|congruence].
  - destruct a as [[]|[]| |], b as [[]|[]| |], c as [[]|[]| |]; cbn in *; try easy.
Qed.

Lemma per_F fe fl : eq_per (FNum fe fl).
Proof. split; cbn; [apply Beqb_sym_true|apply Beqb_trans_true]. Qed.

(** * Row extraction *)
Lemma mapM_nth {A} (rows : list A) idx : (forall i, In i idx -> i < length rows) ->
  exists out, mapM (fun i => match nth_error rows i with Some r => Ok r | None => Panic end) idx = Ok out /\
    map Some out = map (nth_error rows) idx.
Proof.
  induction idx as [|i idx IH]; intros H; simpl; [now exists []|].
  destruct (nth_error rows i) as [r|] eqn:E.
  - destruct IH as [out [-> H2]]; [intros; apply H; simpl; auto|].
    exists (r :: out). split; [reflexivity|]. cbn [map]. now rewrite H2.
  - apply nth_error_None in E. specialize (H i (or_introl eq_refl)). lia.
Qed.

Lemma extract_empty {N : Num} sorti (X y : matrix N) : extract_subset sorti X y [] = Panic.
Proof. reflexivity. Qed.

(** * Reported best fold *)
Lemma best_loop_spec {N : Num} (laws : lt_laws N) (loss : bool) : forall (rest pre : list N) best at_,
  (forall s, In s (pre ++ rest) -> nisnan s = false) ->
  nth_error pre at_ = Some best ->
  (forall j s, nth_error pre j = Some s ->
     (if loss then nlt s best else nlt best s) = false /\
     (j < at_ -> (if loss then nlt best s else nlt s best) = true)) ->
  let (b, i) := best_loop loss (length pre) rest best at_ in
  nth_error (pre ++ rest) i = Some b /\
  forall j s, nth_error (pre ++ rest) j = Some s ->
     (if loss then nlt s b else nlt b s) = false /\
     (j < i -> (if loss then nlt b s else nlt s b) = true).
Proof.
  induction rest as [|x rest IH]; intros pre best at_ Hn Hb Hp; cbn [best_loop].
  - rewrite app_nil_r in *. split; assumption.
  - assert (Hlen : S (length pre) = length (pre ++ [x])) by (rewrite app_length; simpl; lia).
    assert (Happ : pre ++ x :: rest = (pre ++ [x]) ++ rest) by (rewrite <- app_assoc; reflexivity).
    assert (Hx : nisnan x = false) by (apply Hn, in_or_app; simpl; auto).
    assert (Hbn : nisnan best = false)
      by (apply Hn, in_or_app; left; eapply nth_error_In; eauto).
    assert (Hat : at_ < length pre) by (apply nth_error_Some; congruence).
    assert (Hnth : forall j s, nth_error (pre ++ [x]) j = Some s ->
                     nth_error pre j = Some s \/ (j = length pre /\ s = x)).
    { intros j s Hj. destruct (Nat.lt_ge_cases j (length pre)) as [Hl|Hl].
      - left. now rewrite nth_error_app1 in Hj.
      - right. rewrite nth_error_app2 in Hj by exact Hl.
        destruct (j - length pre) as [|q] eqn:E; simpl in Hj; [|now destruct q].
        injection Hj as <-. split; [lia|reflexivity]. }
    destruct (if loss then nlt x best else nlt best x) eqn:E.
    + rewrite Hlen, Happ in *. apply IH.
      * exact Hn.
      * rewrite nth_error_app2, Nat.sub_diag by lia. reflexivity.
      * intros j s Hj. destruct (Hnth j s Hj) as [Hj'|[-> ->]].
        -- assert (Hs : nisnan s = false)
             by (apply Hn, in_or_app; left; apply in_or_app; left; eapply nth_error_In; eauto).
           destruct (Hp j s Hj') as [H1 _].
           assert (Hlt : (if loss then nlt x s else nlt s x) = true).
           { destruct loss.
             - destruct (nlt x s) eqn:E'; auto.
               rewrite (lt_negtrans N laws x s best) in E; auto.
             - destruct (nlt s x) eqn:E'; auto.
               rewrite (lt_negtrans N laws best s x) in E; auto. }
           split; [|intros _; exact Hlt].
           destruct loss.
           ++ destruct (nlt s x) eqn:E'; auto.
              pose proof (lt_trans N laws x s x Hlt E') as H. now rewrite (lt_irrefl N laws) in H.
           ++ destruct (nlt x s) eqn:E'; auto.
              pose proof (lt_trans N laws s x s Hlt E') as H. now rewrite (lt_irrefl N laws) in H.
        -- split; [|lia]. destruct loss; apply (lt_irrefl N laws).
    + rewrite Hlen, Happ in *. apply IH.
      * exact Hn.
      * now rewrite nth_error_app1.
      * intros j s Hj. destruct (Hnth j s Hj) as [Hj'|[-> ->]]; [now apply Hp|].
        split; [exact E|lia].
Qed.

Lemma cv_best_ok {N : Num} (laws : lt_laws N) (loss : bool) (scores : list N) :
  scores <> [] -> (forall s, In s scores -> nisnan s = false) ->
  exists b i, cv_best loss scores = Ok (b, i) /\ nth_error scores i = Some b /\
  forall j s, nth_error scores j = Some s ->
     (if loss then nlt s b else nlt b s) = false /\
     (j < i -> (if loss then nlt b s else nlt s b) = true).
Proof.
  intros Hne Hn. destruct scores as [|s0 rest]; [easy|]. unfold cv_best.
  pose proof (best_loop_spec laws loss rest [s0] s0 0 Hn eq_refl) as H.
  cbn [length] in H. destruct (best_loop loss 1 rest s0 0) as [b i].
  exists b, i. split; [reflexivity|]. apply H.
  intros [|j] s Hj; [|now destruct j]. injection Hj as <-. split; [|lia].
  destruct loss; apply (lt_irrefl N laws).
Qed.

Lemma mse_metric_R t p : length t = length p ->
  @mse_metric RNum t p = mean_of (map (fun ab => (fst ab - snd ab) * (fst ab - snd ab))%R (combine t p)).
Proof.
  intros H. unfold mse_metric, mean_of. rewrite nofnat_R.
  etransitivity; [apply (f_equal (fun q : R => Rdiv q _)); apply (fold_left_sum (fun ab : R * R => Rmult (Rminus (fst ab) (snd ab)) (Rminus (fst ab) (snd ab))))|].
  rewrite map_length, combine_length, <- H, Nat.min_id. unR. f_equal. cbn. apply Rplus_0_l.
Qed.
