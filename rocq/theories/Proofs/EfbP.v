(** Lemmas behind the theorems about feature bundling. *)
From Coq Require Import List Arith Bool Lia Permutation.
From Verif Require Import Base.Num Base.GoRes Base.Mat Base.ListX Model.Efb Spec.Efb.
Import ListNotations.
Local Open Scope list_scope.

Lemma memb_in i l : memb i l = true <-> In i l.
Proof.
  unfold memb. rewrite existsb_exists. split.
  - intros (x & H & E). apply Nat.eqb_eq in E. now subst.
  - intros H. exists i. split; [easy|]. apply Nat.eqb_refl.
Qed.
Lemma memb_out i l : memb i l = false <-> ~ In i l.
Proof. rewrite <- memb_in. destruct (memb i l); split; congruence. Qed.

Lemma position_nth x l k : position x l = Some k -> nth_error l k = Some x.
Proof.
  revert k. induction l as [|y l IH]; cbn; [easy|]. intros k. destruct (Nat.eqb_spec y x).
  - intros [= <-]. now subst.
  - destruct (position x l) eqn:E; cbn; [|easy]. intros [= <-]. cbn. now apply IH.
Qed.
Lemma position_in x l : In x l -> exists k, position x l = Some k.
Proof.
  induction l as [|y l IH]; cbn; [easy|]. intros [->|H].
  - rewrite Nat.eqb_refl. now exists 0.
  - destruct (Nat.eqb_spec y x); [now exists 0|]. destruct (IH H) as [k ->]. now exists (S k).
Qed.

Section Greedy.
Context {N : Num}.
Variables (limit : N) (X : matrix N) (features : list nat).
Hypothesis distinct : NoDup features.
Let n := length features.
Let feat (i : nat) : nat := nth i features 0.
Let bad (a b : nat) : bool := nlt limit (conflict X a b).

Lemma conflict_sym a b : conflict X a b = conflict X b a.
Proof.
  unfold conflict.
  rewrite (filter_ext (fun r : list N => nonzero (nth a r n0) && nonzero (nth b r n0)) (fun r => nonzero (nth b r n0) && nonzero (nth a r n0)))
    by (intros; apply andb_comm).
  rewrite (filter_ext (fun r : list N => nonzero (nth a r n0) || nonzero (nth b r n0)) (fun r => nonzero (nth b r n0) || nonzero (nth a r n0)))
    by (intros; apply orb_comm).
  reflexivity.
Qed.
Lemma bad_sym a b : bad a b = bad b a.
Proof. unfold bad. now rewrite conflict_sym. Qed.
Lemma graph_bad i j : i <> j -> nlt limit (graph X features i j) = bad (feat i) (feat j).
Proof.
  intros H. unfold graph. destruct (Nat.eqb_spec i j); [easy|]. destruct (i <? j); [reflexivity|].
  rewrite conflict_sym. reflexivity.
Qed.
Lemma feat_inj i j : i < n -> j < n -> feat i = feat j -> i = j.
Proof. intros. eapply (proj1 (NoDup_nth features 0)); eauto. Qed.
Lemma feat_in i : i < n -> In (feat i) features.
Proof. intros. now apply nth_In. Qed.
Lemma in_feat x : In x features -> exists i, i < n /\ feat i = x.
Proof. intros H. destruct (In_nth _ _ 0 H) as (i & A & B). now exists i. Qed.

Lemma can_add_spec i mem : i < n -> (forall k, In k mem -> k < n /\ k <> i) ->
  can_add limit (graph X features) features i (map feat mem) = true <-> (forall k, In k mem -> bad (feat i) (feat k) = false).
Proof.
  intros Hi Hm. unfold can_add. rewrite forallb_forall. split.
  - intros H k Hk. specialize (H (feat k) (in_map _ _ _ Hk)). destruct (Hm k Hk) as [A B].
    destruct (position_in (feat k) features (feat_in k A)) as [p P]. rewrite P in H.
    pose proof (position_nth _ _ _ P) as Q.
    assert (p = k).
    { apply feat_inj; [|easy|]. { apply nth_error_Some. now rewrite Q. } unfold feat at 1. now apply nth_error_nth. }
    subst p. apply negb_true_iff in H. rewrite graph_bad in H by auto. exact H.
  - intros H x Hx. apply in_map_iff in Hx. destruct Hx as (k & <- & Hk). destruct (Hm k Hk) as [A B].
    destruct (position_in (feat k) features (feat_in k A)) as [p P]. rewrite P.
    pose proof (position_nth _ _ _ P) as Q.
    assert (p = k).
    { apply feat_inj; [|easy|]. { apply nth_error_Some. now rewrite Q. } unfold feat at 1. now apply nth_error_nth. }
    subst p. apply negb_true_iff. rewrite graph_bad by auto. now apply H.
Qed.

(** What one pass adds: positions [added]. *)
Lemma grow_spec ord : (forall i, In i ord -> i < n) -> forall used mem,
  (forall k, In k mem -> k < n /\ In k used) ->
  (forall a b, In a mem -> In b mem -> a <> b -> bad (feat a) (feat b) = false) ->
  exists added,
    grow limit (graph X features) features ord used (map feat mem) = (rev added ++ used, map feat (mem ++ added)) /\
    NoDup added /\ (forall k, In k added -> In k ord /\ ~ In k used) /\
    (forall a b, In a (mem ++ added) -> In b (mem ++ added) -> a <> b -> bad (feat a) (feat b) = false) /\
    (forall i, In i ord -> ~ In i used -> ~ In i added -> exists k, In k (mem ++ added) /\ bad (feat i) (feat k) = true).
Proof.
  induction ord as [|i ord IH]; intros Ho used mem Hm Hp.
  - exists []. cbn. rewrite app_nil_r. repeat split; auto; try constructor; easy.
  - cbn [grow]. destruct (memb i used) eqn:U.
    + apply memb_in in U. destruct (IH (fun j H => Ho j (or_intror H)) used mem Hm Hp) as (ad & E & D & S1 & S2 & S3).
      exists ad. split; [exact E|]. split; [exact D|]. split; [|split; [exact S2|]].
      * intros k Hk. destruct (S1 k Hk). split; [now right|easy].
      * intros j [<-|Hj] Hu Ha; [easy|]. now apply S3.
    + apply memb_out in U.
      assert (Hi : i < n) by (apply Ho; now left).
      assert (Hm' : forall k, In k mem -> k < n /\ k <> i).
      { intros k Hk. destruct (Hm k Hk) as [A B]. split; [easy|]. intros ->. now apply U. }
      destruct (can_add limit (graph X features) features i (map feat mem)) eqn:C.
      * rewrite (can_add_spec i mem Hi Hm') in C.
        replace (map feat mem ++ [nth i features 0]) with (map feat (mem ++ [i])) by now rewrite map_app.
        destruct (IH (fun j H => Ho j (or_intror H)) (i :: used) (mem ++ [i])) as (ad & E & D & S1 & S2 & S3).
        { intros k Hk. apply in_app_or in Hk. destruct Hk as [Hk|[<-|[]]].
          - destruct (Hm k Hk). split; [easy|now right].
          - split; [easy|now left]. }
        { intros a b Ha Hb Hab. apply in_app_or in Ha. apply in_app_or in Hb.
          destruct Ha as [Ha|[<-|[]]]; destruct Hb as [Hb|[<-|[]]]; [now apply Hp| |now apply C|easy].
          rewrite bad_sym. now apply C. }
        exists (i :: ad). split; [|split; [|split; [|split]]].
        -- rewrite E. cbn [rev]. now rewrite <- !app_assoc.
        -- constructor; [|exact D]. intros H. destruct (S1 i H) as [_ B]. apply B. now left.
        -- intros k [<-|Hk]; [split; [now left|easy]|]. destruct (S1 k Hk) as [A B]. split; [now right|]. intros F. apply B. now right.
        -- replace (mem ++ i :: ad) with ((mem ++ [i]) ++ ad) by now rewrite <- app_assoc. exact S2.
        -- replace (mem ++ i :: ad) with ((mem ++ [i]) ++ ad) by now rewrite <- app_assoc.
           intros j [<-|Hj] Hu Ha; [exfalso; apply Ha; now left|]. apply S3; [easy| |].
           ++ intros [<-|F]; [apply Ha; now left|easy].
           ++ intros F. apply Ha. now right.
      * destruct (IH (fun j H => Ho j (or_intror H)) used mem Hm Hp) as (ad & E & D & S1 & S2 & S3).
        exists ad. split; [exact E|]. split; [exact D|]. split; [|split; [exact S2|]].
        -- intros k Hk. destruct (S1 k Hk). split; [now right|easy].
        -- intros j [<-|Hj] Hu Ha; [|now apply S3].
           destruct (existsb (fun k => bad (feat i) (feat k)) mem) eqn:X0.
           ++ apply existsb_exists in X0. destruct X0 as (k & Hk & B). exists k. split; [apply in_or_app; now left|exact B].
           ++ exfalso. rewrite <- not_true_iff_false in C. apply C. apply can_add_spec; [easy|easy|].
              intros k Hk. destruct (bad (feat i) (feat k)) eqn:B; [|easy]. rewrite <- X0. symmetry. apply existsb_exists. now exists k.
Qed.

(** The invariant of the greedy loop; [groups] are the bundles as positions. *)
Record inv (used : list nat) (groups : list (list nat)) : Prop := mkinv {
  iv_used : NoDup used;
  iv_range : forall i, In i used -> i < n;
  iv_disj : NoDup (concat groups);
  iv_incl : forall i, In i (concat groups) -> In i used;
  iv_two : forall b, In b groups -> 2 <= length b;
  iv_ok : forall b i j, In b groups -> In i b -> In j b -> i <> j -> bad (feat i) (feat j) = false;
  iv_full : forall l1 b l2 j, groups = l1 ++ b :: l2 -> j < n -> ~ In j (concat l1) -> ~ In j b -> exists i, In i b /\ bad (feat i) (feat j) = true;
  iv_single : forall i j, In i used -> ~ In i (concat groups) -> j < n -> i <> j -> ~ In j (concat groups) -> bad (feat i) (feat j) = true }.

Lemma concat_snoc {A} (l : list (list A)) b : concat (l ++ [b]) = concat l ++ b.
Proof. rewrite concat_app. cbn. now rewrite app_nil_r. Qed.
Lemma snoc_split {A} (l : list A) x l1 b l2 : l ++ [x] = l1 ++ b :: l2 -> (l2 = [] /\ l1 = l /\ b = x) \/ (exists l2', l2 = l2' ++ [x] /\ l = l1 ++ b :: l2').
Proof.
  intros H. destruct l2 as [|y l2] using rev_ind.
  - left. apply app_inj_tail in H. destruct H as [-> ->]. auto.
  - right. clear IHl2. rewrite app_comm_cons, app_assoc in H. apply app_inj_tail in H. destruct H as [-> ->]. now exists l2.
Qed.

Lemma turn ord used groups seed :
  Permutation ord (seq 0 n) -> inv used groups -> seed < n -> ~ In seed used ->
  exists added, grow limit (graph X features) features ord (seed :: used) [nth seed features 0] = (rev added ++ seed :: used, map feat (seed :: added)) /\
    inv (rev added ++ seed :: used) (if 1 <? length (seed :: added) then groups ++ [seed :: added] else groups).
Proof.
  intros P I Hs Hu.
  assert (Ho : forall i, In i ord <-> i < n).
  { intros i. rewrite (Permutation_in' eq_refl P), in_seq. lia. }
  destruct (grow_spec ord (fun i H => proj1 (Ho i) H) (seed :: used) [seed]) as (ad & E & D & S1 & S2 & S3).
  { intros k [<-|[]]. split; [easy|now left]. }
  { intros a b [<-|[]] [<-|[]]; easy. }
  exists ad. split; [exact E|]. change ([seed] ++ ad) with (seed :: ad) in *.
  assert (D' : NoDup (seed :: ad)).
  { constructor; [|exact D]. intros H. destruct (S1 _ H) as [_ B]. apply B. now left. }
  assert (R : forall i, In i (seed :: ad) -> i < n).
  { intros i [<-|H]; [easy|]. destruct (S1 _ H) as [A _]. now apply Ho. }
  assert (F : forall i, In i (seed :: ad) -> ~ In i used).
  { intros i [<-|H]; [easy|]. destruct (S1 _ H) as [_ A]. intros G. apply A. now right. }
  assert (Uin : forall i, In i (rev ad ++ seed :: used) <-> In i (seed :: ad) \/ In i used).
  { intros i. rewrite in_app_iff, <- in_rev. cbn. tauto. }
  assert (NU : NoDup (rev ad ++ seed :: used)).
  { apply NoDup_app_intro.
    - now apply NoDup_rev.
    - constructor; [easy|apply (iv_used _ _ I)].
    - intros x A [<-|B].
      + apply in_rev in A. destruct (S1 _ A) as [_ C]. apply C. now left.
      + apply in_rev in A. apply (F x); [now right|easy]. }
  assert (RG : forall i, In i (rev ad ++ seed :: used) -> i < n).
  { intros i Hi. apply Uin in Hi. destruct Hi as [Hi|Hi]; [now apply R|now apply (iv_range _ _ I)]. }
  destruct (Nat.ltb_spec 1 (length (seed :: ad))) as [L|L].
  - constructor; try assumption.
    + rewrite concat_snoc. apply NoDup_app_intro; [apply (iv_disj _ _ I)|exact D'|].
      intros x A B. apply (F x B). now apply (iv_incl _ _ I).
    + intros i. rewrite concat_snoc, in_app_iff, Uin. intros [H|H]; [right; now apply (iv_incl _ _ I)|now left].
    + intros b H. apply in_app_or in H. destruct H as [H|[<-|[]]]; [now apply (iv_two _ _ I)|cbn [length] in *; lia].
    + intros b i j H. apply in_app_or in H. destruct H as [H|[<-|[]]]; [now apply (iv_ok _ _ I)|apply S2].
    + intros l1 b l2 j Hg Hj A B. apply snoc_split in Hg. destruct Hg as [(-> & -> & ->)|(l2' & -> & Hg)].
      * destruct (in_dec Nat.eq_dec j used) as [Ju|Ju].
        -- exists seed. split; [now left|]. rewrite bad_sym. apply (iv_single _ _ I); try assumption.
           ++ intros ->. now apply Hu.
           ++ intros G. apply Hu. now apply (iv_incl _ _ I).
        -- destruct (S3 j) as (k & K1 & K2).
           ++ now apply Ho.
           ++ intros [<-|G]; [apply B; now left|easy].
           ++ intros G. apply B. now right.
           ++ exists k. split; [exact K1|]. now rewrite bad_sym.
      * now apply (iv_full _ _ I l1 b l2').
    + intros i j Hi Hi2 Hj Hij Hj2. rewrite concat_snoc, in_app_iff in Hi2, Hj2. apply Uin in Hi.
      destruct Hi as [Hi|Hi]; [tauto|]. apply (iv_single _ _ I); tauto.
  - destruct ad as [|a ad]; [|cbn [length] in L; lia]. cbn [rev app] in *. clear L.
    constructor; try assumption; try apply I.
    + intros i Hi. right. now apply (iv_incl _ _ I).
    + intros i j [<-|Hi] Hi2 Hj Hij Hj2.
      * destruct (in_dec Nat.eq_dec j used) as [Ju|Ju].
        -- rewrite bad_sym. apply (iv_single _ _ I); auto.
        -- destruct (S3 j) as (k & [<-|[]] & K2).
           ++ now apply Ho.
           ++ intros [<-|G]; easy.
           ++ intros [].
           ++ now rewrite bad_sym.
      * apply (iv_single _ _ I); auto.
Qed.

Lemma inv_size used groups : inv used groups -> 2 * length groups <= n /\ length used <= n.
Proof.
  intros I.
  assert (A : length used <= n).
  { rewrite <- (seq_length n 0). apply NoDup_incl_length; [apply I|]. intros i Hi. apply in_seq. pose proof (iv_range _ _ I i Hi). lia. }
  split; [|exact A].
  assert (B : length (concat groups) <= length used).
  { apply NoDup_incl_length; [apply I|]. intros i Hi. now apply (iv_incl _ _ I). }
  assert (C : 2 * length groups <= length (concat groups)).
  { pose proof (iv_two _ _ I) as T. clear - T. induction groups as [|b g IH]; cbn; [lia|]. rewrite app_length.
    pose proof (T b (or_introl eq_refl)). assert (2 * length g <= length (concat g)) by (apply IH; intros; apply T; now right). lia. }
  lia.
Qed.

Lemma greedy_inv maxb ord : Permutation ord (seq 0 n) -> 2 <= n -> forall fuel used groups,
  inv used groups -> n <= fuel + length used -> length groups <= maxb ->
  exists used' groups', greedy fuel limit maxb (graph X features) features ord used (map (map feat) groups) = Some (map (map feat) groups') /\
    inv used' groups' /\ length groups' <= maxb /\ (length groups' < maxb -> forall i, i < n -> In i used').
Proof.
  intros P N2.
  induction fuel as [|fuel IH]; intros used groups I Hf Hm.
  - assert (full : forall i, i < n -> In i used).
    { destruct (inv_size _ _ I) as [_ A]. intros i Hi. assert (B : incl (seq 0 n) used); [|apply B, in_seq; lia].
      apply NoDup_length_incl.
      - apply (iv_used _ _ I).
      - rewrite seq_length. lia.
      - intros j Hj. apply in_seq. pose proof (iv_range _ _ I j Hj). lia. }
    exists used, groups. split; [|split; [exact I|split; [exact Hm|intros _; exact full]]]. cbn [greedy].
    destruct ((length (map (map feat) groups) <? maxb) && (length (map (map feat) groups) <? length features)); [|reflexivity].
    destruct (find (fun i => negb (memb i used)) ord) as [s|] eqn:Fd; [|reflexivity].
    exfalso. apply find_some in Fd. destruct Fd as [A B]. apply negb_true_iff, memb_out in B. apply B, full.
    apply (Permutation_in _ P) in A. apply in_seq in A. lia.
  - cbn [greedy]. rewrite map_length.
    destruct (Nat.ltb_spec (length groups) maxb) as [L|L]; cbn [andb].
    + destruct (inv_size _ _ I) as [Sz _].
      destruct (Nat.ltb_spec (length groups) (length features)) as [L2|L2]; [|fold n in L2; lia].
      destruct (find (fun i => negb (memb i used)) ord) as [s|] eqn:Fd.
      * pose proof (find_some _ _ Fd) as [A B]. apply negb_true_iff, memb_out in B.
        assert (Hs : s < n) by (apply (Permutation_in _ P) in A; apply in_seq in A; lia).
        destruct (turn ord used groups s P I Hs B) as (ad & E & I').
        rewrite E. rewrite map_length.
        replace (if 1 <? length (s :: ad) then map (map feat) groups ++ [map feat (s :: ad)] else map (map feat) groups)
          with (map (map feat) (if 1 <? length (s :: ad) then groups ++ [s :: ad] else groups))
          by (destruct (1 <? length (s :: ad)); [now rewrite map_app|reflexivity]).
        apply IH; [exact I'| |].
        -- rewrite app_length. cbn [length]. lia.
        -- destruct (1 <? length (s :: ad)); [rewrite app_length; cbn [length]|]; lia.
      * exists used, groups. split; [reflexivity|]. split; [easy|]. split; [easy|]. intros _ i Hi.
        destruct (memb i used) eqn:M; [now apply memb_in|].
        assert (Q : negb (memb i used) = false).
        { apply (find_none _ _ Fd). apply (Permutation_in _ (Permutation_sym P)). apply in_seq. lia. }
        rewrite M in Q. discriminate.
    + exists used, groups. split; [reflexivity|]. split; [easy|]. split; [easy|]. lia.
Qed.
Lemma inv_nil : inv [] [].
Proof.
  constructor; try easy; try constructor. intros l1 b l2 j H. symmetry in H. now apply app_eq_nil in H as [_ H].
Qed.
End Greedy.

(** *** From positions to columns *)
Section Create.
Context {N : Num}.
Lemma filter_map_length {A B} (p : B -> bool) (g : A -> B) l : length (filter p (map g l)) = length (filter (fun x => p (g x)) l).
Proof. induction l as [|x l IH]; cbn; [easy|]. destruct (p (g x)); cbn; now rewrite IH. Qed.
Lemma sparsity_zeros (X : matrix N) j : sparsity X j = ndiv (nofnat (zeros X j)) (nofnat (nrows X)).
Proof. unfold sparsity, zeros, col, column. now rewrite filter_map_length. Qed.
Definition candidates (ratio : N) (X : matrix N) : list nat := filter (fun i => nle ratio (sparsity X i)) (seq 0 (mcols X)).
Lemma candidates_sparse ratio (X : matrix N) j : In j (candidates ratio X) <-> sparse ratio X j.
Proof. unfold candidates, sparse. rewrite filter_In, in_seq, sparsity_zeros. intuition lia. Qed.
Lemma clash_conflict (limit : N) X a b : clash limit X a b <-> nlt limit (conflict X a b) = true.
Proof.
  unfold clash, conflict. change (fun row : list N => present (nth a row n0) || present (nth b row n0)) with (fun r : list N => nonzero (nth a r n0) || nonzero (nth b r n0)).
  unfold either, both. change (@present N) with (@nonzero N).
  destruct (length (filter (fun r : list N => nonzero (nth a r n0) || nonzero (nth b r n0)) (mrows X))); reflexivity.
Qed.
Lemma degrees_fst (limit : N) g n : map fst (degrees limit g n) = seq 0 n.
Proof. unfold degrees. rewrite map_map. cbn. apply map_id. Qed.

Lemma concat_map_map {A B} (g : A -> B) l : concat (map (map g) l) = map g (concat l).
Proof. induction l; cbn; [easy|]. now rewrite map_app, IHl. Qed.
Lemma map_split {A B} (g : A -> B) l l1 b l2 : map g l = l1 ++ b :: l2 -> exists m1 c m2, l = m1 ++ c :: m2 /\ l1 = map g m1 /\ b = g c /\ l2 = map g m2.
Proof.
  revert l. induction l1 as [|x l1 IH]; intros [|y l]; cbn; try easy.
  - intros [= <- <-]. now exists [], y, l.
  - intros [= <- H]. destruct (IH _ H) as (m1 & c & m2 & -> & -> & -> & ->). now exists (y :: m1), c, m2.
Qed.
Lemma NoDup_map_on {A B} (g : A -> B) l : NoDup l -> (forall a b, In a l -> In b l -> g a = g b -> a = b) -> NoDup (map g l).
Proof.
  induction 1 as [|x l H D IH]; cbn; intros G; constructor.
  - intros I. apply in_map_iff in I. destruct I as (y & E & Iy). apply H. rewrite (G x y); auto.
  - apply IH. intros; apply G; auto.
Qed.

Lemma greedy_bundles order (limit ratio : N) maxb (X : matrix N) :
  (forall l, Permutation l (order l)) -> 2 <= length (candidates ratio X) ->
  exists bundles, greedy_bundling order limit maxb X (candidates ratio X) = Some bundles /\ bundling limit ratio maxb X bundles.
Proof.
  intros Ho Hn. set (fs := candidates ratio X) in *.
  assert (D : NoDup fs) by (apply NoDup_filter, seq_NoDup).
  unfold greedy_bundling. set (ord := map fst _).
  assert (P : Permutation ord (seq 0 (length fs))).
  { unfold ord. rewrite <- (degrees_fst limit (graph X fs) (length fs)). apply Permutation_map, Permutation_sym, Ho. }
  destruct (greedy_inv limit X fs D maxb ord P Hn (length fs) [] []) as (used & gs & E & I & C & F); [apply inv_nil|cbn; lia|cbn; lia|].
  eexists. split; [exact E|].
  set (feat := fun i => nth i fs 0) in *.
  assert (Rg : forall i, In i (concat gs) -> i < length fs) by (intros i H; apply (iv_range _ _ _ _ _ I); now apply (iv_incl _ _ _ _ _ I)).
  assert (Inj : forall i j, i < length fs -> j < length fs -> feat i = feat j -> i = j) by (intros; eapply feat_inj; eauto).
  assert (Mem : forall i l, i < length fs -> (forall k, In k l -> k < length fs) -> In (feat i) (map feat l) -> In i l).
  { intros i l Hi Hl H. apply in_map_iff in H. destruct H as (k & Ek & Hk). apply Inj in Ek; auto. now subst. }
  assert (Gin : forall b k, In b gs -> In k b -> In k (concat gs)) by (intros b k Hb Hk; apply in_concat; now exists b).
  constructor.
  - now rewrite map_length.
  - intros b j Hb Hj. apply in_map_iff in Hb. destruct Hb as (c & <- & Hc). apply in_map_iff in Hj. destruct Hj as (k & <- & Hk).
    apply candidates_sparse. apply nth_In. eauto.
  - intros b Hb. apply in_map_iff in Hb. destruct Hb as (c & <- & Hc). rewrite map_length. now apply (iv_two _ _ _ _ _ I).
  - rewrite concat_map_map. apply NoDup_map_on; [apply I|]. intros a b Ha Hb. apply Inj; auto.
  - intros b i j Hb Hi Hj Hij. apply in_map_iff in Hb. destruct Hb as (c & <- & Hc).
    apply in_map_iff in Hi. destruct Hi as (k & <- & Hk). apply in_map_iff in Hj. destruct Hj as (l & <- & Hl).
    rewrite clash_conflict. rewrite not_true_iff_false. apply (iv_ok _ _ _ _ _ I c); auto.
  - intros l1 b l2 j Hg Hj A B. apply map_split in Hg. destruct Hg as (m1 & c & m2 & Hg & -> & -> & ->).
    apply candidates_sparse in Hj. destruct (In_nth _ _ 0 Hj) as (k & Hk & <-). change (nth k fs 0) with (feat k) in *.
    destruct (iv_full _ _ _ _ _ I m1 c m2 k Hg Hk) as (i & Hi & G).
    + intros H. apply A. rewrite concat_map_map. now apply (in_map feat).
    + intros H. apply B. now apply (in_map feat).
    + exists (feat i). split; [now apply (in_map feat)|]. now apply clash_conflict.
  - rewrite map_length. intros L i j Hi Hj Hij A B. rewrite concat_map_map in *.
    apply candidates_sparse in Hi. apply candidates_sparse in Hj.
    destruct (In_nth _ _ 0 Hi) as (k & Hk & <-). destruct (In_nth _ _ 0 Hj) as (l & Hl & <-).
    change (nth k fs 0) with (feat k) in *. change (nth l fs 0) with (feat l) in *.
    apply clash_conflict. apply (iv_single _ _ _ _ _ I); auto.
    + intros H. apply A. now apply (in_map feat).
    + congruence.
    + intros H. apply B. now apply (in_map feat).
Qed.
Lemma few_bundles (limit ratio : N) maxb (X : matrix N) : length (candidates ratio X) < 2 -> bundling limit ratio maxb X [].
Proof.
  intros H. constructor; cbn; try easy; try lia; try constructor.
  - intros l1 b l2 j E. symmetry in E. now apply app_eq_nil in E as [_ E].
  - intros _ i j Hi Hj Hij. exfalso. apply candidates_sparse in Hi. apply candidates_sparse in Hj.
    destruct (candidates ratio X) as [|a [|b l]]; cbn in *; [easy| |lia]. intuition congruence.
Qed.
End Create.

(** *** The new places of the columns *)
Section Mapping.
Lemma upd_map_seq {A} (f : nat -> A) n x v : upd x (fun _ => v) (map f (seq 0 n)) = map (fun i => if i =? x then v else f i) (seq 0 n).
Proof.
  apply nth_error_ext. intros i. rewrite !nth_error_map. destruct (Nat.eq_dec i x) as [->|H].
  - rewrite nth_error_upd_same, !nth_error_map. destruct (nth_error (seq 0 n) x) as [k|] eqn:E; cbn; [|easy].
    assert (L : x < n) by (rewrite <- (seq_length n 0); apply nth_error_Some; congruence).
    rewrite (nth_error_nth' _ 0) in E by now rewrite seq_length. rewrite seq_nth in E by easy. injection E as <-. cbn. now rewrite Nat.eqb_refl.
  - rewrite nth_error_upd_other by auto. rewrite !nth_error_map. destruct (nth_error (seq 0 n) i) as [k|] eqn:E; cbn; [|easy].
    assert (L : i < n) by (rewrite <- (seq_length n 0); apply nth_error_Some; congruence).
    rewrite (nth_error_nth' _ 0) in E by now rewrite seq_length. rewrite seq_nth in E by easy. injection E as <-. cbn.
    destruct (Nat.eqb_spec i x); easy.
Qed.
Lemma set_map_seq {A} (f : nat -> A) n x v : x < n -> set_at x v (map f (seq 0 n)) = Ok (map (fun i => if i =? x then v else f i) (seq 0 n)).
Proof. intros H. unfold set_at. rewrite map_length, seq_length. destruct (Nat.ltb_spec x n); [|lia]. now rewrite upd_map_seq. Qed.
Lemma get_map_seq {A} (f : nat -> A) n x : x < n -> get_at (map f (seq 0 n)) x = Ok (f x).
Proof.
  intros H. unfold get_at. rewrite nth_error_map, (nth_error_nth' _ 0) by now rewrite seq_length. rewrite seq_nth by easy. reflexivity.
Qed.
Lemma map_seq_ext {A} (f g : nat -> A) n : (forall i, i < n -> f i = g i) -> map f (seq 0 n) = map g (seq 0 n).
Proof. intros H. apply map_ext_in. intros i Hi. apply H. apply in_seq in Hi. lia. Qed.

Lemma bundled_concat bundles j : is_bundled bundles j = true <-> In j (concat bundles).
Proof.
  unfold is_bundled. rewrite existsb_exists, in_concat. split; intros (b & A & B); exists b; split; auto; now apply memb_in.
Qed.
Lemma unbundled_concat bundles j : is_bundled bundles j = false <-> ~ In j (concat bundles).
Proof. rewrite <- bundled_concat. destruct (is_bundled bundles j); split; congruence. Qed.

(** Column [j] belongs to group number [k + slot]. *)
Fixpoint slot (bundles : list (list nat)) (j : nat) : option nat :=
  match bundles with
  | [] => None
  | b :: r => if memb j b then Some 0 else option_map S (slot r j)
  end.
Lemma slot_some bundles j k : slot bundles j = Some k -> exists b, nth_error bundles k = Some b /\ In j b.
Proof.
  revert k. induction bundles as [|b r IH]; cbn; [easy|]. intros k. destruct (memb j b) eqn:M.
  - intros [= <-]. exists b. split; [easy|]. now apply memb_in.
  - destruct (slot r j); cbn; [|easy]. intros [= <-]. now apply IH.
Qed.
Lemma slot_none bundles j : slot bundles j = None <-> ~ In j (concat bundles).
Proof.
  induction bundles as [|b r IH]; cbn; [easy|]. rewrite in_app_iff. destruct (memb j b) eqn:M.
  - apply memb_in in M. split; [easy|]. tauto.
  - apply memb_out in M. destruct (slot r j); cbn; [split; [easy|]|tauto]. intros H. assert (~ In j (concat r)) by tauto. now apply IH in H0.
Qed.
Lemma NoDup_app_inv {A} (l1 l2 : list A) : NoDup (l1 ++ l2) -> NoDup l1 /\ NoDup l2 /\ (forall x, In x l1 -> ~ In x l2).
Proof.
  induction l1 as [|a l1 IH]; cbn; intros H.
  - repeat split; [constructor|easy|easy].
  - inversion H as [|? ? A0 B]; subst. destruct (IH B) as (C & D & E). rewrite in_app_iff in A0. split; [|split].
    + constructor; tauto.
    + easy.
    + intros x [<-|Hx]; [tauto|now apply E].
Qed.
Lemma slot_at bundles k b j : NoDup (concat bundles) -> nth_error bundles k = Some b -> In j b -> slot bundles j = Some k.
Proof.
  revert k. induction bundles as [|c r IH]; intros [|k]; cbn; try easy.
  - intros _ [= ->] H. apply memb_in in H. now rewrite H.
  - intros D H Hj. apply NoDup_app_inv in D. destruct D as (_ & D & E).
    assert (Hr : In j (concat r)) by (apply in_concat; exists b; split; [eapply nth_error_In; eauto|easy]).
    assert (M : memb j c = false) by (apply memb_out; intros F; now apply (E j)). rewrite M. now rewrite (IH k).
Qed.

(** Where column [j] goes. *)
Definition spot (bundles : list (list nat)) (cols j : nat) : nat :=
  match slot bundles j with Some k => length (unbundled bundles cols) + k | None => length (unbundled bundles j) end.

Lemma foldM_group v b : forall (f : nat -> nat) n, (forall x, In x b -> x < n) ->
  foldM (fun m x => if x <? n then Ok (upd x (fun _ => v) m) else Panic) (map f (seq 0 n)) b = Ok (map (fun i => if memb i b then v else f i) (seq 0 n)).
Proof.
  induction b as [|x b IH]; intros f n H; cbn [foldM].
  - reflexivity.
  - destruct (Nat.ltb_spec x n) as [L|L]; [|specialize (H x (or_introl eq_refl)); lia]. cbn [bind].
    rewrite upd_map_seq, IH by (intros; apply H; now right). f_equal. apply map_ext. intros i. cbn. destruct (Nat.eqb_spec i x); cbn; [|easy].
    now destruct (memb i b).
Qed.
Lemma foldM_groups base n : forall bundles s (f : nat -> nat), NoDup (concat bundles) -> (forall x, In x (concat bundles) -> x < n) ->
  foldM (fun m q => foldM (fun m x => if x <? n then Ok (upd x (fun _ => base + fst q) m) else Panic) m (snd q))
    (map f (seq 0 n)) (combine (seq s (length bundles)) bundles) =
  Ok (map (fun j => match slot bundles j with Some k => base + (s + k) | None => f j end) (seq 0 n)).
Proof.
  induction bundles as [|b r IH]; intros s f D H; cbn [length seq combine foldM].
  - reflexivity.
  - cbn [fst snd]. cbn in D, H. apply NoDup_app_inv in D. destruct D as (_ & D & E).
    rewrite foldM_group by (intros; apply H, in_or_app; now left). cbn [bind].
    rewrite IH; [|easy|intros; apply H, in_or_app; now right]. f_equal. apply map_ext. intros j. cbn [slot].
    destruct (memb j b) eqn:M.
    + apply memb_in in M. apply E in M. apply slot_none in M. rewrite M. lia.
    + destruct (slot r j); cbn; [lia|easy].
Qed.
Lemma mapping_spot bundles cols : NoDup (concat bundles) -> (forall x, In x (concat bundles) -> x < cols) ->
  feature_mapping bundles cols = Ok (map (spot bundles cols) (seq 0 cols)).
Proof.
  intros D H. unfold feature_mapping. rewrite foldM_groups by easy. f_equal. apply map_ext. intros j. unfold spot.
  destruct (slot bundles j) as [k|] eqn:E; [easy|]. apply slot_none, unbundled_concat in E. now rewrite E.
Qed.
Lemma spot_place bundles cols j : NoDup (concat bundles) -> place bundles cols j (spot bundles cols j).
Proof.
  intros D. unfold spot, place. destruct (slot bundles j) as [k|] eqn:E.
  - right. destruct (slot_some _ _ _ E) as (b & A & B). exists k, b. split; [easy|]. split; [easy|].
    exists (unbundled bundles cols). split; [apply NoDup_filter, seq_NoDup|]. split; [|easy].
    intros i. unfold unbundled. rewrite filter_In, in_seq, negb_true_iff, unbundled_concat. intuition lia.
  - left. apply slot_none in E. split; [easy|].
    exists (unbundled bundles j). split; [apply NoDup_filter, seq_NoDup|]. split; [|easy].
    intros i. unfold unbundled. rewrite filter_In, in_seq, negb_true_iff, unbundled_concat. intuition lia.
Qed.

Lemma unbundled_S bundles j : unbundled bundles (S j) = unbundled bundles j ++ (if is_bundled bundles j then [] else [j]).
Proof. unfold unbundled. rewrite seq_S, filter_app. cbn. now destruct (is_bundled bundles j). Qed.
Lemma unbundled_mono bundles i j : i <= j -> length (unbundled bundles i) <= length (unbundled bundles j).
Proof.
  intros H. induction H as [|j H IH]; [easy|]. rewrite unbundled_S, app_length. lia.
Qed.
Lemma unbundled_lt bundles i j : i < j -> is_bundled bundles i = false -> length (unbundled bundles i) < length (unbundled bundles j).
Proof.
  intros H F. apply Nat.lt_le_trans with (length (unbundled bundles (S i))); [|now apply unbundled_mono].
  rewrite unbundled_S, F, app_length. cbn. lia.
Qed.
Lemma unbundled_count bundles cols : NoDup (concat bundles) -> (forall x, In x (concat bundles) -> x < cols) ->
  length (unbundled bundles cols) + length (concat bundles) = cols.
Proof.
  intros D H.
  assert (P : Permutation (unbundled bundles cols ++ concat bundles) (seq 0 cols)).
  { apply NoDup_Permutation.
    - apply NoDup_app_intro; [apply NoDup_filter, seq_NoDup|easy|]. intros x A B. apply filter_In in A. destruct A as [_ A].
      apply negb_true_iff, unbundled_concat in A. easy.
    - apply seq_NoDup.
    - intros x. unfold unbundled. rewrite in_app_iff, filter_In, in_seq, negb_true_iff, unbundled_concat. split.
      + intros [A|A]; [lia|]. apply H in A. lia.
      + intros A. destruct (in_dec Nat.eq_dec x (concat bundles)); [now right|left; split; [lia|easy]]. }
  apply Permutation_length in P. rewrite app_length, seq_length in P. exact P.
Qed.
End Mapping.

(** *** Rows *)
Section Rows.
Context {N : Num}.
Lemma foldM_app {A S} (f : S -> A -> res S) l1 l2 s : foldM f s (l1 ++ l2) = bind (foldM f s l1) (fun s' => foldM f s' l2).
Proof. revert s. induction l1 as [|a l1 IH]; intros s; cbn; [easy|]. destruct (f s a); cbn; auto. Qed.
Lemma set_mid {A} (l1 l2 : list A) x v : set_at (length l1) v (l1 ++ x :: l2) = Ok (l1 ++ v :: l2).
Proof.
  unfold set_at. rewrite app_length. cbn [length]. destruct (Nat.ltb_spec (length l1) (length l1 + S (length l2))); [|lia].
  f_equal. clear. induction l1 as [|a l1 IH]; cbn; [easy|]. now rewrite IH.
Qed.
Lemma get_in {A} (l : list A) d j : j < length l -> get_at l j = Ok (nth j l d).
Proof. intros H. unfold get_at. now rewrite (nth_error_nth' _ d). Qed.
Lemma unbundled_nil c : length (unbundled [] c) = c.
Proof.
  unfold unbundled. transitivity (length (seq 0 c)); [|apply seq_length]. f_equal. generalize (seq 0 c) as l. induction l as [|a l IH]; [easy|]. cbn [filter is_bundled existsb negb]. f_equal. exact IH.
Qed.
Lemma spot_unbundled bundles cols j : is_bundled bundles j = false -> spot bundles cols j = length (unbundled bundles j).
Proof. intros H. apply unbundled_concat, slot_none in H. unfold spot. now rewrite H. Qed.

Fixpoint code (i : nat) (row : list N) (b : list nat) : N :=
  match b with
  | [] => n0
  | x :: r => if nonzero (nth x row n0) then nadd (nmul base_offset (nofnat (S i))) (nth x row n0) else code (S i) row r
  end.
Lemma code_value b : forall i (row : list N), (forall x, In x b -> x < length row) -> bundle_value_from i row b = Ok (code i row b).
Proof.
  induction b as [|x b IH]; intros i row H; cbn; [easy|]. rewrite (nth_error_nth' _ n0) by (apply H; now left).
  destruct (nonzero (nth x row n0)); [easy|]. apply IH. intros; apply H; now right.
Qed.

Variables (bundles : list (list nat)) (cols : nat).
Hypothesis disj : NoDup (concat bundles).
Hypothesis range : forall x, In x (concat bundles) -> x < cols.
Hypothesis inhabited : forall b, In b bundles -> b <> [].
Let U := length (unbundled bundles cols).
Let mapping := map (spot bundles cols) (seq 0 cols).
Let width := U + length bundles.

Lemma new_cols_width : 0 < cols -> new_cols mapping = width.
Proof.
  intros Hc. unfold new_cols.
  assert (A : forall l a m, (forall x, In x l -> x <= m) -> a <= m -> (In m l \/ a = m) -> fold_left Nat.max l a = m).
  { induction l as [|y l IH]; cbn; intros a m H Ha Hm; [tauto|].
    assert (y <= m) by (apply H; now left). apply IH; [intros; apply H; now right|lia|].
    destruct Hm as [[->|Hm]| ->]; [right; lia|now left|right; lia]. }
  assert (W : 0 < width).
  { unfold width, U. pose proof (unbundled_count bundles cols disj range) as Q. destruct (Nat.eq_dec (length bundles) 0) as [Z|Z]; [|lia].
    apply length_zero_iff_nil in Z. assert (length (concat bundles) = 0) by now rewrite Z. lia. }
  rewrite (A mapping 0 (width - 1)); [lia| |lia|].
  - intros p Hp. apply in_map_iff in Hp. destruct Hp as (j & <- & Hj). apply in_seq in Hj. unfold spot.
    destruct (slot bundles j) as [k|] eqn:E.
    + destruct (slot_some _ _ _ E) as (b & B & _). assert (k < length bundles) by (apply nth_error_Some; congruence). unfold width, U. lia.
    + apply slot_none, unbundled_concat in E. pose proof (unbundled_lt bundles j cols ltac:(lia) E). unfold width, U. lia.
  - left. apply in_map_iff.
    destruct (Nat.eq_dec (length bundles) 0) as [Z|Z].
    + exists (cols - 1). split; [|apply in_seq; lia]. apply length_zero_iff_nil in Z. unfold width, U. rewrite Z. unfold spot. cbn [slot length].
      rewrite !unbundled_nil. lia.
    + destruct (nth_error bundles (length bundles - 1)) as [b|] eqn:E.
      * pose proof (nth_error_In _ _ E) as Hb. destruct b as [|x b]; [now apply inhabited in Hb|].
        exists x. split; [|apply in_seq; assert (x < cols); [apply range, in_concat; exists (x :: b); split; [easy|now left]|lia]].
        unfold spot. rewrite (slot_at bundles _ _ x disj E (or_introl eq_refl)). unfold width, U. lia.
      * apply nth_error_None in E. lia.
Qed.

Definition coded (row : list N) : list N := map (fun j => nth j row n0) (unbundled bundles cols) ++ map (code 0 row) bundles.

Lemma copy_stage (row : list N) : length row = cols -> forall c, c <= cols ->
  foldM (fun acc j => if is_bundled bundles j then Ok acc else bind (get_at mapping j) (fun m => bind (get_at row j) (fun v => set_at m v acc)))
    (repeat n0 width) (seq 0 c) =
  Ok (map (fun j => nth j row n0) (unbundled bundles c) ++ repeat n0 (width - length (unbundled bundles c))).
Proof.
  intros Hr. induction c as [|c IH]; intros Hc.
  - cbn. now rewrite Nat.sub_0_r.
  - rewrite seq_S, foldM_app, IH by lia. cbn [bind foldM]. rewrite Nat.add_0_l, unbundled_S.
    destruct (is_bundled bundles c) eqn:B.
    + now rewrite app_nil_r.
    + unfold mapping. rewrite get_map_seq by lia. cbn [bind]. rewrite (get_in row n0) by lia. cbn [bind].
      rewrite spot_unbundled by easy.
      pose proof (unbundled_lt bundles c cols ltac:(lia) B) as L. fold U in L.
      replace (width - length (unbundled bundles c)) with (S (width - S (length (unbundled bundles c)))) by (unfold width; lia).
      cbn [repeat].
      replace (length (unbundled bundles c)) with (length (map (fun j => nth j row n0) (unbundled bundles c))) at 1 by apply map_length.
      rewrite set_mid. cbn [bind]. rewrite app_length, map_app. cbn [length map]. rewrite <- app_assoc, Nat.add_1_r. reflexivity.
Qed.
Lemma head_mapping k b : nth_error bundles k = Some b -> head_index mapping b = Ok (U + k).
Proof.
  intros E. pose proof (nth_error_In _ _ E) as Hb. destruct b as [|x b]; [now apply inhabited in Hb|]. cbn.
  assert (Hx : x < cols) by (apply range, in_concat; exists (x :: b); split; [easy|now left]).
  unfold mapping. rewrite get_map_seq by easy. unfold spot. now rewrite (slot_at bundles k _ x disj E (or_introl eq_refl)).
Qed.
Lemma code_stage (row : list N) : length row = cols -> forall l2 l1, bundles = l1 ++ l2 ->
  foldM (fun acc b => bind (head_index mapping b) (fun m => bind (bundle_value row b) (fun v => set_at m v acc)))
    (map (fun j => nth j row n0) (unbundled bundles cols) ++ map (code 0 row) l1 ++ repeat n0 (length l2)) l2 = Ok (coded row).
Proof.
  intros Hr. induction l2 as [|b l2 IH]; intros l1 E.
  - cbn. unfold coded. rewrite E, !app_nil_r. reflexivity.
  - cbn [foldM].
    assert (Q : nth_error bundles (length l1) = Some b) by (rewrite E, nth_error_app2, Nat.sub_diag by lia; reflexivity).
    rewrite (head_mapping _ _ Q). cbn [bind].
    unfold bundle_value at 1. rewrite code_value.
    2:{ intros x Hx. rewrite Hr. apply range, in_concat. exists b. split; [eapply nth_error_In; eauto|easy]. }
    cbn [bind length repeat].
    replace (U + length l1) with (length (map (fun j => nth j row n0) (unbundled bundles cols) ++ map (code 0 row) l1)) by (rewrite app_length, !map_length; reflexivity).
    rewrite app_assoc, set_mid. cbn [bind]. rewrite <- app_assoc.
    replace (map (code 0 row) l1 ++ code 0 row b :: repeat n0 (length l2)) with (map (code 0 row) (l1 ++ [b]) ++ repeat n0 (length l2)) by (rewrite map_app, <- app_assoc; reflexivity).
    apply IH. rewrite <- app_assoc. exact E.
Qed.
Lemma bundle_row_coded (row : list N) : length row = cols -> bundle_row cols width bundles mapping row = Ok (coded row).
Proof.
  intros Hr. unfold bundle_row. rewrite copy_stage by auto. cbn [bind]. fold U.
  replace (width - U) with (length bundles) by (unfold width; lia). apply (code_stage row Hr bundles []). reflexivity.
Qed.
Lemma coded_length row : length (coded row) = width.
Proof. unfold coded. now rewrite app_length, !map_length. Qed.

(** Decoding *)
Definition decode (b : list nat) (v : N) (j : nat) : N :=
  if is_zero v then n0 else match match_from 0 b v with None => n0 | Some (x, o) => if j =? x then nsub v o else n0 end.
Lemma zero_stage n b : forall (f : nat -> N), (forall x, In x b -> x < n) ->
  foldM (fun acc x => set_at x n0 acc) (map f (seq 0 n)) b = Ok (map (fun j => if memb j b then n0 else f j) (seq 0 n)).
Proof.
  induction b as [|x b IH]; intros f H; cbn [foldM]; [reflexivity|].
  rewrite set_map_seq by (apply H; now left). cbn [bind]. rewrite IH by (intros; apply H; now right). f_equal. apply map_ext. intros j. cbn.
  destruct (Nat.eqb_spec j x); cbn; [|easy]. now destruct (memb j b).
Qed.
Lemma match_member b (v : N) : forall i x o, match_from i b v = Some (x, o) -> In x b.
Proof.
  induction b as [|y b IH]; intros i x o; cbn; [easy|].
  destruct (nle (nmul base_offset (nofnat (S i))) v && nlt v (nadd (nmul base_offset (nofnat (S i))) base_offset)).
  - intros [= <- _]. now left.
  - intros H. right. eapply IH; eauto.
Qed.
Lemma unbundle_decode n b v (f : nat -> N) : (forall x, In x b -> x < n) ->
  unbundle_value b v (map f (seq 0 n)) = Ok (map (fun j => if memb j b then decode b v j else f j) (seq 0 n)).
Proof.
  intros H. unfold unbundle_value. rewrite zero_stage by easy. cbn [bind]. unfold decode. destruct (is_zero v); [reflexivity|].
  destruct (match_from 0 b v) as [[x o]|] eqn:E; [|reflexivity].
  pose proof (match_member _ _ _ _ _ E) as Hx. rewrite set_map_seq by now apply H. f_equal. apply map_ext. intros j.
  destruct (Nat.eqb_spec j x) as [->|D]; [|easy]. apply memb_in in Hx. now rewrite Hx.
Qed.
Lemma read_stage (row : list N) : length row = width -> forall c, c <= cols ->
  foldM (fun acc j => if is_bundled bundles j then Ok acc else bind (get_at mapping j) (fun m => bind (get_at row m) (fun v => set_at j v acc)))
    (repeat n0 cols) (seq 0 c) =
  Ok (map (fun j => if (j <? c) && negb (is_bundled bundles j) then nth (length (unbundled bundles j)) row n0 else n0) (seq 0 cols)).
Proof.
  intros Hr. induction c as [|c IH]; intros Hc.
  - cbn. f_equal. clear. generalize 0. induction cols as [|k IH]; intros s; cbn; [easy|]. now rewrite <- IH.
  - rewrite seq_S, foldM_app, IH by lia. cbn [bind foldM]. rewrite Nat.add_0_l.
    destruct (is_bundled bundles c) eqn:B.
    + cbn [bind]. f_equal. apply map_ext. intros j. destruct (Nat.eq_dec j c) as [->|D].
      * rewrite B. cbn. now rewrite !andb_false_r.
      * replace (j <? S c) with (j <? c); [easy|]. destruct (Nat.ltb_spec j c), (Nat.ltb_spec j (S c)); auto; lia.
    + unfold mapping. rewrite get_map_seq by lia. cbn [bind]. rewrite spot_unbundled by easy.
      pose proof (unbundled_lt bundles c cols ltac:(lia) B) as L. fold U in L.
      rewrite (get_in row n0) by (unfold width in Hr; lia). cbn [bind]. rewrite set_map_seq by lia. cbn [bind]. f_equal. apply map_ext. intros j.
      destruct (Nat.eqb_spec j c) as [->|D].
      * rewrite B. destruct (Nat.ltb_spec c (S c)); [easy|lia].
      * replace (j <? S c) with (j <? c); [easy|]. destruct (Nat.ltb_spec j c), (Nat.ltb_spec j (S c)); auto; lia.
Qed.
Lemma decode_stage (row : list N) : length row = width -> forall l2 l1 f, bundles = l1 ++ l2 ->
  foldM (fun acc b => bind (head_index mapping b) (fun m => bind (get_at row m) (fun v => unbundle_value b v acc))) (map f (seq 0 cols)) l2 =
  Ok (map (fun j => match slot l2 j with Some k => decode (nth k l2 []) (nth (U + (length l1 + k)) row n0) j | None => f j end) (seq 0 cols)).
Proof.
  intros Hr. induction l2 as [|b l2 IH]; intros l1 f E; cbn [foldM]; [reflexivity|].
  assert (Q : nth_error bundles (length l1) = Some b) by (rewrite E, nth_error_app2, Nat.sub_diag by lia; reflexivity).
  rewrite (head_mapping _ _ Q). cbn [bind].
  assert (K : length l1 < length bundles) by (apply nth_error_Some; congruence).
  rewrite (get_in row n0) by (unfold width in Hr; lia). cbn [bind].
  rewrite unbundle_decode.
  2:{ intros x Hx. apply range, in_concat. exists b. split; [eapply nth_error_In; eauto|easy]. }
  cbn [bind]. rewrite (IH (l1 ++ [b])) by (rewrite <- app_assoc; exact E). f_equal. apply map_ext. intros j. cbn [slot].
  assert (DD : forall x, In x b -> ~ In x (concat l2)).
  { intros x Hx. pose proof disj as D. rewrite E, concat_app in D. apply NoDup_app_inv in D. destruct D as (_ & D & _). cbn in D. apply NoDup_app_inv in D. now apply D. }
  destruct (memb j b) eqn:M.
  - apply memb_in in M. apply DD in M. apply slot_none in M. rewrite M. cbn [nth]. now rewrite Nat.add_0_r.
  - destruct (slot l2 j) as [k|]; cbn; [|easy]. rewrite app_length. cbn. now rewrite <- Nat.add_assoc.
Qed.
Lemma unbundle_row_eq (row : list N) : length row = width ->
  unbundle_row cols bundles mapping row =
  Ok (map (fun j => match slot bundles j with
                    | Some k => decode (nth k bundles []) (nth (U + k) row n0) j
                    | None => nth (length (unbundled bundles j)) row n0 end) (seq 0 cols)).
Proof.
  intros Hr. unfold unbundle_row. rewrite read_stage by auto. cbn [bind].
  rewrite (decode_stage row Hr bundles []) by reflexivity. f_equal. apply map_seq_ext. intros j Hj.
  destruct (slot bundles j) as [k|] eqn:E; [reflexivity|].
  apply slot_none, unbundled_concat in E. rewrite E. destruct (Nat.ltb_spec j cols); [reflexivity|lia].
Qed.
Lemma nth_unbundled (row : list N) j : j < cols -> is_bundled bundles j = false -> nth (length (unbundled bundles j)) (coded row) n0 = nth j row n0.
Proof.
  intros Hj B. unfold coded. pose proof (unbundled_lt bundles j cols Hj B) as L.
  rewrite app_nth1 by now rewrite map_length.
  assert (E : exists rest, unbundled bundles cols = unbundled bundles j ++ j :: rest).
  { unfold unbundled. replace cols with (j + S (cols - S j)) by lia. rewrite seq_app, filter_app. cbn [seq filter]. rewrite Nat.add_0_l, B. cbn. eexists. reflexivity. }
  destruct E as [rest E]. rewrite E, map_app, app_nth2; rewrite map_length; [|lia]. rewrite Nat.sub_diag. reflexivity.
Qed.
Lemma round_row (row : list N) : length row = cols ->
  (forall b j, In b bundles -> In j b -> decode b (code 0 row b) j = nth j row n0) ->
  unbundle_row cols bundles mapping (coded row) = Ok row.
Proof.
  intros Hr H. rewrite unbundle_row_eq by apply coded_length. f_equal.
  transitivity (map (fun j => nth j row n0) (seq 0 cols)).
  - apply map_seq_ext. intros j Hj. destruct (slot bundles j) as [k|] eqn:E.
    + destruct (slot_some _ _ _ E) as (b & B & C). rewrite (nth_error_nth _ _ [] B).
      assert (K : nth (U + k) (coded row) n0 = code 0 row b).
      { unfold coded. rewrite app_nth2; rewrite map_length; [|fold U; lia]. fold U. replace (U + k - U) with k by lia.
        apply nth_error_nth. rewrite nth_error_map, B. reflexivity. }
      rewrite K. apply H; [eapply nth_error_In; eauto|easy].
    + apply slot_none, unbundled_concat in E. now apply nth_unbundled.
  - rewrite <- Hr. clear. induction row as [|a r IH]; cbn; [easy|]. rewrite <- seq_shift, map_map. cbn. now rewrite IH.
Qed.
End Rows.
