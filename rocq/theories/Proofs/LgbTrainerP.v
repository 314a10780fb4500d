From Coq Require Import String List Arith ZArith Bool Lia Permutation Reals Lra.
From Verif Require Import Base.Num Base.GoRes Base.GoMap Base.ListX Base.RTac Model.LgbTree Model.LgbHist Model.LgbTrain Model.LgbObjective Model.LgbText
  Model.LgbTrainer Spec.LgbTrainer Proofs.LgbTreeP Proofs.LgbBoostP.
Import ListNotations.
Local Open Scope list_scope.

(** *** Lists *)
Lemma mapM_ext {A B} (f g : A -> res B) l : (forall x, In x l -> f x = g x) -> mapM f l = mapM g l.
Proof. induction l as [|x l IH]; intros H; [reflexivity|]. cbn [mapM]. rewrite (H x) by now left. rewrite IH by (intros; apply H; now right). reflexivity. Qed.
Lemma nth_error_combine {A B} : forall (l : list A) (r : list B) i,
  nth_error (combine l r) i = match nth_error l i, nth_error r i with Some a, Some b => Some (a, b) | _, _ => None end.
Proof.
  induction l as [|a l IH]; intros [|b r] [|i]; try reflexivity.
  - cbn. now destruct (nth_error l i).
  - cbn [combine nth_error]. apply IH.
Qed.
Lemma mapM_shift {A} (F : nat -> res A) : forall n k, mapM F (seq (S k) n) = mapM (fun i => F (S i)) (seq k n).
Proof. induction n as [|n IH]; intros k; [reflexivity|]. cbn [seq mapM]. now rewrite IH. Qed.
Lemma mapM_three {A B C D} (f : A -> B -> C -> D) : forall (ys : list B) (xs : list A) (zs : list C), length xs = length ys -> length zs = length ys ->
  mapM (fun i => match nth_error xs i, nth_error ys i, nth_error zs i with Some a, Some b, Some c => Ok (f a b c) | _, _, _ => Panic end) (seq 0 (length ys))
  = Ok (map (fun t => f (fst t) (fst (snd t)) (snd (snd t))) (combine xs (combine ys zs))).
Proof.
  induction ys as [|b ys IH]; intros [|a xs] [|c zs] H1 H2; try discriminate; [reflexivity|]. injection H1 as H1. injection H2 as H2.
  cbn [length seq mapM nth_error bind combine map]. rewrite mapM_shift. cbn [nth_error]. rewrite (IH xs zs H1 H2). reflexivity.
Qed.

(** *** Maps with int keys *)
Section ZMap.
  Context {V : Type}.
  Implicit Types (m : list (Z * V)).
  Lemma zget_put k k' (v : V) m : zget k (zput k' v m) = if (k =? k')%Z then Some v else zget k m.
  Proof.
    induction m as [|[a w] m IH]; cbn; [reflexivity|]. destruct (Z.eqb_spec k' a) as [->|H]; cbn.
    - destruct (Z.eqb_spec k a); reflexivity.
    - destruct (Z.eqb_spec k a) as [->|H2]; [|exact IH]. destruct (Z.eqb_spec a k'); [congruence|reflexivity].
  Qed.
  Lemma zget_find k m : zget k m = option_map snd (find (fun e => Z.eqb (fst e) k) m).
  Proof. induction m as [|[a w] m IH]; cbn; [reflexivity|]. rewrite (Z.eqb_sym a k). destruct (k =? a)%Z; [reflexivity|exact IH]. Qed.
  Lemma zput_keys k (v : V) m : map fst (zput k v m) = if existsb (Z.eqb k) (map fst m) then map fst m else map fst m ++ [k].
  Proof.
    induction m as [|[a w] m IH]; [reflexivity|]. cbn. destruct (Z.eqb_spec k a) as [->|]; [reflexivity|]. cbn. rewrite IH. now destruct (existsb _ _).
  Qed.
  Lemma zget_none k m : zget k m = None <-> ~ In k (map fst m).
  Proof.
    induction m as [|[a w] m IH]; cbn; [tauto|]. destruct (Z.eqb_spec k a) as [->|]; [split; [discriminate|tauto]|]. rewrite IH. intuition congruence.
  Qed.
  Lemma zget_in k v m : NoDup (map fst m) -> In (k, v) m -> zget k m = Some v.
  Proof.
    induction m as [|[a w] m IH]; cbn; [tauto|]. intros ND [E|H].
    - injection E as -> ->. now rewrite Z.eqb_refl.
    - inversion ND as [|x l H1 H2]; subst. destruct (Z.eqb_spec k a) as [->|]; [exfalso; apply H1; now apply (in_map fst) in H|auto].
  Qed.
  Lemma zget_some k v m : zget k m = Some v -> In (k, v) m.
  Proof. induction m as [|[a w] m IH]; cbn; [discriminate|]. destruct (Z.eqb_spec k a) as [->|]; [intros [= ->]; now left|right; auto]. Qed.
End ZMap.

(** *** Counting the classes *)
Section Counts.
  Context {N : Num}.
  Definition count (c : Z) (l : list Z) : nat := length (filter (Z.eqb c) l).
  Lemma bump_get l : forall m c, zget c (fold_left bump l m) =
    match zget c m with Some k => Some (k + count c l) | None => if (count c l =? 0)%nat then None else Some (count c l) end.
  Proof.
    induction l as [|a l IH]; intros m c; cbn [fold_left].
    - unfold count. cbn. destruct (zget c m); [now rewrite Nat.add_0_r|reflexivity].
    - rewrite IH. unfold bump at 1. rewrite zget_put. unfold count. cbn [filter]. destruct (Z.eqb_spec c a) as [->|H].
      + rewrite ?Z.eqb_refl. cbn [length]. destruct (zget a m); cbn; f_equal; lia.
      + reflexivity.
  Qed.
  Lemma bump_nodup l : forall m, NoDup (map fst m) -> NoDup (map fst (fold_left bump l m)).
  Proof.
    induction l as [|a l IH]; intros m H; [exact H|]. cbn [fold_left]. apply IH. unfold bump. rewrite zput_keys. destruct (existsb (Z.eqb a) (map fst m)) eqn:E; [exact H|].
    apply NoDup_Add with (a := a) (l := map fst m); [|split; [exact H|]].
    - rewrite <- (app_nil_r (map fst m)) at 1. apply Add_app.
    - intros K. apply Bool.not_true_iff_false in E. apply E. apply existsb_exists. exists a. split; [exact K|apply Z.eqb_refl].
  Qed.
  Lemma count_pos c l : count c l <> 0 <-> In c l.
  Proof.
    unfold count. induction l as [|a l IH]; cbn; [tauto|]. destruct (Z.eqb_spec c a) as [->|]; cbn; [split; [auto|discriminate]|]. rewrite IH. intuition congruence.
  Qed.
End Counts.

Lemma count_filter {A} (g : A -> Z) c (y : list A) : count c (map g y) = length (filter (fun t => Z.eqb (g t) c) y).
Proof.
  unfold count. induction y as [|t y IH]; [reflexivity|]. cbn [map filter]. rewrite (Z.eqb_sym (g t) c). destruct (c =? g t)%Z; cbn [length]; [now f_equal|exact IH].
Qed.

Section Fit.
  Context {N : Num}.
  Variable toint : N -> Z.
  Variables (X : nat -> nat -> N) (cols : nat) (sortf : list N -> list N) (sortr : list (N * bin N) -> list (N * bin N)).
  Variables (o : @objective N) (fuel : nat) (p : tparams N).
  Local Open Scope num_scope.

  Notation loop := (train_loop toint X cols sortf sortr o fuel p).
  Lemma loop_app y w cw b1 : forall b2 t, loop y w cw (b1 ++ b2) t = match loop y w cw b1 t with Some (Ok t') => loop y w cw b2 t' | x => x end.
  Proof.
    induction b1 as [|b b1 IH]; intros b2 t; [reflexivity|]. cbn [app train_loop].
    destruct (train_round toint X cols sortf sortr o fuel p y w cw b t) as [[t'| |]|]; try reflexivity. apply IH.
  Qed.
  Lemma round_keeps y w cw b t t' : train_round toint X cols sortf sortr o fuel p y w cw b t = Some (Ok t') ->
    tr_weight t' = tr_weight t /\ tr_init t' = tr_init t /\ tr_initset t' = tr_initset t
    /\ length (scores t' y) = length (scores t y) /\ tr_preds t' <> None.
  Proof.
    unfold train_round. fold (scores t y). destruct (component toint y w cw (o_grad o) (scores t y)) as [gs| |]; try discriminate.
    destruct (component toint y w cw (o_hess o) (scores t y)) as [hs| |]; try discriminate.
    destruct (build_tree _ _ _ _ _ _ _ _ _ _) as [[tree| |]|]; try discriminate.
    destruct (update_preds _ _ _ _ _ _ _) as [[head| |]|] eqn:E; try discriminate. destruct (loss _ _ _ _) as [l| |]; try discriminate.
    intros [= <-]. cbn. repeat split; [|discriminate]. apply update_preds_spec in E. destruct E as [E _]. rewrite app_length, E.
    rewrite <- app_length. f_equal. apply firstn_skipn.
  Qed.
  Lemma loop_keeps y w cw bags : forall t t', loop y w cw bags t = Some (Ok t') ->
    tr_weight t' = tr_weight t /\ tr_init t' = tr_init t /\ tr_initset t' = tr_initset t
    /\ length (scores t' y) = length (scores t y) /\ (bags <> [] -> tr_preds t' <> None).
  Proof.
    induction bags as [|b bags IH]; intros t t' E; cbn [train_loop] in E; [injection E as <-; repeat split; congruence|].
    destruct (train_round _ _ _ _ _ _ _ _ _ _ _ _ t) as [[t1| |]|] eqn:E1; try discriminate.
    destruct (round_keeps _ _ _ _ _ _ E1) as (A1 & A2 & A3 & A4 & A5). destruct (IH _ _ E) as (B1 & B2 & B3 & B4 & B5).
    repeat split; try congruence. intros _. destruct bags as [|b' bags]; [cbn in E; injection E as <-; exact A5|apply B5; discriminate].
  Qed.
  Notation tfit := (trainer_fit toint X cols sortf sortr o fuel p).
  Lemma fit_twice cw b1 b2 y t : 
    match tfit cw b1 y t with Some (Ok t') => tfit cw b2 y t' | x => x end = tfit cw (b1 ++ b2) y t.
  Proof.
    unfold trainer_fit. set (w := match tr_weight t with Some w => w | None => _ end). destruct (class_weights toint cw y) as [m| |] eqn:Ew; try reflexivity.
    destruct (if tr_initset t then Ok (tr_init t) else o_init o y) as [i| |] eqn:Ei; try reflexivity.
    rewrite loop_app. destruct (loop y w m b1 _) as [[t'| |]|] eqn:E; try reflexivity.
    destruct (loop_keeps _ _ _ _ _ _ E) as (A1 & A2 & A3 & _). cbn in A1, A2, A3. rewrite A1, A3.
    destruct (tr_initset t) eqn:Es.
    - rewrite A2. f_equal. destruct t'. cbn in *. congruence.
    - rewrite Ei. f_equal. destruct t'. cbn in *. congruence.
  Qed.

  (** Too few predictions or weights *)
  Lemma component_panic y w cw f preds : length y > length preds \/ length y > length w -> component toint y w cw f preds = Panic.
  Proof.
    intros H. unfold component. set (F := fun i => _).
    assert (K : exists i, i < length y /\ F i = Panic).
    { destruct H as [H|H].
      - exists (length preds). split; [lia|]. unfold F. now rewrite (proj2 (nth_error_None preds (length preds)) (le_n _)).
      - exists (length w). split; [lia|]. unfold F. rewrite (proj2 (nth_error_None w (length w)) (le_n _)).
        destruct (nth_error preds (length w)); [|reflexivity]. now destruct (nth_error y (length w)). }
    assert (L : forall i, F i = Panic \/ exists v, F i = Ok v).
    { intros i. unfold F. destruct (nth_error preds i), (nth_error y i), (nth_error w i); eauto. }
    destruct K as (i & Hi & E). clearbody F. clear H.
    assert (G : forall l, In i l -> mapM F l = Panic).
    { induction l as [|a l IH]; intros [].
      - subst. cbn. now rewrite E.
      - cbn. destruct (L a) as [->|[v ->]]; [reflexivity|]. cbn. now rewrite IH. }
    apply G. apply in_seq. lia.
  Qed.
  Lemma fit_more_rows cw bags y t t' m : class_weights toint cw y = Ok m -> (tr_initset t = true \/ exists i, o_init o y = Ok i) -> bags <> [] ->
    (match tr_weight t with Some w => length w < length y | None => False end \/ match tr_preds t with Some ps => length ps < length y | None => False end) ->
    t' = t -> tfit cw bags y t' = Some Panic.
  Proof.
    intros Hm Hi Hb H ->. unfold trainer_fit. rewrite Hm.
    destruct (if tr_initset t then Ok (tr_init t) else o_init o y) as [i| |] eqn:Ei.
    2,3: destruct (tr_initset t); [discriminate|]; destruct Hi as [|[i Hi]]; congruence.
    destruct bags as [|b bags]; [congruence|]. cbn [train_loop]. unfold train_round. cbn [tr_preds tr_init].
    rewrite component_panic; [reflexivity|]. destruct H as [H|H].
    - right. destruct (tr_weight t); [lia|destruct H].
    - left. destruct (tr_preds t); [lia|destruct H].
  Qed.

  (** Without class weights, and with as many scores and weights as rows, the loop is the one of Model/LgbTrain.v. *)
  Lemma component_weighted y w f preds : length preds = length y -> length w = length y -> component toint y w None f preds = Ok (weighted y w f preds).
  Proof. intros H1 H2. unfold component, weighted, reweigh. rewrite (mapM_three (fun a b c => f a b * c) y preds w H1 H2). reflexivity. Qed.
  Lemma nsum_terms (l : list (N * (N * N))) (g : N -> N -> N) :
    map fst (map (fun t => (g (fst t) (fst (snd t)) * snd (snd t), snd (snd t))) l) = map (fun t => g (fst t) (fst (snd t)) * snd (snd t)) l.
  Proof. rewrite map_map. reflexivity. Qed.
  Lemma combine_third {A B C} : forall (xs : list A) (ys : list B) (zs : list C), length xs = length ys -> length zs = length ys ->
    map (fun t => snd (snd t)) (combine xs (combine ys zs)) = zs.
  Proof. induction xs as [|x xs IH]; intros [|y ys] [|z zs] H1 H2; try discriminate; [reflexivity|]. cbn. f_equal. apply IH; [now injection H1|now injection H2]. Qed.
  Lemma loss_train_loss y w preds : length preds = length y -> length w = length y -> loss o y w preds = Ok (train_loss y w (o_loss o) preds).
  Proof.
    intros H1 H2. unfold loss, train_loss. rewrite (mapM_three (fun a b c => (o_loss o a b * c, c)) y preds w H1 H2). cbn [bind]. do 2 f_equal.
    - unfold weighted. f_equal. now rewrite map_map.
    - rewrite map_map. cbn [snd]. now rewrite combine_third.
  Qed.
  Lemma loss_total (y w preds : list N) : length preds >= length y -> length w >= length y -> exists l, loss o y w preds = Ok l.
  Proof.
    intros H1 H2. unfold loss. match goal with |- context [mapM ?f _] => set (F := f) end. assert (K : forall l, (forall i, In i l -> i < length y) -> exists r, mapM F l = Ok r).
    { induction l as [|i l IH]; intros Hl; [eexists; reflexivity|]. cbn.
      assert (Hi : i < length y) by (apply Hl; now left).
      assert (E : exists v, F i = Ok v).
      { unfold F. destruct (nth_error preds i) eqn:E1; [|apply nth_error_None in E1; lia]. destruct (nth_error y i) eqn:E2; [|apply nth_error_None in E2; lia].
        destruct (nth_error w i) eqn:E3; [eauto|apply nth_error_None in E3; lia]. }
      destruct E as [v ->]. cbn. destruct IH as [r ->]; [intros; apply Hl; now right|]. cbn. eauto. }
    destruct (K (seq 0 (length y))) as [r ->]; [intros i Hi; apply in_seq in Hi; lia|]. cbn. eauto.
  Qed.
  Definition pair_of (y : list N) (t : trainer N) : list (gtree N) * list N := (tr_trees t, scores t y).
  Lemma round_boost y w b t : length (scores t y) = length y -> length w = length y ->
    omap (pair_of y) (train_round toint X cols sortf sortr o fuel p y w None b t) = boost_round toint X cols sortf sortr (o_grad o) (o_hess o) y w fuel p b (pair_of y t).
  Proof.
    intros H1 H2. unfold train_round, boost_round. fold (scores t y). cbn [pair_of fst snd]. rewrite !component_weighted by assumption.
    destruct (build_tree _ _ _ _ _ _ _ _ _ _) as [[tree| |]|]; try reflexivity.
    rewrite (firstn_all2 (scores t y)) by lia. rewrite (skipn_all2 (scores t y)) by lia.
    destruct (update_preds _ _ _ _ _ _ _) as [[head| |]|] eqn:E; try reflexivity. rewrite app_nil_r.
    rewrite loss_train_loss; [reflexivity| |exact H2]. apply update_preds_spec in E. destruct E as [E _]. congruence.
  Qed.
  Lemma loop_boost y w bags : forall t, length (scores t y) = length y -> length w = length y ->
    omap (pair_of y) (loop y w None bags t) = boost toint X cols sortf sortr (o_grad o) (o_hess o) y w fuel p bags (pair_of y t).
  Proof.
    induction bags as [|b bags IH]; intros t H1 H2; [reflexivity|]. cbn [train_loop boost]. pose proof (round_boost y w b t H1 H2) as R.
    destruct (train_round _ _ _ _ _ _ _ _ _ _ _ _ t) as [[t'| |]|] eqn:E; cbn [omap option_map rmap] in R; rewrite <- R; try reflexivity.
    apply IH; [|exact H2]. destruct (round_keeps _ _ _ _ _ _ E) as (_ & _ & _ & K & _). congruence.
  Qed.
  Lemma fit_pair y t bags : (match tr_preds t with Some ps => length ps = length y | None => True end) -> length (in_force t y) = length y ->
    forall i, (if tr_initset t then Ok (tr_init t) else o_init o y) = Ok i ->
    omap (pair_of y) (tfit CwNil bags y t)
    = boost toint X cols sortf sortr (o_grad o) (o_hess o) y (in_force t y) fuel p bags
        (tr_trees t, match tr_preds t with Some ps => ps | None => repeat i (length y) end).
  Proof.
    intros H1 H2 i Hi. unfold trainer_fit. fold (in_force t y). cbn [class_weights]. rewrite Hi.
    rewrite loop_boost; [reflexivity| |exact H2]. unfold scores. cbn. destruct (tr_preds t); [exact H1|apply repeat_length].
  Qed.
  Lemma fit_scores y t bags t' i s : (match tr_preds t with Some ps => length ps = length y | None => True end) -> length (in_force t y) = length y ->
    tfit CwNil bags y t = Some (Ok t') ->
    nth_error (match tr_preds t with Some ps => ps | None => repeat (tr_init t') (length y) end) i = Some s ->
    (if tr_initset t then Ok (tr_init t) else o_init o y) = Ok (tr_init t') /\ tr_initset t' = tr_initset t
    /\ length (scores t' y) = length y /\ tr_weight t' = Some (in_force t y) /\
    exists new outs, tr_trees t' = tr_trees t ++ new /\ length new = length bags
      /\ Forall2 (fun tr o => tree_predict toint fuel tr (row X cols i) = Some (Ok o)) new outs
      /\ nth_error (scores t' y) i = Some (fold_left (fun a o => a + o * tp_lr p) outs s).
  Proof.
    intros H1 H2 E Hs. assert (K : (if tr_initset t then Ok (tr_init t) else o_init o y) = Ok (tr_init t') /\ tr_initset t' = tr_initset t
      /\ length (scores t' y) = length y /\ tr_weight t' = Some (in_force t y)).
    { unfold trainer_fit in E. cbn [class_weights] in E. destruct (if tr_initset t then Ok (tr_init t) else o_init o y) as [j| |]; try discriminate.
      destruct (loop_keeps _ _ _ _ _ _ E) as (A1 & A2 & A3 & A4 & _). cbn in A1, A2, A3, A4. rewrite A2. split; [reflexivity|]. split; [exact A3|].
      split; [|exact A1]. rewrite A4. unfold scores. cbn. destruct (tr_preds t); [exact H1|apply repeat_length]. }
    destruct K as (K1 & K2 & K3 & K4). do 4 (split; [assumption|]). pose proof (fit_pair y t bags H1 H2 _ K1) as B. rewrite E in B. cbn in B. symmetry in B.
    destruct (run_spec _ _ _ _ _ _ _ _ _ _ _ _ _ _ B) as (new & N1 & N2 & _ & _ & N5). cbn [fst snd pair_of] in *.
    destruct (N5 i s Hs) as (outs & F & G). exists new, outs. auto.
  Qed.
End Fit.

Lemma cancel_count (a k b : R) : (k <> 0 -> b <> 0 -> b * (a / (k * b)) = a / k)%R.
Proof. intros. field. auto. Qed.

(** *** Class weights are sample weights *)
Section OverR.
  Variable toint : RNum -> Z.
  Variables (X : nat -> nat -> RNum) (cols : nat) (sortf : list RNum -> list RNum) (sortr : list (RNum * bin RNum) -> list (RNum * bin RNum)).
  Variables (o : @objective RNum) (fuel : nat) (p : tparams RNum).
  Lemma reweigh_R m (target v c : RNum) : reweigh toint (Some m) target (v * c)%R = (v * (c * given_weight m (toint target)))%R.
  Proof.
    unfold reweigh, given_weight. change (@zget (num RNum)) with (@zget R). rewrite (@zget_find R). destruct (@find (Z * R) _ m) as [[k x]|]; cbn [option_map snd].
    - exact (Rmult_assoc v c x).
    - rewrite Rmult_1_r. reflexivity.
  Qed.
  Lemma combined_nth m (w y : list R) i : nth_error (combined toint m w y) i
    = match nth_error w i, nth_error y i with Some c, Some b => Some (c * given_weight m (toint b))%R | _, _ => None end.
  Proof.
    unfold combined. rewrite nth_error_map, (nth_error_combine w y i). destruct (nth_error w i); [|reflexivity]. now destruct (nth_error y i).
  Qed.
  Lemma component_R m (y w : list RNum) f preds : component toint y w (Some m) f preds = component toint y (combined toint m w y) None f preds.
  Proof.
    unfold component. apply mapM_ext. intros i _. change (@nth_error (num RNum)) with (@nth_error R). rewrite (combined_nth m w y i).
    destruct (@nth_error R preds i) as [a|]; [|reflexivity]. destruct (@nth_error R y i) as [b|]; [|reflexivity].
    destruct (@nth_error R w i) as [c|]; [|reflexivity]. f_equal. apply reweigh_R.
  Qed.
  Lemma combined_length m (w y : list RNum) : length (combined toint m w y) = Nat.min (length w) (length y).
  Proof. unfold combined. rewrite map_length. apply combine_length. Qed.
  Lemma round_R m (y w : list RNum) b t1 t2 : learnt t1 = learnt t2 ->
    omap learnt (train_round toint X cols sortf sortr o fuel p y w (Some m) b t1)
    = omap learnt (train_round toint X cols sortf sortr o fuel p y (combined toint m w y) None b t2).
  Proof.
    intros H. unfold train_round. injection H as E1 E2 E3. rewrite E2, E3. rewrite !component_R.
    set (preds := match tr_preds t2 with Some ps => ps | None => _ end).
    destruct (component toint y (combined toint m w y) None (o_grad o) preds) as [gs| |] eqn:Eg; try reflexivity.
    destruct (component toint y (combined toint m w y) None (o_hess o) preds) as [hs| |]; try reflexivity.
    destruct (build_tree _ _ _ _ _ _ _ _ _ _) as [[tree| |]|]; try reflexivity.
    destruct (update_preds _ _ _ _ _ _ _) as [[head| |]|] eqn:E; try reflexivity.
    assert (L : length y <= length preds /\ length y <= length (combined toint m w y)).
    { destruct (le_lt_dec (length y) (length preds)), (le_lt_dec (length y) (length (combined toint m w y))); auto;
        rewrite component_panic in Eg by (cbn in *; lia); discriminate. }
    destruct L as [L1 L2]. rewrite combined_length in L2. apply update_preds_spec in E. destruct E as [E _]. cbn [RNum] in *.
    assert (L3 : length (head ++ skipn (length y) preds) >= length y) by (rewrite app_length, E, firstn_length; lia).
    destruct (loss_total o y w (head ++ skipn (length y) preds) L3) as [l1 ->]; [lia|].
    destruct (loss_total o y (combined toint m w y) (head ++ skipn (length y) preds) L3) as [l2 ->]; [rewrite combined_length; cbn [RNum] in *; lia|].
    cbn. unfold learnt. cbn. now rewrite E1.
  Qed.
  Lemma loop_R m (y w : list RNum) bags : forall t1 t2, learnt t1 = learnt t2 ->
    omap learnt (train_loop toint X cols sortf sortr o fuel p y w (Some m) bags t1)
    = omap learnt (train_loop toint X cols sortf sortr o fuel p y (combined toint m w y) None bags t2).
  Proof.
    induction bags as [|b bags IH]; intros t1 t2 H; [cbn; now rewrite H|]. cbn [train_loop]. pose proof (round_R m y w b t1 t2 H) as R.
    destruct (train_round toint X cols sortf sortr o fuel p y w (Some m) b t1) as [[a| |]|], (train_round toint X cols sortf sortr o fuel p y (combined toint m w y) None b t2) as [[c| |]|];
      cbn in R; try discriminate R; try (injection R as R); try reflexivity; try (now rewrite R).
    apply IH. unfold learnt. congruence.
  Qed.
  Lemma fit_R cw m bags (y : list RNum) t : class_weights toint cw y = Ok (Some m) ->
    omap learnt (trainer_fit toint X cols sortf sortr o fuel p cw bags y t)
    = omap learnt (trainer_fit toint X cols sortf sortr o fuel p CwNil bags y (@set_weight RNum (Some (combined toint m (in_force t y) y)) t)).
  Proof.
    intros E. unfold trainer_fit. rewrite E. cbn [class_weights set_weight tr_weight tr_init tr_initset tr_trees tr_preds tr_losses].
    destruct (if tr_initset t then Ok (tr_init t) else o_init o y) as [i| |]; try reflexivity. apply loop_R. reflexivity.
  Qed.

  (** *** Balanced weights *)
  Lemma counts_spec (y : list RNum) c : zget c (class_counts toint y) = if (count c (map toint y) =? 0)%nat then None else Some (count c (map toint y)).
  Proof. unfold class_counts. now rewrite bump_get. Qed.
  Lemma counts_nodup (y : list RNum) : NoDup (map fst (class_counts toint y)).
  Proof. apply bump_nodup. constructor. Qed.
  Lemma counts_keys (y : list RNum) : Permutation (map fst (class_counts toint y)) (classes_of toint y).
  Proof.
    apply NoDup_Permutation; [apply counts_nodup|apply NoDup_nodup|]. intros c. unfold classes_of. rewrite nodup_In, <- (count_pos c (map toint y)).
    pose proof (counts_spec y c) as E. destruct (Nat.eqb_spec (count c (map toint y)) 0) as [Z0|NZ].
    - apply zget_none in E. split; intros K; [exfalso; exact (E K)|exfalso; exact (K Z0)].
    - apply zget_some in E. apply (in_map fst) in E. split; intros _; [exact NZ|exact E].
  Qed.
  Definition balanced (y : list RNum) : list (Z * R) :=
    map (fun e => (fst e, INR (length y) / (INR (length (classes_of toint y)) * INR (snd e))))%R (class_counts toint y).
  Lemma class_weights_balanced (y : list RNum) : y <> [] -> class_weights toint (CwString "balanced") y = Ok (Some (balanced y)).
  Proof.
    intros H. unfold class_weights. destruct y as [|t y]; [congruence|]. set (l := t :: y). cbv zeta. cbn [String.eqb Ascii.eqb Bool.eqb]. do 2 f_equal. unfold balanced. apply map_ext. intros e.
    f_equal. change (@ndiv RNum) with Rdiv. change (@nmul RNum) with Rmult. rewrite !nofnat_R. do 3 f_equal.
    rewrite <- (Permutation_length (counts_keys l)). symmetry. apply map_length.
  Qed.
  Lemma balanced_weight (y : list RNum) c : In c (map toint y) ->
    given_weight (balanced y) c = (INR (length y) / (INR (length (classes_of toint y)) * INR (count c (map toint y))))%R.
  Proof.
    intros H. unfold given_weight. assert (E : zget c (balanced y) = Some (INR (length y) / (INR (length (classes_of toint y)) * INR (count c (map toint y))))%R).
    { apply zget_in.
      - unfold balanced. rewrite map_map. cbn [fst]. apply counts_nodup.
      - unfold balanced. apply in_map_iff. exists (c, count c (map toint y)). split; [reflexivity|]. apply zget_some. rewrite counts_spec.
        apply count_pos in H. destruct (Nat.eqb_spec (count c (map toint y)) 0); [congruence|reflexivity]. }
    rewrite zget_find in E. destruct (find _ _) as [e|]; [|discriminate]. now injection E.
  Qed.
  Lemma balanced_total (y : list RNum) c : In c (map toint y) -> class_total toint (balanced y) y c = (INR (length y) / INR (length (classes_of toint y)))%R.
  Proof.
    intros H. unfold class_total.
    assert (P : INR (count c (map toint y)) <> 0%R) by (apply not_0_INR; now apply count_pos).
    assert (K : INR (length (classes_of toint y)) <> 0%R).
    { apply not_0_INR. intros E. apply length_zero_iff_nil in E. assert (I : In c (classes_of toint y)) by (unfold classes_of; now apply nodup_In). rewrite E in I. destruct I. }
    rewrite (Rsum_map_ext _ (fun _ => INR (length y) / (INR (length (classes_of toint y)) * INR (count c (map toint y))))%R).
    - rewrite Rsum_map_const. rewrite <- (@count_filter R toint c y). exact (cancel_count _ _ _ K P).
    - intros t Ht. apply filter_In in Ht. destruct Ht as [_ Ht]. apply Z.eqb_eq in Ht. rewrite Ht. now apply balanced_weight.
  Qed.
End OverR.

(** *** Weights by name *)
Section Names.
  Context {N : Num}.
  Notation named := (fun (acc : list (Z * N)) (e : string * option N) =>
    match atoi (fst e) with None => Err (EOther 2) | Some c => match snd e with None => Err (EOther 3) | Some w => Ok (zput c w acc) end end).
  Lemma named_ok m : forall acc m', foldM named acc m = Ok m' ->
    Forall (fun e => atoi (fst e) <> None /\ snd e <> None) m.
  Proof.
    induction m as [|[k v] m IH]; intros acc m' E; [constructor|]. cbn [foldM fst snd] in E. destruct (atoi k) as [c|] eqn:Ek; [|discriminate].
    destruct v as [v|]; [|discriminate]. cbn [bind] in E. constructor; [cbn; split; congruence|]. eapply IH; eassumption.
  Qed.
  Lemma named_runs m : forall acc, Forall (fun e => atoi (fst e) <> None /\ snd e <> None) m -> exists m', foldM named acc m = Ok m'.
  Proof.
    induction m as [|[k v] m IH]; intros acc H; [eexists; reflexivity|]. inversion H as [|x l [H1 H2] H3]; subst. cbn [fst snd] in H1, H2. cbn [foldM fst snd].
    destruct (atoi k) as [c|]; [|congruence]. destruct v as [v|]; [|congruence]. cbn [bind]. now apply IH.
  Qed.
  Lemma named_get m : forall acc m' c, NoDup (map (fun e => atoi (fst e)) m) -> foldM named acc m = Ok m' ->
    zget c m' = match find (fun e => match atoi (fst e) with Some d => Z.eqb d c | None => false end) m with Some e => snd e | None => zget c acc end.
  Proof.
    induction m as [|[k v] m IH]; intros acc m' c ND E; [cbn in *; congruence|]. cbn [foldM fst snd] in E. cbn [map fst] in ND. cbn [find fst].
    destruct (atoi k) as [d|] eqn:Ek; [|discriminate]. destruct v as [v|]; [|discriminate]. cbn [bind] in E.
    inversion ND as [|x l H1 H2]; subst. rewrite (IH _ _ c H2 E). destruct (Z.eqb_spec d c) as [->|Hd].
    - destruct (find _ m) as [[k' v']|] eqn:F.
      + exfalso. apply find_some in F. destruct F as [F1 F2]. cbn [fst] in F2. destruct (atoi k') as [d'|] eqn:Ek'; [|discriminate]. apply Z.eqb_eq in F2. subst d'.
        apply H1. apply in_map_iff. exists (k', v'). auto.
      + rewrite zget_put, Z.eqb_refl. reflexivity.
    - destruct (find _ m); [reflexivity|]. rewrite zget_put. destruct (Z.eqb_spec c d); [congruence|reflexivity].
  Qed.
End Names.

(** *** The reported loss *)
Section Losses.
  Context {N : Num}.
  Variable toint : N -> Z.
  Variables (X : nat -> nat -> N) (cols : nat) (sortf : list N -> list N) (sortr : list (N * bin N) -> list (N * bin N)).
  Variables (o : @objective N) (fuel : nat) (p : tparams N).
  Lemma loop_losses y w cw bags : forall t t', train_loop toint X cols sortf sortr o fuel p y w cw bags t = Some (Ok t') ->
    length (scores t y) = length y -> length w = length y ->
    length (tr_losses t') = length (tr_losses t) + length bags
    /\ (bags <> [] -> last (tr_losses t') n0 = train_loss y w (o_loss o) (scores t' y)).
  Proof.
    induction bags as [|b bags IH]; intros t t' E H1 H2; cbn [train_loop] in E; [injection E as <-; split; [cbn; lia|congruence]|].
    destruct (train_round _ _ _ _ _ _ _ _ _ _ _ _ t) as [[t1| |]|] eqn:E1; try discriminate.
    destruct (round_keeps _ _ _ _ _ _ _ _ _ _ _ _ _ _ E1) as (_ & _ & _ & A4 & _). destruct (IH _ _ E ltac:(congruence) H2) as [L1 L2].
    assert (R : length (tr_losses t1) = S (length (tr_losses t)) /\ last (tr_losses t1) n0 = train_loss y w (o_loss o) (scores t1 y)).
    { revert E1 A4. unfold train_round. destruct (component _ _ _ _ _ _) as [gs| |]; try discriminate. destruct (component _ _ _ _ _ _) as [hs| |]; try discriminate.
      destruct (build_tree _ _ _ _ _ _ _ _ _ _) as [[tree| |]|]; try discriminate. destruct (update_preds _ _ _ _ _ _ _) as [[head| |]|]; try discriminate.
      set (preds' := head ++ _). destruct (loss o y w preds') as [l| |] eqn:El; try discriminate. intros [= <-] A4. assert (LP : length preds' = length y) by (etransitivity; [exact A4|exact H1]). rewrite loss_train_loss in El by assumption.
      cbn. split; [rewrite app_length; cbn; lia|]. rewrite last_last. unfold scores. cbn. congruence. }
    destruct R as [R1 R2]. split; [cbn [length]; lia|]. intros _. destruct bags as [|b' bags]; [cbn in E; injection E as <-; exact R2|apply L2; discriminate].
  Qed.
End Losses.

(** *** Monotone constraints *)
Section Mono.
  Context {N : Num}.
  Variable toint : N -> Z.
  Lemma build_node_mono mono X G H find p : forall fuel ns idxs d,
    build_node toint X G H fuel find (with_mono mono p) ns idxs d = build_node toint X G H fuel find p ns idxs d.
  Proof.
    induction fuel as [|fuel IH]; intros ns idxs d; [reflexivity|]. cbn [build_node].
    change (stop (with_mono mono p)) with (stop p). change (leaf_value G H (with_mono mono p)) with (leaf_value G H p).
    change (goes_left toint X (with_mono mono p)) with (goes_left toint X p). change (inner_node (with_mono mono p)) with (inner_node p).
    change (tp_mingain (with_mono mono p)) with (tp_mingain p).
    destruct (stop p ns d idxs); [reflexivity|]. destruct (find idxs) as [s| |]; try reflexivity.
    destruct (_ || _); [reflexivity|].
    cbv zeta. rewrite IH. destruct (build_node _ _ _ _ _ _ _ _ _ _) as [[[ns1 l]| |]|]; try reflexivity. now rewrite IH.
  Qed.
  Variables (X : nat -> nat -> N) (cols : nat) (sortf : list N -> list N) (sortr : list (N * bin N) -> list (N * bin N)).
  Variables (o : @objective N) (fuel : nat).
  Lemma round_mono mono p y w cw b t : train_round toint X cols sortf sortr o fuel (with_mono mono p) y w cw b t = train_round toint X cols sortf sortr o fuel p y w cw b t.
  Proof.
    unfold train_round. destruct (component _ _ _ _ _ _) as [gs| |]; try reflexivity. destruct (component _ _ _ _ _ _) as [hs| |]; try reflexivity.
    unfold build_tree, build_tree_with. rewrite build_node_mono. reflexivity.
  Qed.
  Lemma fit_mono mono p cw bags y t : trainer_fit toint X cols sortf sortr o fuel (with_mono mono p) cw bags y t = trainer_fit toint X cols sortf sortr o fuel p cw bags y t.
  Proof.
    unfold trainer_fit. destruct (class_weights _ _ _) as [m| |]; try reflexivity. destruct (if tr_initset t then _ else _) as [i| |]; try reflexivity.
    match goal with |- train_loop _ _ _ _ _ _ _ _ _ ?w _ _ ?t0 = _ => generalize w t0 end. intros w. induction bags as [|b bags IH]; intros t0; [reflexivity|].
    cbn [train_loop]. rewrite round_mono. destruct (train_round _ _ _ _ _ _ _ _ _ _ _ _ t0) as [[t1| |]|]; try reflexivity. apply IH.
  Qed.
End Mono.
