From Coq Require Import List Arith ZArith Bool Lia.
From Verif Require Import Model.GcOpt Spec.GcOpt.
Import ListNotations.
Local Open Scope Z_scope.

Section P.
Variables pct pause : Z.
Definition good (g : gc) : Prop :=
  spaced pause (collections g) /\ gc_count g = Z.of_nat (length (collections g)) mod 2 ^ 32 /\
  match collections g with [] => last_gc g = None | (b, e) :: _ => last_gc g = Some e /\ e <= now g end.
Lemma force_good d g : 0 <= d -> good g -> good (force pause d g).
Proof.
  intros Hd (A & B & C). unfold force. destruct (Z.ltb_spec pause (since g)) as [L|L]; [|unfold good; auto].
  unfold good. cbn [collections gc_count last_gc now length]. rewrite B. split; [|split; [|split; [reflexivity|lia]]].
  - destruct (collections g) as [|[b e] r] eqn:E.
    + cbn. lia.
    + destruct C as [C1 C2]. unfold since in L. rewrite C1 in L. cbn [spaced]. split; [lia|]. split; [|exact A]. lia.
  - rewrite Z.add_mod_idemp_l by lia. f_equal. lia.
Qed.
Lemma good_step l g g' : step pct pause l g g' -> good g -> good g'.
Proof.
  destruct 1; intros G.
  - unfold start. destruct (enabled g); [destruct G as (A & B & C); unfold good; auto | exact G].
  - destruct G as (A & B & C). unfold good. auto.
  - now apply force_good.
  - destruct G as (A & B & C). unfold good. cbn. repeat split; auto. destruct (collections g) as [|[b e] r]; auto. destruct C; split; auto. lia.
  - destruct G as (A & B & C). unfold good. auto.
  - destruct G as (A & B & C). unfold good. auto.
  - apply (force_good d) in G; auto.
Qed.
Lemma good_reach t0 tr g : exec pct pause (new_gc t0) tr g -> good g.
Proof. induction 1; [unfold good; cbn; auto|]. eapply good_step; eauto. Qed.

Definition has_stop (t : list label) : bool := existsb (fun l => match l with LStop => true | _ => false end) t.
Lemma force_same d g : enabled (force pause d g) = enabled g /\ monitors (force pause d g) = monitors g /\ percent (force pause d g) = percent g /\ limit (force pause d g) = limit g.
Proof. unfold force. destruct (_ <? _); auto. Qed.
Lemma counts t0 tr g : exec pct pause (new_gc t0) tr g -> enabled g = negb (has_stop tr) /\ length (monitors g) = starts tr.
Proof.
  induction 1 as [|t l g' g'' H [I1 I2] S]; [cbn; auto|]. destruct S; cbn [starts has_stop existsb orb].
  - fold (has_stop t). unfold start. rewrite I1. destruct (has_stop t) eqn:Q; cbn; auto.
    rewrite app_length, I2. cbn. split; auto. lia.
  - cbn. rewrite orb_false_r || idtac. auto.
  - destruct (force_same d g) as (-> & -> & _). auto.
  - cbn. auto.
  - cbn. rewrite <- I2, H0, !app_length. auto.
  - cbn. rewrite <- I2, H0, !app_length. auto.
  - cbn. destruct (force_same d g) as (-> & _). rewrite <- I2, H1, !app_length. auto.
Qed.

(** After Stop *)
Lemma stopped_step l g g' : step pct pause l g g' -> enabled g = false ->
  enabled g' = false /\ limit g' = limit g /\ length (monitors g') = length (monitors g) /\ (percent g = Some 100 -> percent g' = Some 100)
  /\ (forall i, (exists m, nth_error (monitors g) i = Some m /\ settled m) -> exists m, nth_error (monitors g') i = Some m /\ settled m).
Proof.
  assert (R : forall a m m' b i, (settled m -> settled m') -> (exists x, nth_error (a ++ m :: b) i = Some x /\ settled x) -> exists x, nth_error (a ++ m' :: b) i = Some x /\ settled x).
  { intros a m m' b i K (x & E & S). destruct (Nat.lt_trichotomy i (length a)) as [L|[->|L]].
    - exists x. rewrite nth_error_app1 in * by auto. auto.
    - rewrite nth_error_app2, Nat.sub_diag in E by auto. cbn in E. injection E as ->. exists m'. rewrite nth_error_app2, Nat.sub_diag by auto. cbn. auto.
    - exists x. rewrite nth_error_app2 in * by lia. destruct (i - length a)%nat eqn:Q; [lia|]. cbn in *. auto. }
  destruct 1 as [g|g|d g Hd|d g Hd|g a b E|g a b h E|g a b d Hd E]; intros H.
  - unfold start. rewrite H. auto.
  - cbn. auto.
  - destruct (force_same d g) as (-> & -> & -> & ->). auto.
  - cbn. auto.
  - cbn. rewrite E, H, !app_length. cbn. repeat split; auto. intros i. apply R. intros _. now right.
  - cbn. rewrite E, !app_length. cbn. repeat split; auto. intros i. apply R. intros [K|K]; discriminate.
  - cbn. destruct (force_same d g) as (-> & _ & -> & ->). rewrite E, !app_length. cbn. repeat split; auto. intros i. apply R. intros [K|K]; discriminate.
Qed.
Lemma stopped_exec g tr g' : exec pct pause g tr g' -> enabled g = false ->
  enabled g' = false /\ limit g' = limit g /\ length (monitors g') = length (monitors g) /\ (percent g = Some 100 -> percent g' = Some 100)
  /\ (forall i, (exists m, nth_error (monitors g) i = Some m /\ settled m) -> exists m, nth_error (monitors g') i = Some m /\ settled m).
Proof.
  induction 1 as [|t l g' g'' H IH S]; intros E; [repeat split; auto|]. destruct (IH E) as (A & B & C & D & F).
  destruct (stopped_step _ _ _ S A) as (A' & B' & C' & D' & F'). repeat split; auto; congruence.
Qed.

Definition weight (m : monitor) : nat := match m with MChecked => 3 | MForcing => 2 | MWait => 1 | MDone => 0 end.
Fixpoint weights (l : list monitor) : nat := match l with [] => 0 | m :: r => weight m + weights r end.
Lemma weights_app a b : weights (a ++ b) = (weights a + weights b)%nat.
Proof. induction a; cbn; auto. lia. Qed.
Lemma weight_bound l : (weights l <= 3 * length l)%nat.
Proof. induction l as [|m r IH]; cbn; auto. destruct m; cbn; lia. Qed.
Lemma weight_step l g g' : step pct pause l g g' -> enabled g = false ->
  (weights (monitors g') + (match l with LMonitor => 1 | _ => 0 end) <= weights (monitors g))%nat.
Proof.
  destruct 1 as [g|g|d g Hd|d g Hd|g a b E|g a b h E|g a b d Hd E]; intros H.
  - unfold start. rewrite H. lia.
  - cbn. lia.
  - destruct (force_same d g) as (_ & -> & _). lia.
  - cbn. lia.
  - cbn. rewrite E, H, !weights_app. cbn. lia.
  - cbn. rewrite E, !weights_app. destruct (_ <? h); cbn; lia.
  - cbn. rewrite E, !weights_app. cbn. lia.
Qed.
Lemma weight_exec g tr g' : exec pct pause g tr g' -> enabled g = false -> (weights (monitors g') + monitor_steps tr <= weights (monitors g))%nat.
Proof.
  induction 1 as [|t l g' g'' H IH S]; intros E; [cbn; lia|]. specialize (IH E).
  destruct (stopped_exec _ _ _ H E) as (A & _). pose proof (weight_step _ _ _ S A). destruct l; cbn [monitor_steps]; lia.
Qed.
End P.
