(** C57 - core/tensor/tensor.go. *)
From Coq Require Import List Arith ZArith Bool Lia.
From Verif Require Import Base.GoRes Base.GoInt Base.ListX Model.Tensor Spec.Tensor Proofs.MemoryP Proofs.TensorP.
Import ListNotations.
Local Open Scope list_scope.
Local Open Scope Z_scope.

(** A tensor of two positive dimensions is made from data of their product, and reads them in
    row-major order; everything else is reported as an error. *)
Theorem C57_new : forall (A : Type) (h : heap A) b r c, (b < List.length h)%nat -> 0 < r -> 0 < c -> r * c < 2 ^ 63 ->
  if Z.of_nat (List.length (buffer h b)) =? r * c
  then exists t, new_tensor h b [r; c] = Ok t /\ in_order h t /\ d_rows (t_data t) = r /\ d_cols (t_data t) = c
         /\ forall i j, inside t i j -> exists v, nth_error (buffer h b) (Z.to_nat (i * c + j)) = Some v /\ t_at h t i j = Ok v
  else exists n, new_tensor h b [r; c] = Err (EDimension n (List.length (buffer h b))).
Proof.
  intros A h b r c Hb Hr Hc H63. unfold new_tensor. cbn [forallb]. destruct (Z.ltb_spec 0 r); [|lia]. destruct (Z.ltb_spec 0 c); [|lia]. cbn [andb fold_left].
  rewrite Z.mul_1_l. rewrite (wrap_small r) by nia. rewrite (wrap_small (r * c)) by nia. destruct (Z.eqb_spec (Z.of_nat (List.length (buffer h b))) (r * c)) as [E|E]; cbn [negb].
  - unfold new_dense. destruct (Z.leb_spec r 0); [lia|]. destruct (Z.leb_spec c 0); [lia|]. cbn [orb]. rewrite wrap_small by nia. rewrite E, Z.eqb_refl. cbn [bind].
    eexists. split; [reflexivity|].
    assert (O : in_order h (mktensor (mkdense b 0 c r c) [r; c])) by (unfold in_order; cbn; rewrite E; repeat split; try lia; nia).
    split; [exact O|]. split; [reflexivity|]. split; [reflexivity|]. intros i j I. destruct (at_value h _ i j O I) as (v & E1 & E2). cbn in E2. eauto.
  - eauto.
Qed.
Theorem C57_new_errors : forall (A : Type) (h : heap A) b shape, ~ (exists r c, shape = [r; c] /\ 0 < r /\ 0 < c) ->
  exists e, new_tensor h b shape = Err e.
Proof.
  intros A h b shape H. unfold new_tensor. destruct shape as [|x l]; [eauto|]. destruct (forallb (fun s => 0 <? s) (x :: l)) eqn:E; [|eauto].
  destruct (negb _); [eauto|]. destruct l as [|y [|z l]]; eauto. exfalso. apply H. cbn in E. rewrite !andb_true_iff, !Z.ltb_lt in E. exists x, y. split; [reflexivity|]. lia.
Qed.
(** NewZeros and NewOnes *)
Theorem C57_filled : forall (A : Type) (v : A) h r c, 0 < r -> 0 < c -> r * c < 2 ^ 63 ->
  exists h' t, new_filled v h [r; c] = Ok (h', t) /\ in_order h' t /\ d_rows (t_data t) = r /\ d_cols (t_data t) = c
    /\ (forall i j, inside t i j -> t_at h' t i j = Ok v) /\ forall b, (b < List.length h)%nat -> buffer h' b = buffer h b.
Proof.
  intros A v h r c Hr Hc H63. unfold new_filled. rewrite wrap_small by nia. destruct (Z.ltb_spec (r * c) 0); [nia|].
  pose proof (C57_new A (h ++ [repeat v (Z.to_nat (r * c))]) (List.length h) r c) as K. rewrite buffer_new, repeat_length, Z2Nat.id, Z.eqb_refl in K by lia.
  destruct K as (t & E & O & D1 & D2 & V); [rewrite app_length; cbn; lia|lia|lia|lia|]. rewrite E. cbn [bind]. eexists. exists t. split; [reflexivity|].
  split; [exact O|]. split; [exact D1|]. split; [exact D2|]. split.
  - intros i j I. destruct (V i j I) as (w & W1 & W2). rewrite W2. f_equal. apply nth_error_In in W1. now apply repeat_spec in W1.
  - intros b Hb. now apply buffer_app.
Qed.

(** Reshaping keeps the data in row-major order: for dimensions with the same product it
    succeeds, on fresh memory, leaving all tensors that exist as they are. *)
Theorem C57_reshape : forall (A : Type) (h : heap A) t r c, in_order h t -> 0 < r -> 0 < c -> r * c = size t ->
  exists h' t', reshape h t [r; c] = Ok (h', t') /\ in_order h' t' /\ d_rows (t_data t') = r /\ d_cols (t_data t') = c
    /\ (forall k, 0 <= k < size t -> flat h' t' k = flat h t k)
    /\ forall u, in_order h u -> in_order h' u /\ (forall i j, t_at h' u i j = t_at h u i j) /\ d_buf (t_data u) <> d_buf (t_data t').
Proof.
  intros A h t r c O Hr Hc Hs. destruct (raw_ok h t O) as (raw & E & L & V). pose proof O as (Sh & Or & Oc & O63 & _).
  unfold reshape. rewrite Sh. cbn [nth]. fold (size t). rewrite Hs, Z.eqb_refl. cbn [negb]. rewrite E. cbn [bind].
  unfold new_dense. destruct (Z.leb_spec r 0); [lia|]. destruct (Z.leb_spec c 0); [lia|]. cbn [orb]. rewrite buffer_new, Hs, L. rewrite wrap_small by (unfold size in *; nia).
  rewrite Z.eqb_refl. cbn [bind]. eexists. eexists. split; [reflexivity|].
  assert (O' : in_order (h ++ [raw]) (mktensor (mkdense (List.length h) 0 c r c) [r; c])).
  { unfold in_order. cbn [t_data d_buf d_off d_stride d_rows d_cols t_shape]. rewrite buffer_new, L, app_length. cbn. rewrite <- Hs. repeat split; try lia; unfold size in *; nia. }
  split; [exact O'|]. split; [reflexivity|]. split; [reflexivity|]. split.
  - intros k Hk. unfold flat. cbn [t_data d_cols].
    pose proof (Z.div_mod k c ltac:(lia)) as DM. pose proof (Z.mod_pos_bound k c ltac:(lia)) as MB.
    set (oc := d_cols (t_data t)) in *. pose proof (Z.div_mod k oc ltac:(lia)) as DM2. pose proof (Z.mod_pos_bound k oc ltac:(lia)) as MB2.
    assert (I1 : inside (mktensor (mkdense (List.length h) 0 c r c) [r; c]) (k / c) (k mod c)).
    { split; cbn; [|lia]. split; [apply Z.div_pos; lia|]. apply Z.div_lt_upper_bound; lia. }
    assert (I2 : inside t (k / oc) (k mod oc)).
    { split; fold oc; [|lia]. split; [apply Z.div_pos; lia|]. apply Z.div_lt_upper_bound; [lia|]. unfold size in Hk. fold oc in Hk. lia. }
    rewrite (V _ _ I2). fold oc. replace (k / oc * oc + k mod oc) with k by lia.
    destruct (at_value _ _ _ _ O' I1) as (v & E1 & E2). rewrite E1. cbn [t_data d_buf d_off d_stride] in E2. rewrite buffer_new in E2.
    replace (0 + k / c * c + k mod c) with k in E2 by lia. now rewrite E2.
  - intros u Ou. destruct (grow_at h [raw] u Ou) as [G1 G2]. split; [exact G1|]. split; [exact G2|]. cbn. destruct Ou as (_ & _ & _ & _ & _ & _ & _ & Hb). lia.
Qed.
(** Other shapes: an error if the product differs, but a panic for two negative
    dimensions with the right product. *)
Theorem C57_reshape_other : forall (A : Type) (h : heap A) t shape, in_order h t ->
  match shape with
  | [r; c] => - 2 ^ 63 <= r * c < 2 ^ 63 ->
              (r * c <> size t -> reshape h t shape = Err (EOther 1)) /\ (r * c = size t -> r < 0 -> c < 0 -> reshape h t shape = Panic)
  | _ => reshape h t shape = Err (EOther 1)
  end.
Proof.
  intros A h t shape O. destruct shape as [|r [|c [|x l]]]; try reflexivity. intros H63. pose proof O as (Sh & Or & Oc & O63 & _).
  destruct (raw_ok h t O) as (raw & E & L & _). unfold reshape. rewrite Sh. cbn [nth]. fold (size t). rewrite (wrap_id (r * c)) by (unfold int64; lia).
  rewrite (wrap_small (size t)) by (unfold size in *; nia). split.
  - intros Hne. destruct (Z.eqb_spec (r * c) (size t)); [lia|reflexivity].
  - intros He Hr Hc. rewrite He, Z.eqb_refl. cbn [negb]. rewrite E. cbn [bind]. unfold new_dense. destruct (Z.leb_spec r 0); [reflexivity|lia].
Qed.
Theorem C57_reshape_negative_refuted : exists (h : heap Z) t r c, in_order h t /\ r < 0 /\ c < 0 /\ reshape h t [r; c] = Panic.
Proof.
  exists [[1; 2; 3; 4; 5; 6]], (mktensor (mkdense 0 0 3 2 3) [2; 3]), (-2), (-3). split; [unfold in_order; cbn; repeat split; lia|]. repeat split.
Qed.
(** A 1x1 tensor can be reshaped to 274177 x 67280421310721, whose product is 2^64 + 1; the
    entries beyond the first cannot be read. *)
Theorem C57_reshape_overflow_refuted : exists (h : heap Z) t r c h' t', in_order h t /\ 0 < r < 2 ^ 63 /\ 0 < c < 2 ^ 63 /\ r * c <> size t
  /\ reshape h t [r; c] = Ok (h', t') /\ inside t' 0 1 /\ t_at h' t' 0 1 = Panic.
Proof.
  exists [[7]], (mktensor (mkdense 0 0 1 1 1) [1; 1]), 274177, 67280421310721, [[7]; [7]], (mktensor (mkdense 1 0 67280421310721 274177 67280421310721) [274177; 67280421310721]).
  split; [unfold in_order; cbn; repeat split; lia|]. split; [lia|]. split; [lia|]. split; [vm_compute; congruence|]. split; [vm_compute; reflexivity|]. split; [unfold inside; cbn; lia|]. reflexivity.
Qed.

(** A slice reads the addressed block of the tensor - at any later time, since it shares its
    memory; ranges outside the tensor or empty are errors. *)
Theorem C57_slice : forall (A : Type) (h : heap A) t r0 r1 c0 c1, in_order h t ->
  if (0 <=? r0) && (r0 <? r1) && (r1 <=? d_rows (t_data t)) && (0 <=? c0) && (c0 <? c1) && (c1 <=? d_cols (t_data t))
  then exists s, slice t r0 r1 c0 c1 = Ok s /\ in_order h s /\ d_rows (t_data s) = r1 - r0 /\ d_cols (t_data s) = c1 - c0
         /\ forall (h' : heap A) i j, inside s i j -> inside t (r0 + i) (c0 + j) /\ t_at h' s i j = t_at h' t (r0 + i) (c0 + j)
  else exists e, slice t r0 r1 c0 c1 = Err e.
Proof.
  intros A h t r0 r1 c0 c1 O. pose proof O as (Sh & Or & Oc & O63 & Oo & Os & Ol & Ob). unfold slice.
  destruct (Z.leb_spec 0 r0); destruct (Z.ltb_spec r0 0); try lia; cbn [andb orb]; [|eauto].
  destruct (Z.leb_spec r1 (d_rows (t_data t))); destruct (Z.ltb_spec (d_rows (t_data t)) r1); try lia; rewrite ?andb_false_r; cbn [andb orb]; [|eauto].
  destruct (Z.leb_spec 0 c0); destruct (Z.ltb_spec c0 0); try lia; rewrite ?andb_false_r; cbn [andb orb]; [|eauto].
  destruct (Z.leb_spec c1 (d_cols (t_data t))); destruct (Z.ltb_spec (d_cols (t_data t)) c1); try lia; rewrite ?andb_false_r; cbn [andb orb]; [|eauto].
  destruct (Z.ltb_spec r0 r1); destruct (Z.leb_spec r1 r0); try lia; rewrite ?andb_false_r; cbn [andb orb]; [|eauto].
  destruct (Z.ltb_spec c0 c1); destruct (Z.leb_spec c1 c0); try lia; rewrite ?andb_false_r; cbn [andb orb]; [|eauto].
  eexists. split; [reflexivity|]. split; [unfold in_order; cbn; repeat split; try lia; nia|]. split; [reflexivity|]. split; [reflexivity|].
  intros h' i j I. pose proof I as [I1 I2]. cbn in I1, I2. assert (J : inside t (r0 + i) (c0 + j)) by (split; lia). split; [exact J|].
  unfold t_at. rewrite (index_in _ i j I), (index_in t _ _ J). cbn.
  replace (d_off (t_data t) + r0 * d_stride (t_data t) + c0 + i * d_stride (t_data t) + j) with (d_off (t_data t) + (r0 + i) * d_stride (t_data t) + (c0 + j)) by ring.
  reflexivity.
Qed.

(** Setting an entry changes that entry of the tensor and no other, and no tensor on other
    memory. *)
Theorem C57_set : forall (A : Type) (h : heap A) t i j v, in_order h t -> inside t i j ->
  exists h', t_set h t i j v = Ok h'
    /\ (forall k l, inside t k l -> t_at h' t k l = if (k =? i) && (l =? j) then Ok v else t_at h t k l)
    /\ (forall u, in_order h u -> in_order h' u)
    /\ forall u k l, d_buf (t_data u) <> d_buf (t_data t) -> t_at h' u k l = t_at h u k l.
Proof.
  intros A h t i j v O I. pose proof O as (Sh & Or & Oc & O63 & Oo & Os & Ol & Ob). unfold t_set. rewrite (index_in t i j I).
  pose proof (place h t i j O I) as P. destruct (Nat.ltb_spec (Z.to_nat (d_off (t_data t) + i * d_stride (t_data t) + j)) (List.length (buffer h (d_buf (t_data t))))); [|lia].
  set (b := d_buf (t_data t)) in *. set (ix := Z.to_nat (d_off (t_data t) + i * d_stride (t_data t) + j)) in *.
  set (h' := upd b (upd ix (fun _ => v)) h).
  assert (Bs : buffer h' b = upd ix (fun _ => v) (buffer h b)).
  { unfold buffer, h'. destruct (nth_error h b) as [w|] eqn:Eb; [|apply nth_error_None in Eb; lia].
    rewrite (nth_error_nth h b [] Eb). apply nth_error_nth. now rewrite nth_error_upd_same, Eb. }
  assert (Bo : forall b', b' <> b -> buffer h' b' = buffer h b').
  { intros b' Hb. unfold buffer, h'. destruct (nth_error h b') as [w|] eqn:Eb.
    - rewrite (nth_error_nth h b' [] Eb). apply nth_error_nth. rewrite nth_error_upd_other by congruence. exact Eb.
    - rewrite !nth_overflow; [reflexivity| |]; [|rewrite upd_length]; now apply nth_error_None. }
  exists h'. split; [reflexivity|]. split; [|split].
  - intros k l K. unfold t_at. rewrite (index_in t k l K). fold b. rewrite Bs. pose proof (place h t k l O K) as Q. unfold inside in *. fold b in Q.
    destruct (Z.eqb_spec k i) as [->|Hk]; [destruct (Z.eqb_spec l j) as [->|Hl]|]; cbn [andb].
    + fold ix. rewrite nth_error_upd_same. destruct (nth_error (buffer h b) ix) eqn:En; [reflexivity|]. apply nth_error_None in En. lia.
    + rewrite nth_error_upd_other; [reflexivity|]. intros HX. apply Z2Nat.inj in HX; lia.
    + rewrite nth_error_upd_other; [reflexivity|]. intros HX. apply Z2Nat.inj in HX; try lia. apply Hk. nia.
  - intros u (U1 & U2 & U3 & U4 & U5 & U6 & U7 & U8). unfold in_order. repeat (split; [assumption|]).
    destruct (Nat.eq_dec (d_buf (t_data u)) b) as [Eb|Eb].
    + rewrite Eb in *. rewrite Bs, upd_length. split; [exact U7|]. unfold h'. now rewrite upd_length.
    + rewrite Bo by exact Eb. split; [exact U7|]. unfold h'. now rewrite upd_length.
  - intros u k l Hu. unfold t_at. now rewrite Bo by exact Hu.
Qed.

(** A copy has the same shape and entries, on memory of its own: setting entries of either one
    leaves the other as it is. *)
Theorem C57_copy : forall (A : Type) (h : heap A) t, in_order h t ->
  exists h' t', copy h t = Ok (h', t') /\ in_order h' t' /\ in_order h' t /\ t_shape t' = t_shape t
    /\ (forall i j, inside t' i j <-> inside t i j) /\ (forall i j, inside t i j -> t_at h' t' i j = t_at h t i j)
    /\ (forall u, in_order h u -> in_order h' u /\ forall i j, t_at h' u i j = t_at h u i j)
    /\ (forall i j v h2, inside t i j -> t_set h' t i j v = Ok h2 -> forall k l, t_at h2 t' k l = t_at h' t' k l)
    /\ (forall i j v h2, inside t' i j -> t_set h' t' i j v = Ok h2 -> forall u, in_order h u -> forall k l, t_at h2 u k l = t_at h u k l).
Proof.
  intros A h t O. destruct (raw_ok h t O) as (raw & E & L & V). pose proof O as (Sh & Or & Oc & O63 & Oo & Os & Ol & Ob).
  unfold copy. rewrite E. cbn [bind]. eexists. eexists. split; [reflexivity|].
  set (t' := mktensor (mkdense (List.length h) 0 (d_cols (t_data t)) (d_rows (t_data t)) (d_cols (t_data t))) (t_shape t)).
  assert (O' : in_order (h ++ [raw]) t').
  { unfold in_order, t'. cbn [t_data d_buf d_off d_stride d_rows d_cols t_shape]. rewrite buffer_new, L, app_length. cbn. unfold size. repeat split; try lia; try assumption; nia. }
  destruct (grow_at h [raw] t O) as [G1 G2]. split; [exact O'|]. split; [exact G1|]. split; [reflexivity|]. split; [intros; unfold inside; cbn; tauto|].
  assert (Ne : forall u, in_order h u -> d_buf (t_data u) <> List.length h) by (intros u (_ & _ & _ & _ & _ & _ & _ & Hb); lia).
  split; [|split; [|split]].
  - intros i j I. rewrite (V i j I). assert (I' : inside t' i j) by exact I. destruct (at_value _ _ _ _ O' I') as (v & E1 & E2). rewrite E1.
    cbn [t' t_data d_buf d_off d_stride] in E2. rewrite buffer_new, Z.add_0_l in E2. now rewrite E2.
  - intros u Ou. apply grow_at. exact Ou.
  - intros i j v h2 I S. destruct (C57_set A _ t i j v G1 I) as (h3 & S3 & _ & _ & K). assert (h3 = h2) by congruence. subst h3. intros k l. apply K. cbn. specialize (Ne t O). congruence.
  - intros i j v h2 I S u Ou k l. destruct (C57_set A _ t' i j v O' I) as (h3 & S3 & _ & _ & K). assert (h3 = h2) by congruence. subst h3.
    rewrite K by (cbn; exact (Ne u Ou)). apply grow_at. exact Ou.
Qed.
(** Transposing panics, for every tensor. *)
Theorem C57_transpose_refuted : exists (h : heap Z) t, in_order h t /\ transpose t = Panic.
Proof.
  exists [[1; 2; 3; 4; 5; 6]], (mktensor (mkdense 0 0 3 2 3) [2; 3]). split; [unfold in_order; cbn; repeat split; lia|reflexivity].
Qed.
(** No data at all are accepted for the shape 2^32 x 2^32; no entry can be read. *)
Theorem C57_overflow_refuted : exists t, new_tensor (A := Z) [[]] 0 [2 ^ 32; 2 ^ 32] = Ok t /\ inside t 0 0 /\ t_at (A := Z) [[]] t 0 0 = Panic.
Proof.
  exists (mktensor (mkdense 0 0 (2 ^ 32) (2 ^ 32) (2 ^ 32)) [2 ^ 32; 2 ^ 32]). split; [vm_compute; reflexivity|]. split; [unfold inside; cbn; lia|]. vm_compute. reflexivity.
Qed.

(** A 2x3 tensor, its slice, a write through the slice, and reshaping the slice *)
Definition h0 : heap Z := [[1; 2; 3; 4; 5; 6]].
Definition t0 : tensor := mktensor (mkdense 0 0 3 2 3) [2; 3].
Example C57_ex_order : in_order h0 t0 /\ new_tensor h0 0 [2; 3] = Ok t0.
Proof. split; [unfold in_order; cbn; repeat split; lia|reflexivity]. Qed.
Example C57_ex : exists s h1 h2 s2, slice t0 0 2 1 3 = Ok s /\ t_set h0 s 1 0 50 = Ok h1 /\ t_at h1 t0 1 1 = Ok 50
  /\ reshape h1 s [1; 4] = Ok (h2, s2) /\ raw_data h2 s2 = Ok [2; 3; 50; 6] /\ t_at h2 s2 0 2 = Ok 50.
Proof.
  exists (mktensor (mkdense 0 1 3 2 2) [2; 2]), [[1; 2; 3; 4; 50; 6]], [[1; 2; 3; 4; 50; 6]; [2; 3; 50; 6]], (mktensor (mkdense 1 0 4 1 4) [1; 4]).
  vm_compute. auto 10.
Qed.

Print Assumptions C57_new.
Print Assumptions C57_new_errors.
Print Assumptions C57_filled.
Print Assumptions C57_reshape.
Print Assumptions C57_reshape_other.
Print Assumptions C57_reshape_negative_refuted.
Print Assumptions C57_reshape_overflow_refuted.
Print Assumptions C57_slice.
Print Assumptions C57_set.
Print Assumptions C57_copy.
Print Assumptions C57_transpose_refuted.
Print Assumptions C57_overflow_refuted.
