(** C53, C54, C89, C90 - performance/memory_optimizer.go. *)
From Coq Require Import List Arith ZArith Bool Lia Permutation.
From Verif Require Import Base.GoRes Base.GoInt Base.ListX Model.Memory Spec.Memory Proofs.MemoryP.
Import ListNotations.
Local Open Scope list_scope.
Local Open Scope Z_scope.

(** ** C53 *)
(** Below 2^43 megabytes the limit is the number of bytes asked for. *)
Theorem C53_limit : forall mb, 0 <= mb < 2 ^ 43 -> max_mem (new_budget mb) = mb * 2 ^ 20 /\ used (new_budget mb) = 0.
Proof.
  intros mb H. unfold new_budget. cbn [max_mem used]. rewrite (wrap_small (mb * 1024)) by lia. rewrite wrap_small by lia. lia.
Qed.
(** For non-negative requests which do not overflow when added to the limit, usage follows the
    accounting in unbounded integers, and stays between 0 and the limit at all times. *)
Theorem C53_bounds : forall mb rs, 0 <= mb < 2 ^ 43 ->
  (forall r, In r rs -> 0 <= amount r /\ mb * 2 ^ 20 + amount r < 2 ^ 63) ->
  let m := serve_all (new_budget mb) rs in
  used m = ledger_all (mb * 2 ^ 20) rs /\ max_mem m = mb * 2 ^ 20 /\ 0 <= used m <= mb * 2 ^ 20.
Proof.
  intros mb rs Hm Hr. destruct (C53_limit mb Hm) as [E1 E2]. cbn zeta.
  destruct (serve_all_ledger rs (new_budget mb)) as (A & B & C); rewrite ?E1, ?E2 in *; try lia; [exact Hr|]. auto.
Qed.
(** A request is granted exactly if it fits. *)
Theorem C53_granted : forall m b, 0 <= used m <= max_mem m -> 0 <= b -> max_mem m + b < 2 ^ 63 ->
  can_allocate b m = snd (allocate b m) /\ (snd (allocate b m) = true <-> used m + b <= max_mem m)
  /\ used (fst (allocate b m)) = if used m + b <=? max_mem m then used m + b else used m.
Proof.
  intros m b Hu Hb Ho. unfold can_allocate, allocate. rewrite wrap_small by lia.
  destruct (Z.ltb_spec (max_mem m) (used m + b)); destruct (Z.leb_spec (used m + b) (max_mem m)); cbn; try lia; repeat split; intros; try discriminate; try reflexivity; lia.
Qed.
(** When only outstanding blocks are freed, usage is the total of the outstanding blocks. *)
Theorem C53_outstanding : forall mb m l, 0 <= mb < 2 ^ 43 -> outstanding (new_budget mb) [] m l ->
  used m = zsum l /\ zsum l <= mb * 2 ^ 20.
Proof.
  intros mb m l Hm O. destruct (C53_limit mb Hm) as [E1 E2].
  destruct (outstanding_sum _ _ _ _ O) as (A & B & C & D); [rewrite E2; reflexivity|intros b []|rewrite E1, E2; lia|rewrite E1; lia|]. lia.
Qed.
(** A request near 2^63 passes the check by overflow, and usage becomes negative; the total
    granted then exceeds the limit. *)
Theorem C53_overflow_refuted : exists m b, 0 <= used m <= max_mem m /\ int64 b /\ 0 <= b /\ max_mem m < b
  /\ snd (allocate b m) = true /\ used (fst (allocate b m)) < 0.
Proof.
  exists (mkbudget 1048576 1), (2 ^ 63 - 1). repeat split; vm_compute; congruence.
Qed.
(** A negative request lowers usage below zero. *)
Theorem C53_negative_refuted : exists m b, 0 <= used m <= max_mem m /\ int64 b
  /\ snd (allocate b m) = true /\ used (fst (allocate b m)) < 0.
Proof. exists (mkbudget 1048576 10), (-20). repeat split; vm_compute; congruence. Qed.
(** A limit of 2^43 megabytes or more overflows; then no request at all is granted. *)
Theorem C53_limit_refuted : exists mb, 0 <= mb < 2 ^ 63 /\ forall b, 0 <= b < 2 ^ 63 -> snd (allocate b (new_budget mb)) = false.
Proof.
  exists (2 ^ 43). split; [lia|]. intros b Hb. replace (new_budget (2 ^ 43)) with (mkbudget (- 2 ^ 63) 0) by (vm_compute; reflexivity).
  unfold allocate. cbn [max_mem used]. rewrite wrap_small by lia. destruct (Z.ltb_spec (- 2 ^ 63) (0 + b)); [reflexivity|lia].
Qed.
Example C53_ex : serve_all (new_budget 1) [Allocate 1000000; Allocate 100000; Free 400000; Allocate 100000; Free 2000000; Allocate 7] = mkbudget 1048576 7
  /\ serve_all (new_budget 1) [Allocate 1000000; Allocate 100000; Free 400000; Allocate 100000] = mkbudget 1048576 700000.
Proof. vm_compute. auto. Qed.

(** ** C54: layout *)
(** Converting moves entry (i,j) of the row-major data to (j,i); longer data lose their tail;
    shorter data panic. *)
Theorem C54_layout : forall (A : Type) (zero : A) data rows cols, 0 < rows -> 0 < cols -> rows * cols < 2 ^ 63 ->
  match layout zero data rows cols with
  | Ok out => rows * cols <= Z.of_nat (List.length data) /\ List.length out = List.length data
      /\ (forall i j, 0 <= i < rows -> 0 <= j < cols -> nth_error out (Z.to_nat (j * rows + i)) = nth_error data (Z.to_nat (i * cols + j)))
      /\ (forall k v, rows * cols <= Z.of_nat k -> nth_error out k = Some v -> v = zero)
  | Err _ => False
  | Panic => Z.of_nat (List.length data) < rows * cols
  end.
Proof.
  intros A zero data rows cols Hr Hc H63. destruct (Z_lt_le_dec (Z.of_nat (List.length data)) (rows * cols)) as [Hl|Hl].
  - rewrite layout_short by lia. exact Hl.
  - destruct (layout_ok zero data rows cols) as (out & E & L & W & K); [lia|lia|lia|lia|]. rewrite E. repeat split; auto.
    intros k v Hk Ev. rewrite (K k Hk) in Ev. apply nth_error_In in Ev. now apply repeat_spec in Ev.
Qed.
(** Converting back, with the dimensions exchanged, restores the data. *)
Theorem C54_back : forall (A : Type) (zero : A) data rows cols out, 0 <= rows -> 0 <= cols -> rows * cols < 2 ^ 63 ->
  Z.of_nat (List.length data) = rows * cols -> layout zero data rows cols = Ok out -> layout zero out cols rows = Ok data.
Proof.
  intros A zero data rows cols out Hr Hc H63 Hl E. destruct (layout_ok zero data rows cols) as (out' & E' & L & W & _); [lia|lia|lia|lia|].
  assert (out' = out) by congruence. subst out'. destruct (layout_ok zero out cols rows) as (data' & E2 & L2 & W2 & _); [lia|lia|lia|lia|].
  rewrite E2. f_equal. apply nth_error_ext. intros k. destruct (Nat.lt_ge_cases k (List.length data)) as [Hk|Hk].
  - assert (0 < cols) by nia. pose proof (Z.div_mod (Z.of_nat k) cols ltac:(lia)) as DM. pose proof (Z.mod_pos_bound (Z.of_nat k) cols ltac:(lia)) as MB.
    assert (D0 : 0 <= Z.of_nat k / cols) by (apply Z.div_pos; lia). assert (D1 : Z.of_nat k / cols < rows) by (apply Z.div_lt_upper_bound; lia).
    specialize (W (Z.of_nat k / cols) (Z.of_nat k mod cols) ltac:(lia) ltac:(lia)). specialize (W2 (Z.of_nat k mod cols) (Z.of_nat k / cols) ltac:(lia) ltac:(lia)).
    replace (Z.of_nat k / cols * cols + Z.of_nat k mod cols) with (Z.of_nat k) in * by lia. rewrite Nat2Z.id in *. congruence.
  - assert (N1 : nth_error data k = None) by (apply nth_error_None; lia). rewrite N1. apply nth_error_None. lia.
Qed.
Example C54_ex_layout : layout 0 [1; 2; 3; 4; 5; 6] 2 3 = Ok [1; 4; 2; 5; 3; 6] /\ layout 0 [1; 4; 2; 5; 3; 6] 3 2 = Ok [1; 2; 3; 4; 5; 6].
Proof. vm_compute. auto. Qed.
(** With data longer than rows * cols the tail is lost. *)
Theorem C54_tail_lost_refuted : exists data rows cols out back, 0 < rows /\ 0 < cols
  /\ layout 0 data rows cols = Ok out /\ layout 0 out cols rows = Ok back /\ back <> data.
Proof. exists [1; 2; 3; 4; 5], 2, 2, [1; 3; 2; 4; 0], [1; 2; 3; 4; 0]. repeat split; vm_compute; congruence. Qed.

(** C54: views *)
(** Every view made from a buffer by blocks of blocks reads the addressed entry of the whole
    matrix, refuses other places, and never leaves the buffer. *)
Theorem C54_at : forall (A : Type) (data data' : list A) rows cols v a b i j,
  0 <= rows -> 0 <= cols -> rows * cols <= 2 ^ 60 -> derived data rows cols v a b -> List.length data' = List.length data ->
  (0 <= a /\ 0 <= b /\ a + z_rows v <= rows /\ b + z_cols v <= cols)
  /\ if (0 <=? i) && (i <? z_rows v) && (0 <=? j) && (j <? z_cols v)
     then exists x, nth_error data' (Z.to_nat ((a + i) * cols + (b + j))) = Some x /\ z_at v data' i j = Val x
     else z_at v data' i j = Refused.
Proof.
  intros A data data' rows cols v a b i j Hr Hc H60 D HL. destruct (derived_placed data rows cols v a b Hr Hc H60 D) as [P L].
  split; [unfold placed in P; lia|]. unfold z_at. destruct (z_bad v i j) eqn:Eb.
  - replace (_ && _) with false; [reflexivity|]. symmetry. apply not_true_iff_false. intros T. rewrite !andb_true_iff, !Z.leb_le, !Z.ltb_lt in T.
    assert (z_bad v i j = false) by (unfold z_bad; rewrite !orb_false_iff; repeat split; [apply Z.ltb_ge|apply Z.leb_gt|apply Z.ltb_ge|apply Z.leb_gt]; lia).
    congruence.
  - destruct (placed_addr rows cols v a b i j P H60 Eb) as (R1 & R2 & R3 & R4). replace (_ && _) with true.
    + rewrite R3. destruct (nth_error data' (Z.to_nat ((a + i) * cols + (b + j)))) as [x|] eqn:Ex; [exists x; auto|]. apply nth_error_None in Ex. lia.
    + symmetry. rewrite !andb_true_iff. repeat split; [apply Z.leb_le|apply Z.ltb_lt|apply Z.leb_le|apply Z.ltb_lt]; lia.
Qed.
(** Writing through a view changes that entry of the whole matrix, for all views of the buffer,
    and nothing else. *)
Theorem C54_set : forall (A : Type) (data data' : list A) rows cols v a b w c d i j x k l,
  0 <= rows -> 0 <= cols -> rows * cols <= 2 ^ 60 -> derived data rows cols v a b -> derived data rows cols w c d ->
  List.length data' = List.length data -> 0 <= i < z_rows v -> 0 <= j < z_cols v ->
  exists data'', z_set v data' i j x = Val data'' /\ List.length data'' = List.length data
    /\ (0 <= k < z_rows w -> 0 <= l < z_cols w ->
        z_at w data'' k l = if (c + k =? a + i) && (d + l =? b + j) then Val x else z_at w data' k l).
Proof.
  intros A data data' rows cols v a b w c d i j x k l Hr Hc H60 D1 D2 HL Hi Hj.
  destruct (derived_placed data rows cols v a b Hr Hc H60 D1) as [P L]. destruct (derived_placed data rows cols w c d Hr Hc H60 D2) as [Q _].
  assert (Eb : z_bad v i j = false) by (unfold z_bad; rewrite !orb_false_iff; repeat split; [apply Z.ltb_ge|apply Z.leb_gt|apply Z.ltb_ge|apply Z.leb_gt]; lia).
  destruct (placed_addr rows cols v a b i j P H60 Eb) as (R1 & R2 & R3 & R4). unfold z_set. rewrite Eb, R3.
  destruct (Nat.ltb_spec (Z.to_nat ((a + i) * cols + (b + j))) (List.length data')); [|lia]. eexists. split; [reflexivity|].
  rewrite upd_length. split; [exact HL|]. intros Hk Hl.
  assert (Ec : z_bad w k l = false) by (unfold z_bad; rewrite !orb_false_iff; repeat split; [apply Z.ltb_ge|apply Z.leb_gt|apply Z.ltb_ge|apply Z.leb_gt]; lia).
  destruct (placed_addr rows cols w c d k l Q H60 Ec) as (S1 & S2 & S3 & S4). unfold z_at. rewrite Ec, S3. unfold placed in P, Q.
  destruct (Z.eqb_spec (c + k) (a + i)) as [E1|E1]; [destruct (Z.eqb_spec (d + l) (b + j)) as [E2|E2]|]; cbn [andb].
  - rewrite E1, E2, nth_error_upd_same. destruct (nth_error data' _) eqn:En; [reflexivity|]. apply nth_error_None in En. lia.
  - rewrite nth_error_upd_other; [reflexivity|]. intros H1. apply Z2Nat.inj in H1; lia.
  - rewrite nth_error_upd_other; [reflexivity|]. intros H1. apply Z2Nat.inj in H1; try lia. assert (a + i = c + k) by nia. lia.
Qed.
(** A view of data is made when there are enough of them, and slices of valid bounds too. *)
Theorem C54_made : forall (A : Type) (data : list A) rows cols, 0 < rows -> 0 < cols -> rows * cols <= 2 ^ 60 ->
  rows * cols <= Z.of_nat (List.length data) ->
  (exists v, new_view data rows cols = Ok v /\ z_rows v = rows /\ z_cols v = cols)
  /\ forall v a b i0 i1 j0 j1, derived data rows cols v a b -> 0 <= i0 < i1 -> i1 <= z_rows v -> 0 <= j0 < j1 -> j1 <= z_cols v ->
     exists w, z_slice v i0 i1 j0 j1 = Ok w /\ z_rows w = i1 - i0 /\ z_cols w = j1 - j0.
Proof.
  intros A data rows cols Hr Hc H60 HL. split.
  - unfold new_view. rewrite wrap_small by nia. destruct (Z.ltb_spec (Z.of_nat (List.length data)) (rows * cols)); [lia|].
    destruct data; [cbn in HL; nia|]. eexists. split; [reflexivity|]. auto.
  - intros v a b i0 i1 j0 j1 D Hi Hi1 Hj Hj1. destruct (derived_placed data rows cols v a b) as [P _]; [lia|lia|lia|exact D|]. unfold placed in P.
    unfold z_slice. destruct (Z.ltb_spec i0 0); [lia|]. destruct (Z.ltb_spec (z_rows v) i1); [lia|]. destruct (Z.ltb_spec j0 0); [lia|].
    destruct (Z.ltb_spec (z_cols v) j1); [lia|]. destruct (Z.leb_spec i1 i0); [lia|]. destruct (Z.leb_spec j1 j0); [lia|]. cbn [orb].
    eexists. split; [reflexivity|]. cbn. rewrite !wrap_small by nia. auto.
Qed.
(** Dimensions whose product overflows pass the size check, and accesses leave the buffer. *)
Theorem C54_overflow_refuted : exists (data : list Z) rows cols v, 0 < rows < 2 ^ 63 /\ 0 < cols < 2 ^ 63
  /\ new_view data rows cols = Ok v /\ z_at v data 0 1 = Outside /\ z_set v data 0 1 7 = Outside.
Proof.
  exists [5], (2 ^ 32), (2 ^ 32), (mkview 0 (2 ^ 32) (2 ^ 32) (2 ^ 32)). repeat split; try lia; vm_compute; congruence.
Qed.
Definition buf : list Z := [1; 2; 3; 4; 5; 6; 7; 8; 9; 10; 11; 12].
Example C54_ex_views : exists v w u, new_view buf 3 4 = Ok v /\ z_slice v 1 3 1 4 = Ok w /\ z_slice w 1 2 0 2 = Ok u
  /\ z_at u buf 0 1 = Val 11 /\ derived buf 3 4 u 2 1
  /\ z_set u buf 0 1 99 = Val [1; 2; 3; 4; 5; 6; 7; 8; 9; 10; 99; 12] /\ z_at w [1; 2; 3; 4; 5; 6; 7; 8; 9; 10; 99; 12] 1 1 = Val 99
  /\ z_at w buf 2 0 = Refused.
Proof.
  exists (mkview 0 3 4 4), (mkview 5 2 3 4), (mkview 9 1 2 4). repeat split; try (vm_compute; reflexivity).
  apply (der_slice buf 3 4 (mkview 5 2 3 4) 1 1 1 2 0 2); [|reflexivity]. apply (der_slice buf 3 4 (mkview 0 3 4 4) 0 0 1 3 1 4); [|reflexivity]. now constructor.
Qed.

(** ** C89 *)
(** Whatever the users of a pool do with the matrices they hold, Get gives a matrix nobody
    holds, of the dimensions asked for, filled with zeros; and the pool counts the matrices held
    and made. *)
Theorem C89_exclusive : forall (A : Type) (zero : A) p ls choice rows cols h p',
  uses zero (new_pool, []) (p, ls) -> get zero choice rows cols p = Some (Ok (h, p')) ->
  ~ In h ls /\ in_use p' = Z.of_nat (List.length ls) + 1 /\ created p' = Z.of_nat (List.length (objs p')) /\ in_use p' <= peak p'
  /\ exists d, nth_error (objs p') h = Some (mkpooled (Some d) rows cols false)
       /\ wrap (rows * cols) <= Z.of_nat (List.length d) /\ forall x, In x d -> x = zero.
Proof.
  intros A zero p ls choice rows cols h p' U G. pose proof (sound_uses zero p ls U) as S.
  destruct (sound_get zero p ls choice rows cols h p' S G) as (N & S' & D). split; [exact N|].
  split; [rewrite (sd_use _ _ _ S'); cbn [List.length]; lia|]. split; [apply (sd_created _ _ _ S')|]. split; [apply (sd_peak _ _ _ S')|exact D].
Qed.
(** Get does not fail for dimensions with a representable product of at least zero. *)
Theorem C89_get : forall (A : Type) (zero : A) p ls choice rows cols,
  uses zero (new_pool, []) (p, ls) -> 0 <= wrap (rows * cols) ->
  match choice with Some k => (k < List.length (bag p))%nat | None => True end ->
  exists h p', get zero choice rows cols p = Some (Ok (h, p')).
Proof.
  intros A zero p ls choice rows cols U Hw Hc. pose proof (sound_uses zero p ls U) as S. unfold get.
  destruct choice as [k|]; cbn [pool_take bag objs in_use created recycled peak].
  - destruct (nth_error (bag p) k) as [h|] eqn:Eb; [|apply nth_error_None in Eb; lia]. cbn [objs].
    assert (Hh : (h < List.length (objs p))%nat) by (apply (sd_range _ _ _ S); apply in_or_app; left; exact (nth_error_In _ _ Eb)).
    destruct (nth_error (objs p) h) as [m|] eqn:Em; [|apply nth_error_None in Em; lia].
    destruct (pm_data m) as [d|]; [destruct (_ <? _); eauto|]. destruct (Z.ltb_spec (wrap (rows * cols)) 0); [lia|]. eauto.
  - cbn [objs]. rewrite nth_error_app2, Nat.sub_diag by lia. cbn [nth_error pm_data]. destruct (Z.ltb_spec (wrap (rows * cols)) 0); [lia|]. eauto.
Qed.
(** Entries set are read back, and the other entries and matrices are unchanged. *)
Theorem C89_set : forall (A : Type) (zero : A) p ls h m i j v, uses zero (new_pool, []) (p, ls) -> In h ls ->
  nth_error (objs p) h = Some m -> 0 < pm_rows m -> 0 < pm_cols m -> pm_rows m * pm_cols m < 2 ^ 63 ->
  (match pm_data m with Some d => pm_rows m * pm_cols m <= Z.of_nat (List.length d) | None => False end) ->
  0 <= i < pm_rows m -> 0 <= j < pm_cols m ->
  exists p' m', pm_set h i j v p = Ok p' /\ nth_error (objs p') h = Some m' /\ pm_rows m' = pm_rows m /\ pm_cols m' = pm_cols m
    /\ (forall k l, 0 <= k < pm_rows m -> 0 <= l < pm_cols m -> pm_at m' k l = if (k =? i) && (l =? j) then Ok v else pm_at m k l)
    /\ forall g, g <> h -> nth_error (objs p') g = nth_error (objs p) g.
Proof.
  intros A zero p ls h m i j v U Hh Em Hr Hc H63 Hd Hi Hj. unfold pm_set. rewrite Em. destruct (pm_data m) as [d|] eqn:Ed; [|destruct Hd].
  assert (IX : forall k l, 0 <= k < pm_rows m -> 0 <= l < pm_cols m -> forall m' : pooled A, pm_cols m' = pm_cols m -> pm_index m' k l = k * pm_cols m + l /\ 0 <= k * pm_cols m + l < pm_rows m * pm_cols m).
  { intros k l Hk Hl m' Em'. unfold pm_index. rewrite Em'. rewrite (wrap_small (k * pm_cols m)) by nia. rewrite wrap_small by nia. split; [reflexivity|nia]. }
  destruct (IX i j Hi Hj m eq_refl) as [E1 B1]. rewrite E1. destruct (Z.leb_spec 0 (i * pm_cols m + j)); [|lia]. destruct (Z.ltb_spec (i * pm_cols m + j) (Z.of_nat (List.length d))); [|lia].
  cbn [andb]. eexists. eexists. split; [reflexivity|]. cbn [objs]. rewrite nth_error_upd_same, Em. cbn [option_map]. split; [reflexivity|]. split; [reflexivity|]. split; [reflexivity|]. split.
  - intros k l Hk Hl. unfold pm_at. cbn [pm_data]. rewrite Ed.
    destruct (IX k l Hk Hl (mkpooled (Some (upd (Z.to_nat (i * pm_cols m + j)) (fun _ => v) d)) (pm_rows m) (pm_cols m) (pm_released m)) eq_refl) as [E2 B2].
    rewrite E2. rewrite (proj1 (IX k l Hk Hl m eq_refl)). destruct (Z.leb_spec 0 (k * pm_cols m + l)); [|lia].
    destruct (Z.eqb_spec k i) as [->|Hki]; [destruct (Z.eqb_spec l j) as [->|Hlj]|]; cbn [andb].
    + rewrite nth_error_upd_same. destruct (nth_error d _) eqn:En; [reflexivity|]. apply nth_error_None in En. lia.
    + rewrite nth_error_upd_other; [reflexivity|]. intros HX. apply Z2Nat.inj in HX; lia.
    + rewrite nth_error_upd_other; [reflexivity|]. intros HX. apply Z2Nat.inj in HX; try lia. apply Hki. nia.
  - intros g Hg. apply nth_error_upd_other. congruence.
Qed.
(** Returning a matrix twice with no Get in between is returning it once. *)
Theorem C89_release_twice : forall (A : Type) (zero : A) (p : pool A) h, put zero h (put zero h p) = put zero h p.
Proof.
  intros A zero p h. unfold put at 2 3. destruct (put_check h p) eqn:E.
  - unfold put. replace (put_check h (put_rest zero h p)) with false; [reflexivity|]. unfold put_check, put_rest.
    unfold put_check in E. destruct (nth_error (objs p) h) as [m|] eqn:Em; [|discriminate]. cbn [objs]. rewrite nth_error_upd_same, Em. reflexivity.
  - unfold put. rewrite E. reflexivity.
Qed.
(** Returning a matrix twice - the second time when it already has a new holder - hands the
    matrix to a third user while the second still holds it: the released mark is cleared by Get. *)
Definition get' (choice : option nat) (rows cols : Z) (p : pool Z) : nat * pool Z :=
  match get 0 choice rows cols p with Some (Ok r) => r | _ => (99%nat, p) end.
Theorem C89_double_release_refuted : exists p1 p2 p3 h,
  get 0 None 1 1 new_pool = Some (Ok (h, p1)) (* first user *)
  /\ get 0 (Some 0%nat) 1 1 (put 0 h p1) = Some (Ok (h, p2)) (* second user *)
  /\ get 0 (Some 0%nat) 1 1 (put 0 h p2) = Some (Ok (h, p3)) (* third user, after the first returned [h] again *)
  /\ in_use p3 = 1.
Proof.
  exists (snd (get' None 1 1 new_pool)), (snd (get' (Some 0%nat) 1 1 (put 0 0%nat (snd (get' None 1 1 new_pool))))),
    (snd (get' (Some 0%nat) 1 1 (put 0 0%nat (snd (get' (Some 0%nat) 1 1 (put 0 0%nat (snd (get' None 1 1 new_pool)))))))), 0%nat.
  vm_compute. auto.
Qed.
(** Two goroutines returning the same matrix at the same time can both pass the check; the
    matrix is then in the pool twice and goes to two users, and the usage count is wrong. *)
Theorem C89_race_refuted : exists p h p2 p3,
  get 0 None 1 1 new_pool = Some (Ok (h, p)) /\ put_check h p = true (* both goroutines check here *)
  /\ get 0 (Some 0%nat) 1 1 (put_rest 0 h (put_rest 0 h p)) = Some (Ok (h, p2)) /\ get 0 (Some 0%nat) 1 1 p2 = Some (Ok (h, p3))
  /\ in_use p3 = 1.
Proof.
  set (p := snd (get' None 1 1 new_pool)). set (p2 := snd (get' (Some 0%nat) 1 1 (put_rest 0 0%nat (put_rest 0 0%nat p)))).
  exists p, 0%nat, p2, (snd (get' (Some 0%nat) 1 1 p2)). vm_compute. auto 10.
Qed.
(** A matrix whose buffer was recycled from a larger one cannot be converted: ToMat panics. *)
Theorem C89_to_mat : forall (A : Type) (zero : A) (m : pooled A) d, pm_data m = Some d ->
  0 < pm_rows m -> 0 < pm_cols m -> pm_rows m * pm_cols m < 2 ^ 63 ->
  to_mat zero m = if pm_rows m * pm_cols m =? Z.of_nat (List.length d) then Ok (pm_rows m, pm_cols m, d) else Panic.
Proof.
  intros A zero m d Ed Hr Hc H63. unfold to_mat. destruct (Z.leb_spec (pm_rows m) 0); [lia|]. destruct (Z.leb_spec (pm_cols m) 0); [lia|]. cbn [orb].
  rewrite Ed, wrap_small by nia. reflexivity.
Qed.
Theorem C89_to_mat_refuted : exists p h m, uses 0 (new_pool, []) (p, [h]) /\ nth_error (objs p) h = Some m
  /\ pm_rows m = 1 /\ pm_cols m = 2 /\ to_mat 0 m = Panic.
Proof.
  set (p1 := snd (get' None 2 3 new_pool)). set (p2 := put 0 0%nat p1). set (p3 := snd (get' (Some 0%nat) 1 2 p2)).
  exists p3, 0%nat, (mkpooled (Some [0; 0; 0; 0; 0; 0]) 1 2 false). split.
  - apply uses_step with (t := (p2, [])); [|apply (use_get 0 (Some 0%nat) 1 2); reflexivity].
    apply uses_step with (t := (p1, [0%nat])); [|apply use_put; reflexivity].
    apply uses_step with (t := (new_pool, [])); [constructor|]. apply (use_get 0 None 2 3). reflexivity.
  - repeat split.
Qed.
Example C89_example : exists p h p', uses 0 (new_pool, []) (p, [1%nat]) /\ get 0 (Some 0%nat) 2 2 p = Some (Ok (h, p')) /\ h = 0%nat
  /\ option_map (fun m => pm_data m) (nth_error (objs p') 0) = Some (Some [0; 0; 0; 0; 0; 0]).
Proof.
  set (p1 := snd (get' None 2 3 new_pool)). set (p2 := snd (get' None 1 1 p1)).
  set (p3 := match pm_set 0%nat 1 1 (7) p2 with Ok p => p | _ => p2 end).
  exists (put 0 0%nat p3), 0%nat, (snd (get' (Some 0%nat) 2 2 (put 0 0%nat p3))). split; [|repeat split].
  apply uses_step with (t := (p3, [1%nat; 0%nat])); [|apply use_put; apply perm_swap].
  apply uses_step with (t := (p2, [1%nat; 0%nat])); [|apply (use_set 0 0%nat 1 1 7); [right; now left|reflexivity]].
  apply uses_step with (t := (p1, [0%nat])); [|apply (use_get 0 None 1 1); reflexivity].
  apply uses_step with (t := (new_pool, [])); [constructor|]. apply (use_get 0 None 2 3). reflexivity.
Qed.

(** ** C90 *)
(** For an alignment that is a multiple of 8 and memory at a multiple of 8, the result has the
    size asked for, is aligned, and lies inside the memory allocated. *)
Theorem C90_aligned : forall addr size k, 0 <= addr -> addr mod 8 = 0 -> 0 <= size -> 0 < k ->
  exists a, aligned_alloc addr size (8 * k) = Ok (a, size) /\ a mod (8 * k) = 0
    /\ addr <= a /\ a + 8 * size <= addr + 8 * (size + k).
Proof.
  intros addr size k Ha H8 Hs Hk. unfold aligned_alloc. rewrite (Z.mul_comm 8 k), Z.quot_mul by lia.
  destruct (Z.leb_spec (size + k) 0); [lia|].
  assert (HA : exists q, addr = 8 * q) by (exists (addr / 8); pose proof (Z.div_mod addr 8 ltac:(lia)); lia). destruct HA as [q ->].
  replace (k * 8) with (8 * k) by ring. rewrite Z.mul_mod_distr_l by lia. replace (8 * k - 8 * (q mod k)) with (8 * (k - q mod k)) by ring.
  pose proof (Z.mod_pos_bound q k ltac:(lia)) as MB. pose proof (Z.div_mod q k ltac:(lia)) as DM.
  assert (HR : Z.rem (8 * (k - q mod k)) (8 * k) = 8 * (if q mod k =? 0 then 0 else k - q mod k)).
  { rewrite Z.rem_mod_nonneg by lia. rewrite Z.mul_mod_distr_l by lia. f_equal. destruct (Z.eqb_spec (q mod k) 0) as [E|E].
    - rewrite E, Z.sub_0_r. apply Z_mod_same_full.
    - apply Z.mod_small. lia. }
  rewrite HR. set (o := if q mod k =? 0 then 0 else k - q mod k). assert (Ho : 0 <= o < k) by (unfold o; destruct (Z.eqb_spec (q mod k) 0); lia).
  assert (Hq : exists t, q + o = k * t).
  { unfold o. destruct (Z.eqb_spec (q mod k) 0) as [E|E]; [exists (q / k); lia|exists (q / k + 1); lia]. }
  rewrite (Z.mul_comm 8 o), Z.quot_mul by lia. destruct (Z.leb_spec 0 o); [|lia]. destruct (Z.leb_spec o (o + size)); [|lia]. destruct (Z.leb_spec (o + size) (size + k)); [|lia].
  cbn [andb]. eexists. split; [reflexivity|]. split; [|lia]. destruct Hq as [t Hq]. replace (8 * q + 8 * o) with (t * (8 * k)) by lia. apply Z_mod_mult.
Qed.
(** Other alignments are not kept, and an alignment below 8 with size 0 panics. *)
Theorem C90_unaligned_refuted : exists addr size alignment a, addr mod 8 = 0 /\ 0 < alignment
  /\ aligned_alloc addr size alignment = Ok (a, size) /\ a mod alignment <> 0.
Proof. exists 8, 3, 12, 8. repeat split; vm_compute; congruence. Qed.
Theorem C90_empty_refuted : exists addr alignment, addr mod 8 = 0 /\ 0 < alignment /\ aligned_alloc addr 0 alignment = Panic.
Proof. exists 64, 4. repeat split. Qed.
Example C90_example : aligned_alloc 72 5 64 = Ok (128, 5).
Proof. reflexivity. Qed.

Print Assumptions C53_limit.
Print Assumptions C53_bounds.
Print Assumptions C53_granted.
Print Assumptions C53_outstanding.
Print Assumptions C53_overflow_refuted.
Print Assumptions C53_negative_refuted.
Print Assumptions C53_limit_refuted.
Print Assumptions C54_layout.
Print Assumptions C54_back.
Print Assumptions C54_tail_lost_refuted.
Print Assumptions C54_at.
Print Assumptions C54_set.
Print Assumptions C54_made.
Print Assumptions C54_overflow_refuted.
Print Assumptions C89_exclusive.
Print Assumptions C89_get.
Print Assumptions C89_set.
Print Assumptions C89_release_twice.
Print Assumptions C89_double_release_refuted.
Print Assumptions C89_race_refuted.
Print Assumptions C89_to_mat.
Print Assumptions C89_to_mat_refuted.
Print Assumptions C90_aligned.
Print Assumptions C90_unaligned_refuted.
Print Assumptions C90_empty_refuted.
