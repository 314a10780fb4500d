(** C52, C88 - performance/large_scale.go. *)
From Coq Require Import List Arith ZArith Bool Lia.
From Verif Require Import Base.GoRes Base.GoInt Base.Mat Base.ListX Model.Dataset Spec.Dataset Proofs.DatasetP.
Import ListNotations.
Local Open Scope list_scope.
Local Open Scope Z_scope.

(** ** C52 *)
(** Opening a file gives a usable data set holding the file's bytes, padded with zeros or cut. *)
Theorem C52_open : forall file rows cols t, 0 < rows -> 0 < cols -> rows * cols * elem_size t < 2 ^ 63 ->
  exists d, new_dataset file rows cols t = Ok d /\ usable d /\ d_rows d = rows /\ d_cols d = cols /\ d_type d = t
    /\ forall k, (k < List.length (d_mem d))%nat -> nth k (d_mem d) 0 = nth k file 0.
Proof.
  intros file rows cols t Hr Hc H63. pose proof (es_pos t) as He.
  assert (H1 : 0 < rows * cols) by nia. assert (H2 : rows * cols <= rows * cols * elem_size t) by nia.
  unfold new_dataset. rewrite (wrap_id (rows * cols)) by (unfold int64; lia). rewrite wrap_id by (unfold int64; lia).
  destruct (Z.leb_spec (rows * cols * elem_size t) 0); [lia|]. eexists. split; [reflexivity|].
  set (n := Z.to_nat (rows * cols * elem_size t)). split; [|cbn [d_rows d_cols d_type d_mem]; repeat (split; [reflexivity|])].
  - unfold usable. cbn. rewrite firstn_length, app_length, repeat_length. fold n. split; [lia|]. split; [lia|]. split; [|lia]. unfold n. lia.
  - intros k Hk. rewrite firstn_length in Hk.
    assert (Hf : forall (l : list Z) m i, (i < m)%nat -> nth i (firstn m l) 0 = nth i l 0).
    { induction l as [|x l IH]; intros [|m] [|i] Hi; try lia; cbn; try reflexivity. apply IH. lia. }
    rewrite Hf by lia. destruct (Nat.lt_ge_cases k (List.length file)) as [H3|H3].
    + now rewrite app_nth1.
    + rewrite app_nth2 by exact H3. rewrite (nth_overflow file) by exact H3. rewrite nth_repeat. reflexivity.
Qed.

(** Reading rows [start, stop) gives the entries of these rows, for a range inside the data
    set, and an error for any other range. *)
Theorem C52_read : forall of32 ofi64 ofi32 d start stop, usable d ->
  get_chunk of32 ofi64 ofi32 d start stop =
    if (0 <=? start) && (start <? stop) && (stop <=? d_rows d)
    then Ok (mkmat (Z.to_nat (d_cols d)) (rows_of of32 ofi64 ofi32 d start stop)) else Err (EOther 2).
Proof.
  intros of32 ofi64 ofi32 d start stop U.
  destruct (Z.leb_spec 0 start); destruct (Z.ltb_spec start stop); destruct (Z.leb_spec stop (d_rows d)); cbn [andb];
    try (apply get_chunk_bad; lia). apply get_chunk_ok; [exact U|lia|lia].
Qed.
(** Writing a block changes exactly its rows. *)
Theorem C52_write : forall to32 of32 toi64 ofi64 toi32 ofi32 d start chunk,
  usable d -> int64 start -> start + Z.of_nat (nrows chunk) < 2 ^ 63 ->
  (0 <= start /\ start + Z.of_nat (nrows chunk) <= d_rows d /\ Z.of_nat (mcols chunk) = d_cols d /\
   exists mem, set_chunk to32 toi64 toi32 d start chunk = Ok mem /\ usable (with_mem d mem)
     /\ forall i j, 0 <= i < d_rows d -> 0 <= j < d_cols d ->
          entry of32 ofi64 ofi32 (with_mem d mem) i j =
            if (start <=? i) && (i <? start + Z.of_nat (nrows chunk))
            then stored to32 of32 toi64 ofi64 toi32 ofi32 (d_type d) (mat_at chunk (i - start) j)
            else entry of32 ofi64 ofi32 d i j)
  \/ (~ (0 <= start /\ start + Z.of_nat (nrows chunk) <= d_rows d /\ Z.of_nat (mcols chunk) = d_cols d)
      /\ set_chunk to32 toi64 toi32 d start chunk = Err (EOther 3)).
Proof.
  intros to32 of32 toi64 ofi64 toi32 ofi32 d start chunk U I H63.
  destruct (Z_le_dec 0 start) as [H1|H1]; [|right; split; [tauto|apply set_chunk_bad; tauto]].
  destruct (Z_le_dec (start + Z.of_nat (nrows chunk)) (d_rows d)) as [H2|H2]; [|right; split; [tauto|apply set_chunk_bad; tauto]].
  destruct (Z.eq_dec (Z.of_nat (mcols chunk)) (d_cols d)) as [H3|H3]; [|right; split; [tauto|apply set_chunk_bad; tauto]].
  left. split; [exact H1|]. split; [exact H2|]. split; [exact H3|].
  destruct (set_chunk_ok to32 of32 toi64 ofi64 toi32 ofi32 d start chunk U H1 H2 H3) as (mem & A & B & C).
  exists mem. split; [exact A|]. split; [now apply usable_mem|exact C].
Qed.
(** What a value becomes by being written and read: float64 values (as 64-bit patterns) are
    kept, values in data sets of the other types are converted, and a data set of an unknown
    type stores nothing and reads zeros. *)
Theorem C52_stored : forall to32 of32 toi64 ofi64 toi32 ofi32 v,
  let st := stored to32 of32 toi64 ofi64 toi32 ofi32 in
  (0 <= v < 2 ^ 64 -> st Float64 v = v)
  /\ (0 <= to32 v < 2 ^ 32 -> st Float32 v = of32 (to32 v))
  /\ (0 <= toi64 v < 2 ^ 64 -> st Int64 v = ofi64 (toi64 v))
  /\ (0 <= toi32 v < 2 ^ 32 -> st Int32 v = ofi32 (toi32 v))
  /\ st Other v = 0.
Proof.
  intros. unfold st, stored, enc, dec. repeat split; intros; rewrite ?get_put; try reflexivity; cbn; lia.
Qed.
(** Hence a block of float64 values is read back as it was written. *)
Theorem C52_round_trip : forall to32 of32 toi64 ofi64 toi32 ofi32 d start chunk mem,
  usable d -> int64 start -> start + Z.of_nat (nrows chunk) < 2 ^ 63 -> d_type d = Float64 ->
  wf chunk -> (0 < nrows chunk)%nat -> (forall r v, In r (mrows chunk) -> In v r -> 0 <= v < 2 ^ 64) ->
  set_chunk to32 toi64 toi32 d start chunk = Ok mem ->
  get_chunk of32 ofi64 ofi32 (with_mem d mem) start (start + Z.of_nat (nrows chunk)) = Ok chunk.
Proof.
  intros to32 of32 toi64 ofi64 toi32 ofi32 d start chunk mem U I H63 Ht W Hn Hv E.
  destruct (C52_write to32 of32 toi64 ofi64 toi32 ofi32 d start chunk U I H63) as [(H1 & H2 & H3 & mem' & E' & U' & K)|[_ E']]; [|congruence].
  assert (mem' = mem) by congruence. subst mem'. rewrite get_chunk_ok by (cbn; auto; lia). f_equal. destruct chunk as [c rs]. cbn in *. f_equal; [lia|].
  unfold rows_of, nrows. cbn [mrows]. replace (start + Z.of_nat (List.length rs) - start) with (Z.of_nat (List.length rs)) by lia.
  apply nth_error_ext. intros i. destruct (Nat.lt_ge_cases i (List.length rs)) as [Hi|Hi].
  - destruct (nth_error rs i) as [r|] eqn:Er; [|apply nth_error_None in Er; lia].
    assert (Ez : forall n k, (k < n)%nat -> nth_error (zseq (Z.of_nat n)) k = Some (Z.of_nat k)).
    { intros n k Hk. unfold zseq. rewrite Nat2Z.id. erewrite map_nth_error; [reflexivity|]. rewrite nth_error_nth' with (d := 0%nat) by (rewrite seq_length; exact Hk). now rewrite seq_nth. }
    rewrite (map_nth_error _ _ _ (Ez _ i Hi)). f_equal. unfold row_of.
    assert (Hr : List.length r = c) by (apply W; exact (nth_error_In _ _ Er)).
    cbn [with_mem d_cols]. rewrite <- H3. apply nth_error_ext. intros j. destruct (Nat.lt_ge_cases j c) as [Hj|Hj].
    + rewrite (map_nth_error _ _ _ (Ez c j Hj)). destruct (nth_error r j) as [v|] eqn:Ev; [|apply nth_error_None in Ev; lia]. f_equal.
      unfold nrows in *. cbn [mrows] in *. rewrite K by (cbn; lia).
      destruct (Z.leb_spec start (start + Z.of_nat i)); [|lia]. destruct (Z.ltb_spec (start + Z.of_nat i) (start + Z.of_nat (List.length rs))); [|lia]. cbn [andb].
      replace (start + Z.of_nat i - start) with (Z.of_nat i) by ring. unfold mat_at. cbn [mrows]. rewrite !Nat2Z.id.
      rewrite (nth_error_nth _ _ _ Er), (nth_error_nth _ _ _ Ev), Ht.
      apply (C52_stored to32 of32 toi64 ofi64 toi32 ofi32 v). apply (Hv r); [exact (nth_error_In _ _ Er)|exact (nth_error_In _ _ Ev)].
    + assert (N1 : nth_error r j = None) by (apply nth_error_None; lia). rewrite N1. apply nth_error_None. rewrite map_length, zseq_length. lia.
  - assert (N1 : nth_error rs i = None) by (apply nth_error_None; lia). rewrite N1. apply nth_error_None. rewrite map_length, zseq_length. lia.
Qed.

(** Iterating with a positive chunk size calls the function on the blocks of that size, in
    order, up to its first failure; the function may rewrite the data set. *)
Theorem C52_iterate : forall of32 ofi64 ofi32 (S E : Type) (fn : matrix Z -> Z -> list Z * S -> (list Z * S) * option E) d size s fuel,
  usable d -> 1 <= size -> int64 size ->
  (forall c a st, List.length (fst (fst (fn c a st))) = List.length (fst st)) ->
  d_rows d < Z.of_nat fuel ->
  iterate of32 ofi64 ofi32 fn fuel (d_rows d) (d_cols d) (d_type d) size 0 (d_mem d, s) =
    let r := visits of32 ofi64 ofi32 fn d (blocks (d_rows d) size) (d_mem d, s) in
    Some (fst r, match snd r with None => IDone | Some e => IFailed e end).
Proof.
  intros of32 ofi64 ofi32 S E fn d size s fuel U Hs I Hfn Hf.
  pose proof (Z.div_mod (d_rows d + size - 1) size ltac:(lia)) as DM. pose proof (Z.mod_pos_bound (d_rows d + size - 1) size ltac:(lia)) as MB.
  pose proof U as (Hr & _).
  assert (Hq : 0 <= (d_rows d + size - 1) / size <= d_rows d).
  { split; [apply Z.div_pos; lia|]. apply Z.div_le_upper_bound; nia. }
  pose proof (iterate_blocks of32 ofi64 ofi32 fn Hfn d size U Hs I (Z.to_nat ((d_rows d + size - 1) / size)) 0 (d_mem d, s) fuel) as K.
  cbn [Z.mul] in K. rewrite K; [|lia|lia|reflexivity|lia]. rewrite Z2Nat.id by lia. reflexivity.
Qed.
(** These blocks put together are all rows, in order. *)
Theorem C52_cover : forall of32 ofi64 ofi32 d size, usable d -> 1 <= size ->
  concat (map (fun b => rows_of of32 ofi64 ofi32 d (fst b) (snd b)) (blocks (d_rows d) size)) = all_rows of32 ofi64 ofi32 d
  /\ List.length (all_rows of32 ofi64 ofi32 d) = Z.to_nat (d_rows d)
  /\ forall b, In b (blocks (d_rows d) size) -> 0 <= fst b < snd b /\ snd b <= d_rows d /\ snd b - fst b <= size.
Proof.
  intros of32 ofi64 ofi32 d size (Hr & _) Hs. split; [now apply blocks_cover|]. split.
  - unfold all_rows, rows_of. rewrite map_length, zseq_length. f_equal. lia.
  - intros b Hb. apply in_map_iff in Hb as (k & <- & Hk). apply zseq_in in Hk.
    pose proof (Z.div_mod (d_rows d + size - 1) size ltac:(lia)) as DM. pose proof (Z.mod_pos_bound (d_rows d + size - 1) size ltac:(lia)) as MB.
    cbn [fst snd]. assert (k * size < d_rows d) by nia. nia.
Qed.
(** A chunk size of zero or less is reported as an error before any call. *)
Theorem C52_nonpositive : forall of32 ofi64 ofi32 (S E : Type) (fn : matrix Z -> Z -> list Z * S -> (list Z * S) * option E) d size st fuel,
  usable d -> int64 size -> size <= 0 -> (0 < fuel)%nat ->
  iterate of32 ofi64 ofi32 fn fuel (d_rows d) (d_cols d) (d_type d) size 0 st = Some (st, IRange (EOther 2)).
Proof.
  intros of32 ofi64 ofi32 S E fn d size st fuel (Hr & _) I Hs Hf. destruct fuel as [|fuel]; [lia|]. cbn [iterate].
  destruct (Z.ltb_spec 0 (d_rows d)); [|lia]. rewrite wrap_id by (unfold int64 in *; lia). cbn [Z.add].
  destruct (Z.ltb_spec (d_rows d) size); [lia|]. rewrite get_chunk_bad; [reflexivity|cbn; lia].
Qed.

(** The bound check of SetChunk overflows for first rows near 2^63: it panics. *)
Theorem C52_write_overflow_refuted : exists d start chunk,
  usable d /\ int64 start /\ 0 <= start /\ forall to32 toi64 toi32, set_chunk to32 toi64 toi32 d start chunk = Panic.
Proof.
  exists (mkds 1 1 Float64 (repeat 0 8)), (2 ^ 63 - 1), (mkmat 1 [[5]; [6]]). split; [unfold usable; cbn; lia|]. split; [unfold int64; lia|].
  split; [lia|]. intros. vm_compute. reflexivity.
Qed.
(** Dimensions whose size overflows are accepted with a mapping of only 8 bytes; reading
    row 1 then panics. *)
Theorem C52_open_overflow_refuted : exists rows cols d,
  1 < rows < 2 ^ 63 /\ 0 < cols < 2 ^ 63 /\ new_dataset [] rows cols Float64 = Ok d /\ List.length (d_mem d) = 8%nat
  /\ forall of32 ofi64 ofi32, get_chunk of32 ofi64 ofi32 d 1 2 = Panic.
Proof.
  exists 2305843009213693953, 1, (mkds 2305843009213693953 1 Float64 (repeat 0 8)). split; [lia|]. split; [lia|]. split; [vm_compute; reflexivity|].
  split; [reflexivity|]. intros. vm_compute. reflexivity.
Qed.

(** A data set of 5 rows and 2 columns: rows 1 and 2 are overwritten, and iterating in chunks
    of 2 visits blocks of 2, 2 and 1 rows. *)
Definition ds0 : dataset := mkds 5 2 Float64 (concat (map (fun v => put_le 8 v) (zseq 10))).
Example C52_ex_usable : usable ds0.
Proof. unfold usable. repeat split. Qed.
Definition ident (z : Z) : Z := z.
Definition ds1 : list Z := match set_chunk ident ident ident ds0 1 (mkmat 2 [[100; 101]; [102; 2 ^ 64 - 1]]) with Ok m => m | _ => [] end.
Example C52_ex_write : all_rows ident ident ident (with_mem ds0 ds1) = [[0; 1]; [100; 101]; [102; 2 ^ 64 - 1]; [6; 7]; [8; 9]].
Proof. vm_compute. reflexivity. Qed.
Definition collect (c : matrix Z) (a : Z) (st : list Z * list (Z * list (list Z))) : (list Z * list (Z * list (list Z))) * option unit :=
  ((fst st, snd st ++ [(a, mrows c)]), None).
Example C52_ex_iterate :
  option_map (fun r => (snd (fst r), snd r)) (iterate ident ident ident collect 6 5 2 Float64 2 0 (d_mem ds0, [])) =
  Some ([(0, [[0; 1]; [2; 3]]); (2, [[4; 5]; [6; 7]]); (4, [[8; 9]])], IDone).
Proof. vm_compute. reflexivity. Qed.
Example C52_ex_iterate_applied : exists r, iterate ident ident ident collect 6 5 2 Float64 2 0 (d_mem ds0, []) = Some r.
Proof.
  eexists. apply (C52_iterate ident ident ident _ _ collect ds0 2 [] 6 C52_ex_usable); [lia|unfold int64; lia|reflexivity|cbn; lia].
Qed.

(** ** C88 *)
(** Given rows, the processor calls the function on consecutive chunks of the chunk size (the
    last one possibly shorter), stopping at the first failure, and together they are all rows. *)
Theorem C88_chunks : forall (Row S E : Type) (fn : list Row -> S -> S * option E) size rows s, 0 <= size ->
  exists chunks, concat chunks = rows
    /\ (forall c, In c chunks -> c <> [] /\ Z.of_nat (List.length c) <= Z.max 1 size)
    /\ (forall c, In c (removelast chunks) -> Z.of_nat (List.length c) = Z.max 1 size)
    /\ process_sequential fn size rows s =
       let r := chunk_calls fn chunks s in (fst r, match snd r with None => PDone | Some e => PFailed e end).
Proof.
  intros Row S E fn size rows s Hs. unfold process_sequential. destruct (Z.ltb_spec size 0); [lia|].
  apply (process_rows_chunks fn size Hs rows [] s). cbn [List.length Z.of_nat]. lia.
Qed.
(** But the scanner finds no row in any input: the function is never called and Process reports
    success. *)
Theorem C88_nothing_read_refuted : exists input : list (list Z), input <> []
  /\ forall (S E : Type) (fn : list (list Z) -> S -> S * option E) size s, 0 <= size ->
     process_sequential fn size (scanned input) s = (s, PDone).
Proof.
  exists [[1; 2]; [3; 4]]. split; [discriminate|]. intros S E fn size s Hs. unfold process_sequential.
  destruct (Z.ltb_spec size 0); [lia|reflexivity].
Qed.
Example C88_ex : process_sequential (fun (c : list Z) (s : list (list Z)) => (s ++ [c], if Z.eqb (nth 0 c 0) 5 then Some tt else None)) 2 [1; 2; 3; 4; 5; 6; 7] [] =
  ([[1; 2]; [3; 4]; [5; 6]], PFailed tt).
Proof. vm_compute. reflexivity. Qed.

Print Assumptions C52_open.
Print Assumptions C52_read.
Print Assumptions C52_write.
Print Assumptions C52_stored.
Print Assumptions C52_round_trip.
Print Assumptions C52_iterate.
Print Assumptions C52_cover.
Print Assumptions C52_nonpositive.
Print Assumptions C52_write_overflow_refuted.
Print Assumptions C52_open_overflow_refuted.
Print Assumptions C88_chunks.
Print Assumptions C88_nothing_read_refuted.
