(** C17, C18, C61 and the encoder part of C03 - preprocessing/encoder.go.
    All statements hold for every arithmetic; only 0 and 1 are ever written. *)
From Coq Require Import String List Arith Bool Lia Sorted Permutation.
From Verif Require Import Base.Num Base.GoRes Base.Mat Base.GoSort Base.ListX Model.OneHot Spec.OneHot Proofs.OneHotP.
Import ListNotations.
Local Open Scope string_scope.

(** [keys] stands for Go's map iteration (any order), [sortf] for sort.Strings. *)
Definition map_order (keys : nat -> list string -> list string) : Prop :=
  forall j col, NoDup (keys j col) /\ forall v, In v (keys j col) <-> In v col.
Definition column_of (data : list (list string)) (j : nat) : list string :=
  map (fun row => nth j row "") data.

Lemma total_sum cats : total cats = list_sum (map (@length string) cats).
Proof. induction cats; cbn; auto. Qed.

(** ** C17 *)
Theorem C17_encoding : forall (N : Num) keys sortf e data e',
  map_order keys -> go_sort String.ltb sortf -> e_fit keys sortf e data = (e', Ok tt) ->
  exists cats w, 0 < w /\ length cats = w /\ (forall row, In row data -> length row = w) /\
  (forall j, j < w -> distinct_sorted (column_of data j) (nth j cats [])) /\
  (forall inputs, length (e_names e' inputs) = list_sum (map (@length string) cats)) /\
  forall D, D <> [] -> (forall row, In row D -> length row = w) ->
    @e_transform N e' D = Ok (mkmat (list_sum (map (@length string) cats)) (map (encode cats) D)).
Proof.
  intros N keys sortf e data e' Hk Hs Hf. apply e_fit_ok in Hf; [|assumption|assumption].
  pose proof Hf as (H1 & H2 & H3 & H4 & H5 & H6 & H7 & H8).
  exists (e_cats e'), (e_nf e'). repeat (split; [assumption|]). split.
  - intros inputs. rewrite <- total_sum. now apply names_length.
  - intros D Hne Hw. rewrite <- total_sum, <- H8. apply (e_transform_ok data e' D Hf).
    + destruct D as [|r0 rest]; [easy|]. exists r0, rest. split; [reflexivity|]. apply Hw. now left.
    + intros row Hin. rewrite (Hw row Hin). lia.
Qed.
Print Assumptions C17_encoding.

(** Reading of the specification: a known value gives exactly one 1, at its position
    in the sorted list; an unknown value gives zeros. *)
Theorem C17_block : forall (N : Num) col cats v, distinct_sorted col cats ->
  (In v col -> exists k, k < length cats /\ nth k cats "" = v /\
     forall i, i < length cats -> nth i (@block N cats v) n0 = if Nat.eqb i k then n1 else n0) /\
  (~ In v col -> @block N cats v = repeat n0 (length cats)).
Proof.
  intros N col cats v [Hs Hi]. split; intros H.
  - apply block_one_count; [now apply strict_nodup|now apply Hi].
  - apply block_unknown. rewrite Hi. exact H.
Qed.
Print Assumptions C17_block.

(** The learned encoder does not depend on the map iteration order, nor on how the
    sort is implemented. *)
Theorem C17_order_independent : forall keys1 keys2 sort1 sort2 e1 e2 data e1' e2',
  map_order keys1 -> map_order keys2 -> go_sort String.ltb sort1 -> go_sort String.ltb sort2 ->
  e_fit keys1 sort1 e1 data = (e1', Ok tt) -> e_fit keys2 sort2 e2 data = (e2', Ok tt) ->
  e1' = e2'.
Proof.
  intros k1 k2 s1 s2 e1 e2 data e1' e2' Hk1 Hk2 Hs1 Hs2 H1 H2.
  assert (E : forall j, categories k1 s1 data j = categories k2 s2 data j).
  { intros j. apply (distinct_sorted_unique (column_of data j)); now apply categories_ok. }
  unfold e_fit in *. destruct data as [|[|x r0] data]; try discriminate.
  destruct (find _ _); [discriminate|]. injection H1 as <-. injection H2 as <-.
  rewrite (map_ext _ _ E), E. reflexivity.
Qed.
Print Assumptions C17_order_independent.

(** The training table can be decoded: no other table has the same encoding. *)
Theorem C17_decodable : forall (N : Num) keys sortf e data e' D Y, @n1 N <> @n0 N ->
  map_order keys -> go_sort String.ltb sortf -> e_fit keys sortf e data = (e', Ok tt) ->
  @e_transform N e' data = Ok Y -> @e_transform N e' D = Ok Y -> length D = length data ->
  (forall row, In row D -> exists w r0, In r0 data /\ w = length r0 /\ length row = w) -> D = data.
Proof.
  intros N keys sortf e data e' D Y Hne Hk Hs Hf HY1 HY2 Hlen Hw.
  apply e_fit_ok in Hf; [|assumption|assumption].
  pose proof Hf as (H1 & H2 & H3 & H4 & H5 & H6 & H7 & H8).
  assert (Hw' : forall row, In row D -> length row = e_nf e').
  { intros row Hin. destruct (Hw row Hin) as (w & r0 & Hr0 & -> & ->). now apply H5. }
  rewrite (e_transform_ok data e' data Hf) in HY1.
  2:{ destruct data as [|r0 rest]; [easy|]. exists r0, rest. split; [reflexivity|]. apply H5. now left. }
  2:{ intros row Hin. rewrite (H5 row Hin). lia. }
  rewrite (e_transform_ok data e' D Hf) in HY2.
  2:{ destruct D as [|r0 rest]; [destruct data; [easy|discriminate]|].
      exists r0, rest. split; [reflexivity|]. apply Hw'. now left. }
  2:{ intros row Hin. rewrite (Hw' row Hin). lia. }
  assert (E : map (@encode N (e_cats e')) data = map (encode (e_cats e')) D) by congruence.
  assert (Hin : forall row j, In row data -> j < e_nf e' -> In (nth j row "") (nth j (e_cats e') [])).
  { intros row j Hr Hj. apply (H6 j Hj). apply in_map_iff. exists row. auto. }
  clear HY1 HY2 Hf H1 H6 Hw. revert D Hlen Hw' E. induction data as [|r data IH]; intros [|d D] Hlen Hw' E;
    try discriminate; [reflexivity|].
  cbn in E. injection E as E1 E2. f_equal.
  - symmetry. apply (encode_inj (e_cats e') Hne); [rewrite H4; apply H5; now left|rewrite H4; apply Hw'; now left| |exact E1].
    intros j Hj. apply Hin; [now left|lia].
  - apply IH; auto.
    + intros row Hr. apply H5. now right.
    + intros row j Hr. apply Hin. now right.
    + intros row Hr. apply Hw'. now right.
Qed.
Print Assumptions C17_decodable.

Definition some_keys (j : nat) (col : list string) : list string := nodup string_dec col.
Lemma some_keys_ok : map_order some_keys.
Proof. intros j col. split; [apply NoDup_nodup|]. intros v. apply nodup_In. Qed.

Example C17_example :
  let D := [["cat"; "s"]; ["dog"; "l"]; ["cat"; "l"]] in
  exists e', e_fit some_keys (isort String.ltb) e_new D = (e', Ok tt) /\
  @e_transform QNum e' D = Ok (mkmat 4 [[n1; n0; n0; n1]; [n0; n1; n1; n0]; [n1; n0; n1; n0]]) /\
  e_names e' ["animal"] = ["animal_cat"; "animal_dog"; "x1_l"; "x1_s"].
Proof. eexists. split; [vm_compute; reflexivity|]. split; vm_compute; reflexivity. Qed.

(** ** C18 *)
Theorem C18_ragged : forall (N : Num) keys sortf e data e' r0 rest,
  map_order keys -> go_sort String.ltb sortf -> e_fit keys sortf e data = (e', Ok tt) ->
  exists w, (forall row, In row data -> length row = w) /\
  (length r0 = w -> (exists row, In row rest /\ length row < w) ->
     @e_transform N e' (r0 :: rest) = Err EPanic) /\
  (length r0 = w -> (forall row, In row rest -> w <= length row) ->
     exists Y, @e_transform N e' (r0 :: rest) = Ok Y /\
     @e_transform N e' (map (firstn w) (r0 :: rest)) = Ok Y) /\
  (length r0 <> w -> @e_transform N e' (r0 :: rest) = Err (EDimension w (length r0))) /\
  @e_transform N e' [] = Err EPanic.
Proof.
  intros N keys sortf e data e' r0 rest Hk Hs Hf. apply e_fit_ok in Hf; [|assumption|assumption].
  pose proof Hf as (H1 & H2 & H3 & H4 & H5 & H6 & H7 & H8).
  exists (e_nf e'). split; [exact H5|]. split; [|split; [|split]].
  - intros Hr (row & Hin & Hshort). apply (e_transform_short data e' _ Hf).
    + exists r0, rest. auto.
    + exists row. split; [now right|exact Hshort].
  - intros Hr Hlong. eexists. split.
    + apply (e_transform_ok data e' _ Hf); [exists r0, rest; auto|].
      intros row [<-|Hin]; [lia|auto].
    + rewrite (e_transform_ok data e' _ Hf).
      * f_equal. f_equal. rewrite map_map. apply map_ext. intros row. rewrite <- H4. apply encode_firstn.
      * exists (firstn (e_nf e') r0), (map (firstn (e_nf e')) rest). split; [reflexivity|].
        rewrite firstn_length. lia.
      * intros row Hin. apply in_map_iff in Hin as (x & <- & Hx). rewrite firstn_length.
        destruct Hx as [<-|Hx]; [lia|]. specialize (Hlong x Hx). lia.
  - intros Hr. unfold e_transform. rewrite H2. apply Nat.eqb_neq in Hr. cbn. now rewrite Hr.
  - unfold e_transform. rewrite H2. reflexivity.
Qed.
Print Assumptions C18_ragged.

Example C18_example :
  let D := [["cat"; "s"]; ["dog"; "l"]] in
  exists e', e_fit some_keys (isort String.ltb) e_new D = (e', Ok tt) /\
  @e_transform QNum e' [["cat"; "s"]; ["dog"]] = Err EPanic /\
  @e_transform QNum e' [["cat"; "s"]; ["dog"; "l"; "extra"]] = @e_transform QNum e' D.
Proof. eexists. split; [vm_compute; reflexivity|]. split; vm_compute; reflexivity. Qed.

(** ** C03 for the encoder: Fit succeeds exactly on non-empty rectangular tables,
    a failing Fit changes nothing, and an encoder without successful Fit refuses. *)
Inductive ecall := EFit (data : list (list string)) | ETransform (data : list (list string)) | EReset.
Definition e_step keys sortf (e : encoder) (c : ecall) : encoder :=
  match c with
  | EFit data => fst (e_fit keys sortf e data)
  | ETransform _ => e
  | EReset => e_reset e
  end.
(** The table of the last successful fit since the last reset; most recent first. *)
Definition rect (data : list (list string)) : bool :=
  match data with
  | [] | [] :: _ => false
  | r0 :: _ => forallb (fun row => Nat.eqb (length row) (length r0)) data
  end.
Fixpoint last_table (calls : list ecall) : option (list (list string)) :=
  match calls with
  | [] => None
  | EReset :: _ => None
  | EFit D :: r => if rect D then Some D else last_table r
  | ETransform _ :: r => last_table r
  end.
Lemma rect_fit keys sortf e D : rect D = true -> exists e', e_fit keys sortf e D = (e', Ok tt).
Proof.
  intros H. apply e_fit_rect. destruct D as [|[|s r0] D]; try discriminate.
  exists (length (s :: r0)). split; [cbn; lia|]. split; [easy|]. intros row Hr.
  unfold rect in H. rewrite forallb_forall in H. now apply Nat.eqb_eq, H.
Qed.
Lemma rect_nofit keys sortf e D : rect D = false -> fst (e_fit keys sortf e D) = e.
Proof.
  intros H. destruct (e_fit_result keys sortf e D) as [Hf|[x Hx]]; [|now rewrite Hx].
  exfalso. apply e_fit_rect in Hf as (w & Hw & Hne & Hr).
  destruct D as [|[|s r0] D]; [easy| |].
  - specialize (Hr [] (or_introl eq_refl)). cbn in Hr. lia.
  - assert (Ht : rect ((s :: r0) :: D) = true); [|congruence].
    unfold rect. apply forallb_forall. intros row Hin. apply Nat.eqb_eq.
    rewrite (Hr row Hin). symmetry. apply Hr. now left.
Qed.
Theorem C03_one_hot : forall (N : Num) keys sortf (history : list ecall),
  map_order keys -> go_sort String.ltb sortf ->
  let e := fold_left (e_step keys sortf) history e_new in
  match last_table (rev history) with
  | None => forall D, @e_transform N e D = Err ENotFitted
  | Some T => forall D, D <> [] -> (forall row r0, In row D -> In r0 T -> length row = length r0) ->
              exists Y, @e_transform N e D = Ok Y /\ nrows Y = length D
  end.
Proof.
  intros N keys sortf h Hk Hs e.
  assert (Hinv : match last_table (rev h) with None => e_fitted e = false | Some T => fitted_on T e end).
  { unfold e. rewrite <- fold_left_rev_right. induction (rev h) as [|c l IH]; [reflexivity|].
    cbn [last_table fold_right]. set (e0 := fold_right _ _ l) in *.
    destruct c as [D|D|]; cbn [e_step]; [|exact IH|reflexivity].
    destruct (rect D) eqn:Er.
    - destruct (rect_fit keys sortf e0 D Er) as [e' He]. rewrite He. now apply e_fit_ok in He.
    - rewrite rect_nofit by assumption. exact IH. }
  destruct (last_table (rev h)) as [T|].
  - intros D Hne Hw. pose proof Hinv as (H1 & H2 & H3 & H4 & H5 & H6 & H7 & H8).
    assert (HD : forall row, In row D -> length row = e_nf e).
    { intros row Hin. destruct T as [|t0 T]; [easy|]. rewrite (Hw row t0 Hin (or_introl eq_refl)).
      apply H5. now left. }
    rewrite (e_transform_ok T e D Hinv).
    + eexists. split; [reflexivity|]. unfold nrows. cbn. now rewrite map_length.
    + destruct D as [|r0 rest]; [easy|]. exists r0, rest. split; [reflexivity|]. apply HD. now left.
    + intros row Hin. rewrite (HD row Hin). lia.
  - intros D. unfold e_transform. rewrite Hinv. reflexivity.
Qed.
Print Assumptions C03_one_hot.

Example C03_one_hot_example :
  last_table (rev [EFit [["a"]]; EFit [["a"; "b"]; ["c"]]; ETransform [["a"]]]) = Some [["a"]].
Proof. reflexivity. Qed.

(** ** C61: output names *)
Theorem C61_default_names_distinct : forall keys sortf e data e',
  map_order keys -> go_sort String.ltb sortf -> e_fit keys sortf e data = (e', Ok tt) ->
  NoDup (e_names e' []).
Proof. intros keys sortf e data e' Hk Hs Hf. apply (names_nodup data). now apply (e_fit_ok keys sortf e). Qed.
Print Assumptions C61_default_names_distinct.

Theorem C61_custom_names_distinct_refuted : exists data inputs e',
  e_fit some_keys (isort String.ltb) e_new data = (e', Ok tt) /\
  NoDup inputs /\ length inputs = e_nf e' /\ ~ NoDup (e_names e' inputs).
Proof.
  exists [["b_c"; "c"]], ["a"; "a_b"]. eexists. split; [vm_compute; reflexivity|].
  split; [|split; [reflexivity|]].
  - repeat constructor; cbn; intuition discriminate.
  - vm_compute. intros H. inversion H as [|? ? Hn _]. apply Hn. now left.
Qed.
Print Assumptions C61_custom_names_distinct_refuted.
