(** Lemmas about the one-hot encoder model. *)
From Coq Require Import String Ascii DecimalString DecimalNat OrderedTypeEx List Arith Bool Lia Permutation Sorted.
From Verif Require Import Base.Num Base.GoRes Base.Mat Base.ListX Base.GoSort Model.OneHot Spec.OneHot Proofs.ScalerP.
Import ListNotations.

(** * The order on strings *)
Lemma sltb_asym a b : String.ltb a b = true -> String.ltb b a = false.
Proof.
  unfold String.ltb. rewrite (String.compare_antisym b a). destruct (String.compare a b); cbn; easy.
Qed.
Lemma sltb_total a b : a <> b -> String.ltb b a = false -> String.ltb a b = true.
Proof.
  unfold String.ltb. rewrite (String.compare_antisym b a).
  destruct (String.compare a b) eqn:E; cbn; try easy. apply String.compare_eq_iff in E. easy.
Qed.
Lemma sltb_irrefl a : String.ltb a a = false.
Proof. destruct (String.ltb a a) eqn:E; [|reflexivity]. now rewrite (sltb_asym _ _ E) in E. Qed.
Lemma sltb_lt a b : String.ltb a b = true <-> String_as_OT.lt a b.
Proof.
  unfold String.ltb. rewrite <- String_as_OT.cmp_lt. unfold String_as_OT.cmp.
  destruct (String.compare a b); split; easy.
Qed.
Lemma sltb_trans a b c : String.ltb a b = true -> String.ltb b c = true -> String.ltb a c = true.
Proof. rewrite !sltb_lt. apply String_as_OT.lt_trans. Qed.
Lemma sltb_negtrans : negtrans String.ltb.
Proof.
  intros a b c H1 H2. destruct (String.ltb a c) eqn:E; [|reflexivity]. exfalso.
  destruct (string_dec a b) as [->|Hab]; [congruence|].
  assert (H3 : String.ltb b a = true) by (apply sltb_total; congruence).
  rewrite (sltb_trans b a c H3 E) in H2. discriminate.
Qed.
Lemma string_sort_ok : go_sort String.ltb (isort String.ltb).
Proof. apply isort_go_sort; [exact sltb_asym|exact sltb_negtrans]. Qed.

(** * Categories *)
(** What ranging over the keys of a Go map delivers. *)
Definition keys_ok (keys : nat -> list string -> list string) : Prop :=
  forall j col, NoDup (keys j col) /\ forall v, In v (keys j col) <-> In v col.

Lemma strict_sorted l : NoDup l -> StronglySorted (fun a b => String.ltb b a = false) l ->
  StronglySorted (fun a b => String.ltb a b = true) l.
Proof.
  induction l as [|x l IH]; intros Hn Hs; constructor.
  - inversion Hn; subst. apply StronglySorted_inv in Hs as [Hs _]. auto.
  - apply StronglySorted_inv in Hs as [_ Hf]. rewrite Forall_forall in *. intros y Hy.
    inversion Hn; subst. apply sltb_total; [intros ->; easy|]. now apply Hf.
Qed.
Lemma strict_nodup l : StronglySorted (fun a b => String.ltb a b = true) l -> NoDup l.
Proof.
  induction 1 as [|x l Hs IH Hf]; constructor; auto. intros Hin. rewrite Forall_forall in Hf.
  specialize (Hf x Hin). now rewrite sltb_irrefl in Hf.
Qed.
Lemma distinct_sorted_unique col c1 c2 : distinct_sorted col c1 -> distinct_sorted col c2 -> c1 = c2.
Proof.
  intros [S1 I1] [S2 I2].
  assert (Hin : forall v, In v c1 <-> In v c2) by (intros v; rewrite I1, I2; reflexivity).
  clear I1 I2. revert c2 S2 Hin. induction S1 as [|x l Hs IH Hf]; intros c2 S2 Hin.
  - destruct c2 as [|y c2]; [reflexivity|]. exfalso. now apply (Hin y); left.
  - destruct S2 as [|y l2 Hs2 Hf2]; [exfalso; now apply (Hin x); left|].
    rewrite Forall_forall in Hf, Hf2.
    assert (x = y).
    { destruct (string_dec x y) as [E|E]; [exact E|exfalso].
      assert (Hx : In x l2) by (destruct (proj1 (Hin x) (or_introl eq_refl)); [congruence|assumption]).
      assert (Hy : In y l) by (destruct (proj2 (Hin y) (or_introl eq_refl)); [congruence|assumption]).
      pose proof (Hf y Hy) as A. pose proof (Hf2 x Hx) as B. rewrite (sltb_asym _ _ A) in B. discriminate. }
    subst y. f_equal. apply IH; [assumption|]. intros v. split; intros Hv.
    + destruct (proj1 (Hin v) (or_intror Hv)) as [<-|H]; [|exact H].
      pose proof (Hf _ Hv) as A. now rewrite sltb_irrefl in A.
    + destruct (proj2 (Hin v) (or_intror Hv)) as [<-|H]; [|exact H].
      pose proof (Hf2 _ Hv) as A. now rewrite sltb_irrefl in A.
Qed.
Lemma categories_ok keys sortf data j : keys_ok keys -> go_sort String.ltb sortf ->
  distinct_sorted (map (fun row => nth j row ""%string) data) (categories keys sortf data j).
Proof.
  intros Hk Hs. unfold categories. set (c := map _ data). destruct (Hk j c) as [Hn Hi].
  destruct (Hs (keys j c)) as [Hp Ho]. split.
  - apply strict_sorted; [|exact Ho]. now apply (Permutation_NoDup Hp).
  - intros v. rewrite <- Hi. split; intros H; [apply Permutation_sym in Hp|]; now apply (Permutation_in _ Hp).
Qed.

(** * The index map *)
Lemma index_map_spec cats : forall m i v, NoDup cats ->
  index_map m i cats v =
  match find (fun p => String.eqb (snd p) v) (combine (seq i (length cats)) cats) with
  | Some (k, _) => Some k
  | None => m v
  end.
Proof.
  induction cats as [|c cats IH]; intros m i v Hn; [reflexivity|].
  inversion Hn as [|? ? Hnin Hn']; subst. cbn [index_map length seq combine find snd].
  rewrite IH by assumption. destruct (String.eqb_spec c v) as [->|E].
  - destruct (find _ _) as [[k v']|] eqn:Ef.
    + apply find_some in Ef as [Hin Hv]. cbn in Hv. apply String.eqb_eq in Hv. subst v'.
      apply in_combine_r in Hin. easy.
    + unfold smap_set. now rewrite String.eqb_refl.
  - destruct (find _ _) as [[k v']|]; [reflexivity|]. unfold smap_set.
    apply String.eqb_neq in E. now rewrite E.
Qed.

(** * One row *)
Section Row.
  Context {N : Num}.
  Lemma block_spec cats v i (rest : list N) : NoDup cats ->
    match find (fun p => String.eqb (snd p) v) (combine (seq i (length cats)) cats) with
    | Some (k, _) => i <= k < i + length cats /\
        upd (k - i) (fun _ => n1) (repeat n0 (length cats) ++ rest) = @block N cats v ++ rest
    | None => repeat n0 (length cats) ++ rest = @block N cats v ++ rest
    end.
  Proof.
    revert i; induction cats as [|c cats IH]; intros i Hn; [reflexivity|].
    inversion Hn as [|? ? Hnin Hn']; subst. cbn [length seq combine find snd repeat app block map].
    unfold block. cbn [map]. fold (@block N cats v). destruct (String.eqb_spec c v) as [->|E].
    - split; [lia|]. rewrite Nat.sub_diag. cbn. f_equal.
      f_equal. clear - Hnin. induction cats as [|c cats IH]; [reflexivity|]. cbn.
      destruct (String.eqb_spec c v) as [->|E]; [exfalso; apply Hnin; now left|].
      f_equal. apply IH. intros H. apply Hnin. now right.
    - specialize (IH (S i) Hn'). destruct (find _ _) as [[k w]|].
      + destruct IH as [Hk Hu]. split; [lia|]. replace (k - i) with (S (k - S i)) by lia. cbn. now rewrite Hu.
      + cbn. now rewrite IH.
  Qed.

  Fixpoint total (cats : list (list string)) : nat :=
    match cats with [] => 0 | c :: r => length c + total r end.
  Lemma fold_total cats a : fold_left (fun n (c : list string) => n + length c) cats a = a + total cats.
  Proof. revert a; induction cats as [|c r IH]; intros a; cbn; [lia|]. rewrite IH. lia. Qed.

  Lemma enc_row_ok cats : forall row (pre : list N),
    Forall (@NoDup string) cats -> length cats <= length row ->
    enc_row cats (map (index_map smap_empty 0) cats) (length cats) row (length pre)
            (pre ++ repeat n0 (total cats)) = Ok (pre ++ encode cats row).
  Proof.
    induction cats as [|c cats IH]; intros row pre Hn Hl; [cbn; destruct row; reflexivity|].
    destruct row as [|v row]; cbn in Hl; [lia|]. inversion Hn as [|? ? Hc Hn']; subst.
    cbn [length map enc_row total encode].
    rewrite (index_map_spec c smap_empty 0 v Hc).
    pose proof (block_spec c v 0 (repeat n0 (total cats)) Hc) as Hb.
    rewrite repeat_app.
    assert (Hrec : enc_row cats (map (index_map smap_empty 0) cats) (length cats) row (length pre + length c)
                     (pre ++ @block N c v ++ repeat n0 (total cats)) = Ok (pre ++ block c v ++ encode cats row)).
    { replace (length pre + length c) with (length (pre ++ @block N c v))
        by (rewrite app_length; unfold block; now rewrite map_length).
      rewrite !app_assoc. apply IH; [assumption|lia]. }
    destruct (find _ _) as [[k w]|].
    - destruct Hb as [Hk Hu]. rewrite Nat.sub_0_r in Hu. unfold set_row.
      replace (Nat.ltb (length pre + k) (length (pre ++ repeat n0 (length c) ++ repeat n0 (total cats)))) with true.
      2:{ symmetry. apply Nat.ltb_lt. rewrite !app_length, repeat_length. lia. }
      cbn [bind]. rewrite upd_app_r, Hu. exact Hrec.
    - cbn [bind]. rewrite Hb. exact Hrec.
  Qed.
  Lemma enc_row_short : forall nf cats maps row out (acc : list N),
    length row < nf -> length maps = nf -> length cats = nf -> enc_row cats maps nf row out acc = Panic.
  Proof.
    induction nf as [|nf IH]; intros cats maps row out acc H1 H2 H3; [lia|].
    destruct cats as [|c cats]; [discriminate|]. destruct maps as [|m maps]; [discriminate|].
    destruct row as [|v row]; [reflexivity|]. cbn in *.
    destruct (m v) as [k|].
    - unfold set_row. destruct (Nat.ltb _ _); cbn; [|reflexivity]. apply IH; lia.
    - cbn. apply IH; lia.
  Qed.
  Lemma encode_length cats row : length cats <= length row -> length (@encode N cats row) = total cats.
  Proof.
    revert row; induction cats as [|c cats IH]; intros [|v row] H; cbn in *; try lia.
    rewrite app_length, IH by lia. unfold block. now rewrite map_length.
  Qed.
  Lemma encode_firstn cats row : @encode N cats (firstn (length cats) row) = encode cats row.
  Proof.
    revert row; induction cats as [|c cats IH]; intros [|v row]; cbn; try reflexivity. now rewrite IH.
  Qed.
End Row.

(** * Fitted encoders *)
Definition fitted_on (data : list (list string)) (e : encoder) : Prop :=
  data <> [] /\ e_fitted e = true /\ 0 < e_nf e /\ length (e_cats e) = e_nf e /\
  (forall row, In row data -> length row = e_nf e) /\
  (forall j, j < e_nf e -> distinct_sorted (map (fun row => nth j row ""%string) data) (nth j (e_cats e) [])) /\
  e_idx e = map (index_map smap_empty 0) (e_cats e) /\
  e_nout e = total (e_cats e).

Lemma e_fit_ok keys sortf e data e' : keys_ok keys -> go_sort String.ltb sortf ->
  e_fit keys sortf e data = (e', Ok tt) -> fitted_on data e'.
Proof.
  intros Hk Hs. unfold e_fit. destruct data as [|r0 data]; [discriminate|].
  destruct r0 as [|s0 r0]; [discriminate|]. set (D := (s0 :: r0) :: data).
  remember (length (s0 :: r0)) as nf eqn:Hnf. assert (Hpos : 0 < nf) by (rewrite Hnf; cbn; lia).
  destruct (find _ _) eqn:Ef; [discriminate|]. intros H. injection H as <-.
  assert (Hw : forall row, In row D -> length row = nf).
  { intros row Hr. apply (find_none _ _ Ef) in Hr. apply negb_false_iff, Nat.eqb_eq in Hr. exact Hr. }
  split; [easy|]. split; [reflexivity|]. split; [exact Hpos|].
  split; [cbn [e_cats e_nf]; now rewrite map_length, seq_length|].
  split; [exact Hw|]. split; [|split; [reflexivity|cbn -[D]; now rewrite fold_total]].
  intros j Hj. cbn [e_cats e_nf] in *.
  rewrite (nth_indep _ [] (categories keys sortf D 0)) by now rewrite map_length, seq_length.
  rewrite map_nth, seq_nth by exact Hj. now apply categories_ok.
Qed.
Lemma e_fit_result keys sortf e data :
  (exists e', e_fit keys sortf e data = (e', Ok tt)) \/ (exists x, e_fit keys sortf e data = (e, Err x)).
Proof.
  unfold e_fit. destruct data as [|[|s0 r0] data]; [right; eauto|right; eauto|].
  destruct (find _ _); [right; eauto|left; eauto].
Qed.
Lemma e_fit_rect keys sortf e data :
  (exists e', e_fit keys sortf e data = (e', Ok tt)) <->
  (exists w, 0 < w /\ data <> [] /\ forall row, In row data -> length row = w).
Proof.
  unfold e_fit. destruct data as [|[|s0 r0] data].
  - split; [intros [e' H]; discriminate|intros (w & _ & H & _); easy].
  - split; [intros [e' H]; discriminate|]. intros (w & Hw & _ & H).
    specialize (H [] (or_introl eq_refl)). cbn in H. lia.
  - destruct (find _ _) as [row|] eqn:Ef.
    + split; [intros [e' H]; discriminate|]. intros (w & Hw & _ & H).
      apply find_some in Ef as [Hin Hr]. apply negb_true_iff, Nat.eqb_neq in Hr.
      rewrite (H row Hin), <- (H _ (or_introl eq_refl)) in Hr. easy.
    + split; [intros _|eauto]. exists (S (length r0)). repeat split; [lia|easy|].
      intros row Hr. apply (find_none _ _ Ef) in Hr. now apply negb_false_iff, Nat.eqb_eq in Hr.
Qed.

Section Trans.
  Context {N : Num}.
  Lemma fitted_cats_nodup data e : fitted_on data e -> Forall (@NoDup string) (e_cats e).
  Proof.
    intros (_ & _ & _ & Hl & _ & Hc & _). apply Forall_forall. intros c Hin.
    apply In_nth with (d := []) in Hin as (j & Hj & <-). apply strict_nodup. apply Hc. lia.
  Qed.
  Lemma fitted_nout_pos data e : fitted_on data e -> 0 < e_nout e.
  Proof.
    intros (Hne & _ & Hn & Hl & _ & Hc & _ & ->). specialize (Hc 0 Hn) as [_ Hin].
    destruct (e_cats e) as [|c cs]; cbn in *; [lia|]. destruct c as [|x c]; [|cbn; lia]. exfalso.
    destruct data as [|r data]; [easy|]. now apply (Hin (nth 0 r ""%string)); left.
  Qed.
  (** Rows at least as long as the fitted width, the first of exactly that width. *)
  Lemma e_transform_ok data e D : fitted_on data e ->
    (exists r0 rest, D = r0 :: rest /\ length r0 = e_nf e) ->
    (forall row, In row D -> e_nf e <= length row) ->
    @e_transform N e D = Ok (mkmat (e_nout e) (map (encode (e_cats e)) D)).
  Proof.
    intros Hf (r0 & rest & -> & Hr0) Hrows. pose proof (fitted_cats_nodup _ _ Hf) as Hnd.
    pose proof (fitted_nout_pos _ _ Hf) as Hpos.
    destruct Hf as (Hne & Hfit & Hn & Hl & _ & _ & Hidx & Hout).
    unfold e_transform. rewrite Hfit, Hr0, Nat.eqb_refl. cbn [negb].
    unfold newdense. replace (Nat.eqb (e_nout e) 0) with false by (symmetry; apply Nat.eqb_neq; lia).
    cbn [length Nat.eqb orb bind].
    rewrite (mapM_ok _ (encode (e_cats e))); [reflexivity|].
    intros row Hin. rewrite Hidx, <- Hl, Hout. apply (enc_row_ok (e_cats e) row []); [exact Hnd|].
    rewrite Hl. now apply Hrows.
  Qed.
  Lemma mapM_panic {A B} (g : A -> res B) l : (forall x, In x l -> (exists y, g x = Ok y) \/ g x = Panic) ->
    (exists x, In x l /\ g x = Panic) -> mapM g l = Panic.
  Proof.
    induction l as [|a l IH]; intros Hall (x & Hin & Hx); [easy|]. cbn.
    destruct (Hall a (or_introl eq_refl)) as [[y Ey]|Ey]; rewrite Ey; cbn; [|reflexivity].
    rewrite IH; [reflexivity| |].
    - intros z Hz. apply Hall. now right.
    - destruct Hin as [<-|Hin]; [congruence|]. eauto.
  Qed.
  Lemma e_transform_short data e D : fitted_on data e ->
    (exists r0 rest, D = r0 :: rest /\ length r0 = e_nf e) ->
    (exists row, In row D /\ length row < e_nf e) ->
    @e_transform N e D = Err EPanic.
  Proof.
    intros Hf (r0 & rest & -> & Hr0) (row & Hin & Hshort). pose proof (fitted_cats_nodup _ _ Hf) as Hnd.
    pose proof (fitted_nout_pos _ _ Hf) as Hpos.
    destruct Hf as (Hne & Hfit & Hn & Hl & _ & _ & Hidx & Hout).
    unfold e_transform. rewrite Hfit, Hr0, Nat.eqb_refl. cbn [negb].
    unfold newdense. replace (Nat.eqb (e_nout e) 0) with false by (symmetry; apply Nat.eqb_neq; lia).
    cbn [length Nat.eqb orb bind].
    assert (Hil : length (e_idx e) = e_nf e) by (rewrite Hidx, map_length; exact Hl).
    rewrite mapM_panic; [reflexivity| |].
    - intros rw _. destruct (le_lt_dec (e_nf e) (length rw)) as [Hle|Hlt].
      + left. exists (encode (e_cats e) rw). rewrite Hidx, <- Hl, Hout.
        apply (enc_row_ok (e_cats e) rw []); [exact Hnd|lia].
      + right. now apply enc_row_short.
    - exists row. split; [exact Hin|]. now apply enc_row_short.
  Qed.
End Trans.

(** * Decoding *)
Lemma block_inj {N : Num} cats v w : @n1 N <> @n0 N -> In v cats ->
  @block N cats v = @block N cats w -> v = w.
Proof.
  intros Hne Hin H. unfold block in H.
  assert (E := f_equal (@length N) H). clear E.
  induction cats as [|c cats IH]; [easy|]. cbn in H. injection H as H1 H2.
  destruct Hin as [->|Hin]; [|now apply IH].
  rewrite String.eqb_refl in H1. destruct (String.eqb_spec v w) as [E|E]; [exact E|]. congruence.
Qed.
Lemma app_inj_len {A} (a b c d : list A) : length a = length c -> a ++ b = c ++ d -> a = c /\ b = d.
Proof.
  revert c; induction a as [|x a IH]; intros [|y c] Hl H; cbn in *; try lia; [auto|].
  injection H as -> H. destruct (IH c) as [-> ->]; auto.
Qed.
Lemma encode_inj {N : Num} cats : @n1 N <> @n0 N -> forall r1 r2,
  length r1 = length cats -> length r2 = length cats ->
  (forall j, j < length cats -> In (nth j r1 ""%string) (nth j cats [])) ->
  @encode N cats r1 = @encode N cats r2 -> r1 = r2.
Proof.
  intros Hne. induction cats as [|c cats IH]; intros [|v r1] [|w r2] H1 H2 Hin H; cbn in *; try lia; [reflexivity|].
  apply app_inj_len in H as [Hb He]; [|unfold block; now rewrite !map_length].
  f_equal.
  - apply (block_inj c v w Hne); [apply (Hin 0); lia|exact Hb].
  - apply IH; try lia; [|exact He]. intros j Hj. apply (Hin (S j)). lia.
Qed.

(** Exactly one entry of the block of a known value is 1. *)
Lemma block_one_count {N : Num} cats v : NoDup cats -> In v cats ->
  exists k, k < length cats /\ nth k cats ""%string = v /\
  forall i, i < length cats -> nth i (@block N cats v) n0 = if Nat.eqb i k then n1 else n0.
Proof.
  induction cats as [|c cats IH]; intros Hn Hin; [easy|]. inversion Hn as [|? ? Hnin Hn']; subst.
  destruct Hin as [->|Hin].
  - exists 0. repeat split; [cbn; lia|]. intros [|i] Hi; cbn.
    + now rewrite String.eqb_refl.
    + cbn in Hi. assert (Hlt : i < length cats) by lia. clear - Hnin Hlt.
      revert i Hlt. induction cats as [|c cats IH]; intros [|i] Hlt; cbn in *; try lia.
      * destruct (String.eqb_spec c v) as [->|E]; [exfalso; auto|reflexivity].
      * apply IH; [auto|lia].
  - destruct (IH Hn' Hin) as (k & Hk & Ek & H). exists (S k). repeat split; [cbn; lia|exact Ek|].
    intros [|i] Hi; cbn.
    + destruct (String.eqb_spec c v) as [->|E]; [easy|reflexivity].
    + apply H. cbn in Hi; lia.
Qed.
Lemma block_unknown {N : Num} cats v : ~ In v cats -> @block N cats v = repeat n0 (length cats).
Proof.
  induction cats as [|c cats IH]; intros H; [reflexivity|]. cbn.
  destruct (String.eqb_spec c v) as [->|E]; [exfalso; apply H; now left|].
  fold (@block N cats v). rewrite IH; [reflexivity|]. intros Hi. apply H. now right.
Qed.

(** * Names *)
Lemma names_length e inputs : e_fitted e = true -> length (e_names e inputs) = total (e_cats e).
Proof.
  intros Hf. unfold e_names. rewrite Hf. unfold mapi. generalize 0 as k.
  induction (e_cats e) as [|c cats IH]; intros k; [reflexivity|]. cbn. rewrite app_length, map_length, IH. reflexivity.
Qed.

Fixpoint has_us (s : string) : bool :=
  match s with
  | EmptyString => false
  | String c r => Ascii.eqb c "_"%char || has_us r
  end.
Lemma itoa_no_us i : has_us (itoa i) = false.
Proof.
  unfold itoa. induction (Nat.to_uint i); cbn; auto.
Qed.
Lemma itoa_inj i j : itoa i = itoa j -> i = j.
Proof.
  unfold itoa. intros H. apply (f_equal NilEmpty.uint_of_string) in H. rewrite !NilEmpty.usu in H.
  injection H as H. now apply Unsigned.to_uint_inj.
Qed.
Lemma split_us a b c d : has_us a = false -> has_us b = false ->
  (a ++ "_" ++ c)%string = (b ++ "_" ++ d)%string -> a = b /\ c = d.
Proof.
  revert b; induction a as [|x a IH]; intros [|y b] Ha Hb H; cbn in *.
  - injection H as ->. auto.
  - injection H as <- H. discriminate.
  - injection H as -> H. discriminate.
  - injection H as -> H. apply orb_false_iff in Ha as [_ Ha]. apply orb_false_iff in Hb as [_ Hb].
    destruct (IH b Ha Hb H) as [-> ->]. auto.
Qed.
Lemma names_nodup data e : fitted_on data e -> NoDup (e_names e []).
Proof.
  intros Hf. pose proof (fitted_cats_nodup _ _ Hf) as Hnd. unfold e_names.
  destruct Hf as (_ & -> & _). unfold mapi. generalize 0 as k.
  assert (Hgen : forall cats k x, In x (concat (mapi_from k (fun i cs => map (fun c => (input_name [] i ++ "_" ++ c)%string) cs) cats)) ->
     exists i c, k <= i /\ x = ("x" ++ itoa i ++ "_" ++ c)%string).
  { induction cats as [|c cats IH]; intros k x Hx; [easy|]. cbn in Hx. apply in_app_iff in Hx as [Hx|Hx].
    - apply in_map_iff in Hx as (y & <- & _). exists k, y. split; [lia|].
      unfold input_name. destruct k; cbn; reflexivity.
    - destruct (IH _ _ Hx) as (i & y & Hi & ->). exists i, y. split; [lia|reflexivity]. }
  induction Hnd as [|c cats Hc Hcs IH]; intros k; [constructor|]. cbn.
  apply NoDup_app_intro.
  - clear - Hc. induction Hc as [|x l Hn Hd IH]; cbn; constructor; auto.
    intros Hin. apply in_map_iff in Hin as (y & Hy & Hin).
    assert (E : input_name [] k = ("x" ++ itoa k)%string) by (unfold input_name; destruct k; reflexivity).
    rewrite E in Hy. cbn in Hy. injection Hy as Hy. apply split_us in Hy as [_ ->]; auto using itoa_no_us.
  - apply IH.
  - intros x H1 H2. apply in_map_iff in H1 as (y & <- & _).
    apply Hgen in H2 as (i & z & Hi & H2).
    assert (E : input_name [] k = ("x" ++ itoa k)%string) by (unfold input_name; destruct k; reflexivity).
    rewrite E in H2. cbn in H2. injection H2 as H2. apply split_us in H2 as [H2 _]; auto using itoa_no_us.
    apply itoa_inj in H2. lia.
Qed.
