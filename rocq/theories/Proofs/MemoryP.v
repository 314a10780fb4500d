(** Proofs about the memory helpers. *)
From Coq Require Import List Arith ZArith Bool Lia Permutation.
From Verif Require Import Base.GoRes Base.GoInt Base.ListX Model.Memory Spec.Memory Proofs.DatasetP Model.Dataset.
Import ListNotations.
Local Open Scope list_scope.
Local Open Scope Z_scope.

(** ** Budget *)
Lemma serve_ledger m r : 0 <= used m <= max_mem m -> max_mem m < 2 ^ 63 -> 0 <= amount r -> max_mem m + amount r < 2 ^ 63 ->
  max_mem (serve m r) = max_mem m /\ used (serve m r) = ledger (max_mem m) (used m) r
  /\ 0 <= used (serve m r) <= max_mem m.
Proof.
  intros Hu Hm Hr Hs. destruct r as [b|b]; cbn [amount] in *; unfold serve, ledger.
  - unfold allocate. rewrite wrap_id by (unfold int64; lia). destruct (Z.ltb_spec (max_mem m) (used m + b)); cbn; lia.
  - unfold free. rewrite wrap_id by (unfold int64; lia). cbn. destruct (Z.ltb_spec (used m - b) 0); lia.
Qed.
Lemma serve_all_ledger rs : forall m, 0 <= used m <= max_mem m -> max_mem m < 2 ^ 63 ->
  (forall r, In r rs -> 0 <= amount r /\ max_mem m + amount r < 2 ^ 63) ->
  used (serve_all m rs) = fold_left (ledger (max_mem m)) rs (used m) /\ max_mem (serve_all m rs) = max_mem m
  /\ 0 <= used (serve_all m rs) <= max_mem m.
Proof.
  induction rs as [|r rs IH]; intros m Hu Hm Hr; [cbn; lia|]. cbn [serve_all fold_left].
  destruct (Hr r (or_introl eq_refl)) as [R1 R2]. destruct (serve_ledger m r Hu Hm R1 R2) as (A & B & C).
  destruct (IH (serve m r)) as (D & E & F); [rewrite A; exact C|rewrite A; exact Hm| |].
  - intros r' Hr'. rewrite A. apply Hr. now right.
  - unfold serve_all in *. rewrite A in *. split; [rewrite D, B; reflexivity|]. split; [exact E|exact F].
Qed.
Lemma zsum_perm l1 l2 : Permutation l1 l2 -> zsum l1 = zsum l2.
Proof. unfold zsum. induction 1; cbn [fold_right] in *; lia. Qed.
Lemma zsum_cons x l : zsum (x :: l) = x + zsum l.
Proof. reflexivity. Qed.
Lemma outstanding_sum m l m' l' : outstanding m l m' l' -> used m = zsum l -> (forall b, In b l -> 0 <= b) -> used m <= max_mem m -> max_mem m < 2 ^ 63 ->
  used m' = zsum l' /\ (forall b, In b l' -> 0 <= b) /\ used m' <= max_mem m' /\ max_mem m' = max_mem m.
Proof.
  assert (P0 : forall l, (forall b, In b l -> 0 <= b) -> 0 <= zsum l).
  { clear; induction l as [|x k IH]; intros H; [cbn; lia|]. rewrite zsum_cons. pose proof (H x (or_introl eq_refl)). assert (0 <= zsum k) by (apply IH; intros; apply H; now right). lia. }
  induction 1 as [| m l m1 l1 b m2 H IH Hb Ho E | m l m1 l1 b m2 H IH Hb Ho E | m l m1 l1 b l2 H IH P]; intros Hu Hp Hm H63; [auto| | |];
    destruct (IH Hu Hp Hm H63) as (A & B & C & D); pose proof (P0 l1 B).
  - unfold allocate in E. rewrite wrap_id in E by (unfold int64; lia). destruct (Z.ltb_spec (max_mem m1) (used m1 + b)); [discriminate|].
    injection E as <-. cbn [used max_mem]. rewrite zsum_cons. split; [lia|]. split; [intros x [<-|Hx]; auto|]. lia.
  - unfold allocate in E. rewrite wrap_id in E by (unfold int64; lia). destruct (Z.ltb_spec (max_mem m1) (used m1 + b)); [|discriminate].
    injection E as <-. auto.
  - pose proof (zsum_perm _ _ P) as S. rewrite zsum_cons in S.
    assert (B' : forall x, In x (b :: l2) -> 0 <= x) by (intros x Hx; apply B; apply Permutation_in with (2 := Hx); now symmetry).
    assert (0 <= b) by (apply B'; now left). assert (B2 : forall x, In x l2 -> 0 <= x) by (intros x Hx; apply B'; now right). pose proof (P0 l2 B2).
    unfold free. rewrite wrap_id by (unfold int64; lia). cbn. destruct (Z.ltb_spec (used m1 - b) 0); [lia|]. split; [lia|]. split; [exact B2|]. lia.
Qed.

(** ** Views *)
Definition placed (rows cols : Z) (v : view) (a b : Z) : Prop :=
  0 <= a /\ 0 <= b /\ 0 <= z_rows v /\ 0 <= z_cols v /\ a + z_rows v <= rows /\ b + z_cols v <= cols
  /\ z_stride v = cols /\ (0 < z_rows v -> 0 < z_cols v -> z_off v = a * cols + b).
Lemma wrap_small z : 0 <= z < 2 ^ 63 -> wrap z = z.
Proof. intros H. apply wrap_id. unfold int64. lia. Qed.
Lemma placed_addr rows cols v a b i j : placed rows cols v a b -> rows * cols <= 2 ^ 60 ->
  z_bad v i j = false -> 0 <= i < z_rows v /\ 0 <= j < z_cols v /\ z_addr v i j = (a + i) * cols + (b + j)
    /\ 0 <= (a + i) * cols + (b + j) < rows * cols.
Proof.
  intros (Ha & Hb & Hr & Hc & Har & Hbc & Hs & Ho) H60 Hbad. unfold z_bad in Hbad. apply orb_false_iff in Hbad as [Hbad H4].
  apply orb_false_iff in Hbad as [Hbad H3]. apply orb_false_iff in Hbad as [H1 H2]. apply Z.ltb_ge in H1, H3. apply Z.leb_gt in H2, H4.
  assert (R : 0 <= (a + i) * cols + (b + j) < rows * cols) by nia.
  split; [lia|]. split; [lia|]. split; [|exact R]. unfold z_addr. rewrite Ho by lia. rewrite Hs.
  rewrite (wrap_small (i * cols)) by nia. rewrite wrap_small by nia. rewrite Z.mod_small; [ring|]. nia.
Qed.
Lemma derived_placed {A} (data : list A) rows cols v a b : 0 <= rows -> 0 <= cols -> rows * cols <= 2 ^ 60 ->
  derived data rows cols v a b -> placed rows cols v a b /\ rows * cols <= Z.of_nat (List.length data).
Proof.
  intros Hr Hc H60 D. induction D as [v E|v a b i0 i1 j0 j1 w D [IH L] E].
  - unfold new_view in E. rewrite wrap_small in E by nia. destruct (Z.ltb_spec (Z.of_nat (List.length data)) (rows * cols)); [discriminate|].
    split; [|lia]. destruct data; [discriminate|]. injection E as <-. unfold placed. cbn. lia.
  - split; [|exact L]. unfold z_slice in E.
    destruct ((i0 <? 0) || (z_rows v <? i1) || (j0 <? 0) || (z_cols v <? j1) || (i1 <=? i0) || (j1 <=? j0)) eqn:Eb; [discriminate|].
    repeat (apply orb_false_iff in Eb as [Eb ?H]). apply Z.ltb_ge in Eb, H1, H2, H3. apply Z.leb_gt in H, H0. injection E as <-.
    pose proof IH as (Ha & Hb & Hvr & Hvc & Har & Hbc & Hs & Ho).
    assert (Hrc : z_rows v <= 2 ^ 60 /\ z_cols v <= 2 ^ 60) by nia.
    assert (Hbad : z_bad v i0 j0 = false).
    { unfold z_bad. rewrite !orb_false_iff. repeat split; [apply Z.ltb_ge|apply Z.leb_gt|apply Z.ltb_ge|apply Z.leb_gt]; lia. }
    destruct (placed_addr rows cols v a b i0 j0 IH H60 Hbad) as (R1 & R2 & R3 & R4).
    unfold placed. cbn. rewrite !wrap_small by lia. rewrite R3. split; [lia|]. split; [lia|]. split; [lia|]. split; [lia|]. split; [lia|]. split; [lia|].
    split; [exact Hs|reflexivity].
Qed.

(** ** Layout: writing at distinct places *)
Lemma foldM_writes {A P} (to : P -> Z) (val : P -> A) (f : list A -> P -> res (list A)) : forall (l : list P) out,
  NoDup (map to l) ->
  (forall p, In p l -> 0 <= to p < Z.of_nat (List.length out)) ->
  (forall p s, In p l -> List.length s = List.length out -> f s p = Ok (upd (Z.to_nat (to p)) (fun _ => val p) s)) ->
  exists out', foldM f out l = Ok out' /\ List.length out' = List.length out
    /\ (forall p, In p l -> nth_error out' (Z.to_nat (to p)) = Some (val p))
    /\ (forall k, ~ In (Z.of_nat k) (map to l) -> nth_error out' k = nth_error out k).
Proof.
  induction l as [|p l IH]; intros out D Hin Hf.
  - exists out. cbn. repeat split; auto. intros p [].
  - cbn [map] in D. inversion D as [|? ? D1 D2]; subst. destruct (Hin p (or_introl eq_refl)) as [P1 P2].
    cbn [foldM]. rewrite (Hf p out (or_introl eq_refl) eq_refl). cbn [bind].
    destruct (IH (upd (Z.to_nat (to p)) (fun _ => val p) out) D2) as (out' & E & L & W & K).
    + intros q Hq. rewrite upd_length. apply Hin. now right.
    + intros q s Hq Hs. rewrite upd_length in Hs. apply Hf; [now right|exact Hs].
    + exists out'. rewrite upd_length in L. split; [exact E|]. split; [exact L|]. split.
      * intros q [<-|Hq]; [|now apply W]. rewrite K by (rewrite Z2Nat.id by exact P1; exact D1). rewrite nth_error_upd_same.
        destruct (nth_error out (Z.to_nat (to p))) eqn:En; [reflexivity|]. apply nth_error_None in En. lia.
      * intros k Hk. rewrite K by (intros H; apply Hk; now right). apply nth_error_upd_other. intros <-. apply Hk. left. lia.
Qed.
Lemma foldM_panics {S P} (f : S -> P -> res S) : forall (l : list P) s,
  (forall p s, In p l -> f s p = Panic \/ exists s', f s p = Ok s') -> (exists p, In p l /\ forall s, f s p = Panic) -> foldM f s l = Panic.
Proof.
  induction l as [|q l IH]; intros s Hf (p & Hp & E); [destruct Hp|]. cbn [foldM]. destruct (Hf q s (or_introl eq_refl)) as [Eq|(s' & Eq)]; rewrite Eq; cbn [bind]; [reflexivity|].
  destruct Hp as [<-|Hp]; [rewrite E in Eq; discriminate|]. apply IH; [intros r t Hr; apply Hf; now right|exists p; auto].
Qed.
Section LayoutP.
  Context {A : Type}.
  Variable zero : A.
  Definition lstep (data : list A) (rows cols : Z) (out : list A) (p : Z * Z) : res (list A) :=
    let to := wrap (wrap (snd p * rows) + fst p) in
    let from := wrap (wrap (fst p * cols) + snd p) in
    if (0 <=? to) && (to <? Z.of_nat (List.length out)) && (0 <=? from) then
      match nth_error data (Z.to_nat from) with Some v => Ok (upd (Z.to_nat to) (fun _ => v) out) | None => Panic end
    else Panic.
  Lemma layout_flat data rows cols :
    layout zero data rows cols = foldM (lstep data rows cols) (repeat zero (List.length data)) (list_prod (zseq rows) (zseq cols)).
  Proof. unfold layout. rewrite (foldM_nest (fun out i j => lstep data rows cols out (i, j))). fold (zseq rows) (zseq cols).
    assert (K : forall l s, foldM (fun (s : list A) (p : Z * Z) => lstep data rows cols s (fst p, snd p)) s l = foldM (lstep data rows cols) s l).
    { induction l as [|[a b] l IH]; intros s; [reflexivity|]. cbn [foldM fst snd]. destruct (lstep data rows cols s (a, b)); cbn [bind]; auto. }
    apply K. Qed.
  Lemma in_grid rows cols p : In p (list_prod (zseq rows) (zseq cols)) -> 0 <= fst p < rows /\ 0 <= snd p < cols.
  Proof. destruct p as [i j]. intros H. apply in_prod_iff in H as [H1 H2]. apply zseq_in in H1, H2. auto. Qed.
  Lemma layout_ok data rows cols : 0 <= rows -> 0 <= cols -> rows * cols <= Z.of_nat (List.length data) -> rows * cols < 2 ^ 63 ->
    exists out, layout zero data rows cols = Ok out /\ List.length out = List.length data
      /\ (forall i j, 0 <= i < rows -> 0 <= j < cols -> nth_error out (Z.to_nat (j * rows + i)) = nth_error data (Z.to_nat (i * cols + j)))
      /\ (forall k, rows * cols <= Z.of_nat k -> nth_error out k = nth_error (repeat zero (List.length data)) k).
  Proof.
    intros Hr Hc Hl H63. rewrite layout_flat.
    destruct (foldM_writes (fun p : Z * Z => snd p * rows + fst p) (fun p => nth (Z.to_nat (fst p * cols + snd p)) data zero) (lstep data rows cols)
                (list_prod (zseq rows) (zseq cols)) (repeat zero (List.length data))) as (out & E & L & W & K).
    - assert (G : forall l, NoDup l -> (forall p, In p l -> 0 <= fst p < rows /\ 0 <= snd p < cols) -> NoDup (map (fun p : Z * Z => snd p * rows + fst p) l)).
      { induction l as [|p l IH]; intros D Hp; [constructor|]. inversion D as [|? ? D1 D2]; subst. cbn. constructor; [|apply IH; [exact D2|intros q Hq; apply Hp; now right]].
        intros H. apply in_map_iff in H as (q & Eq & Hq). apply D1. destruct (Hp p (or_introl eq_refl)) as [X1 X2]. destruct (Hp q (or_intror Hq)) as [Y1 Y2].
        assert (snd q = snd p) by nia. assert (fst q = fst p) by lia. destruct p, q; cbn in *; congruence. }
      apply G; [apply NoDup_prod; apply NoDup_zseq|apply in_grid].
    - intros p Hp. apply in_grid in Hp. rewrite repeat_length. nia.
    - intros p s Hp Hs. apply in_grid in Hp as [P1 P2]. rewrite repeat_length in Hs. unfold lstep.
      assert (B1 : 0 <= snd p * rows + fst p < rows * cols) by nia. assert (B2 : 0 <= fst p * cols + snd p < rows * cols) by nia.
      assert (C1 : 0 <= snd p * rows) by nia. assert (C2 : 0 <= fst p * cols) by nia.
      rewrite (wrap_small (snd p * rows)) by lia. rewrite (wrap_small (fst p * cols)) by lia. rewrite !wrap_small by lia.
      destruct (Z.leb_spec 0 (snd p * rows + fst p)); [|lia]. destruct (Z.ltb_spec (snd p * rows + fst p) (Z.of_nat (List.length s))); [|lia].
      destruct (Z.leb_spec 0 (fst p * cols + snd p)); [|lia]. cbn [andb].
      rewrite (nth_error_nth' data zero) by lia. reflexivity.
    - exists out. rewrite repeat_length in L. split; [exact E|]. split; [exact L|]. split.
      + intros i j Hi Hj. pose proof (W (i, j) ltac:(apply in_prod_iff; rewrite !zseq_in; auto)) as Wij. cbn [fst snd] in Wij. rewrite Wij.
        symmetry. apply nth_error_nth'. nia.
      + intros k Hk. apply K. intros H. apply in_map_iff in H as (p & Ep & Hp). apply in_grid in Hp. nia.
  Qed.
  Lemma layout_short data rows cols : 0 < rows -> 0 < cols -> rows * cols < 2 ^ 63 -> Z.of_nat (List.length data) < rows * cols ->
    layout zero data rows cols = Panic.
  Proof.
    intros Hr Hc H63 Hl. rewrite layout_flat. apply foldM_panics.
    - intros p s _. unfold lstep. destruct (_ && _); [|now left]. destruct (nth_error data _); [right; eauto|now left].
    - exists (rows - 1, cols - 1). split; [apply in_prod_iff; rewrite !zseq_in; lia|]. intros s. unfold lstep. cbn [fst snd].
      rewrite (wrap_small ((rows - 1) * cols)) by nia. rewrite (wrap_small ((rows - 1) * cols + (cols - 1))) by nia.
      destruct (_ && _); [|reflexivity]. replace (nth_error data _) with (@None A); [reflexivity|]. symmetry. apply nth_error_None. nia.
  Qed.
End LayoutP.

(** ** Pool *)
Section PoolP.
  Context {A : Type}.
  Variable zero : A.
  Definition zeros (m : pooled A) : Prop := match pm_data m with None => True | Some d => forall x, In x d -> x = zero end.
  Record sound (p : pool A) (ls : list nat) : Prop := {
    sd_nodup : NoDup (bag p ++ ls);
    sd_range : forall h, In h (bag p ++ ls) -> (h < List.length (objs p))%nat;
    sd_bag : forall h m, In h (bag p) -> nth_error (objs p) h = Some m -> zeros m /\ pm_released m = true;
    sd_held : forall h m, In h ls -> nth_error (objs p) h = Some m -> pm_released m = false /\ pm_data m <> None;
    sd_use : in_use p = Z.of_nat (List.length ls);
    sd_created : created p = Z.of_nat (List.length (objs p));
    sd_peak : in_use p <= peak p }.
  Lemma in_cut {B} k (l : list B) x : In x (firstn k l ++ skipn (S k) l) -> In x l.
  Proof.
    revert k. induction l as [|y l IH]; intros [|k]; cbn; auto. intros [<-|H]; [now left|]. right. now apply (IH k).
  Qed.
  Lemma cut_perm {B} k (l : list B) x : nth_error l k = Some x -> Permutation l (x :: firstn k l ++ skipn (S k) l).
  Proof.
    revert k. induction l as [|y l IH]; intros [|k] H; try discriminate.
    - cbn in *. injection H as ->. reflexivity.
    - cbn [nth_error] in H. specialize (IH k H). cbn [firstn skipn app]. rewrite perm_swap. now constructor.
  Qed.
  Lemma cut_perm' {B} k (l : list B) : Permutation l (firstn k l ++ skipn (S k) l) \/ exists x, Permutation l (x :: firstn k l ++ skipn (S k) l).
  Proof.
    destruct (nth_error l k) as [x|] eqn:E; [right; exists x; now apply cut_perm|]. apply nth_error_None in E. left.
    rewrite firstn_all2 by lia. rewrite skipn_all2 by lia. now rewrite app_nil_r.
  Qed.
  Lemma sound_get p ls choice rows cols h p' : sound p ls -> get zero choice rows cols p = Some (Ok (h, p')) ->
    ~ In h ls /\ sound p' (h :: ls)
    /\ exists d, nth_error (objs p') h = Some (mkpooled (Some d) rows cols false)
         /\ wrap (rows * cols) <= Z.of_nat (List.length d) /\ forall x, In x d -> x = zero.
  Proof.
    intros S G. unfold get in G. destruct choice as [k|]; cbn [pool_take bag objs in_use created recycled peak] in G.
    - destruct (nth_error (bag p) k) as [h0|] eqn:Eb; [|discriminate]. cbn [objs bag in_use created recycled peak] in G.
      destruct (nth_error (objs p) h0) as [m|] eqn:Em; [|discriminate].
      pose proof (cut_perm k (bag p) h0 Eb) as P.
      destruct (sd_bag _ _ S h0 m (nth_error_In _ _ Eb) Em) as [Z0 R0]. unfold zeros in Z0.
      set (data := match pm_data m with None => _ | Some d => _ end) in G.
      assert (Hd : forall d, data = Some d -> wrap (rows * cols) <= Z.of_nat (List.length d) /\ forall x, In x d -> x = zero).
      { intros d Hd. unfold data in Hd. destruct (pm_data m) as [d0|].
        - destruct (Z.ltb_spec (Z.of_nat (List.length d0)) (wrap (rows * cols))); injection Hd as <-.
          + rewrite repeat_length. split; [lia|]. intros x Hx. now apply repeat_spec in Hx.
          + split; [lia|exact Z0].
        - destruct (Z.ltb_spec (wrap (rows * cols)) 0); [discriminate|]. injection Hd as <-. rewrite repeat_length. split; [lia|]. intros x Hx. now apply repeat_spec in Hx. }
      destruct data as [d|]; [|discriminate]. injection G as <- <-. destruct (Hd d eq_refl) as [D1 D2].
      assert (ND : NoDup (h0 :: (firstn k (bag p) ++ skipn (Datatypes.S k) (bag p)) ++ ls)).
      { rewrite app_comm_cons. apply Permutation_NoDup with (l := bag p ++ ls); [now apply Permutation_app_tail|apply (sd_nodup _ _ S)]. }
      inversion ND as [|? ? N1 N2]; subst. assert (Hh : (h0 < List.length (objs p))%nat) by (apply nth_error_Some; congruence).
      split; [intros H; apply N1; apply in_or_app; now right|]. split.
      + constructor; cbn [bag objs in_use created recycled peak].
        * apply Permutation_NoDup with (2 := ND). apply Permutation_middle.
        * intros x Hx. rewrite upd_length. apply (sd_range _ _ S). apply in_app_or in Hx as [Hx|[<-|Hx]].
          -- apply in_or_app. left. now apply in_cut in Hx.
          -- apply in_or_app. left. exact (nth_error_In _ _ Eb).
          -- apply in_or_app. now right.
        * intros x mx Hx Ex. rewrite nth_error_upd_other in Ex by (intros <-; apply N1; apply in_or_app; now left).
          apply (sd_bag _ _ S x mx); [now apply in_cut in Hx|exact Ex].
        * intros x mx [<-|Hx] Ex.
          -- rewrite nth_error_upd_same, Em in Ex. cbn in Ex. injection Ex as <-. cbn. split; [reflexivity|discriminate].
          -- rewrite nth_error_upd_other in Ex by (intros <-; apply N1; apply in_or_app; now right). now apply (sd_held _ _ S x mx).
        * rewrite (sd_use _ _ S). cbn [List.length]. lia.
        * rewrite upd_length. apply (sd_created _ _ S).
        * lia.
      + exists d. cbn [objs]. rewrite nth_error_upd_same, Em. cbn. auto.
    - cbn [objs bag in_use created recycled peak] in G. rewrite nth_error_app2, Nat.sub_diag in G by lia. cbn [nth_error pm_data] in G.
      destruct (Z.ltb_spec (wrap (rows * cols)) 0) as [H|H]; [discriminate|]. injection G as <- <-.
      assert (Nin : ~ In (List.length (objs p)) (bag p ++ ls)) by (intros Hx; apply (sd_range _ _ S) in Hx; lia).
      assert (Eo : nth_error (objs p ++ [mkpooled None 0 0 false]) (List.length (objs p)) = Some (mkpooled None 0 0 false : pooled A))
        by (rewrite nth_error_app2, Nat.sub_diag by lia; reflexivity).
      split; [intros Hx; apply Nin; apply in_or_app; now right|]. split.
      + constructor; cbn [bag objs in_use created recycled peak].
        * apply Permutation_NoDup with (l := List.length (objs p) :: bag p ++ ls); [apply Permutation_middle|]. constructor; [exact Nin|apply (sd_nodup _ _ S)].
        * intros x Hx. rewrite upd_length, app_length. cbn. apply in_app_or in Hx as [Hx|[<-|Hx]]; [|lia|].
          -- assert (x < List.length (objs p))%nat by (apply (sd_range _ _ S); apply in_or_app; now left). lia.
          -- assert (x < List.length (objs p))%nat by (apply (sd_range _ _ S); apply in_or_app; now right). lia.
        * intros x mx Hx Ex. assert (x < List.length (objs p))%nat by (apply (sd_range _ _ S); apply in_or_app; now left).
          rewrite nth_error_upd_other, nth_error_app1 in Ex by lia. now apply (sd_bag _ _ S x mx).
        * intros x mx [<-|Hx] Ex.
          -- rewrite nth_error_upd_same, Eo in Ex. cbn in Ex. injection Ex as <-. cbn. split; [reflexivity|discriminate].
          -- assert (x < List.length (objs p))%nat by (apply (sd_range _ _ S); apply in_or_app; now right).
             rewrite nth_error_upd_other, nth_error_app1 in Ex by lia. now apply (sd_held _ _ S x mx).
        * rewrite (sd_use _ _ S). cbn [List.length]. lia.
        * rewrite upd_length, app_length, (sd_created _ _ S). cbn. lia.
        * lia.
      + exists (repeat zero (Z.to_nat (wrap (rows * cols)))). cbn [objs]. rewrite nth_error_upd_same, Eo. cbn. split; [reflexivity|].
        rewrite repeat_length. split; [lia|]. intros x Hx. now apply repeat_spec in Hx.
  Qed.
  Lemma sound_perm p ls ls' : Permutation ls ls' -> sound p ls -> sound p ls'.
  Proof.
    intros P S. constructor.
    - apply Permutation_NoDup with (2 := sd_nodup _ _ S). now apply Permutation_app_head.
    - intros h Hh. apply (sd_range _ _ S). apply Permutation_in with (2 := Hh). apply Permutation_app_head. now symmetry.
    - apply (sd_bag _ _ S).
    - intros h m Hh. apply (sd_held _ _ S). apply Permutation_in with (2 := Hh). now symmetry.
    - rewrite (sd_use _ _ S). now rewrite (Permutation_length P).
    - apply (sd_created _ _ S).
    - apply (sd_peak _ _ S).
  Qed.
  Lemma sound_put p h ls : sound p (h :: ls) -> put_check h p = true /\ sound (put zero h p) ls.
  Proof.
    intros S. assert (Hr : (h < List.length (objs p))%nat) by (apply (sd_range _ _ S); apply in_or_app; right; now left).
    destruct (nth_error (objs p) h) as [m|] eqn:Em; [|apply nth_error_None in Em; lia].
    destruct (sd_held _ _ S h m (or_introl eq_refl) Em) as [R D]. unfold put, put_check. rewrite Em, R. cbn [negb]. split; [reflexivity|].
    unfold put_rest. rewrite Em. pose proof (sd_nodup _ _ S) as ND.
    assert (ND' : NoDup (h :: bag p ++ ls)) by (apply Permutation_NoDup with (2 := ND); symmetry; apply Permutation_middle).
    inversion ND' as [|? ? N1 N2]; subst. constructor; cbn [bag objs in_use created recycled peak].
    - exact ND'.
    - intros x Hx. rewrite upd_length. cbn in Hx. destruct Hx as [<-|Hx]; [exact Hr|]. apply (sd_range _ _ S). apply in_app_or in Hx as [Hx|Hx]; apply in_or_app; [now left|right; now right].
    - intros x mx [<-|Hx] Ex.
      + rewrite nth_error_upd_same, Em in Ex. cbn in Ex. injection Ex as <-. unfold zeros. cbn. split; [|reflexivity].
        destruct (pm_data m) as [d|]; cbn; [|exact I]. intros y Hy. apply in_map_iff in Hy as (? & <- & _). reflexivity.
      + rewrite nth_error_upd_other in Ex by (intros <-; apply N1; apply in_or_app; now left). now apply (sd_bag _ _ S x mx).
    - intros x mx Hx Ex. rewrite nth_error_upd_other in Ex by (intros <-; apply N1; apply in_or_app; now right).
      apply (sd_held _ _ S x mx); [now right|exact Ex].
    - rewrite (sd_use _ _ S). cbn [List.length]. lia.
    - rewrite upd_length. apply (sd_created _ _ S).
    - pose proof (sd_peak _ _ S). lia.
  Qed.
  Lemma sound_set p ls h i j v p' : sound p ls -> In h ls -> pm_set h i j v p = Ok p' -> sound p' ls.
  Proof.
    intros S Hh E. unfold pm_set in E. destruct (nth_error (objs p) h) as [m|] eqn:Em; [|discriminate].
    destruct (sd_held _ _ S h m Hh Em) as [R _].
    destruct (pm_data m) as [d|] eqn:Ed; [|discriminate]. destruct (_ && _); [|discriminate]. injection E as <-.
    assert (Nb : ~ In h (bag p)).
    { intros H. pose proof (sd_nodup _ _ S) as ND. apply in_split in H as (l1 & l2 & El). rewrite El, <- app_assoc in ND. cbn in ND.
      apply NoDup_remove_2 in ND. apply ND. apply in_or_app. right. apply in_or_app. now right. }
    constructor; cbn [bag objs in_use created recycled peak]; try apply S.
    - intros x Hx. rewrite upd_length. now apply (sd_range _ _ S).
    - intros x mx Hx Ex. rewrite nth_error_upd_other in Ex by congruence. now apply (sd_bag _ _ S x mx).
    - intros x mx Hx Ex. destruct (Nat.eq_dec h x) as [<-|Hne].
      + rewrite nth_error_upd_same, Em in Ex. cbn in Ex. injection Ex as <-. cbn. split; [exact R|discriminate].
      + rewrite nth_error_upd_other in Ex by exact Hne. now apply (sd_held _ _ S x mx).
    - rewrite upd_length. apply (sd_created _ _ S).
  Qed.
  Lemma sound_drop p ls k : sound p ls -> sound (pool_drop k p) ls.
  Proof.
    intros S. unfold pool_drop. constructor; cbn [bag objs in_use created recycled peak]; try apply S.
    - destruct (cut_perm' k (bag p)) as [P|[x P]].
      + apply Permutation_NoDup with (l := bag p ++ ls); [now apply Permutation_app_tail|apply (sd_nodup _ _ S)].
      + assert (ND : NoDup (x :: (firstn k (bag p) ++ skipn (Datatypes.S k) (bag p)) ++ ls)).
        { rewrite app_comm_cons. apply Permutation_NoDup with (l := bag p ++ ls); [now apply Permutation_app_tail|apply (sd_nodup _ _ S)]. }
        now inversion ND.
    - intros h Hh. apply (sd_range _ _ S). apply in_app_or in Hh as [Hh|Hh]; apply in_or_app; [left; now apply in_cut in Hh|now right].
    - intros h m Hh. apply (sd_bag _ _ S). now apply in_cut in Hh.
  Qed.
  Lemma sound_uses p ls : uses zero (new_pool, []) (p, ls) -> sound p ls.
  Proof.
    intros U. remember (new_pool, []) as s eqn:Es. remember (p, ls) as t eqn:Et. revert p ls Et.
    induction U as [s|s t u U IH H]; intros p ls Et.
    - subst. injection Et as <- <-. constructor; cbn; try contradiction; try constructor. lia.
    - subst. destruct t as [p1 l1]. specialize (IH eq_refl p1 l1 eq_refl). inversion H; subst.
      + eapply sound_get in IH; [|eassumption]. apply IH.
      + eapply sound_set; eassumption.
      + eapply sound_perm in IH; [|eassumption]. apply sound_put in IH. apply IH.
      + now apply sound_drop.
  Qed.
End PoolP.
