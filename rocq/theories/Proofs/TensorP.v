(** Proofs about tensors. *)
From Coq Require Import List Arith ZArith Bool Lia.
From Verif Require Import Base.GoRes Base.GoInt Base.ListX Model.Dataset Model.Tensor Spec.Tensor Proofs.DatasetP Proofs.MemoryP.
Import ListNotations.
Local Open Scope list_scope.
Local Open Scope Z_scope.
Local Notation d_rows := Tensor.d_rows.
Local Notation d_cols := Tensor.d_cols.

Section Lemmas.
  Context {A : Type}.
  Lemma index_in (t : tensor) i j : inside t i j -> d_index (t_data t) i j = Some (Z.to_nat (d_off (t_data t) + i * d_stride (t_data t) + j)).
  Proof.
    intros [Hi Hj]. unfold d_index. destruct (Z.ltb_spec i 0); [lia|]. destruct (Z.leb_spec (d_rows (t_data t)) i); [lia|].
    destruct (Z.ltb_spec j 0); [lia|]. destruct (Z.leb_spec (d_cols (t_data t)) j); [lia|]. reflexivity.
  Qed.
  Lemma index_out (t : tensor) i j : ~ inside t i j -> d_index (t_data t) i j = None.
  Proof.
    intros H. unfold d_index, inside in *. destruct (Z.ltb_spec i 0); [reflexivity|]. destruct (Z.leb_spec (d_rows (t_data t)) i); [reflexivity|].
    destruct (Z.ltb_spec j 0); [reflexivity|]. destruct (Z.leb_spec (d_cols (t_data t)) j); [reflexivity|]. lia.
  Qed.
  Lemma place (h : heap A) t i j : in_order h t -> inside t i j ->
    0 <= d_off (t_data t) + i * d_stride (t_data t) + j < Z.of_nat (List.length (buffer h (d_buf (t_data t)))).
  Proof. intros (_ & Hr & Hc & _ & Ho & Hs & Hl & _) [Hi Hj]. nia. Qed.
  Lemma at_value (h : heap A) t i j : in_order h t -> inside t i j ->
    exists v, t_at h t i j = Ok v /\ nth_error (buffer h (d_buf (t_data t))) (Z.to_nat (d_off (t_data t) + i * d_stride (t_data t) + j)) = Some v.
  Proof.
    intros O I. pose proof (place h t i j O I) as P. unfold t_at. rewrite (index_in t i j I).
    destruct (nth_error (buffer h (d_buf (t_data t))) _) as [v|] eqn:E; [eauto|]. apply nth_error_None in E. lia.
  Qed.
  Lemma buffer_app (h : heap A) e b : (b < List.length h)%nat -> buffer (h ++ e) b = buffer h b.
  Proof. intros H. unfold buffer. now rewrite app_nth1. Qed.
  Lemma buffer_new (h : heap A) b : buffer (h ++ [b]) (List.length h) = b.
  Proof. unfold buffer. rewrite app_nth2, Nat.sub_diag by lia. reflexivity. Qed.
  Lemma grow_at (h e : heap A) t : in_order h t -> in_order (h ++ e) t /\ forall i j, t_at (h ++ e) t i j = t_at h t i j.
  Proof.
    intros O. pose proof O as (A1 & A2 & A3 & A4 & A5 & A6 & A7 & A8). split.
    - unfold in_order. rewrite buffer_app by exact A8. rewrite app_length. repeat (split; [assumption|]). lia.
    - intros i j. unfold t_at. now rewrite buffer_app by exact A8.
  Qed.
  Lemma raw_ok (h : heap A) t : in_order h t -> exists raw, raw_data h t = Ok raw /\ Z.of_nat (List.length raw) = size t
    /\ forall i j, inside t i j -> t_at h t i j = match nth_error raw (Z.to_nat (i * d_cols (t_data t) + j)) with Some v => Ok v | None => Panic end.
  Proof.
    intros O. pose proof O as (A1 & Hr & Hc & _).
    assert (Hd : exists dflt : A, True).
    { destruct (at_value h t 0 0 O) as (v & _); [split; lia|]. exists v. exact I. }
    destruct Hd as [dflt _]. set (val := fun i j => match t_at h t i j with Ok v => v | _ => dflt end).
    assert (Hv : forall i j, inside t i j -> t_at h t i j = Ok (val i j)).
    { intros i j I. unfold val. destruct (at_value h t i j O I) as (v & E & _). now rewrite E. }
    unfold raw_data. fold (zseq (d_cols (t_data t))) (zseq (d_rows (t_data t))).
    rewrite (mapM_ok _ (fun i => map (val i) (zseq (d_cols (t_data t))))).
    - cbn [bind]. eexists. split; [reflexivity|]. unfold size. set (r := d_rows (t_data t)) in *. set (c := d_cols (t_data t)) in *.
      assert (G : forall n s, List.length (concat (map (fun i => map (val i) (zseq c)) (map Z.of_nat (seq s n)))) = (n * Z.to_nat c)%nat
                  /\ forall i j, (i < n)%nat -> 0 <= j < c -> nth_error (concat (map (fun i => map (val i) (zseq c)) (map Z.of_nat (seq s n)))) (i * Z.to_nat c + Z.to_nat j)
                     = Some (val (Z.of_nat (s + i)) j)).
      { induction n as [|n IH]; intros s.
        - split; [reflexivity|intros; lia].
        - cbn [seq map concat]. destruct (IH (S s)) as [L N]. split.
          + rewrite app_length, map_length, zseq_length, L. cbn. lia.
          + intros [|i] j Hi Hj.
            * rewrite nth_error_app1 by (rewrite map_length, zseq_length; lia). cbn [Nat.mul plus]. rewrite Nat.add_0_r.
              assert (E : nth_error (zseq c) (Z.to_nat j) = Some j).
              { unfold zseq. erewrite map_nth_error; [|apply nth_error_nth' with (d := 0%nat); rewrite seq_length; lia]. rewrite seq_nth by lia. f_equal. cbn. lia. }
              exact (map_nth_error (val (Z.of_nat s)) _ _ E).
            * rewrite nth_error_app2 by (rewrite map_length, zseq_length; cbn; lia). rewrite map_length, zseq_length.
              replace (S i * Z.to_nat c + Z.to_nat j - Z.to_nat c)%nat with (i * Z.to_nat c + Z.to_nat j)%nat by (cbn; lia).
              rewrite N by lia. do 3 f_equal. lia. }
      destruct (G (Z.to_nat r) 0%nat) as [L N]. change (map Z.of_nat (seq 0 (Z.to_nat r))) with (zseq r) in L, N. split.
      + rewrite L. nia.
      + intros i j I. rewrite (Hv i j I). destruct I as [I1 I2]. fold r c in I1, I2.
        specialize (N (Z.to_nat i) j ltac:(lia) I2).
        replace (Z.to_nat (i * c + j)) with (Z.to_nat i * Z.to_nat c + Z.to_nat j)%nat by nia. rewrite N. do 2 f_equal. lia.
    - intros i Hi. apply zseq_in in Hi. apply mapM_ok. intros j Hj. apply zseq_in in Hj. apply Hv. split; lia.
  Qed.
End Lemmas.
