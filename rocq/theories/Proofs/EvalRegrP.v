From Coq Require Import List Arith ZArith Bool Lia Reals Lra.
From Verif Require Import Base.Num Base.GoRes Base.RTac Model.Metrics Model.EvalMetrics Spec.Stats Spec.EvalMetrics Proofs.EvalAucP.
Import ListNotations.

Section Any.
  Context {N : Num}.
  Local Open Scope num_scope.
  Lemma checked_both (yt yp : vec N) {A} (f : list N * list N -> res A) (g : list (N * N) -> res A) :
    (forall t p, length t = length p -> f (t, p) = g (combine t p)) -> bind (rchecked yt yp) f = bind (lchecked yt yp) g.
  Proof.
    intros H. unfold rchecked, lchecked. destruct yt as [t|]; [|reflexivity]. destruct (Nat.eqb (length t) 0); [reflexivity|]. destruct yp as [p|]; [|reflexivity].
    destruct (Nat.eqb_spec (length p) (length t)) as [E|E]; [|reflexivity]. cbn [negb bind]. apply H. congruence.
  Qed.
  Lemma combine_len {A B} (t : list A) : forall (p : list B), length t = length p -> length (combine t p) = length t.
  Proof. intros. rewrite combine_length. lia. Qed.
  Lemma fst_sum (t : list N) : forall (p : list N) a, length t = length p -> fold_left (fun s ab => s + fst ab) (combine t p) a = fold_left nadd t a.
  Proof. induction t as [|x t IH]; intros [|y p] a H; try discriminate; [reflexivity|]. cbn. apply IH. now injection H. Qed.

  Lemma lmse_same (yt yp : vec N) : lmse yt yp = mse yt yp.
  Proof. symmetry. apply checked_both. intros t p H. unfold lsum, sq. now rewrite combine_len. Qed.
  Lemma lmae_same (yt yp : vec N) : lmae yt yp = mae yt yp.
  Proof. symmetry. apply checked_both. intros t p H. unfold lsum. now rewrite combine_len. Qed.
  Lemma lr2_same (yt yp : vec N) : lr2 yt yp = r2_score yt yp.
  Proof. symmetry. apply checked_both. intros t p H. unfold lsum, mean, sq. now rewrite combine_len, fst_sum. Qed.
  Lemma levs_same (yt yp : vec N) : levs yt yp = explained_variance_score yt yp.
  Proof. symmetry. apply checked_both. intros t p H. unfold lsum, sq. now rewrite combine_len, fst_sum. Qed.
  Lemma mape_loop_fold l : forall s v, @mape_loop N l s v =
    fold_left (fun (a : N * nat) ab => if fst ab =? n0 then a else (fst a + nabs (fst ab - snd ab) / nabs (fst ab), S (snd a))) l (s, v).
  Proof. induction l as [|[t p] l IH]; intros s v; cbn [mape_loop fold_left fst snd]; auto. destruct (t =? n0); cbn [negb]; apply IH. Qed.
  Lemma lmape_same (yt yp : vec N) : lmape yt yp = mape yt yp.
  Proof.
    symmetry. apply checked_both. intros t p H. rewrite mape_loop_fold. destruct (fold_left _ _ _) as [s v]. reflexivity.
  Qed.

  Lemma wrapped_ok {A} (r : res A) v : wrapped r = Ok v <-> r = Ok v.
  Proof. destruct r; cbn; split; congruence. Qed.
  Lemma evaluate_entries (yt yp : vec N) rep : evaluate_regression yt yp = Ok rep <->
    mse yt yp = Ok (rr_mse rep) /\ rr_rmse rep = nsqrt (rr_mse rep) /\ mae yt yp = Ok (rr_mae rep) /\ r2_score yt yp = Ok (rr_r2 rep)
    /\ explained_variance_score yt yp = Ok (rr_evs rep) /\ match mape yt yp with Ok v => rr_mape rep = v | Err _ => rr_mape rep = nnan | Panic => False end.
  Proof.
    unfold evaluate_regression. rewrite lmse_same, lmae_same, lr2_same, levs_same, lmape_same.
    destruct (mse yt yp) as [m| |]; [|split; [discriminate|intros (H & _); discriminate]..]. cbn [wrapped bind].
    destruct (mae yt yp) as [a| |]; [|split; [discriminate|intros (_ & _ & H & _); discriminate]..]. cbn [wrapped bind].
    destruct (r2_score yt yp) as [r| |]; [|split; [discriminate|intros (_ & _ & _ & H & _); discriminate]..]. cbn [wrapped bind].
    destruct (mape yt yp) as [q|e|]; [| |split; [discriminate|intros (_ & _ & _ & _ & _ & H); destruct H]]; cbn [wrapped bind];
    (destruct (explained_variance_score yt yp) as [v| |]; [|split; [discriminate|intros (_ & _ & _ & _ & H & _); discriminate]..]); cbn [wrapped bind];
      (split; [intros H; injection H as <-; cbn; repeat split; reflexivity | intros (H1 & H2 & H3 & H4 & H5 & H6); destruct rep; cbn in *; congruence]).
  Qed.
End Any.

Section Real.
  Local Open Scope R_scope.
  (** The relative errors of the targets that are not 0. *)
  Lemma mape_loop_R l : forall s v, @mape_loop RNum l s v =
    (s + Rsum (map (fun ab => Rabs (fst ab - snd ab) / Rabs (fst ab)) (filter (fun ab => negb (Reqb (fst ab) 0)) l)),
     (v + length (filter (fun ab => negb (Reqb (fst ab) 0)) l))%nat).
  Proof.
    induction l as [|[t p] l IH]; intros s v; cbn [mape_loop filter fst]; [cbn; f_equal; [lra|lia]|].
    cbn [neqb n0 RNum]. destruct (Reqb t 0); cbn [negb]; [apply IH|]. rewrite IH. cbn [map fst snd length]. rewrite Rsum_cons. cbn [nadd ndiv nabs nsub RNum]. f_equal; [lra|lia].
  Qed.
  Lemma mape_R t p : length t = length p -> t <> [] -> @mape RNum (Some t) (Some p) =
    if Nat.eqb (length (relative_errors t p)) 0 then Err (EOther 1) else Ok (100 * mean_of (relative_errors t p)).
  Proof.
    intros Hl Hne. unfold mape, rchecked. destruct (Nat.eqb_spec (length t) 0) as [E|E]; [destruct t; [contradiction|discriminate]|].
    rewrite <- Hl, Nat.eqb_refl. cbn [negb bind]. rewrite mape_loop_R. cbn [Nat.add]. unfold relative_errors, mean_of. rewrite !map_length.
    destruct (Nat.eqb _ 0); [reflexivity|]. f_equal. rewrite nofnat_R, nlit_R. cbn [nadd ndiv nmul n0 RNum]. rewrite Rplus_0_l. unR. set (a := Rsum _ / _). lra.
  Qed.
End Real.
