(** C139: parallel chunk processing *)
From Coq Require Import List Arith Bool Lia Permutation.
From Verif Require Import Base.ListX Model.Dataset Model.ChunkPar Spec.ChunkPar Proofs.ChunkParP.
Import ListNotations.

Section C139.
  Context {R E : Type}.
  Variables (c cap nw : nat) (rows : list R).
  Implicit Types s : st R E.
  Hypothesis Hc : 1 <= c.

  (** When Process has returned and no call failed, the function was called once for each chunk, the last, short one included. *)
  Theorem C139_all_called s : 1 <= nw -> steps c cap (start c rows nw) s -> returned s = true -> failures s = [] ->
    Permutation (called s) (seq 0 (count c (length rows))).
  Proof. intros Hn H Hr Hf. exact (proj2 (proj2 (all_called c cap nw Hc rows s Hn H Hr Hf))). Qed.

  (** At any moment no chunk was called for twice, failures or not. *)
  Theorem C139_once s : steps c cap (start c rows nw) s -> NoDup (called s).
  Proof.
    intros H. pose proof (i_perm _ _ _ _ (steps_inv c cap nw Hc rows s H)) as P. eapply nodup_left. eapply Permutation_NoDup; [symmetry; exact P|apply seq_NoDup].
  Qed.

  (** A call for chunk k has as many rows as the chunk, and what it sees at place i is the row of the chunk at that place or one
      that is a multiple of the chunk length further on. *)
  Theorem C139_contents s k l o : steps c cap (start c rows nw) s -> In (k, l, o) (calls s) ->
    k < count c (length rows) /\ length l = size c (length rows) k /\
    forall i, i < length l -> exists j r, nth_error l i = Some (Some r) /\ nth_error rows (k * c + i + j * c) = Some r.
  Proof.
    intros H Hin. destruct (contents c cap nw Hc rows s k l o H Hin) as (H1 & H2 & H3). split; [exact H1|]. split; [exact H2|]. intros i Hi. destruct (H3 i Hi) as (q & E1 & E2 & E3).
    destruct (nth_error rows q) as [r|] eqn:Eq; [|apply nth_error_None in Eq; lia]. exists (q / c - k), r. split; [exact E1|]. rewrite <- Eq. f_equal. pose proof (Nat.div_mod q c ltac:(lia)) as D. rewrite E2 in D.
    assert (k <= q / c) by (apply Nat.div_le_lower_bound; nia). nia.
  Qed.

  (** The last chunk is seen as it is, in particular the only one when there are not more rows than the chunk length. *)
  Theorem C139_last s k l o : steps c cap (start c rows nw) s -> In (k, l, o) (calls s) -> S k = count c (length rows) -> l = map Some (chunk c rows k).
  Proof. exact (last_chunk c cap nw Hc rows s k l o). Qed.

  (** The result is nil when no call failed, and otherwise an error returned by a call. *)
  Theorem C139_result s : steps c cap (start c rows nw) s ->
    (result s = None <-> failures s = []) /\ forall e, result s = Some e -> exists k l, In (k, l, Some e) (calls s).
  Proof.
    intros H. pose proof (i_errs _ _ _ _ (steps_inv c cap nw Hc rows s H)) as Ee. unfold result. rewrite Ee. split; [destruct (failures s); cbn; split; intros; congruence|].
    intros e He. destruct (failures s) as [|x fs] eqn:Ef; [discriminate|]. injection He as ->. assert (Hin : In e (failures s)) by (rewrite Ef; now left). apply in_flat_map in Hin. destruct Hin as ([[k l] o] & Hin & Ho).
    cbn in Ho. destruct o as [y|]; [|contradiction]. destruct Ho as [-> | []]. eauto.
  Qed.

  (** No send on the channel of errors, which has room for one error per worker, blocks. *)
  Theorem C139_errors_fit s : steps c cap (start c rows nw) s -> length (errs s) <= nw.
  Proof. intros H. pose proof (errs_bound c cap nw Hc rows s H). lia. Qed.

  (** Process never hangs: unless it has returned something moves, and nothing moves more often than this. *)
  Theorem C139_progress s : 1 <= cap -> returned s = false -> exists t, step c cap s t.
  Proof. exact (progress c cap Hc s). Qed.
  Theorem C139_bounded k s : nsteps c cap (start c rows nw) k s -> k <= 5 * length rows + nw + 2.
  Proof. intros H. pose proof (bounded c cap nw Hc rows k s H). lia. Qed.
End C139.

(** With the scanner of the file, which delivers no rows, the function is never called and the result is nil, whatever the input; what
    is said here of rows is about a scanner that delivers some. *)
Theorem C139_placeholder {R E Reader : Type} c cap nw (data : Reader) (s : st R E) : 1 <= c -> steps c cap (start c (scanned data) nw) s -> calls s = [] /\ result s = None.
Proof.
  intros Hc H. assert (C : calls s = []).
  { destruct (calls s) as [|[[k l] o] cs] eqn:E1; [reflexivity|exfalso]. destruct (C139_contents c cap nw (scanned data) Hc s k l o H) as (K & _); [rewrite E1; now left|].
    unfold count in K. cbn [scanned length] in K. rewrite Nat.div_small in K; lia. }
  split; [exact C|]. apply (C139_result c cap nw (scanned data) Hc s H). unfold failures. now rewrite C.
Qed.

(** With two full chunks, whatever they are, there is an execution without errors in which the function sees the second twice and the
    first never. *)
Theorem C139_overwritten {R E : Type} c cap nw (A B : list R) : 1 <= c -> 1 <= nw -> 2 <= cap -> length A = c -> length B = c ->
  exists s : st R E, steps c cap (start c (A ++ B) nw) s /\ returned s = true /\ result s = None /\ called s = [0; 1] /\ seen s = [map Some B; map Some B].
Proof.
  intros Hc Hn Hcap HA HB. destruct (second_twice (E := E) c cap nw Hc A B Hn Hcap HA HB) as (s & H1 & H2 & H3 & H4). exists s. unfold result, called, seen. rewrite H3, H4. auto.
Qed.
(** So "the function sees each chunk of the rows" fails, with the defaults of the package. *)
Theorem C139_chunks_refuted : exists (rows : list nat) (s : st nat unit),
  steps 2 1000 (start 2 rows 4) s /\ returned s = true /\ result s = None /\ ~ Permutation (seen s) (map (fun k => map Some (chunk 2 rows k)) (seq 0 (count 2 (length rows)))).
Proof.
  destruct (C139_overwritten (E := unit) 2 1000 4 [10; 11] [12; 13]) as (s & H1 & H2 & H3 & _ & H4); try reflexivity; try lia.
  exists [10; 11; 12; 13], s. split; [exact H1|]. split; [exact H2|]. split; [exact H3|]. rewrite H4. intros P. pose proof (Permutation_in _ (Permutation_sym P) (or_introl eq_refl)) as [K | [K | []]]; cbn in K; discriminate.
Qed.

(** With a failing function and enough rows there is an execution after whose return the reading goroutine hangs in its send for ever. *)
Theorem C139_leak {R E : Type} c cap nw (e : E) (rows : list R) : 1 <= c -> 1 <= nw -> 1 <= cap -> (nw + cap + 1) * c <= length rows ->
  exists s : st R E, steps c cap (start c rows nw) s /\ returned s = true /\ result s = Some e /\ stuck c cap s /\ prod s = Sending.
Proof. intros Hc Hn Hcap Hl. destruct (leak c cap nw Hc e rows Hn Hcap Hl) as (s & H1 & H2 & H3 & H4 & H5). exists s. auto. Qed.
(** So "when nothing moves any more the goroutine has ended" fails. *)
Theorem C139_ends_refuted : exists c cap nw (rows : list nat) (s : st nat unit), steps c cap (start c rows nw) s /\ returned s = true /\ stuck c cap s /\ prod s <> Closed.
Proof.
  destruct (C139_leak (E := unit) 2 3 4 tt (repeat 7 16)) as (s & H1 & H2 & _ & H3 & H4); try (cbn; lia). exists 2, 3, 4, (repeat 7 16), s. rewrite H4. repeat split; auto. discriminate.
Qed.

(** Three rows in chunks of two, one worker that takes each chunk at once: an execution that meets the hypotheses above *)
Example C139_case : exists s : st nat unit, steps 2 1 (start 2 [5; 6; 7] 1) s /\ returned s = true /\ failures s = [] /\ called s = [0; 1] /\ seen s = [[Some 5; Some 6]; [Some 7]].
Proof.
  eexists. split.
  - unfold start. eapply s_next; [eapply s_next; [eapply s_next; [eapply s_next; [eapply s_next; [eapply s_next; [eapply s_next; [eapply s_next; [eapply s_next; [eapply s_next; [eapply s_next; [eapply s_next; [apply s_refl|]|]|]|]|]|]|]|]|]|]|]|].
    + apply p_row.
    + apply p_row.
    + cbn. apply p_send. cbn. lia.
    + cbn. apply (w_take _ _ _ _ _ _ _ _ _ _ []).
    + apply (w_call _ _ _ _ _ _ _ _ _ _ [] _ _ _ None).
    + cbn. apply p_row.
    + cbn. apply p_rest. discriminate.
    + apply p_send. cbn. lia.
    + cbn. apply (w_take _ _ _ _ _ _ _ _ _ _ []).
    + cbn. eapply (w_call _ _ _ _ _ _ _ _ _ _ [] _ _ _ None).
    + cbn. apply p_close.
    + apply (w_end _ _ _ _ _ _ []).
  - cbn. auto.
Qed.

Print Assumptions C139_all_called. Print Assumptions C139_once. Print Assumptions C139_contents. Print Assumptions C139_last. Print Assumptions C139_result.
Print Assumptions C139_errors_fit. Print Assumptions C139_progress. Print Assumptions C139_bounded. Print Assumptions C139_overwritten. Print Assumptions C139_chunks_refuted.
Print Assumptions C139_leak. Print Assumptions C139_ends_refuted.
Print Assumptions C139_placeholder.
