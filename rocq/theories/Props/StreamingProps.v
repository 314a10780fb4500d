(** C131: the streaming pipeline. *)
From Coq Require Import List Arith ZArith Bool Lia.
From Verif Require Import Base.GoInt Model.Streaming Spec.Streaming Proofs.StreamingP.
Import ListNotations.

Section C131.
  Context {item : Type}.
  Variables rows cols : item -> Z.
  (** Any number of calls of Run on one pipeline, in any interleaving *)
  Notation reachable m0 cls s := (psteps item rows cols (mkstate m0 (map fresh cls)) s).

  (** A caller receives the elements that the stages one after the other make of the input, in their order, and all of them when the
      channel is closed and empty. *)
  Theorem C131_order : forall m0 cls s i cl r, reachable m0 cls s -> nth_error cls i = Some cl -> nth_error (runs s) i = Some r ->
    (exists more, received r ++ more = expected cl) /\ (drained r -> received r = expected cl).
  Proof.
    intros m0 cls s i cl r H E1 E2. destruct (inv_reach rows cols _ _ _ H) as [F _]. pose proof (Forall2_at _ _ _ F _ _ _ E1 E2) as S.
    split; [exact (ex_intro _ _ (proj1 S))|]. intros D. destruct S as (A & B & O & M & _). rewrite <- A.
    destruct (drained_all (chain r) (source r) (metered_nonempty _ M) O D) as [-> _]. now rewrite app_nil_r.
  Qed.

  (** As long as a caller's channel is not closed and empty, something can happen in that call, provided the caller goes on receiving;
      and no execution is infinite.  So every call that is received to the end delivers everything. *)
  Theorem C131_progress : forall m0 cls s i r, reachable m0 cls s -> nth_error (runs s) i = Some r -> ~ drained r ->
    exists s' r', pstep item rows cols s s' /\ nth_error (runs s') i = Some r' /\ r' <> r.
  Proof.
    intros m0 cls s i r H E2 D. destruct (inv_reach rows cols _ _ _ H) as [F _]. destruct (Forall2_at_r _ _ _ F _ _ E2) as (cl & A & B & O & M & _). apply nth_error_split in E2. destruct E2 as (pre & post & E & L). destruct s as [m rs]. cbn [runs] in E. subst rs i.
    destruct r as [c ss g]. cbn [source chain] in *.
    assert (N : forall x : run item, nth_error (pre ++ x :: post) (length pre) = Some x) by (intros x; rewrite nth_error_app2, Nat.sub_diag; auto).
    destruct (progress_chain ss c (metered_nonempty _ M) O) as [(l & c' & ss' & K)|[(a & ss' & K)|[K|(x & y & _ & _ & _ & K)]]].
    - eexists. exists (mkrun c' ss' g). split; [apply p_internal; exact K|]. cbn [runs]. split; [apply N|]. intros Q. injection Q as -> ->. pose proof (cstep_work _ _ _ _ _ K). lia.
    - eexists. exists (mkrun c ss' (g ++ [a])). split; [apply p_receive; exact K|]. cbn [runs]. split; [apply N|]. intros Q. injection Q as _ Q.
      apply (f_equal (@length item)) in Q. rewrite app_length in Q. cbn in Q. lia.
    - contradiction.
    - congruence.
  Qed.
  Theorem C131_terminates : well_founded (fun s' s : state item => pstep item rows cols s s').
  Proof. apply ends. Qed.

  (** The metrics count, over all calls, what has been received or is on the way between the last stage and the caller, modulo
      2^64; a call is never more than the buffer size plus one ahead of its caller. *)
  Theorem C131_metrics : forall m0 cls s, reachable m0 cls s -> (0 <= samples m0 < 2 ^ 64)%Z -> (0 <= bytes m0 < 2 ^ 64)%Z ->
    (forall a r, In r (runs s) -> In a (received r ++ on_the_way r) -> fine rows cols a) ->
    let done := flat_map (fun r => received r ++ on_the_way r) (runs s) in
    met s = mkmet ((samples m0 + zsum (map rows done)) mod 2 ^ 64) ((bytes m0 + zsum (map (fun a => rows a * cols a * 8)%Z done)) mod 2 ^ 64).
  Proof.
    intros m0 cls s H H1 H2 Hf done. destruct (inv_reach rows cols _ _ _ H) as [_ ->]. change (all_taken (runs s)) with done.
    rewrite metrics_fold by auto. unfold u64. do 2 f_equal; f_equal; f_equal; apply map_ext_in; intros a Ha; unfold done in Ha; apply in_flat_map in Ha; destruct Ha as (r & Hr & Ha);
      now apply fine_bytes, (Hf a r).
  Qed.
  Theorem C131_ahead : forall m0 cls s i fs size l r, reachable m0 cls s -> nth_error cls i = Some (fs, size, l) -> nth_error (runs s) i = Some r ->
    length (on_the_way r) <= size + 1 /\ exists more, (received r ++ on_the_way r) ++ more = through fs l.
  Proof.
    intros m0 cls s i fs size l r H E1 E2. destruct (inv_reach rows cols _ _ _ H) as [F _]. pose proof (Forall2_at _ _ _ F _ _ _ E1 E2) as S.
    split; [|exact (prefix_of _ _ S)]. pose proof (tail_bound _ _ S) as T. unfold taken in T. rewrite app_length in T. cbn [fst snd] in T. change (on_the_way r) with (tail_items (chain r)). lia.
  Qed.
  (** When all callers are through, the metrics are those of everything that all calls deliver. *)
  Theorem C131_totals : forall cls s, reachable (mkmet 0 0) cls s -> (forall r, In r (runs s) -> drained r) ->
    (forall a cl, In cl cls -> In a (expected cl) -> fine rows cols a) ->
    let all := flat_map expected cls in
    met s = mkmet (zsum (map rows all) mod 2 ^ 64) (zsum (map (fun a => rows a * cols a * 8)%Z all) mod 2 ^ 64).
  Proof.
    intros cls s H D Hf all. destruct (inv_reach rows cols _ _ _ H) as [F ->].
    assert (E : all_taken (runs s) = all).
    { clear H Hf. unfold all, all_taken. induction F as [|cl r l l' (A & B & O & M & _) F IH]; cbn; auto. f_equal; [|apply IH; intros; apply D; now right].
      destruct (drained_all (chain r) (source r) (metered_nonempty _ M) O (D r (or_introl eq_refl))) as [R T]. unfold taken. rewrite T, <- A, R. now rewrite !app_nil_r. }
    rewrite E, metrics_fold by (cbn; lia). unfold u64. cbn [samples bytes]. rewrite !Z.add_0_l.
    do 2 f_equal; f_equal; apply map_ext_in; intros a Ha; unfold all in Ha; apply in_flat_map in Ha; destruct Ha as (cl & Hc & Ha); now apply fine_bytes, (Hf a cl).
  Qed.
End C131.

(** The overflow check does not find every overflow: 2^31 rows and 2^30 columns are 2^64 bytes, and count as none. *)
Theorem C131_bytes_refuted : exists r c : Z, (0 < r < 2 ^ 63)%Z /\ (0 < c < 2 ^ 63)%Z /\ (r * c * 8 >= 2 ^ 64)%Z /\
  update_metrics (Z * Z) fst snd (mkmet 0 0) (r, c) = mkmet r 0.
Proof. exists (2 ^ 31)%Z, (2 ^ 30)%Z. repeat split; vm_compute; congruence. Qed.

(** ** Examples *)
(** Items are their numbers of rows, with three columns.  The stage doubles an item if it is even and drops it otherwise. *)
Definition twice (z : Z) : list Z := if Z.even z then [z; (2 * z)%Z] else [].
Definition calls : list (@call Z) := [([(twice, 0)], 1, [2; 3]%Z); ([], 0, [5]%Z)].
Example C131_expected : map expected calls = [[2; 4]; [5]]%Z.
Proof. reflexivity. Qed.
(** Both calls take a first element to the meter: 2 + 5 rows, with 24 bytes each. *)
Example C131_run : exists s, psteps Z (fun z => z) (fun _ => 3%Z) (mkstate (mkmet 0 0) (map fresh calls)) s /\ met s = mkmet 7 168
  /\ map (fun r => received r) (runs s) = [[2]; []]%Z /\ map on_the_way (runs s) = [[]; [5]]%Z.
Proof.
  set (d := mkstage (fun a : Z => [a])). eexists. split.
  - eapply ps_next; [eapply ps_next; [eapply ps_next; [eapply ps_next; [eapply ps_next; [apply ps_refl|]|]|]|]|].
    + apply (p_internal Z (fun z => z) (fun _ => 3%Z) _ []). apply c_take.
    + apply (p_internal Z (fun z => z) (fun _ => 3%Z) _ []). cbn. apply c_meet.
    + apply (p_internal Z (fun z => z) (fun _ => 3%Z) _ []). apply c_down. cbn. apply c_put. cbn. lia.
    + apply (p_receive Z (fun z => z) (fun _ => 3%Z) _ []). apply r_down. cbn. apply r_queue.
    + apply (p_internal Z (fun z => z) (fun _ => 3%Z) _ [_]). apply c_take.
  - vm_compute. repeat split; reflexivity.
Qed.
Example C131_fine : fine (fun z : Z => z) (fun _ => 3%Z) 5%Z.
Proof. repeat split; cbn; lia. Qed.

Print Assumptions C131_order.
Print Assumptions C131_progress.
Print Assumptions C131_terminates.
Print Assumptions C131_metrics.
Print Assumptions C131_ahead.
Print Assumptions C131_totals.
Print Assumptions C131_bytes_refuted.
