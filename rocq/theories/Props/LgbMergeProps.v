(** C51 - the concurrent histogram of sklearn/lightgbm/parallel_histogram.go. *)
From Coq Require Import List Arith ZArith Bool Lia Permutation Reals Lra QArith.
From Flocq Require Import Core.Core IEEE754.BinarySingleNaN.
From Verif Require Import Base.Num Base.GoRes Base.ListX Base.RTac Base.FTac Spec.Order Model.LgbTree Model.LgbHist Model.LgbMerge
  Spec.LgbHist Spec.LgbMerge Proofs.OrderP Proofs.LgbHistP Proofs.LgbMergeP.
Import ListNotations.
Local Open Scope nat_scope.
Local Open Scope list_scope.

(** The samples falling in bin [i], and the sum over them of the gradients ([k = false]) or
    hessians ([k = true]) *)
Definition in_it {N : Num} (bs : list N) (i : nat) (ss : list (N * (N * N))) : list (N * (N * N)) :=
  filter (fun s => (find_bin_opt (fst s) bs =? Z.of_nat i)%Z) ss.
Definition sum_of {N : Num} (k : bool) (ss : list (N * (N * N))) : N :=
  nsum (map (fun s => if k then snd (snd s) else fst (snd s)) ss).
(** The contributions of the goroutines to a bin: one per chunk with a sample in the bin *)
Definition contributions {N : Num} (size : nat) (bs : list N) (ss : list (N * (N * N))) (i : nat) (k : bool) : list N :=
  map (sum_of k) (filter (fun l => negb (Nat.eqb (List.length l) 0)) (map (in_it bs i) (chunks size ss))).
Lemma in_it_own {N : Num} (bs : list N) i ss : in_it bs i ss = own find_bin_opt bs i ss.
Proof. reflexivity. Qed.

(** Whatever the interleaving, once all goroutines have finished, every bin counts its samples,
    and its sums are those of the contributions of the chunks, added in some order; for the
    chunks being a partition of the samples. *)
Theorem C51_result : forall (N : Num) (size : nat) (bs : list N) (ss : list (N * (N * N))) m gs,
  0 < size -> steps (start size bs ss) (m, gs) -> finished (m, gs) ->
  concat (chunks size ss) = ss
  /\ List.length (read_bins bs m) = List.length bs - 1
  /\ forall i, S i < List.length bs ->
     exists b, nth_error (read_bins bs m) i = Some b
       /\ b_lo b = nth i bs n0 /\ b_hi b = nth (S i) bs n0
       /\ b_cnt b = Z.of_nat (List.length (in_it bs i ss))
       /\ (exists l, Permutation l (contributions size bs ss i false) /\ added_in_order l (b_g b))
       /\ exists l, Permutation l (contributions size bs ss i true) /\ added_in_order l (b_h b).
Proof.
  intros N size bs ss m gs Hs S F. split; [now apply chunks_all|]. split; [apply read_bins_length|].
  intros i Hi. destruct (complete size bs ss m gs S F) as [PC PA]. destruct (start_pending size bs ss i Hi) as [QC QA].
  eexists. split; [exact (read_bins_nth bs m i Hi)|]. cbn [b_lo b_hi b_cnt b_g b_h]. split; [reflexivity|]. split; [reflexivity|]. split.
  - rewrite PC, QC, zsum_own, chunks_all by exact Hs. reflexivity.
  - split; [destruct (PA (i, false)) as (l & L & P)|destruct (PA (i, true)) as (l & L & P)]; exists l; (split; [|exact L]);
      rewrite QA in P; exact P.
Qed.
(** Over the real numbers the result is the histogram that a single goroutine builds. *)
Theorem C51_sequential : forall (size : nat) (bs : list R) (ss : list (R * (R * R))) m gs,
  0 < size -> steps (@start RNum size bs ss) (m, gs) -> finished (m, gs) ->
  @read_bins RNum bs m = @fill RNum (@find_bin_opt RNum) bs ss.
Proof.
  intros size bs ss m gs Hs S F. apply nth_error_ext. intros i.
  destruct (Nat.lt_ge_cases (Datatypes.S i) (List.length bs)) as [Hi|Hi].
  - rewrite (@read_bins_nth RNum bs m i Hi), (@fill_nth RNum (@find_bin_opt RNum) bs ss i Hi).
    destruct (@complete RNum size bs ss m gs S F) as [PC PA]. destruct (@start_pending RNum size bs ss i Hi) as [QC QA].
    assert (K : forall k, fst (sums m (i, k)) = Rsum (map (fun s : R * (R * R) => if k : bool then snd (snd s) else fst (snd s)) (@own RNum (@find_bin_opt RNum) bs i ss))).
    { intros k. destruct (PA (i, k)) as (l & L & P). rewrite QA in P. apply added_R in L. rewrite L, (Rsum_perm _ _ P), parts_R.
      rewrite <- (@own_concat RNum), (@chunks_all RNum) by exact Hs. reflexivity. }
    f_equal. f_equal.
    + rewrite PC, QC, zsum_own, (@chunks_all RNum) by exact Hs. reflexivity.
    + rewrite (K false). symmetry. apply nsum_R.
    + rewrite (K true). symmetry. apply nsum_R.
  - assert (N1 : nth_error (@read_bins RNum bs m) i = None) by (apply nth_error_None; rewrite read_bins_length; change (num RNum) with R in *; lia).
    assert (N2 : nth_error (@fill RNum (@find_bin_opt RNum) bs ss) i = None) by (apply nth_error_None; rewrite fill_length; change (num RNum) with R in *; lia).
    now rewrite N1, N2.
Qed.

(** An execution: consecutive configurations *)
Definition execution {N : Num} (c : nat -> config N) (n : nat) : Prop := forall k, k < n -> step (c k) (c (S k)).
Definition nan_free {N : Num} (c : config N) : Prop := forall a, nisnan (fst (sums (fst c) a)) = false.
Lemma valid_start {N : Num} size (bs : list N) ss : valid (start size bs ss).
Proof. intros g old ver Hin HL. unfold start in Hin. cbn [snd] in Hin. apply in_map_iff in Hin as (ch & <- & _). discriminate. Qed.
Lemma valid_steps {N : Num} (c c' : config N) : steps c c' -> valid c -> valid c'.
Proof. induction 1 as [|c c' c'' S _ IH]; [auto|]. intros I. apply IH. eapply valid_step; eauto. Qed.

(** As long as goroutines are left, some goroutine can go on; and there is a bound on the
    number of steps of all executions in which no sum becomes NaN: the retries do not go on
    for ever, whatever the scheduler does. *)
Theorem C51_progress : forall (N : Num) (size : nat) (bs : list N) (ss : list (N * (N * N))) c,
  steps (start size bs ss) c -> ~ finished c -> exists c', step c c'.
Proof. intros N size bs ss c S F. apply progress; [|exact F]. eapply valid_steps; [exact S|apply valid_start]. Qed.
Theorem C51_ends : forall (N : Num), lt_laws N -> cmp_laws N -> forall (size : nat) (bs : list N) (ss : list (N * (N * N))),
  exists bound, forall c n, c 0 = start size bs ss -> execution c n -> (forall k, k < n -> nan_free (c k)) -> n <= bound.
Proof.
  intros N L C size bs ss. exists (measure (start size bs ss)). intros c n H0 HE HN.
  assert (Hr : forall x : N, nisnan x = false -> (x =? x)%num = true).
  { intros x Hx. rewrite (cmp_eq N C) by exact Hx. now rewrite (lt_irrefl N L). }
  assert (K : forall k, k <= n -> valid (c k) /\ measure (c k) + k <= measure (start size bs ss)).
  { induction k as [|k IH]; intros Hk.
    - rewrite H0. split; [apply valid_start|lia].
    - destruct IH as [V M]; [lia|]. pose proof (HE k Hk) as St. split; [eapply valid_step; eauto|].
      pose proof (measure_step Hr _ _ St V (HN k Hk)). lia. }
  destruct (K n (le_n n)). lia.
Qed.
(** Over the real numbers all executions are finite and end finished. *)
Theorem C51_ends_R : forall (size : nat) (bs : list R) (ss : list (R * (R * R))),
  exists bound, forall c n, c 0 = @start RNum size bs ss -> execution c n -> n <= bound
    /\ ((forall c', ~ step (c n) c') -> finished (c n)).
Proof.
  intros size bs ss. destruct (C51_ends RNum lt_laws_R cmp_laws_R size bs ss) as (bound & B). exists bound.
  intros c n H0 HE. split; [apply (B c n H0 HE); intros k _ a; reflexivity|].
  intros Hno g Hin. destruct (todo g) eqn:E; [reflexivity|]. exfalso.
  assert (S : steps (c 0) (c n)).
  { clear - HE. revert c HE. induction n as [|n IH]; intros c HE; [constructor|].
    eapply steps_step; [apply HE; lia|]. apply (IH (fun k => c (S k))). intros k Hk. apply HE. lia. }
  rewrite H0 in S. destruct (C51_progress RNum size bs ss (c n) S) as (c' & Hc'); [|exact (Hno c' Hc')].
  intros F. rewrite (F g Hin) in E. discriminate.
Qed.

(** A NaN sum: an addition still to be made to it is never made, and the merge never ends. *)
Theorem C51_nan_never_ends : forall (N : Num), cmp_laws N ->
  forall (size : nat) (bs : list N) (ss : list (N * (N * N))) a c c',
  steps (start size bs ss) c -> nisnan (fst (sums (fst c) a)) = true ->
  (exists g v, In g (snd c) /\ In (OAdd a v) (todo g)) ->
  steps c c' -> ~ finished c' /\ exists c'', step c' c''.
Proof.
  intros N C size bs ss a c c' S Hn (g & v & Hg & Hv) S'.
  assert (Hnan : forall x y : N, nisnan x = true -> (x =? y)%num = false).
  { intros x y Hx. now apply (cmp_nan N C); left. }
  assert (U : ~ finished c').
  { apply (stuck_unfinished a). apply (stuck_steps Hnan a c c' S'). split; [exact Hn|]. exists g. split; [exact Hg|]. now exists v. }
  split; [exact U|]. apply progress; [|exact U]. eapply valid_steps; [exact S'|]. eapply valid_steps; [exact S|apply valid_start].
Qed.
(** So when two chunks contribute NaN to the same bin, no execution ends. *)
Theorem C51_two_nans : forall (N : Num), cmp_laws N ->
  (forall x y : N, nisnan y = true -> nisnan (nadd x y) = true) ->
  forall (size : nat) (bs : list N) (ss : list (N * (N * N))) i k c1 c2 ch1 ch2,
  S i < List.length bs -> c1 < c2 ->
  nth_error (chunks size ss) c1 = Some ch1 -> nth_error (chunks size ss) c2 = Some ch2 ->
  nisnan (sum_of k (in_it bs i ch1)) = true -> nisnan (sum_of k (in_it bs i ch2)) = true -> nisnan (@n0 N) = false ->
  forall c, steps (start size bs ss) c -> ~ finished c /\ exists c', step c c'.
Proof.
  intros N C Hadd size bs ss i k c1 c2 ch1 ch2 Hi Hc E1 E2 N1 N2 N0 c S.
  assert (Hnan : forall x y : N, nisnan x = true -> (x =? y)%num = false) by (intros x y Hx; now apply (cmp_nan N C); left).
  assert (U : ~ finished c).
  { intros F. destruct c as [m gs]. destruct (complete size bs ss m gs S F) as [_ PA]. destruct (start_pending size bs ss i Hi) as [_ QA].
    destruct (PA (i, k)) as (l & L & P). rewrite QA in P. clear PA QA.
    assert (Hne : forall ch, nisnan (sum_of k (in_it bs i ch)) = true -> nonempty (own find_bin_opt bs i ch) = true).
    { intros ch Hch. rewrite in_it_own in Hch. unfold nonempty. destruct (own find_bin_opt bs i ch); [|reflexivity].
      unfold sum_of in Hch. cbn in Hch. congruence. }
    assert (Hsplit : exists p1 p2 p3, map (part k) (filter nonempty (map (own find_bin_opt bs i) (chunks size ss)))
              = p1 ++ sum_of k (in_it bs i ch1) :: p2 ++ sum_of k (in_it bs i ch2) :: p3).
    { apply nth_error_split in E1 as (l1 & l2 & E1 & Hl). rewrite E1 in *.
      rewrite nth_error_app2 in E2 by lia. replace (c2 - List.length l1) with (Datatypes.S (c2 - c1 - 1)) in E2 by lia. cbn [nth_error] in E2.
      apply nth_error_split in E2 as (l3 & l4 & -> & _).
      rewrite map_app. cbn [map]. rewrite map_app. cbn [map]. rewrite filter_app. cbn [filter]. rewrite (Hne ch1 N1), filter_app. cbn [filter]. rewrite (Hne ch2 N2).
      rewrite map_app. cbn [map]. rewrite map_app. cbn [map]. eexists _, _, _. reflexivity. }
    destruct Hsplit as (p1 & p2 & p3 & Ep). rewrite Ep in P.
    assert (Hin1 : In (sum_of k (in_it bs i ch1)) l).
    { eapply Permutation_in; [apply Permutation_sym; exact P|]. apply in_app_iff. right. now left. }
    apply in_split in Hin1 as (q1 & q2 & ->). pose proof (added_nan_last Hnan Hadd _ _ L q1 _ q2 eq_refl N1) as E. subst q2.
    assert (P2 : Permutation q1 (p1 ++ p2 ++ sum_of k (in_it bs i ch2) :: p3)).
    { apply (Permutation_cons_inv (a := sum_of k (in_it bs i ch1))).
      eapply Permutation_trans; [apply Permutation_cons_append|]. eapply Permutation_trans; [exact P|]. apply Permutation_sym, Permutation_middle. }
    assert (Hin2 : In (sum_of k (in_it bs i ch2)) q1).
    { eapply Permutation_in; [apply Permutation_sym; exact P2|]. rewrite !in_app_iff. right. right. now left. }
    apply in_split in Hin2 as (r1 & r2 & ->). rewrite <- app_assoc in L. cbn [app] in L.
    pose proof (added_nan_last Hnan Hadd _ _ L r1 _ (r2 ++ [sum_of k (in_it bs i ch1)]) eq_refl N2) as E. now destruct r2. }
  split; [exact U|]. apply progress; [|exact U]. eapply valid_steps; [exact S|apply valid_start].
Qed.

(** *** Examples *)
Lemma F_add_nan : forall x y : F0, nisnan y = true -> nisnan (nadd x y) = true.
Proof. intros x y H. destruct y; try discriminate. destruct x; reflexivity. Qed.
Definition ex_bounds : list F0 := [f 0 1; f 2 1; f 4 1].
Definition ex_nans : list (F0 * (F0 * F0)) := [(f 1 1, (nnan, f 1 1)); (f 3 1, (f 1 1, f 1 1)); (f 1 1, (nnan, f 1 1))].
(** Three samples in chunks of one, two with a NaN gradient: the merge never ends. *)
Theorem C51_nan_refuted : exists (size : nat) (bs : list F0) (ss : list (F0 * (F0 * F0))),
  0 < size /\ forall c, steps (start size bs ss) c -> ~ finished c /\ exists c', step c c'.
Proof.
  exists 1, ex_bounds, ex_nans. split; [lia|]. intros c S.
  refine (C51_two_nans F0 (cmp_laws_F _ _) F_add_nan 1 ex_bounds ex_nans 0 false 0 2
            [(f 1 1, (nnan, f 1 1))] [(f 1 1, (nnan, f 1 1))] _ _ eq_refl eq_refl _ _ _ c S).
  - cbn. lia.
  - lia.
  - vm_compute. reflexivity.
  - vm_compute. reflexivity.
  - vm_compute. reflexivity.
Qed.

(** A scheduler: the numbers of the goroutines taking the steps *)
Definition go1 {N : Num} (m : shared N) (g : gor N) : option (shared N * gor N) :=
  match g with
  | mkgor (OCount b c :: r) None => Some (set_count m b c, mkgor r None)
  | mkgor (OAdd a v :: r) None => Some (m, mkgor (OAdd a v :: r) (Some (sums m a)))
  | mkgor (OAdd a v :: r) (Some (old, ver)) =>
      if (fst (sums m a) =? old)%num then Some (set_sum m a (nadd old v), mkgor r None)
      else Some (m, mkgor (OAdd a v :: r) None)
  | _ => None
  end.
Fixpoint go {N : Num} (sched : list nat) (c : config N) : option (config N) :=
  match sched with
  | [] => Some c
  | i :: sched =>
      match nth_error (snd c) i with
      | Some g => match go1 (fst c) g with
                  | Some (m, g') => go sched (m, firstn i (snd c) ++ g' :: skipn (S i) (snd c))
                  | None => None
                  end
      | None => None
      end
  end.
Lemma go_steps {N : Num} sched : forall (c c' : config N), go sched c = Some c' -> steps c c'.
Proof.
  induction sched as [|i sched IH]; intros [m gs] c' E; cbn [go fst snd] in E; [injection E as <-; constructor|].
  destruct (nth_error gs i) as [g|] eqn:Eg; [|discriminate]. destruct (go1 m g) as [[m' g']|] eqn:E1; [|discriminate].
  eapply steps_step; [|exact (IH _ _ E)].
  assert (Hs : gs = firstn i gs ++ g :: skipn (S i) gs).
  { clear - Eg. revert gs Eg. induction i as [|i IH]; intros [|x gs] Eg; try discriminate; cbn in *; [injection Eg as ->; reflexivity|].
    f_equal. now apply IH. }
  rewrite Hs at 1. constructor. destruct g as [[|[b z|a v] r] [[old ver]|]]; cbn in E1; try discriminate.
  - injection E1 as <- <-. constructor.
  - destruct (fst (sums m a) =? old)%num eqn:Eq; injection E1 as <- <-; [now apply g_swap|apply g_retry; now left].
  - injection E1 as <- <-. constructor.
Qed.
(** Two goroutines adding 1 and 2 to the gradient of the same bin; the second one has read
    the sum before the first one has changed it, and has to retry. *)
Definition ex_ss : list (F0 * (F0 * F0)) := [(f 1 1, (f 1 1, f 1 1)); (f 1 1, (f 2 1, f 1 1))].
Definition ex_sched : list nat := [0; 1; 0; 1; 0; 1; 1; 1; 0; 0; 1; 1].
Example C51_example : exists m gs, steps (start 1 ex_bounds ex_ss) (m, gs) /\ finished (m, gs)
  /\ map (fun b : bin F0 => (b_cnt b, fs (b_g b), fs (b_h b))) (read_bins ex_bounds m)
     = [(2%Z, fs (f 3 1), fs (f 2 1)); (0%Z, fs (f 0 1), fs (f 0 1))].
Proof.
  assert (K : match go ex_sched (start 1 ex_bounds ex_ss) with
              | Some (m, gs) => forallb (fun g => match todo g with [] => true | _ => false end) gs = true
                  /\ map (fun b : bin F0 => (b_cnt b, fs (b_g b), fs (b_h b))) (read_bins ex_bounds m)
                     = [(2%Z, fs (f 3 1), fs (f 2 1)); (0%Z, fs (f 0 1), fs (f 0 1))]
              | None => False end) by (vm_compute; split; reflexivity).
  pose proof (go_steps ex_sched (start 1 ex_bounds ex_ss)) as H. revert K H.
  generalize (go ex_sched (start 1 ex_bounds ex_ss)). intros [[m gs]|]; [|easy]. intros [K1 K2] H. exists m, gs.
  split; [now apply H|]. split; [|exact K2]. intros g Hin. rewrite forallb_forall in K1. specialize (K1 g Hin). now destruct (todo g).
Qed.

Print Assumptions C51_result.
Print Assumptions C51_sequential.
Print Assumptions C51_progress.
Print Assumptions C51_ends.
Print Assumptions C51_ends_R.
Print Assumptions C51_nan_never_ends.
Print Assumptions C51_two_nans.
Print Assumptions C51_nan_refuted.
