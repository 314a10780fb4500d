(** The concurrent histogram of sklearn/lightgbm/parallel_histogram.go lines 164-264
    (buildContinuousHistogramParallelSamples): chunks of the samples are summed locally by
    goroutines, which then add their sums to shared cells with compare-and-swap loops.

    Every atomic operation is one step and the goroutines interleave arbitrarily.  All
    goroutines exist from the start (the main goroutine only starts them and waits).  The
    local sums touch no shared data, so they are computed beforehand. *)
From Coq Require Import List Arith ZArith Bool.
From Verif Require Import Base.Num Base.GoRes Base.ListX Model.LgbTree Model.LgbHist.
Import ListNotations.
Local Open Scope list_scope.
Local Open Scope num_scope.

Section LgbMerge.
  Context {N : Num}.

  (** A shared sum: bin and kind (false: gradient, true: hessian) *)
  Definition addr : Type := nat * bool.
  Definition addr_eqb (a b : addr) : bool := Nat.eqb (fst a) (fst b) && Bool.eqb (snd a) (snd b).
  (** Operations of the merge loop, lines 220-243: AddInt64, or one CAS loop *)
  Inductive op := OCount (b : nat) (c : Z) | OAdd (a : addr) (v : N).
  (** A goroutine: the operations left, and the value the current CAS loop has loaded
      together with the version (identity of the stored pointer) it has seen. *)
  Record gor := mkgor { todo : list op; loaded : option (N * nat) }.
  (** The shared memory: counts, and sums with a version that changes at every store *)
  Record shared := mkshared { counts : nat -> Z; sums : addr -> N * nat }.
  Definition set_count (m : shared) (b : nat) (c : Z) : shared :=
    mkshared (fun b' => if Nat.eqb b b' then (counts m b' + c)%Z else counts m b') (sums m).
  Definition set_sum (m : shared) (a : addr) (v : N) : shared :=
    mkshared (counts m) (fun a' => if addr_eqb a a' then (v, S (snd (sums m a'))) else sums m a').

  (** One step of one goroutine.  atomic.Value.CompareAndSwap succeeds when the current value
      is == the loaded one; it fails when they differ, and may fail when the cell has been
      written since (it compares the pointers after the values). *)
  Inductive gstep : shared -> gor -> shared -> gor -> Prop :=
  | g_count m b c r : gstep m (mkgor (OCount b c :: r) None) (set_count m b c) (mkgor r None)
  | g_load m a v r : gstep m (mkgor (OAdd a v :: r) None) m (mkgor (OAdd a v :: r) (Some (sums m a)))
  | g_swap m a v r old ver : (fst (sums m a) =? old) = true ->
      gstep m (mkgor (OAdd a v :: r) (Some (old, ver))) (set_sum m a (old + v)) (mkgor r None)
  | g_retry m a v r old ver : (fst (sums m a) =? old) = false \/ snd (sums m a) <> ver ->
      gstep m (mkgor (OAdd a v :: r) (Some (old, ver))) m (mkgor (OAdd a v :: r) None).
  Definition config : Type := shared * list gor.
  Inductive step : config -> config -> Prop :=
  | step_at m g m' g' pre post : gstep m g m' g' -> step (m, pre ++ g :: post) (m', pre ++ g' :: post).
  Inductive steps : config -> config -> Prop :=
  | steps_refl c : steps c c
  | steps_step c c' c'' : step c c' -> steps c' c'' -> steps c c''.
  (** wg.Wait returns when every goroutine has finished. *)
  Definition finished (c : config) : Prop := forall g, In g (snd c) -> todo g = [].

  (** Lines 193-204: the samples of the chunks *)
  Definition chunk (size : nat) (ss : list (N * (N * N))) (c : nat) : list (N * (N * N)) :=
    firstn size (skipn (c * size) ss).
  Definition chunks (size : nat) (ss : list (N * (N * N))) : list (list (N * (N * N))) :=
    map (chunk size ss) (seq 0 ((List.length ss + size - 1) / size)).
  (** Lines 206-219: local accumulation starts from zero and visits the samples in order,
      as buildContinuousHistogramOptimized does for all samples. *)
  Definition local_bins (bs : list N) (ss : list (N * (N * N))) : list (bin N) := fill find_bin_opt bs ss.
  (** Lines 221-243: the merge operations of a goroutine; bins without samples are skipped. *)
  Definition merge_ops (bins : list (bin N)) : list op :=
    concat (mapi (fun b x => if (0 <? b_cnt x)%Z
                             then [OCount b (b_cnt x); OAdd (b, false) (b_g x); OAdd (b, true) (b_h x)]
                             else []) bins).
  Definition start (size : nat) (bs : list N) (ss : list (N * (N * N))) : config :=
    (mkshared (fun _ => 0%Z) (fun _ => (n0, 0%nat)),
     map (fun ch => mkgor (merge_ops (local_bins bs ch)) None) (chunks size ss)).
  (** Lines 249-262: the histogram read after wg.Wait *)
  Definition read_bins (bs : list N) (m : shared) : list (bin N) :=
    mapi (fun i x => mkbin (b_lo x) (b_hi x) (counts m i) (fst (sums m (i, false))) (fst (sums m (i, true))))
         (empty_bins bs).
End LgbMerge.
Arguments op N : clear implicits.
Arguments gor N : clear implicits.
Arguments shared N : clear implicits.
Arguments config N : clear implicits.
