(** sklearn/drift/ddm.go.  The mutexes make every method atomic; the methods are
    modelled as state transitions.  Go ints are unbounded here. *)
From Coq Require Import List Arith ZArith Bool.
From Verif Require Import Base.Num.
Import ListNotations.
Local Open Scope num_scope.

Section Drift.
  Context {N : Num}.

  (** DDM, ddm.go lines 11-33.  [d_min] is the pair (minErrorRate, minStdDev);
      [None] stands for the initial pair (+Inf, +Inf). *)
  Record ddm := mkddm {
    d_minn : Z; d_warn_level : N; d_out_level : N;
    d_n : nat; d_errs : nat; d_rate : N; d_dev : N;
    d_min : option (N * N);
    d_warning : bool; d_drift : bool }.

  (** lines 36-41 *)
  Record dresult := mkres { r_warning : bool; r_drift : bool; r_rate : N; r_conf : N }.

  (** lines 44-82 *)
  Definition ddm_new (minn : Z) (wl ol : N) : ddm :=
    mkddm minn wl ol 0 0 n0 n0 None false false.
  (** lines 165-177; lines 180-189 do the same assignments *)
  Definition ddm_reset (d : ddm) : ddm :=
    mkddm (d_minn d) (d_warn_level d) (d_out_level d) 0 0 n0 n0 None false false.

  (** line 108 *)
  Definition ddm_dev (rate : N) (n : nat) : N := nsqrt (rate * (n1 - rate) / nofnat n).

  (** lines 115-119.  Against (+Inf, +Inf) the comparison holds for every number
      that is neither NaN nor +Inf (a level is never -Inf). *)
  Definition ddm_min (m : option (N * N)) (rate dev : N) : option (N * N) :=
    let level := rate + dev in
    match m with
    | None => if nisnan level || nisinf level then None else Some (rate, dev)
    | Some (mr, ms) => if level <? mr + ms then Some (rate, dev) else m
    end.

  (** lines 122-126 *)
  Definition ddm_conf (m : option (N * N)) (rate dev : N) : N :=
    match m with
    | None => (rate + dev) / ninf
    | Some (mr, ms) => if ms >? n0 then (rate + dev) / (mr + ms) else n1
    end.
  (** lines 129-130 and 138-139; no number exceeds +Inf or NaN *)
  Definition ddm_exceeds (m : option (N * N)) (k rate dev : N) : bool :=
    match m with
    | None => false
    | Some (mr, ms) => rate + dev >? mr + k * ms
    end.

  (** lines 87-149 *)
  Definition ddm_update (d : ddm) (correct : bool) : ddm * dresult :=
    let n := S (d_n d) in
    let errs := if correct then d_errs d else S (d_errs d) in
    if Z.ltb (Z.of_nat n) (d_minn d) then
      (mkddm (d_minn d) (d_warn_level d) (d_out_level d) n errs (d_rate d) (d_dev d)
             (d_min d) (d_warning d) (d_drift d),
       mkres false false n0 n0)
    else
      let rate := nofnat errs / nofnat n in
      let dev := ddm_dev rate n in
      let m := ddm_min (d_min d) rate dev in
      let w := ddm_exceeds m (d_warn_level d) rate dev in
      let dr := ddm_exceeds m (d_out_level d) rate dev in
      let r := mkres w dr rate (ddm_conf m rate dev) in
      let d' := mkddm (d_minn d) (d_warn_level d) (d_out_level d) n errs rate dev m w dr in
      (if dr then ddm_reset d' else d', r).

  (** lines 152-155 and 158-162 *)
  Definition ddm_update_prediction (d : ddm) (predicted actual : N) : ddm * dresult :=
    ddm_update d (nabs (predicted - actual) <? nlit 1 10000000000).
  Definition ddm_update_error (d : ddm) (e : N) : ddm * dresult := ddm_update d (e <? nlit 1 10).

  (** ADWIN, lines 222-242.  The field [variance] is never read. *)
  Record bucket := mkbucket { b_sum : N; b_count : Z }.
  Record adwin := mkadwin {
    a_delta : N; a_max : Z; a_buckets : list bucket; a_sum : N; a_count : Z; a_width : Z }.

  (** lines 245-274 *)
  Definition adwin_new (delta : N) (maxb : Z) : adwin := mkadwin delta maxb [] n0 0 0.
  (** lines 437-446 *)
  Definition adwin_reset (a : adwin) : adwin := mkadwin (a_delta a) (a_max a) [] n0 0 0.

  (** lines 294-305: the last bucket is extended if it holds one element *)
  Fixpoint add_bucket (bs : list bucket) (v : N) : list bucket :=
    match bs with
    | [] => [mkbucket v 1]
    | [b] => if Z.eqb (b_count b) 1 then [mkbucket (b_sum b + v) (b_count b + 1)]
             else [b; mkbucket v 1]
    | b :: r => b :: add_bucket r v
    end.

  (** lines 392-403 *)
  Definition remove_oldest (a : adwin) : adwin :=
    match a_buckets a with
    | [] => a
    | b :: r => mkadwin (a_delta a) (a_max a) r (a_sum a - b_sum b)
                        (a_count a - b_count b) (a_width a - b_count b)
    end.

  (** lines 289-316 *)
  Definition add_element (a : adwin) (v : N) : adwin :=
    let a' := mkadwin (a_delta a) (a_max a) (add_bucket (a_buckets a) v) (a_sum a + v)
                      (a_count a + 1) (a_width a + 1) in
    if Z.ltb (a_max a') (Z.of_nat (length (a_buckets a'))) then remove_oldest a' else a'.

  (** the accumulations of lines 355-366 and 407-415 *)
  Definition bsum (bs : list bucket) : N := fold_left (fun s b => s + b_sum b) bs n0.
  Definition bcount (bs : list bucket) : Z := fold_left (fun c b => (c + b_count b)%Z) bs 0%Z.
  (** lines 368-376 *)
  Definition bmean (bs : list bucket) : N :=
    if Z.ltb 0 (bcount bs) then bsum bs / nofZ (bcount bs) else n0.

  (** lines 382-389, for positive counts *)
  Definition hoeffding (delta : N) (c0 c1 : Z) : N :=
    let m := n1 / nofZ c0 + n1 / nofZ c1 in
    nsqrt (nlit 1 2 * m * nlog (nlit 2 1 / delta)).

  (** the body of the loop of lines 330-347 *)
  Definition splits_at (a : adwin) (i : nat) : bool :=
    let old := firstn i (a_buckets a) in
    let new := skipn i (a_buckets a) in
    if (Z.leb (bcount old) 0 || Z.leb (bcount new) 0)%bool then false
    else nabs (bmean old - bmean new) >? hoeffding (a_delta a) (bcount old) (bcount new).

  (** lines 406-416 *)
  Definition with_buckets (a : adwin) (bs : list bucket) : adwin :=
    mkadwin (a_delta a) (a_max a) bs (bsum bs) (bcount bs) (bcount bs).

  (** lines 319-350 *)
  Definition detect (a : adwin) : adwin * bool :=
    if Nat.ltb (length (a_buckets a)) 2 then (a, false)
    else if Z.ltb (a_count a) 5 then (a, false)
    else match find (splits_at a) (seq 1 (length (a_buckets a) - 1)) with
         | Some i => (with_buckets a (skipn i (a_buckets a)), true)
         | None => (a, false)
         end.

  (** lines 277-286 *)
  Definition adwin_update (a : adwin) (v : N) : adwin * bool := detect (add_element a v).

  (** lines 419-434 *)
  Definition adwin_mean (a : adwin) : N :=
    if Z.eqb (a_count a) 0 then n0 else a_sum a / nofZ (a_count a).
  Definition adwin_width (a : adwin) : Z := a_width a.
End Drift.
Arguments ddm N : clear implicits.
Arguments dresult N : clear implicits.
Arguments bucket N : clear implicits.
Arguments adwin N : clear implicits.
