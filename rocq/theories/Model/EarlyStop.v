(** Early stopping: sklearn/lightgbm/early_stopping.go, callbacks.go,
    sklearn/lightgbm/api/{train,callbacks}.go. *)
From Coq Require Import String List Arith ZArith Bool.
From Verif Require Import Base.Num Base.GoRes.
Import ListNotations.
Local Open Scope num_scope.

Section EarlyStop.
  Context {N : Num}.

  (** A running best score starts at +Inf ([minimize]) or -Inf; [None] is that
      initial value.  A score improves on it unless it is NaN or that same
      infinity. *)
  Definition improves (minimize : bool) (best : option N) (score : N) : bool :=
    match best with
    | None => negb (nisnan score) &&
              negb (nisinf score && (if minimize then n0 <? score else score <? n0))
    | Some b => if minimize then score <? b else b <? score
    end.

  (** EarlyStopping, early_stopping.go lines 11-19 *)
  Record estop := mkes {
    s_rounds : Z; s_best : option N; s_iter : Z; s_noimp : Z; s_min : bool; s_enabled : bool }.

  (** early_stopping.go lines 27-31 *)
  Definition metric_minimized (metric : string) : bool :=
    negb (existsb (String.eqb metric) ["auc"; "accuracy"; "precision"; "recall"; "f1"; "r2"]%string).

  (** early_stopping.go lines 22-46; the disabled value has zero fields. *)
  Definition es_new (rounds : Z) (metric : string) : estop :=
    if (rounds <=? 0)%Z then mkes 0 (Some n0) 0 0 false false
    else mkes rounds None 0 0 (metric_minimized metric) true.

  (** early_stopping.go lines 49-71 *)
  Definition es_update (e : estop) (iteration : Z) (score : N) : estop * bool :=
    if s_enabled e then
      let e' :=
        if improves (s_min e) (s_best e) score
        then mkes (s_rounds e) (Some score) iteration 0 (s_min e) true
        else mkes (s_rounds e) (s_best e) (s_iter e) (s_noimp e + 1) (s_min e) true in
      (e', (s_rounds e' <=? s_noimp e')%Z)
    else (e, false).

  (** early_stopping.go lines 74-87 *)
  Definition es_should_stop (e : estop) : bool :=
    if s_enabled e then (s_rounds e <=? s_noimp e)%Z else false.
  Definition es_best_iteration (e : estop) : Z := if s_enabled e then s_iter e else (-1)%Z.

  (** * FitWithValidation, early_stopping.go lines 155-207.  [grow ts] is the tree
      built by one iteration for the ensemble [ts] (gradients, buildTreeWithSamples,
      updatePredictions), [score ts] the value of evaluateValidation.
      checkEarlyStopping (trainer.go lines 1320-1332) always returns false.  [es] is
      [None] when early stopping is off or there is no validation data. *)
  Section Fit.
    Context {T : Type}.
    Variable grow : list T -> res T.
    Variable score : list T -> N.
    Fixpoint fit_loop (fuel : nat) (iter : Z) (es : option estop) (ts : list T) : res (list T) :=
      match fuel with
      | O => Ok ts
      | S fuel' =>
          match grow ts with
          | Ok t =>
              let ts' := ts ++ [t] in
              match es with
              | Some e =>
                  if s_enabled e then
                    let (e', stop) := es_update e iter (score ts') in
                    if stop then
                      Ok (if (s_iter e' <? Z.of_nat (length ts'))%Z
                          then firstn (Z.to_nat (s_iter e' + 1)) ts' else ts')
                    else fit_loop fuel' (iter + 1) (Some e') ts'
                  else fit_loop fuel' (iter + 1) es ts'
              | None => fit_loop fuel' (iter + 1) es ts'
              end
          | Err e => Err (EWrapped e)
          | Panic => Panic
          end
      end.
    (** [rounds] is params.EarlyStopping, [validation] whether valData is given,
        [metric] params.Metric ("" selects "l2"). *)
    Definition fit_with_validation (iterations rounds : Z) (metric : string) (validation : bool)
      : res (list T) :=
      fit_loop (Z.to_nat iterations) 0
        (if (0 <? rounds)%Z && validation
         then Some (es_new rounds (if String.eqb metric "" then "l2"%string else metric))
         else None) [].
  End Fit.
End EarlyStop.
Arguments estop N : clear implicits.

(** * Callbacks of the trainer, callbacks.go *)
Section Callbacks.
  Context {N : Num} {W : Type}.

  (** CallbackEnv, callbacks.go lines 12-19: iteration, the model's learning rate
      and number of leaves (the only fields callbacks of this package assign),
      evaluation results, stop flag.  The model is the fresh copy returned by
      trainer.GetModel. *)
  Record cenv := mkcenv {
    c_iter : Z; c_lr : N; c_leaves : Z; c_eval : list (string * N); c_stop : bool }.
  (** A callback may read and change the environment and its captured variables,
      which live in the shared world [W]. *)
  Definition callback : Type := cenv -> W -> cenv * W * res unit.

  (** callbacks.go lines 143-150: callbacks run in order until one fails or asks to
      stop (tested after each callback). *)
  Fixpoint run_before (cbs : list callback) (e : cenv) (w : W) : cenv * W * res unit :=
    match cbs with
    | [] => (e, w, Ok tt)
    | cb :: r =>
        match cb e w with
        | (e', w', Ok _) => if c_stop e' then (e', w', Ok tt) else run_before r e' w'
        | (e', w', Err x) => (e', w', Err x)
        | (e', w', Panic) => (e', w', Panic)
        end
    end.
  (** callbacks.go lines 161-165 *)
  Fixpoint run_after (cbs : list callback) (e : cenv) (w : W) : cenv * W * res unit :=
    match cbs with
    | [] => (e, w, Ok tt)
    | cb :: r =>
        match cb e w with
        | (e', w', Ok _) => run_after r e' w'
        | (e', w', Err x) => (e', w', Err x)
        | (e', w', Panic) => (e', w', Panic)
        end
    end.

  (** The loop of Trainer.Fit, trainer.go lines 454-548, as run by FitWithCallbacks
      (callbacks.go lines 228-239).  [grow] builds the next tree from the ensemble (it
      depends on the trainer's own parameters only: [lr] and [leaves] are the values
      GetModel copies into each fresh model), [loss] is calculateLoss. *)
  Section Loop.
    Context {T : Type}.
    Variable lr : N.
    Variable leaves : Z.
    Variable grow : list T -> res T.
    Variable loss : list T -> N.
    Variable cbs : list callback.
    Fixpoint cb_loop (fuel : nat) (iter : Z) (e : cenv) (w : W) (ts : list T)
      : W * res (list T) :=
      match fuel with
      | O => (w, Ok ts)
      | S fuel' =>
          let e1 := mkcenv iter lr leaves (c_eval e) (c_stop e) in
          match run_before cbs e1 w with
          | (e2, w2, Err x) => (w2, Err (EWrapped x))
          | (e2, w2, Panic) => (w2, Panic)
          | (e2, w2, Ok _) =>
              if c_stop e2 then (w2, Ok ts)
              else
                match grow ts with
                | Err x => (w2, Err (EWrapped x))
                | Panic => (w2, Panic)
                | Ok t =>
                    let ts' := ts ++ [t] in
                    let e3 := mkcenv iter lr leaves [("training_loss"%string, loss ts')] (c_stop e2) in
                    match run_after cbs e3 w2 with
                    | (e4, w4, Err x) => (w4, Err (EWrapped x))
                    | (e4, w4, Panic) => (w4, Panic)
                    | (e4, w4, Ok _) =>
                        if c_stop e4 then (w4, Ok ts')
                        else cb_loop fuel' (iter + 1) e4 w4 ts'
                    end
                end
          end
      end.
    Definition fit_with_callbacks (iterations : Z) (w : W) : W * res (list T) :=
      cb_loop (Z.to_nat iterations) 0 (mkcenv 0 lr leaves [] false) w [].
  End Loop.

  Definition lookup (k : string) (m : list (string * N)) : option N :=
    option_map snd (find (fun p => String.eqb (fst p) k) m).

  (** EarlyStoppingCallback, callbacks.go lines 52-83; [get]/[put] access the captured
      variables (bestScore, bestIteration, roundsNoImprove), initially
      (+-Inf, 0, 0). *)
  Definition es_state : Type := option N * Z * Z.
  Definition early_stopping_callback (get : W -> es_state) (put : es_state -> W -> W)
      (rounds : Z) (metric : string) (minimize : bool) : callback :=
    fun e w =>
      match lookup metric (c_eval e) with
      | None => (e, w, Ok tt)
      | Some v =>
          let '(best, bi, k) := get w in
          let '(best', bi', k') :=
            if improves minimize best v then (Some v, c_iter e, 0%Z) else (best, bi, (k + 1)%Z) in
          (mkcenv (c_iter e) (c_lr e) (c_leaves e) (c_eval e) (c_stop e || (rounds <=? k')%Z),
           put (best', bi', k') w, Ok tt)
      end.

  (** RecordEvaluation, callbacks.go lines 40-50: the history map as an association
      list, [append_at] appending to the entry of a name. *)
  Fixpoint append_at (k : string) (v : N) (h : list (string * list N)) : list (string * list N) :=
    match h with
    | [] => [(k, [v])]
    | (k', l) :: r => if String.eqb k' k then (k', l ++ [v]) :: r else (k', l) :: append_at k v r
    end.
  Definition record_evaluation (get : W -> list (string * list N))
      (put : list (string * list N) -> W -> W) : callback :=
    fun e w => (e, put (fold_left (fun h kv => append_at (fst kv) (snd kv) h) (c_eval e) (get w)) w, Ok tt).

  (** LearningRateSchedule, callbacks.go lines 175-189 (initialLR is captured but only
      written); a zero [steps] panics in the modulus. *)
  Definition learning_rate_schedule (decay : N) (steps : Z) : callback :=
    fun e w =>
      if (0 <? c_iter e)%Z then
        if (steps =? 0)%Z then (e, w, Panic)
        else if (Z.rem (c_iter e) steps =? 0)%Z
        then (mkcenv (c_iter e) (c_lr e * decay) (c_leaves e) (c_eval e) (c_stop e), w, Ok tt)
        else (e, w, Ok tt)
      else (e, w, Ok tt).
  (** ResetParameter, callbacks.go lines 98-118: [params] gives the new learning rate
      and number of leaves, when of the right dynamic type. *)
  Definition reset_parameter (params : Z -> option N * option Z) : callback :=
    fun e w =>
      let (l, n) := params (c_iter e) in
      (mkcenv (c_iter e) (match l with Some x => x | None => c_lr e end)
              (match n with Some x => x | None => c_leaves e end) (c_eval e) (c_stop e), w, Ok tt).
End Callbacks.
Arguments cenv N : clear implicits.
Arguments callback N W : clear implicits.

(** * The Python-style Train, api/train.go lines 24-146, with no user callbacks *)
Section Train.
  Context {N : Num} {M : Type}.

  (** api/callbacks.go lines 105-119; metricName is only printed. *)
  Record aes := mkaes { a_rounds : Z; a_best : option N; a_bestit : Z; a_wait : Z; a_higher : bool }.
  (** api/callbacks.go lines 121-133 and Init, lines 136-157 (params["objective"] as
      given by the user; [None] when absent or not a string) *)
  Definition aes_init (rounds : Z) (objective : option string) : aes :=
    mkaes rounds None 0 0
      match objective with
      | Some o => String.eqb o "binary" || String.eqb o "multiclass"
      | None => false
      end.

  (** lines 189-199: minDelta is 0 *)
  Definition aes_improved (c : aes) (s : N) : bool :=
    match a_best c with
    | None => improves (negb (a_higher c)) None s
    | Some b => if a_higher c then b + n0 <? s else s <? b - n0
    end.

  (** AfterIteration, lines 165-227.  [pick] delivers the entry at which the range over
      the EvalResults map starts; each key holds the list of its scores so far, of
      which the last is used.  [true] is ErrEarlyStop. *)
  Definition aes_after (pick : list (string * N) -> option (string * N)) (iter : Z)
      (results : list (string * N)) (c : aes) : aes * bool :=
    match pick results with
    | None => (c, false)
    | Some (_, s) =>
        if aes_improved c s then (mkaes (a_rounds c) (Some s) iter 0 (a_higher c), false)
        else let c' := mkaes (a_rounds c) (a_best c) (a_bestit c) (a_wait c + 1) (a_higher c) in
             (c', (a_rounds c <=? a_wait c')%Z)
    end.

  Fixpoint set_key (k : string) (v : N) (m : list (string * N)) : list (string * N) :=
    match m with
    | [] => [(k, v)]
    | (k', v') :: r => if String.eqb k' k then (k', v) :: r else (k', v') :: set_key k v r
    end.

  (** train.go lines 104-115: evaluate every validation set in order; [eval m i] is
      evaluateDataset of the [i]-th set, [keys] the strings "name-metric"; a missing
      name is an index panic. *)
  Fixpoint evaluate (eval : nat -> N) (nvalid i : nat) (keys : list string)
      (res0 : list (string * N)) : res (list (string * N)) :=
    match nvalid with
    | O => Ok res0
    | S k =>
        match keys with
        | [] => Panic
        | key :: keys' => evaluate eval k (S i) keys' (set_key key (eval i) res0)
        end
    end.

  (** train.go lines 80-128.  [fit] is trainer.Fit followed by GetModel, called in the
      first iteration only (trainOneIteration, lines 294-326).  The BeforeIteration
      callbacks do nothing and ShouldStop is only set together with the error.  [picks]
      gives the map order of each iteration. *)
  Fixpoint train_loop (fit : res M) (eval : M -> nat -> N) (nvalid : nat) (keys : list string)
      (picks : Z -> list (string * N) -> option (string * N))
      (fuel : nat) (iter : Z) (model : option M) (results : list (string * N)) (es : option aes)
    : res (option M) :=
    match fuel with
    | O => Ok model
    | S fuel' =>
        let* m := match model with
                  | Some m => Ok m
                  | None => match fit with Ok m => Ok m | Err e => Err (EWrapped e) | Panic => Panic end
                  end in
        let* results' := evaluate (eval m) nvalid 0 keys results in
        match es with
        | None => train_loop fit eval nvalid keys picks fuel' (iter + 1) (Some m) results' es
        | Some c =>
            match aes_after (picks iter) iter results' c with
            | (_, true) => Err (EOther 99)          (* return nil, ErrEarlyStop *)
            | (c', false) => train_loop fit eval nvalid keys picks fuel' (iter + 1) (Some m) results' (Some c')
            end
        end
    end.
  (** Train without early stopping when [rounds <= 0] (line 49).  The result is the
      booster's model, [None] when no iteration ran. *)
  Definition train (fit : res M) (eval : M -> nat -> N) (nvalid : nat) (keys : list string)
      (picks : Z -> list (string * N) -> option (string * N))
      (num_boost_round rounds : Z) (objective : option string) : res (option M) :=
    train_loop fit eval nvalid keys picks (Z.to_nat num_boost_round) 0 None []
      (if (0 <? rounds)%Z then Some (aes_init rounds objective) else None).
End Train.
Arguments aes N : clear implicits.
