(** Train of sklearn/lightgbm/api/train.go with callbacks, and the callbacks of api/callbacks.go.  Of the output only what
    PrintEvaluationCallback prints is kept. *)
From Coq Require Import String Ascii List Arith ZArith Bool.
From Verif Require Import Base.Num Base.GoRes Base.GoMap Base.Mat Base.ListX
  Model.EarlyStop Model.LgbTree Model.LgbEstimator Model.LgbText Model.LgbBooster Model.LgbApi.
Import ListNotations.
Local Open Scope string_scope.
Local Open Scope list_scope.

Section ApiCallbacks.
  Context {N : Num}.
  (** What the callbacks of the user keep outside of the library *)
  Context {W : Type}.
  (** The fields of the trainer and of prediction that Model/LgbApi.v has as arguments *)
  Variable trainer : settings N * (N * N) -> matrix N -> matrix N -> option (res (gmodel N)).
  Variables toint32 roundint : N -> Z.
  Variable zthr : N.
  Variable fuel : nat.
  (** The order in which the k-th range loop over EvalResults visits the entries *)
  Variable order : nat -> @smap (list N) -> list (string * list N).

  (** CallbackEnv, callbacks.go lines 21-30, without the pointer to the booster, which is kept beside it; a nil map of
      parameters is [None].  NumBoostRound is not read. *)
  Record cenv := mkv {
    v_iter : Z; v_params : option (params N); v_results : @smap (list N); v_best : Z; v_score : N; v_stop : bool }.
  (** A printed line: the number in brackets and the last value of each entry, in an order that is not kept *)
  Record line := mkline { l_no : Z; l_entries : @smap N }.
  (** Everything a callback can see or change: the state of the user, the environment, the models in memory and the booster,
      the lines printed so far, and the number of range loops so far *)
  Record world := mkw {
    w_user : W; w_env : cenv; w_heap : heap N; w_booster : booster N; w_lines : list line; w_ticks : nat }.

  (** What a method of a callback returns: nil, ErrEarlyStop itself, another error; or it panics *)
  Inductive answer := Fine | Early | Fails (e : err) | Panics.
  (** The methods of the interface Callback, lines 13-18 *)
  Inductive phase := PInit | PBefore | PAfter | PFinal.
  (** A callback: those of callbacks.go with their fields, or one of the user.  The same object given twice to Train, which
      would share its fields, is not modelled. *)
  Inductive cback :=
  | CPrint (period last : Z)
  | CEarly (a : aes N)
  | CRecord (results : @smap (@smap (list N)))
  | CReset (start : Z) (new : params N)
  | CList (l : list cback)
  | CUser (u : phase -> world -> world * answer).

  Definition with_env (e : cenv) (w : world) : world := mkw (w_user w) e (w_heap w) (w_booster w) (w_lines w) (w_ticks w).
  Definition with_booster (b : booster N) (w : world) : world := mkw (w_user w) (w_env w) (w_heap w) b (w_lines w) (w_ticks w).
  Definition print (l : line) (w : world) : world := mkw (w_user w) (w_env w) (w_heap w) (w_booster w) (w_lines w ++ [l]) (w_ticks w).
  Definition ticked (w : world) : world := mkw (w_user w) (w_env w) (w_heap w) (w_booster w) (w_lines w) (S (w_ticks w)).

  (** The entries that PrintEvaluationCallback prints, lines 72-77 and 92-97 *)
  Definition lasts (m : @smap (list N)) : @smap N :=
    flat_map (fun e => match snd e with [] => [] | v :: r => [(fst e, List.last r v)] end) m.
  (** PrintEvaluationCallback: Init lines 50-55, AfterIteration lines 63-85, Finalize lines 88-101 *)
  Definition print_call (ph : phase) (period last : Z) (w : world) : cback * world * answer :=
    let e := w_env w in
    match ph with
    | PInit => (CPrint (if (period <=? 0)%Z then 1 else period) last, w, Fine)
    | PBefore => (CPrint period last, w, Fine)
    | PAfter =>
        if (period =? 0)%Z then (CPrint period last, w, Panics)
        else if negb (Z.rem (v_iter e) period =? 0)%Z then (CPrint period last, w, Fine)
        else (CPrint period (v_iter e),
              match lasts (v_results e) with [] => w | l => print (mkline (v_iter e + 1) l) w end, Fine)
    | PFinal =>
        (CPrint period last,
         if ((last <? v_iter e - 1) && (0 <? v_iter e))%Z then print (mkline (v_iter e) (lasts (v_results e))) w else w, Fine)
    end.

  (** EarlyStoppingCallback.Init, lines 134-155: the counters are not reset *)
  Definition entries (p : option (params N)) : params N := match p with Some m => m | None => [] end.
  Definition early_init (p : option (params N)) (a : aes N) : aes N :=
    match sget "objective" (entries p) with
    | Some (VStr o) => mkaes (a_rounds a) None (a_bestit a) (a_wait a) (String.eqb o "binary" || String.eqb o "multiclass")
    | _ => a
    end.
  (** Lines 168-175: the first entry with a value *)
  Definition first_entry (l : list (string * list N)) : option (string * list N) :=
    find (fun e => match snd e with [] => false | _ => true end) l.
  (** AfterIteration, lines 163-226; verbose output and metricName, which is only printed, left out *)
  Definition early_after (a : aes N) (w : world) : cback * world * answer :=
    let e := w_env w in
    match first_entry (order (w_ticks w) (v_results e)) with
    | None => (CEarly a, ticked w, Fine)
    | Some (key, values) =>
        if String.eqb key "" then (CEarly a, ticked w, Fine)
        else
          let score := List.last values n0 in
          if aes_improved a score then
            (CEarly (mkaes (a_rounds a) (Some score) (v_iter e) 0 (a_higher a)),
             with_env (mkv (v_iter e) (v_params e) (v_results e) (v_iter e) score (v_stop e)) (ticked w), Fine)
          else
            let a' := mkaes (a_rounds a) (a_best a) (a_bestit a) (a_wait a + 1) (a_higher a) in
            if (a_rounds a <=? a_wait a')%Z then
              (CEarly a',
               with_booster (set_best (a_bestit a) (w_booster w))
                 (with_env (mkv (v_iter e) (v_params e) (v_results e) (v_best e) (v_score e) true) (ticked w)), Early)
            else (CEarly a', ticked w, Fine)
    end.
  Definition early_call (ph : phase) (a : aes N) (w : world) : cback * world * answer :=
    match ph with
    | PInit => (CEarly (early_init (v_params (w_env w)) a), w, Fine)
    | PAfter => early_after a w
    | PBefore | PFinal => (CEarly a, w, Fine)
    end.

  (** RecordEvaluationCallback.AfterIteration, lines 259-284.  [last_dash] cuts a key at its last '-' (the loop of lines
      264-270 runs from the end). *)
  Fixpoint last_dash (s : string) : option (string * string) :=
    match s with
    | EmptyString => None
    | String c r =>
        match last_dash r with
        | Some (d, m) => Some (String c d, m)
        | None => if Ascii.eqb c "-" then Some ("", r) else None
        end
    end.
  Definition record_entry (results : @smap (@smap (list N))) (e : string * list N) : @smap (@smap (list N)) :=
    match last_dash (fst e) with
    | Some (d, m) =>
        if String.eqb d "" || String.eqb m "" then results
        else sput d (sput m (snd e) (match sget d results with Some r => r | None => [] end)) results
    | None => results
    end.
  Definition record_call (ph : phase) (results : @smap (@smap (list N))) (w : world) : cback * world * answer :=
    match ph with
    | PAfter => (CRecord (fold_left record_entry (order (w_ticks w) (v_results (w_env w))) results), ticked w, Fine)
    | _ => (CRecord results, w, Fine)
    end.

  (** ResetParameterCallback.BeforeIteration, lines 316-325: writes into the map given to Train; a nil map panics at the
      first write.  [new] is a map, so the order of the writes does not matter. *)
  Definition put_all (new p : params N) : params N := fold_left (fun p e => sput (fst e) (snd e) p) new p.
  Definition reset_call (ph : phase) (start : Z) (new : params N) (w : world) : cback * world * answer :=
    let e := w_env w in
    match ph with
    | PBefore =>
        if (v_iter e =? start)%Z then
          match v_params e, new with
          | None, _ :: _ => (CReset start new, w, Panics)
          | None, [] => (CReset start new, w, Fine)
          | Some p, _ => (CReset start new, with_env (mkv (v_iter e) (Some (put_all new p)) (v_results e) (v_best e) (v_score e) (v_stop e)) w, Fine)
          end
        else (CReset start new, w, Fine)
    | _ => (CReset start new, w, Fine)
    end.

  (** A method of a callback; those of CallbackList, lines 355-392, go through the list up to the first error *)
  Fixpoint call (ph : phase) (c : cback) (w : world) {struct c} : cback * world * answer :=
    match c with
    | CPrint period last => print_call ph period last w
    | CEarly a => early_call ph a w
    | CRecord results => record_call ph results w
    | CReset start new => reset_call ph start new w
    | CUser u => let (w, a) := u ph w in (CUser u, w, a)
    | CList l =>
        let '(l, w, a) :=
          (fix go (l : list cback) (w : world) : list cback * world * answer :=
             match l with
             | [] => ([], w, Fine)
             | c :: r =>
                 match call ph c w with
                 | (c, w, Fine) => let '(r, w, a) := go r w in (c :: r, w, a)
                 | (c, w, a) => (c :: r, w, a)
                 end
             end) l w in
        (CList l, w, a)
    end.
  (** The loops of Train over the callbacks, train.go lines 70-74, 84-93, 122-126 and 135-139, up to the first answer that is
      not nil *)
  Fixpoint calls (ph : phase) (l : list cback) (w : world) : list cback * world * answer :=
    match l with
    | [] => ([], w, Fine)
    | c :: r =>
        match call ph c w with
        | (c, w, Fine) => let '(r, w, a) := calls ph r w in (c :: r, w, a)
        | (c, w, a) => (c :: r, w, a)
        end
    end.

  (** Lines 106-119: every score is appended in the environment and in the booster *)
  Fixpoint evaluate_both (objective : string) (h : heap N) (b : booster N) (m : @smap (list N)) (sets : list (option (dataset N))) (names : list string)
    : option (res (booster N * @smap (list N))) :=
    match sets with
    | [] => Some (Ok (b, m))
    | ds :: r =>
        match evaluate_set toint32 roundint zthr fuel objective h b ds with
        | Some (Ok score) =>
            match names with
            | [] => Some Panic
            | name :: names =>
                let key := eval_key name (metric_name objective) in
                evaluate_both objective h (add_eval name (metric_name objective) score b)
                  (sput key ((match sget key m with Some l => l | None => [] end) ++ [score]) m) r names
            end
        | Some (Err e) => Some (Err e)
        | Some Panic => Some Panic
        | None => None
        end
    end.

  (** ErrEarlyStop, callbacks.go line 10 *)
  Definition err_early : err := EOther 99.
  Definition at_iter (i : Z) (w : world) : world :=
    let e := w_env w in with_env (mkv i (v_params e) (v_results e) (v_best e) (v_score e) (v_stop e)) w.
  Definition trained (h : heap N) (b : booster N) (m : @smap (list N)) (w : world) : world :=
    let e := w_env w in
    mkw (w_user w) (mkv (v_iter e) (v_params e) m (v_best e) (v_score e) (v_stop e)) h b (w_lines w) (w_ticks w).
  (** The training loop, train.go lines 80-129.  The break of line 89 leaves the loop over the callbacks only.  The result is
      the callbacks with their fields, the world, and nil, the error returned or a panic. *)
  Fixpoint loop (s : settings N * (N * N)) (ds : dataset N) (sets : list (option (dataset N))) (names : list string) (k : nat) (iter : Z)
      (cs : list cback) (w : world) : option (list cback * world * res unit) :=
    match k with
    | 0 => Some (cs, w, Ok tt)
    | S k' =>
        let '(cs, w, a) := calls PBefore cs (at_iter iter w) in
        match a with
        | Fails e => Some (cs, w, Err e)
        | Panics => Some (cs, w, Panic)
        | Fine | Early =>
            let w := match a with Early => with_booster (set_best (v_best (w_env w)) (w_booster w)) w | _ => w end in
            if v_stop (w_env w) then Some (cs, w, Ok tt)
            else
              match train_one trainer s ds (w_heap w, w_booster w) with
              | Some (Ok (h, b)) =>
                  match evaluate_both (s_obj (fst s)) h b (v_results (w_env w)) sets names with
                  | Some (Ok (b, m)) =>
                      let '(cs, w, a) := calls PAfter cs (trained h b m w) in
                      match a with
                      | Fine => loop s ds sets names k' (iter + 1) cs (with_booster (with_cur (iter + 1) (w_booster w)) w)
                      | Early => Some (cs, w, Err err_early)
                      | Fails e => Some (cs, w, Err e)
                      | Panics => Some (cs, w, Panic)
                      end
                  | Some (Err e) => Some (cs, w, Err e)
                  | Some Panic => Some (cs, w, Panic)
                  | None => None
                  end
              | Some (Err e) => Some (cs, w, Err (EWrapped e))
              | Some Panic => Some (cs, w, Panic)
              | None => None
              end
        end
    end.

  (** NewPrintEvaluationCallback and NewEarlyStoppingCallback, callbacks.go lines 41-47 and 120-131 *)
  Definition new_print (period : Z) : cback := CPrint period (-1).
  Definition new_early (rounds : Z) : cback := CEarly (mkaes rounds None 0 0 false).
  (** Train, train.go lines 24-146: the callbacks of the user come first, then those of WithVerboseEval (on with period 1 if not
      given) and WithEarlyStopping *)
  Definition all_callbacks (cs : list cback) (verbose : option Z) (rounds : Z) : list cback :=
    cs ++ (match verbose with Some freq => [new_print freq] | None => [] end) ++ (if (0 <? rounds)%Z then [new_early rounds] else []).
  Definition all_names (sets : list (option (dataset N))) (names : list string) : list string :=
    match names with [] => map (fun i => append "valid_" (show_int (Z.of_nat i))) (seq 0 (List.length sets)) | _ => names end.
  Definition start (u : W) (h : heap N) (p : option (params N)) : world := mkw u (mkv 0 p [] 0 n0 false) h new_booster [] 0.
  Definition train_with (u : W) (h : heap N) (p : option (params N)) (ds : dataset N) (num : Z) (sets : list (option (dataset N))) (names : list string)
      (cs : list cback) (verbose : option Z) (rounds : Z) : option (list cback * world * res unit) :=
    let '(cs, w, a) := calls PInit (all_callbacks cs verbose rounds) (start u h p) in
    match a with
    | Early => Some (cs, w, Err (EWrapped err_early))
    | Fails e => Some (cs, w, Err (EWrapped e))
    | Panics => Some (cs, w, Panic)
    | Fine =>
        match loop (parse_params (entries p)) ds sets (all_names sets names) (Z.to_nat num) 0 cs w with
        | Some (cs, w, Ok _) =>
            let '(cs, w, a) := calls PFinal cs w in
            match a with
            | Early => Some (cs, w, Err err_early)
            | Fails e => Some (cs, w, Err e)
            | Panics => Some (cs, w, Panic)
            | Fine => Some (cs, if (b_best (w_booster w) =? 0)%Z then with_booster (set_best (b_cur (w_booster w)) (w_booster w)) w else w, Ok tt)
            end
        | r => r
        end
    end.
End ApiCallbacks.
Arguments cback N W : clear implicits.
Arguments world N W : clear implicits.
Arguments cenv N : clear implicits.
Arguments line N : clear implicits.
