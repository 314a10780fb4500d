(** What is expected of Train with callbacks. *)
From Coq Require Import String Ascii List Arith ZArith Bool.
From Verif Require Import Base.Num Base.GoRes Base.GoMap Base.ListX Model.EarlyStop Model.LgbBooster Model.LgbApi Model.ApiCallbacks.
Import ListNotations.
Local Open Scope string_scope.
Local Open Scope list_scope.

Section ApiCallbacksSpec.
  Context {N : Num} {W : Type}.
  (** A callback that should only watch or set parameters: printing, recording, resetting, and lists of such *)
  Fixpoint quiet (c : cback N W) : bool :=
    match c with
    | CPrint _ _ | CRecord _ | CReset _ _ => true
    | CList l => forallb quiet l
    | CEarly _ | CUser _ => false
    end.
  (** It resets no parameter *)
  Fixpoint no_reset (c : cback N W) : bool :=
    match c with
    | CReset _ _ => false
    | CList l => forallb no_reset l
    | _ => true
    end.
  Definition plain (c : cback N W) : bool := match c with CList _ => false | _ => true end.
  (** The callbacks in a callback, without lists *)
  Fixpoint flat (c : cback N W) : list (cback N W) :=
    match c with CList l => flat_map flat l | _ => [c] end.
  (** The entry recorded for a dataset and a metric *)
  Definition recorded (d m : string) (r : @smap (@smap (list N))) : option (list N) :=
    match sget d r with Some t => sget m t | None => None end.
  Fixpoint dashless (s : string) : bool := match s with EmptyString => true | String c r => negb (Ascii.eqb c "-") && dashless r end.
  (** A name under which scores can be recorded: not empty, and the metric without a dash *)
  Definition recordable (d m : string) : bool := negb (String.eqb d "") && negb (String.eqb m "") && dashless m.
  (** A user's callback that asks for an end after a round by setting ShouldStop *)
  Definition stop_after (j : Z) (ph : phase) (w : world N W) : world N W * answer :=
    let e := w_env w in
    match ph with
    | PAfter => if (v_iter e =? j)%Z then (with_env (mkv (v_iter e) (v_params e) (v_results e) (v_best e) (v_score e) true) w, Fine) else (w, Fine)
    | _ => (w, Fine)
    end.
  (** The same callback, but where its BeforeIteration returns ErrEarlyStop it returns nil and has only set the best iteration *)
  Definition patient (u : phase -> world N W -> world N W * answer) (ph : phase) (w : world N W) : world N W * answer :=
    match ph, u ph w with
    | PBefore, (w, Early) => (with_booster (set_best (v_best (w_env w)) (w_booster w)) w, Fine)
    | _, r => r
    end.
  (** The numbers 1, 1 + p, 1 + 2p, ... up to num *)
  Definition every (p num : Z) : list Z := map (fun i => (Z.of_nat i + 1)%Z) (filter (fun i => (Z.of_nat i mod p =? 0)%Z) (seq 0 (Z.to_nat num))).
End ApiCallbacksSpec.
