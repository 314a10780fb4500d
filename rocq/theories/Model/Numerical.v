(** pkg/errors/numerical.go and pkg/errors/recovery.go. *)
From Coq Require Import List Arith ZArith Bool.
From Verif Require Import Base.Num Base.GoRes.
Import ListNotations.
Local Open Scope num_scope.

Section Numerical.
  Context {N : Num}.

  (** [math.IsNaN(v) || math.IsInf(v, 0)], the test of numerical.go lines 11, 20, 33. *)
  Definition unstable (v : N) : bool := nisnan v || nisinf v.

  (** numerical.go lines 9-16: None is the nil error, [Some vs] an instability
      error carrying the values [vs] (operation name and iteration omitted). *)
  Fixpoint check_stability_loop (all values : list N) : option (list N) :=
    match values with
    | [] => None
    | v :: r => if unstable v then Some all else check_stability_loop all r
    end.
  Definition check_numerical_stability (values : list N) : option (list N) :=
    check_stability_loop values values.

  (** numerical.go lines 19-24. *)
  Definition check_scalar (value : N) : option (list N) :=
    if unstable value then Some [value] else None.

  (** numerical.go lines 31-41, the inner loop over columns with its break at
      ten collected values. *)
  Fixpoint check_row_loop (at_ : nat -> N) (js : list nat) (acc : list N) : list N :=
    match js with
    | [] => acc
    | j :: r =>
        let v := at_ j in
        if unstable v then
          let acc' := acc ++ [v] in
          if Nat.leb 10 (length acc') then acc' else check_row_loop at_ r acc'
        else check_row_loop at_ r acc
    end.
  (** numerical.go lines 30-45, the outer loop stopping after the first row that
      contributed a value. *)
  Fixpoint check_rows_loop (at_ : nat -> nat -> N) (cols : nat) (is_ : list nat) : list N :=
    match is_ with
    | [] => []
    | i :: r =>
        let acc := check_row_loop (at_ i) (seq 0 cols) [] in
        if Nat.ltb 0 (length acc) then acc else check_rows_loop at_ cols r
    end.
  (** numerical.go lines 27-51. *)
  Definition check_matrix (at_ : nat -> nat -> N) (rows cols : nat) : option (list N) :=
    let vs := check_rows_loop at_ cols (seq 0 rows) in
    if Nat.ltb 0 (length vs) then Some vs else None.

  (** numerical.go lines 55-60. *)
  Definition safe_divide (x y : N) : N :=
    if nabs y <? nlit 1 10000000000 then n0 else x / y.

  (** numerical.go lines 63-71. *)
  Definition clip_value (value lo hi : N) : N :=
    if value <? lo then lo else if value >? hi then hi else value.

  (** numerical.go lines 74-93. *)
  Definition l2norm (g : list N) : N :=
    nsqrt (fold_left (fun acc x => acc + x * x) g n0).
  Definition clip_gradient (gradient : list N) (max_norm : N) : list N :=
    let norm := l2norm gradient in
    if norm >? max_norm then
      let scale := max_norm / norm in
      map (fun x => x * scale) gradient
    else gradient.

  (** numerical.go lines 97-103. *)
  Definition stabilize_log (value : N) : N :=
    let eps := nlit 1 10000000000 in
    if value <? eps then nlog eps else nlog value.

  (** numerical.go lines 107-116. *)
  Definition stabilize_exp (value : N) : N :=
    let m := nlit 700 1 in
    if value >? m then nexp m else if value <? nneg m then n0 else nexp value.

  (** numerical.go lines 124-130: running maximum. *)
  Definition lse_max (v0 : N) (rest : list N) : N :=
    fold_left (fun m v => if v >? m then v else m) rest v0.
  (** numerical.go line 140: the arguments at which [math.Exp] is evaluated. *)
  Definition lse_exp_args (values : list N) : list N :=
    match values with
    | [] => []
    | v0 :: rest => map (fun v => v - lse_max v0 rest) values
    end.
  (** numerical.go lines 119-144.  [math.IsInf(x, -1)] is "infinite and below 0". *)
  Definition log_sum_exp (values : list N) : N :=
    match values with
    | [] => nneg ninf
    | v0 :: rest =>
        let m := lse_max v0 rest in
        if nisinf m && (m <? n0) then nneg ninf
        else m + nlog (fold_left (fun s a => s + nexp a) (lse_exp_args values) n0)
    end.
End Numerical.

(** * Recovery *)

(** How the body of a function with a named error result ends: it returns (the
    named result holds the returned error), or it panics while the named result
    holds some value. *)
Inductive body_end : Type :=
| Returned (e : option err)
| Panicked (current : option err).

(** recovery.go lines 67-80: [defer Recover(&err, op)].  In Go >= 1.21 (go.mod:
    1.24) [recover()] is non-nil for every panic, also for panic(nil).  Fatal
    runtime errors and runtime.Goexit are outside of the model. *)
Definition recover_deferred (b : body_end) : option err :=
  match b with
  | Returned e => e
  | Panicked None => Some EPanic
  | Panicked (Some e) => Some (EWrapped e)
  end.

(** Function bodies passed to SafeExecute: return, panic, call another wrapped
    function, or call one function and, if it returned nil, another one. *)
Inductive prog : Type :=
| PRet (e : option err)
| PPanic
| PSafe (p : prog)
| PThen (p q : prog).

(** recovery.go lines 98-101: while [fn] runs the named result is still nil.
    The argument is how the call of [fn] ends ([None]: a panic leaves it). *)
Definition safe_execute_of (r : option (option err)) : option err :=
  match r with
  | Some e => recover_deferred (Returned e)
  | None => recover_deferred (Panicked None)
  end.

(** How a call of [p] ends; [None] means that a panic leaves the call. *)
Fixpoint call (p : prog) : option (option err) :=
  match p with
  | PRet e => Some e
  | PPanic => None
  | PSafe q => Some (safe_execute_of (call q))
  | PThen p1 p2 =>
      match call p1 with
      | Some None => call p2
      | other => other
      end
  end.
Definition safe_execute (p : prog) : option err := safe_execute_of (call p).
