(** pkg/errors/errors.go lines 149-305 and 318-392, recovery.go: the errors, what wraps them, and how they are found again.  Used of the
    library cockroachdb/errors: WithStack and Wrap give nil for nil and otherwise a new error whose Unwrap is the old one (Wrap adds a
    message and a stack), and As goes along Unwrap and takes the first error of the type.  What Is finds besides identical errors is
    the argument [mark].  [N] numbers the structs, as pointers do. *)
From Coq Require Import String List Bool.
Import ListNotations.
Local Open Scope string_scope.

(** The dynamic types: the structs of the package, the leaf of New, and the wrappers of cockroachdb/errors and of fmt *)
Inductive etype : Type := TNotFitted | TDimension | TValidation | TValue | TNumerical | TShape | TPlain | TModel | TPanic | TStack | TMessage | TFmt.
Scheme Equality for etype.

Section ErrChain.
  (** The fields of a struct, and its Error() *)
  Context {P : Type} (show : etype -> P -> string).
  Inductive err : Type :=
  | Obj (t : etype) (i : nat) (p : P)
  | ModelE (i : nat) (op kd : string) (inner : option err)
  | PanicE (i : nat) (op shown : string) (value : option err) (* the value given to panic, as %v prints it, and if it is an error *)
  | StackE (e : err) | MsgE (msg : string) (e : err) | FmtE (pre post : string) (e : err).
  (** nil is [None] *)
  Definition error : Type := option err.
  Definition type_of (e : err) : etype :=
    match e with Obj t _ _ => t | ModelE _ _ _ _ => TModel | PanicE _ _ _ _ => TPanic | StackE _ => TStack | MsgE _ _ => TMessage | FmtE _ _ _ => TFmt end.
  (** errors.go lines 258-267 (ModelError), recovery.go lines 26-34 (PanicError) *)
  Fixpoint text (e : err) : string :=
    match e with
    | Obj t _ p => show t p
    | ModelE _ op kd (Some x) => "goml: " ++ op ++ ": " ++ kd ++ ": " ++ text x
    | ModelE _ op kd None => "goml: " ++ op ++ ": " ++ kd
    | PanicE _ op shown _ => "panic in " ++ op ++ ": " ++ shown
    | StackE x => text x
    | MsgE msg x => msg ++ ": " ++ text x
    | FmtE pre post x => pre ++ text x ++ post
    end.
  (** The error and what Unwrap gives, again and again; Unwrap of a PanicError is nil. *)
  Fixpoint chain (e : err) : list err :=
    e :: match e with
         | ModelE _ _ _ (Some x) => chain x
         | StackE x | MsgE _ x | FmtE _ _ x => chain x
         | _ => []
         end.
  (** Lines 286-288, the error As stores in its target *)
  Definition as_type (t : etype) (e : error) : error := match e with Some x => find (fun y => etype_beq (type_of y) t) (chain x) | None => None end.
  (** Lines 281-283 *)
  Definition is_err (same mark : err -> err -> bool) (e : error) (target : err) : bool :=
    match e with Some x => existsb (fun y => same y target) (chain x) || mark x target | None => false end.
  (** Lines 306-308, 291-293, 270-273, and the other constructors *)
  Definition with_stack (e : error) : error := option_map StackE e.
  Definition wrap (msg : string) (e : error) : error := option_map (fun x => StackE (MsgE msg x)) e.
  Definition new_model (i : nat) (op kd : string) (e : error) : error := with_stack (Some (ModelE i op kd e)).
  Definition new_obj (t : etype) (i : nat) (p : P) : error := with_stack (Some (Obj t i p)).
  (** What a body does: return an error or nil, or panic, with the named result set to an error or nil *)
  Inductive outcome : Type := Returns (e : error) | Panics (shown : string) (value : option err) (set : error).
  (** recovery.go lines 66-80 *)
  Definition recover (i : nat) (op : string) (o : outcome) : error :=
    match o with
    | Returns e => e
    | Panics shown v (Some x) => Some (FmtE ("panic in " ++ op ++ ": " ++ shown ++ " (original error: ") ")" x)
    | Panics shown v None => Some (PanicE i op shown v)
    end.
  (** recovery.go lines 99-102: the result of SafeExecute is still nil when fn panics. *)
  Definition safe_execute (i : nat) (op : string) (o : outcome) : error :=
    recover i op (match o with Panics shown v _ => Panics shown v None | r => r end).
End ErrChain.
Arguments err P : clear implicits.
Arguments error P : clear implicits.
Arguments outcome P : clear implicits.
