(** pkg/log/logger.go lines 21-38 and 73-103: what LogError and LogWarningWithDetails write of an error.  Used of zerolog: the zero
    Logger writes nothing, SetGlobalLevel decides for a Logger of zerolog.New, and Object writes the fields of its marshaler. *)
From Coq Require Import String List ZArith Bool.
From Verif Require Import Model.Log Model.ErrChain.
Import ListNotations.
Open Scope Z_scope.

(** errors.go lines 159, 188 and 220: the error structs with MarshalZerologObject *)
Definition marshals (t : etype) : bool := match t with TNotFitted | TDimension | TValidation => true | _ => false end.
(** The warning structs, errors.go lines 74-141 and 383-437; the first two have MarshalZerologObject (lines 88, 112). *)
Inductive wtype : Type := WConvergence | WConversion | WUndefined | WDrift | WForgetting.
Definition wmarshals (w : wtype) : bool := match w with WConvergence | WConversion => true | _ => false end.

Section ErrLog.
  (** The texts of the structs, the stack trace that cockroachdb/errors gives for an error ("" is none), the texts of the warnings *)
  Context {P W : Type} (show : etype -> P -> string) (stack : err P -> string) (wshow : wtype -> W -> string).
  Inductive value : Type := VText (s : string) | VDetails (t : etype) | VWarning (w : wtype).
  Record line : Type := mkline { l_level : Z; l_fields : list (string * value); l_msg : string }.
  (** Before SetupLogger the global logger is the zero one ([None]); a wrong name panics and changes nothing. *)
  Definition setup (lower : string -> string) (g : option Z) (name : string) : option Z :=
    match to_log_level lower name with Some z => Some z | None => g end.
  Definition emit (g : option Z) (l : line) : list line := match g with Some z => if z <=? l_level l then [l] else [] | None => [] end.
  (** Lines 73-90: the type assertion looks at the error itself. *)
  Definition log_error (g : option Z) (e : err P) (msg : string) : list line :=
    emit g (mkline ErrorLevel
      (("error"%string, VText (text show e)) :: (if marshals (type_of e) then [("details"%string, VDetails (type_of e))] else []) ++
       (if (stack e =? "")%string then [] else [("stacktrace"%string, VText (stack e))])) msg).
  (** Lines 93-103, of a warning struct *)
  Definition log_warning (g : option Z) (w : wtype) (c : W) : list line :=
    emit g (mkline WarnLevel (if wmarshals w then [("warning_details"%string, VWarning w)] else []) (wshow w c)).
  (** The same given an error *)
  Definition log_warning_err (g : option Z) (e : err P) : list line :=
    emit g (mkline WarnLevel (if marshals (type_of e) then [("warning_details"%string, VDetails (type_of e))] else []) (text show e)).
End ErrLog.
