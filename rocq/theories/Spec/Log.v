(** What is expected of the loggers. *)
From Coq Require Import String List ZArith Bool.
From Verif Require Import Model.Log.
Import ListNotations.
Open Scope Z_scope.

(** The level of a method of the interface *)
Definition level_of (m : meth) : Z := match m with MDebug => -4 | MInfo => 0 | MWarn => 4 | MError => 8 end.
(** The names that SetupLogger accepts, and the methods whose messages are then written *)
Definition setup_writes : list (string * list meth) :=
  [("debug", [MDebug; MInfo; MWarn; MError]); ("info", [MInfo; MWarn; MError]); ("warn", [MWarn; MError]); ("warning", [MWarn; MError]);
   ("error", [MError]); ("fatal", []); ("panic", []); ("disabled", [])]%string.
Section Spec.
  Context {V : Type} (show : V -> string) (is_err : V -> bool) (stack : V -> option string).
  (** The entries that an operation writes *)
  Definition written (s : st V) (o : op V) : list (entry V) := skipn (length (out s)) (out (exec show is_err stack s o)).
  (** A call of method m of logger i writes an entry *)
  Definition writes (s : st V) (i : nat) (m : meth) : Prop := forall fs msg, exists fields, written s (Log i m fs msg) = [mkentry (event_level m) fields msg].
  Definition silent (s : st V) (i : nat) (m : meth) : Prop := forall fs msg, written s (Log i m fs msg) = [].
  (** Operations that change no level *)
  Definition keeps_levels (o : op V) : bool := match o with Setup _ _ | SetLevel _ _ => false | _ => true end.
  Definition no_provider_change (o : op V) : bool := match o with Setup _ _ | SetLevel _ _ | SetProvider _ => false | _ => true end.
End Spec.
