(** pkg/log/logger.go: the logger built on zerolog, and pkg/log/interface.go: its levels.  zerolog itself is not code of the
    repository; what is used of it: a Logger is a value with a level and a context, a message is written exactly when its level is
    below neither that of its logger nor the global one, and the methods of Context leave their receiver as it is.  Timestamp, caller
    and the text of values are left out. *)
From Coq Require Import String List ZArith Bool.
Import ListNotations.
Open Scope Z_scope.

(** interface.go lines 147-152, slog numbers *)
Definition LevelDebug : Z := -4.
Definition LevelInfo : Z := 0.
Definition LevelWarn : Z := 4.
Definition LevelError : Z := 8.
(** zerolog's numbers *)
Definition TraceLevel : Z := -1.
Definition DebugLevel : Z := 0.
Definition InfoLevel : Z := 1.
Definition WarnLevel : Z := 2.
Definition ErrorLevel : Z := 3.
Definition FatalLevel : Z := 4.
Definition PanicLevel : Z := 5.
Definition Disabled : Z := 7.
(** The four methods of a Logger *)
Inductive meth : Type := MDebug | MInfo | MWarn | MError.
Definition event_level (m : meth) : Z := match m with MDebug => DebugLevel | MInfo => InfoLevel | MWarn => WarnLevel | MError => ErrorLevel end.

(** logger.go lines 41-60; [None] is the panic, [lower] strings.ToLower *)
Definition to_log_level (lower : string -> string) (s : string) : option Z :=
  let t := lower s in
  if (t =? "info")%string then Some InfoLevel else if (t =? "debug")%string then Some DebugLevel
  else if ((t =? "warn") || (t =? "warning"))%string then Some WarnLevel else if (t =? "error")%string then Some ErrorLevel
  else if (t =? "fatal")%string then Some FatalLevel else if (t =? "panic")%string then Some PanicLevel
  else if (t =? "disabled")%string then Some Disabled else None.
(** Lines 243-256 *)
Definition convert_level (L : Z) : Z :=
  if L =? LevelDebug then DebugLevel else if L =? LevelInfo then InfoLevel else if L =? LevelWarn then WarnLevel
  else if L =? LevelError then ErrorLevel else InfoLevel.
(** Lines 287-291 *)
Definition set_level_level (L : Z) : Z := if (L <? TraceLevel) || (Disabled <? L) then InfoLevel else L.

Section Log.
  (** The values given as fields, how %v prints them, whether they are errors, and the stack trace of an error *)
  Context {V : Type} (show : V -> string) (is_err : V -> bool) (stack : V -> option string).
  Inductive content : Type := CVal (v : V) | CStr (s : string).
  Definition field : Type := string * content.
  Record logger : Type := mklogger { level : Z; context : list field }.
  Record entry : Type := mkentry { e_level : Z; e_fields : list field; e_msg : string }.
  (** Lines 193-215: zerolog's Err takes no key *)
  Fixpoint add_fields (fs : list V) : list field :=
    match fs with k :: v :: r => ((if is_err v then "error"%string else show k), CVal v) :: add_fields r | _ => [] end.
  (** Lines 155-177 *)
  Definition error_fields (fs : list V) : list field :=
    match fs with
    | [] => []
    | v :: r => if is_err v then ("error"%string, CVal v) :: (match stack v with Some t => [("stacktrace"%string, CStr t)] | None => [] end) ++ add_fields r
                else add_fields fs
    end.
  Definition fields_of (m : meth) (fs : list V) : list field := match m with MError => error_fields fs | _ => add_fields fs end.
  (** Lines 218-240: the fields are added to a copy of the context *)
  Definition add_fields_to_context (g : logger) (fs : list V) : logger := mklogger (level g) (context g ++ add_fields fs).
  (** Lines 180-184: the result of addFieldsToContext, which returns nothing, is not used *)
  Definition with_fields (g : logger) (fs : list V) : logger := let _ := add_fields_to_context g fs in g.
  (** Lines 187-190 *)
  Definition enabled (g : logger) (L : Z) : bool := level g <=? convert_level L.

  (** The process: zerolog's global level, the providers made so far (the logger of each), globalProvider, the loggers handed out, and
      the entries written *)
  Record st : Type := mkst { glob : Z; provs : list logger; dflt : option nat; logs : list logger; out : list entry }.
  Definition init : st := mkst TraceLevel [] None [] [].
  Inductive op : Type :=
  | Setup (lower : string -> string) (s : string) | NewProvider (z : Z) | SetProvider (p : nat) | SetLevel (p : nat) (L : Z)
  | Get (p : nat) | GetName (p : nat) (name : string) | Default | Named (name : string)
  | With (i : nat) (fs : list V) | Log (i : nat) (m : meth) (fs : list V) (msg : string).
  Fixpoint set_at (p : nat) (g : logger) (l : list logger) : list logger :=
    match l, p with [], _ => [] | _ :: r, O => g :: r | x :: r, S p' => x :: set_at p' g r end.
  Definition hand_out (g : logger) (s : st) : st := mkst (glob s) (provs s) (dflt s) (logs s ++ [g]) (out s).
  Definition named (g : logger) (name : string) : logger := mklogger (level g) (context g ++ [("component"%string, CStr name)]).
  (** Lines 298-313: the provider of the package, made when there is none *)
  Definition default_provider (s : st) : st * nat :=
    match dflt s with
    | Some p => (s, p)
    | None => (mkst (glob s) (provs s ++ [mklogger InfoLevel []]) (Some (length (provs s))) (logs s) (out s), length (provs s))
    end.
  Definition from_provider (f : logger -> logger) (p : nat) (s : st) : st := match nth_error (provs s) p with Some g => hand_out (f g) s | None => s end.
  (** Operations on providers and loggers that do not exist do nothing. *)
  Definition exec (s : st) (o : op) : st :=
    match o with
    | Setup lower t => (* lines 21-38 *)
        match to_log_level lower t with
        | None => s
        | Some z => mkst z (provs s ++ [mklogger z []]) (Some (length (provs s))) (logs s) (out s)
        end
    | NewProvider z => (* lines 265-271 *) mkst (glob s) (provs s ++ [mklogger z []]) (dflt s) (logs s) (out s)
    | SetProvider p => mkst (glob s) (provs s) (Some p) (logs s) (out s)
    | SetLevel p L => (* lines 285-295 *)
        match nth_error (provs s) p with
        | Some g => mkst (set_level_level L) (set_at p (mklogger (set_level_level L) (context g)) (provs s)) (dflt s) (logs s) (out s)
        | None => s
        end
    | Get p => from_provider (fun g => g) p s
    | GetName p name => from_provider (fun g => named g name) p s
    | Default => let '(s', p) := default_provider s in from_provider (fun g => g) p s'
    | Named name => let '(s', p) := default_provider s in from_provider (fun g => named g name) p s'
    | With i fs => match nth_error (logs s) i with Some g => hand_out (with_fields g fs) s | None => s end
    | Log i m fs msg => (* lines 134-177 *)
        match nth_error (logs s) i with
        | Some g => if (event_level m <? level g) || (event_level m <? glob s) then s
                    else mkst (glob s) (provs s) (dflt s) (logs s) (out s ++ [mkentry (event_level m) (context g ++ fields_of m fs) msg])
        | None => s
        end
    end.
  Definition run (s : st) (os : list op) : st := fold_left exec os s.
End Log.
Arguments logger V : clear implicits.
Arguments entry V : clear implicits.
Arguments st V : clear implicits.
Arguments op V : clear implicits.
