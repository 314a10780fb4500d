(** pkg/log/testing.go: the logger for tests.  The buffer is kept as its lines; a line is the object that encoding/json writes and
    reads back, strings being valid UTF-8.  [of_int] is the float64 of an int, [fin] holds of numbers that are neither NaN nor infinite,
    which json.Marshal refuses, as it refuses channels and functions ([VBad]).  Other kinds of values are left out. *)
From Coq Require Import String List ZArith Bool.
From Verif Require Import Base.GoMap Model.Log.
Import ListNotations.
Open Scope Z_scope.

Section TestLog.
  Context {F : Type} (of_int : Z -> F) (fin : F -> bool) (feq : F -> F -> bool).
  Inductive value : Type := VStr (s : string) | VInt (z : Z) | VNum (x : F) | VBool (b : bool) | VNil | VErr (s : string) | VBad.
  Inductive json : Type := JStr (s : string) | JNum (x : F) | JBool (b : bool) | JNull.
  (** fmt.Sprintf("%v", k) *)
  Context (show : value -> string).
  (** json.Marshal of a value, and what json.Unmarshal makes of it; errors have become strings before *)
  Definition enc (v : value) : option json :=
    match v with
    | VStr s => Some (JStr s) | VInt z => Some (JNum (of_int z)) | VNum x => if fin x then Some (JNum x) else None
    | VBool b => Some (JBool b) | VNil => Some JNull | VErr _ => None | VBad => None
    end.
  Fixpoint enc_all (m : list (string * value)) : option (list (string * json)) :=
    match m with
    | [] => Some []
    | (k, v) :: r => match enc v, enc_all r with Some j, Some l => Some ((k, j) :: l) | _, _ => None end
    end.
  (** Lines 91-102 and 128-139: value.(error) *)
  Definition plain (v : value) : value := match v with VErr s => VStr s | _ => v end.
  Fixpoint put_pairs (fs : list value) (m : list (string * value)) : list (string * value) :=
    match fs with k :: v :: r => put_pairs r (sput (show k) (plain v) m) | _ => m end.
  Record tlogger : Type := mkt { t_level : Z; t_fields : list (string * value) }.
  (** The buffer, an empty line being [None], and the loggers that write to it *)
  Record tst : Type := mktst { lines : list (option (list (string * json))); loggers : list tlogger }.
  (** Lines 44-51 *)
  Definition new_test (L : Z) : tst := mktst [] [mkt L []].
  Definition name_of (m : meth) : string := match m with MDebug => "DEBUG" | MInfo => "INFO" | MWarn => "WARN" | MError => "ERROR" end.
  Definition meth_level (m : meth) : Z := match m with MDebug => LevelDebug | MInfo => LevelInfo | MWarn => LevelWarn | MError => LevelError end.
  (** Lines 116-145; a range loop over a map with distinct keys *)
  Definition entry_of (t : tlogger) (m : meth) (msg : string) (fs : list value) : list (string * value) :=
    put_pairs fs (fold_left (fun e kv => sput (fst kv) (snd kv) e) (t_fields t) (sput "message" (VStr msg) (sput "level" (VStr (name_of m)) []))).
  Inductive top : Type := TLog (i : nat) (m : meth) (msg : string) (fs : list value) | TWith (i : nat) (fs : list value) | TSetLevel (i : nat) (L : Z) | TClear.
  Fixpoint set_lvl (i : nat) (L : Z) (l : list tlogger) : list tlogger :=
    match l, i with [], _ => [] | t :: r, O => mkt L (t_fields t) :: r | t :: r, S i' => t :: set_lvl i' L r end.
  Definition texec (s : tst) (o : top) : tst :=
    match o with
    | TLog i m msg fs => (* lines 54-79 *)
        match nth_error (loggers s) i with
        | Some t => if t_level t <=? meth_level m then mktst (lines s ++ [enc_all (entry_of t m msg fs)]) (loggers s) else s
        | None => s
        end
    | TWith i fs => (* lines 82-108 *)
        match nth_error (loggers s) i with Some t => mktst (lines s) (loggers s ++ [mkt (t_level t) (put_pairs fs (t_fields t))]) | None => s end
    | TSetLevel i L => (* lines 275-277 *) mktst (lines s) (set_lvl i L (loggers s))
    | TClear => mktst [] (loggers s)
    end.
  (** Lines 168-185 *)
  Definition get_entries (s : tst) : list (list (string * json)) := flat_map (fun l => match l with Some e => [e] | None => [] end) (lines s).
  (** fieldValue == value: equal dynamic types and equal values *)
  Definition same (j : json) (v : value) : bool :=
    match j, v with JStr a, VStr b => (a =? b)%string | JNum x, VNum y => feq x y | JBool a, VBool b => Bool.eqb a b | JNull, VNil => true | _, _ => false end.
  (** Lines 219-234 *)
  Definition contains_field (s : tst) (k : string) (v : value) : bool := existsb (fun e => match sget k e with Some j => same j v | None => false end) (get_entries s).
End TestLog.
Arguments value F : clear implicits.
Arguments json F : clear implicits.
Arguments tlogger F : clear implicits.
Arguments tst F : clear implicits.
Arguments top F : clear implicits.
