(** What the logger for tests records: per call one entry, given by the list of its keys and values in the order in which they were
    given, of which for each key the last one counts. *)
From Coq Require Import String List ZArith Bool.
From Verif Require Import Base.GoMap Model.Log Model.TestLog.
Import ListNotations.
Open Scope Z_scope.

Section Spec.
  Context {F : Type} (of_int : Z -> F) (fin : F -> bool) (show : value F -> string).
  (** Key and value taken in twos, an error giving its text *)
  Fixpoint pairs (fs : list (value F)) : list (string * value F) :=
    match fs with k :: v :: r => (show k, match v with VErr s => VStr s | _ => v end) :: pairs r | _ => [] end.
  (** The value of a key: the last one given *)
  Definition final (k : string) (l : list (string * value F)) : option (value F) := sget k (rev l).
  Definition encodable (v : value F) : bool := match v with VNum x => fin x | VBad | VErr _ => false | _ => true end.
  (** All values that count can be written as JSON *)
  Definition good (l : list (string * value F)) : bool := forallb (fun kv => match final (fst kv) l with Some v => encodable v | None => true end) l.
  Record sst : Type := mksst { entries : list (list (string * value F)); slogs : list (Z * list (string * value F)) }.
  Definition sstart (L : Z) : sst := mksst [] [(L, [])].
  Definition text (m : meth) : string := match m with MDebug => "DEBUG" | MInfo => "INFO" | MWarn => "WARN" | MError => "ERROR" end.
  Definition number (m : meth) : Z := match m with MDebug => -4 | MInfo => 0 | MWarn => 4 | MError => 8 end.
  Definition sexec (s : sst) (o : top F) : sst :=
    match o with
    | TLog i m msg fs =>
        match nth_error (slogs s) i with
        | Some (L, acc) => let l := [("level"%string, VStr (text m)); ("message"%string, VStr msg)] ++ acc ++ pairs fs in
                           if (L <=? number m) && good l then mksst (entries s ++ [l]) (slogs s) else s
        | None => s
        end
    | TWith i fs => match nth_error (slogs s) i with Some (L, acc) => mksst (entries s) (slogs s ++ [(L, acc ++ pairs fs)]) | None => s end
    | TSetLevel i L => mksst (entries s) (map (fun '(j, (L', acc)) => if Nat.eqb j i then (L, acc) else (L', acc)) (combine (seq 0 (length (slogs s))) (slogs s)))
    | TClear => mksst [] (slogs s)
    end.
  (** An entry read back has for each key the value that counts *)
  Definition reads (e : list (string * json F)) (l : list (string * value F)) : Prop :=
    forall k, sget k e = match final k l with Some v => enc of_int fin v | None => None end.
End Spec.
