(** core/model/sklearn_import.go and the sklearn exchange methods of linear/regression.go
    (lines 355-471).  JSON texts are modelled by their parse trees; encoding/json is modelled as
    far as these files use it (reading into structs, RawMessage, float64, int, string and
    []float64).  Names are compared without regard to the case of ASCII letters, as
    encoding/json does; its two non-ASCII folding exceptions are left out. *)
From Coq Require Import String Ascii List Arith Bool ZArith.
From Verif Require Import Base.Num Base.GoRes Base.Mat Model.Linear.
Import ListNotations.
Local Open Scope string_scope.
Local Open Scope list_scope.

Section Json.
Context {N : Num}.

(** A JSON value.  [JNum x i]: a number literal with float64 value [x]; [i] is its value when the
    literal is an integer literal within int. *)
Inductive json : Type :=
| JNull
| JBool (b : bool)
| JNum (x : N) (i : option Z)
| JStr (s : string)
| JArr (l : list json)
| JObj (members : list (string * json)).

(** Case folding of encoding/json (ASCII part). *)
Definition lower_ascii (c : ascii) : ascii :=
  let n := nat_of_ascii c in if (65 <=? n)%nat && (n <=? 90)%nat then ascii_of_nat (n + 32) else c.
Fixpoint lower (s : string) : string :=
  match s with EmptyString => EmptyString | String c r => String (lower_ascii c) (lower r) end.

(** Reading into a Go value: null leaves it, a value of another kind is an error
    (UnmarshalTypeError; the decoder reads on and reports it at the end). *)
Definition to_string (old : string) (j : json) : res string :=
  match j with JNull => Ok old | JStr s => Ok s | _ => Err (EOther 1) end.
Definition to_float (old : N) (j : json) : res N :=
  match j with JNull => Ok old | JNum x _ => if nisinf x then Err (EOther 1) else Ok x | _ => Err (EOther 1) end.
Definition to_int (old : Z) (j : json) : res Z :=
  match j with JNull => Ok old | JNum _ (Some z) => Ok z | _ => Err (EOther 1) end.
(** null makes a slice nil; null entries of an array read as zero (for a repeated member they
    could also keep an entry of the first one: left out). *)
Definition to_floats (j : json) : res (list N) :=
  match j with JNull => Ok [] | JArr l => mapM (to_float n0) l | _ => Err (EOther 1) end.
(** A struct: every member that names a field is read into it, in order; other members are
    skipped. *)
Definition to_struct {S} (field : S -> string -> json -> res S) (s : S) (j : json) : res S :=
  match j with JNull => Ok s | JObj ms => foldM (fun st m => field st (lower (fst m)) (snd m)) s ms | _ => Err (EOther 1) end.

(** sklearn_import.go lines 13-17 and 27-30: the metadata and the model; Params is the raw text,
    nil when absent. *)
Record skspec : Type := mkspec { sp_name : string; sp_format : string; sp_sklearn : string }.
Record skmodel : Type := mkmodel { sm_spec : skspec; sm_params : option json }.
(** sklearn_import.go lines 20-24 *)
Record skparams : Type := mkparams { pa_coef : list N; pa_icept : N; pa_nfeat : Z }.

Definition spec_field (s : skspec) (k : string) (j : json) : res skspec :=
  if (k =? "name")%string then let* v := to_string (sp_name s) j in Ok (mkspec v (sp_format s) (sp_sklearn s))
  else if (k =? "format_version")%string then let* v := to_string (sp_format s) j in Ok (mkspec (sp_name s) v (sp_sklearn s))
  else if (k =? "sklearn_version")%string then let* v := to_string (sp_sklearn s) j in Ok (mkspec (sp_name s) (sp_format s) v)
  else Ok s.
Definition model_field (m : skmodel) (k : string) (j : json) : res skmodel :=
  if (k =? "model_spec")%string then let* v := to_struct spec_field (sm_spec m) j in Ok (mkmodel v (sm_params m))
  else if (k =? "params")%string then Ok (mkmodel (sm_spec m) (Some j))
  else Ok m.
Definition params_field (p : skparams) (k : string) (j : json) : res skparams :=
  if (k =? "coefficients")%string then let* v := to_floats j in Ok (mkparams v (pa_icept p) (pa_nfeat p))
  else if (k =? "intercept")%string then let* v := to_float (pa_icept p) j in Ok (mkparams (pa_coef p) v (pa_nfeat p))
  else if (k =? "n_features")%string then let* v := to_int (pa_nfeat p) j in Ok (mkparams (pa_coef p) (pa_icept p) v)
  else Ok p.

(** sklearn_import.go lines 65-89; the text is taken to be a well-formed JSON value. *)
Definition load_model (j : json) : res skmodel :=
  let* m := to_struct model_field (mkmodel (mkspec "" "" "") None) j in
  if (sp_format (sm_spec m) =? "")%string then Err EValue
  else if negb (sp_format (sm_spec m) =? "1.0")%string then Err EValue
  else if (sp_name (sm_spec m) =? "")%string then Err EValue
  else Ok m.

(** sklearn_import.go lines 99-123; unmarshalling an absent (empty) raw text fails. *)
Definition load_params (m : skmodel) : res skparams :=
  if negb (sp_name (sm_spec m) =? "LinearRegression")%string then Err EValue
  else
    let* p := match sm_params m with None => Err (EOther 1) | Some j => to_struct params_field (mkparams [] n0 0) j end in
    if (List.length (pa_coef p) =? 0)%nat then Err EValue
    else if negb (pa_nfeat p =? Z.of_nat (List.length (pa_coef p)))%Z then Err EValue
    else Ok p.

(** linear/regression.go lines 373-400 *)
Definition lr_load (lr : linreg N) (j : json) : linreg N * res unit :=
  match load_model j with
  | Err e => (lr, Err (EWrapped e))
  | Panic => (lr, Err EPanic)
  | Ok m =>
      match load_params m with
      | Err e => (lr, Err (EWrapped e))
      | Panic => (lr, Err EPanic)
      | Ok p => let n := Z.to_nat (pa_nfeat p) in (mklr true n 0 (Some (pa_coef p)) (pa_icept p) n, Ok tt)
      end
  end.

(** json.Marshal of a float64: NaN and the infinities are errors.  [intlit x] tells whether the
    text of [x] is an integer literal. *)
Definition finite (x : N) : bool := negb (nisnan x) && negb (nisinf x).
Definition of_float (intlit : N -> option Z) (x : N) : json := JNum x (intlit x).

(** sklearn_import.go lines 134-155 with the parameters of a linear regression (lines 20-24);
    the empty sklearn_version is omitted. *)
Definition export_doc (intlit : N -> option Z) (name : string) (p : skparams) : res json :=
  if forallb finite (pa_coef p) && finite (pa_icept p)
  then Ok (JObj [("model_spec", JObj [("name", JStr name); ("format_version", JStr "1.0")]);
                 ("params", JObj [("coefficients", JArr (map (of_float intlit) (pa_coef p)));
                                  ("intercept", of_float intlit (pa_icept p));
                                  ("n_features", JNum (nofZ (pa_nfeat p)) (Some (pa_nfeat p)))])])
  else Err (EOther 1).

(** linear/regression.go lines 431-471 *)
Definition lr_export (intlit : N -> option Z) (lr : linreg N) : res json :=
  if negb (lr_fitted lr) then Err ENotFitted
  else match lr_weights lr with
       | None => Err EPanic
       | Some w => export_doc intlit "LinearRegression" (mkparams w (lr_icept lr) (Z.of_nat (lr_nfeat lr)))
       end.

End Json.
Arguments json : clear implicits.
Arguments skmodel : clear implicits.
Arguments skparams : clear implicits.
