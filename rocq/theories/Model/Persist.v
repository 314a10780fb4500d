(** core/model/persistence.go: saving to and loading from a file, and what encoding/gob does to
    the fields of linear.LinearRegression (linear/regression.go lines 54-60). *)
From Coq Require Import List Arith Bool.
From Verif Require Import Base.Num Base.GoRes Base.Mat Model.Linear.
Import ListNotations.
Local Open Scope list_scope.

(** *** The file while it is written *)
Section File.
Variables (M B : Type).
(** gob.NewEncoder(file).Encode: the messages written to the file and whether it succeeded. *)
Variable encode : M -> list (list B) * bool.
(** gob.NewDecoder(file).Decode into a fresh value. *)
Variable decode : list B -> option M.

(** What the operating system does to the file, one byte at a time. *)
Inductive step : Type := Truncate | Append (b : B).
Definition do_step (file : option (list B)) (s : step) : option (list B) :=
  match s with
  | Truncate => Some []
  | Append b => match file with None => None | Some l => Some (l ++ [b]) end
  end.
Definition run (file : option (list B)) (steps : list step) : option (list B) := fold_left do_step steps file.

(** persistence.go lines 24-37: os.Create (opening the file empties it), then the messages.
    [cancreate]: whether os.Create succeeds. *)
Definition save_steps (cancreate : bool) (m : M) : list step :=
  if cancreate then Truncate :: map Append (concat (fst (encode m))) else [].
Definition save_result (cancreate : bool) (m : M) : res unit :=
  if negb cancreate then Err (EOther 1) else if snd (encode m) then Ok tt else Err (EOther 2).
Definition save (cancreate : bool) (file : option (list B)) (m : M) : option (list B) * res unit :=
  (run file (save_steps cancreate m), save_result cancreate m).
(** The file after the process stopped within SaveModel, [k] steps done. *)
Definition crash (cancreate : bool) (file : option (list B)) (m : M) (k : nat) : option (list B) :=
  run file (firstn k (save_steps cancreate m)).

(** persistence.go lines 52-65 *)
Definition load (file : option (list B)) : res M :=
  match file with
  | None => Err (EOther 1)
  | Some bs => match decode bs with None => Err (EOther 2) | Some m => Ok m end
  end.
End File.
Arguments Truncate {B}.
Arguments Append {B} b.

(** *** Fields: gob sends only the fields that are not zero (nil), and Decode writes only the
    fields that were sent.  A non-empty gonum VecDense refuses to be decoded into: its
    UnmarshalBinary panics, and neither gob nor LoadModel recovers that.  The fields come in
    the order of the struct: State (Fitted, NFeatures, NSamples), Weights, Intercept, NFeatures. *)
Section Gob.
Context {N : Num}.
Definition sent_nat (old new : nat) : nat := if (new =? 0)%nat then old else new.
Definition sent_float (old new : N) : N := if neqb new n0 then old else new.
(** LoadModel(target) of a file written from [src]. *)
Definition gob_load (src target : linreg N) : linreg N * res unit :=
  let t1 := mklr (lr_fitted src || lr_fitted target) (sent_nat (lr_sfeat target) (lr_sfeat src)) (sent_nat (lr_ssamp target) (lr_ssamp src))
              (lr_weights target) (lr_icept target) (lr_nfeat target) in
  match lr_weights src, lr_weights target with
  | Some _, Some _ => (t1, Panic)
  | ws, wt =>
      (mklr (lr_fitted t1) (lr_sfeat t1) (lr_ssamp t1) (match ws with Some w => Some w | None => wt end)
         (sent_float (lr_icept target) (lr_icept src)) (sent_nat (lr_nfeat target) (lr_nfeat src)), Ok tt)
  end.
End Gob.
