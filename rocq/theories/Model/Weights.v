(** core/model/weights.go, the parameter and weight methods of core/model/base.go, and the
    weight methods of sklearn/linear_model/linear_regression.go. *)
From Coq Require Import String List Arith Bool ZArith.
From Verif Require Import Base.Num Base.GoRes Base.ListX Base.Mat Model.Linear.
Import ListNotations.
Local Open Scope string_scope.
Local Open Scope list_scope.

Section Weights.
Context {N : Num}.

(** *** Storage: slices and maps live in a heap and are passed by reference. *)

(** An interface{} value; [VRef] is a slice or map stored in one. *)
Inductive val : Type :=
| VBool (b : bool)
| VInt (z : Z)
| VFloat (x : N)
| VStr (s : string)
| VRef (a : nat).
(** A Go map as the list of its entries, at most one for each key. *)
Definition gomap : Type := list (string * val).
Fixpoint mget (k : string) (m : gomap) : option val :=
  match m with [] => None | (k', v) :: r => if (k =? k')%string then Some v else mget k r end.
Definition mput (k : string) (v : val) (m : gomap) : gomap :=
  (k, v) :: filter (fun e => negb (fst e =? k)%string) m.
Definition mdel (k : string) (m : gomap) : gomap := filter (fun e => negb (fst e =? k)%string) m.

Inductive obj : Type :=
| OFloats (l : list N)
| OStrs (l : list string)
| OMap (m : gomap).
Definition heap : Type := list obj.
(** nil slices and maps read as empty. *)
Definition floats (h : heap) (r : option nat) : list N :=
  match r with None => [] | Some a => match nth_error h a with Some (OFloats l) => l | _ => [] end end.
Definition strs (h : heap) (r : option nat) : list string :=
  match r with None => [] | Some a => match nth_error h a with Some (OStrs l) => l | _ => [] end end.
Definition entries (h : heap) (r : option nat) : gomap :=
  match r with None => [] | Some a => match nth_error h a with Some (OMap m) => m | _ => [] end end.

(** Writes that Go code can do through a reference. *)
Inductive write : Type :=
| WFloat (a i : nat) (x : N)
| WStr (a i : nat) (s : string)
| WPut (a : nat) (k : string) (v : val)
| WDel (a : nat) (k : string).
Definition target (w : write) : nat := match w with WFloat a _ _ | WStr a _ _ | WPut a _ _ | WDel a _ => a end.
Definition do_write (h : heap) (w : write) : heap :=
  upd (target w) (fun o => match w, o with
                           | WFloat _ i x, OFloats l => OFloats (upd i (fun _ => x) l)
                           | WStr _ i s, OStrs l => OStrs (upd i (fun _ => s) l)
                           | WPut _ k v, OMap m => OMap (mput k v m)
                           | WDel _ k, OMap m => OMap (mdel k m)
                           | _, _ => o
                           end) h.

(** weights.go lines 9-33 *)
Record weights : Type := mkw {
  w_type : string; w_version : string; w_coef : option nat; w_icept : N; w_features : option nat;
  w_hyper : option nat; w_meta : option nat; w_fitted : bool }.

(** for k, v := range src { dst[k] = v }: the entries in some order. *)
Definition copy_into (ord : gomap -> gomap) (src dst : gomap) : gomap :=
  fold_left (fun m e => mput (fst e) (snd e) m) (ord src) dst.

(** weights.go lines 46-64 *)
Definition validate (h : heap) (w : weights) : res unit :=
  if (w_type w =? "")%string then Err (EOther 1)
  else if (w_version w =? "")%string then Err (EOther 2)
  else if negb (w_fitted w) && (0 <? List.length (floats h (w_coef w)))%nat then Err (EOther 3)
  else if w_fitted w && (List.length (floats h (w_coef w)) =? 0)%nat then Err (EOther 4)
  else Ok tt.

(** weights.go lines 67-91: four new objects. *)
Definition clone (ord : gomap -> gomap) (h : heap) (w : weights) : heap * weights :=
  let a := List.length h in
  (h ++ [OFloats (floats h (w_coef w)); OStrs (strs h (w_features w));
         OMap (copy_into ord (entries h (w_hyper w)) []); OMap (copy_into ord (entries h (w_meta w)) [])],
   mkw (w_type w) (w_version w) (Some a) (w_icept w) (Some (a + 1)) (Some (a + 2)) (Some (a + 3)) (w_fitted w)).

(** base.go lines 53-68, without the logger. *)
Record base : Type := mkbase { b_fitted : bool; b_hyper : option nat; b_type : string; b_version : string }.

(** base.go lines 210-225 *)
Definition get_params (ord : gomap -> gomap) (h : heap) (e : base) (deep : bool) : heap * nat :=
  match b_hyper e with
  | None => (h ++ [OMap []], List.length h)
  | Some a => if negb deep then (h, a) else (h ++ [OMap (copy_into ord (entries h (Some a)) [])], List.length h)
  end.
(** base.go lines 228-238 *)
Definition set_params (ord : gomap -> gomap) (h : heap) (e : base) (params : option nat) : heap * base :=
  let '(h1, a) := match b_hyper e with None => (h ++ [OMap []], List.length h) | Some a => (h, a) end in
  (upd a (fun o => match o with OMap m => OMap (copy_into ord (entries h params) m) | _ => o end) h1,
   mkbase (b_fitted e) (Some a) (b_type e) (b_version e)).
(** base.go lines 241-255 *)
Definition base_export (ord : gomap -> gomap) (h : heap) (e : base) : res (heap * weights) :=
  if negb (b_fitted e) then Err (EOther 1)
  else
    let '(h1, a) := get_params ord h e true in
    Ok (h1 ++ [OMap []],
        mkw (b_type e) (b_version e) None n0 None (Some a) (Some (List.length h1)) (b_fitted e)).
(** base.go lines 258-277; [None] is a nil pointer. *)
Definition base_import (ord : gomap -> gomap) (h : heap) (e : base) (w : option weights) : heap * base * res unit :=
  match w with
  | None => (h, e, Err (EOther 1))
  | Some w =>
      if negb (w_type w =? b_type e)%string then (h, e, Err (EOther 2))
      else
        let '(h1, e1) := set_params ord h (mkbase (b_fitted e) (b_hyper e) (b_type e) (w_version w)) (w_hyper w) in
        (h1, mkbase (b_fitted e1 || w_fitted w) (b_hyper e1) (b_type e1) (b_version e1), Ok tt)
  end.
(** base.go lines 296-309 *)
Definition base_clone (ord : gomap -> gomap) (h : heap) (e : base) : heap * base :=
  (h ++ [OMap (copy_into ord (entries h (b_hyper e)) [])],
   mkbase (b_fitted e) (Some (List.length h)) (b_type e) (b_version e)).

(** *** The weights of a linear regression: here everything is copied, so plain values are
    used.  [hash] stands for the SHA-256 sum of the JSON text of the coefficients. *)
Record flatw : Type := mkfw {
  fw_type : string; fw_version : string; fw_coef : list N; fw_icept : N;
  fw_hyper : gomap; fw_meta : gomap; fw_fitted : bool }.

(** linear_regression.go lines 272-283; the version is that of the constructor, line 52. *)
Definition sk_params (lr : sklr N) : gomap :=
  [("fit_intercept", VBool (sk_icpt lr)); ("normalize", VBool (sk_normalize lr)); ("copy_X", VBool (sk_copyx lr));
   ("n_jobs", VInt (sk_njobs lr)); ("positive", VBool (sk_positive lr)); ("fitted", VBool (sk_fitted lr));
   ("model_type", VStr "LinearRegression"); ("version", VStr "1.0.0")].
(** linear_regression.go lines 286-305: values of another type are ignored. *)
Definition get_bool (k : string) (m : gomap) (old : bool) : bool := match mget k m with Some (VBool b) => b | _ => old end.
Definition get_int (k : string) (m : gomap) (old : Z) : Z := match mget k m with Some (VInt z) => z | _ => old end.
Definition sk_setparams (lr : sklr N) (m : gomap) : sklr N :=
  mksk (sk_fitted lr) (sk_sfeat lr) (sk_ssamp lr)
    (get_bool "fit_intercept" m (sk_icpt lr)) (get_bool "normalize" m (sk_normalize lr)) (get_bool "copy_X" m (sk_copyx lr))
    (get_int "n_jobs" m (sk_njobs lr)) (get_bool "positive" m (sk_positive lr))
    (sk_coef lr) (sk_intercept lr) (sk_nfeat lr) (sk_nsamp lr) (sk_rank lr).

(** linear_regression.go lines 308-333 *)
Definition sk_export (hash : list N -> string) (lr : sklr N) : res flatw :=
  if negb (sk_fitted lr) then Err (EOther 1)
  else
    let c := match sk_coef lr with None => [] | Some w => w end in
    Ok (mkfw "LinearRegression" "1.0.0" c (sk_intercept lr) (sk_params lr)
          [("n_features", VInt (Z.of_nat (sk_nfeat lr))); ("n_samples", VInt (Z.of_nat (sk_nsamp lr)));
           ("rank", VInt (Z.of_nat (sk_rank lr))); ("checksum", VStr (hash c))] true).

(** linear_regression.go lines 336-380.  [toint] is the conversion int(v); negative counts are
    cut off at zero (no matrix has a negative or zero number of columns, so Predict rejects
    every input either way). *)
Definition get_count (toint : N -> Z) (k : string) (m : gomap) (old : nat) : nat :=
  match mget k m with Some (VFloat x) => Z.to_nat (toint x) | _ => old end.
Definition sk_import (hash : list N -> string) (toint : N -> Z) (lr : sklr N) (w : option flatw) : sklr N * res unit :=
  match w with
  | None => (lr, Err (EOther 1))
  | Some w =>
      if negb (fw_type w =? "LinearRegression")%string then (lr, Err (EOther 2))
      else
        let l1 := sk_setparams lr (fw_hyper w) in
        let nf := get_count toint "n_features" (fw_meta w) (sk_nfeat l1) in
        let ns := get_count toint "n_samples" (fw_meta w) (sk_nsamp l1) in
        let rk := get_count toint "rank" (fw_meta w) (sk_rank l1) in
        let l2 := mksk (sk_fitted l1) (sk_sfeat l1) (sk_ssamp l1) (sk_icpt l1) (sk_normalize l1) (sk_copyx l1) (sk_njobs l1) (sk_positive l1)
                    (Some (fw_coef w)) (fw_icept w) nf ns rk in
        let bad := match mget "checksum" (fw_meta w) with Some (VStr s) => negb (s =? hash (fw_coef w))%string | _ => false end in
        if bad then (l2, Err (EOther 3))
        else (mksk true nf ns (sk_icpt l2) (sk_normalize l2) (sk_copyx l2) (sk_njobs l2) (sk_positive l2)
                (sk_coef l2) (sk_intercept l2) nf ns rk, Ok tt)
  end.

(** linear_regression.go lines 400-418 *)
Definition sk_clone (hash : list N -> string) (toint : N -> Z) (lr : sklr N) : sklr N :=
  let c := sk_new (sk_icpt lr) (sk_normalize lr) (sk_copyx lr) (sk_njobs lr) (sk_positive lr) in
  if sk_fitted lr then
    match sk_export hash lr with Ok w => fst (sk_import hash toint c (Some w)) | _ => c end
  else c.

(** weights.go lines 36-43: ToJSON then FromJSON.  Numbers in interface{} values come back as
    float64; NaN and infinite values cannot be written. *)
Definition through_json_val (v : val) : val := match v with VInt z => VFloat (nofZ z) | _ => v end.
Definition through_json (w : flatw) : res flatw :=
  if forallb (fun x => negb (nisnan x) && negb (nisinf x)) (fw_icept w :: fw_coef w)
  then Ok (mkfw (fw_type w) (fw_version w) (fw_coef w) (fw_icept w)
             (map (fun e => (fst e, through_json_val (snd e))) (fw_hyper w))
             (map (fun e => (fst e, through_json_val (snd e))) (fw_meta w)) (fw_fitted w))
  else Err (EOther 1).

End Weights.
Arguments val : clear implicits.
Arguments gomap : clear implicits.
Arguments obj : clear implicits.
Arguments heap : clear implicits.
Arguments write : clear implicits.
Arguments weights : clear implicits.
Arguments flatw : clear implicits.
