(** preprocessing/scaler.go.  Every method returns the receiver's new state and
    its outcome; the embedded BaseEstimator contributes the [fitted] flag. *)
From Coq Require Import List Arith ZArith Bool.
From Verif Require Import Base.Num Base.GoRes Base.Mat.
Import ListNotations.
Local Open Scope num_scope.

Section Scaler.
  Context {N : Num}.

  (** The element loop shared by Transform and InverseTransform: entry [j] of a
      row is combined with the [j]-th fitted parameters; a missing parameter is an
      index panic. *)
  Fixpoint zip_row {P} (g : N -> P -> N) (row : list N) (ps : list P) : res (list N) :=
    match row, ps with
    | [], _ => Ok []
    | v :: r, p :: ps' => let* r' := zip_row g r ps' in Ok (g v p :: r')
    | _ :: _, [] => Panic
    end.

  (** The common body of the four transformation methods after the fitted check:
      column check, mat.NewDense, loop. *)
  Definition map_matrix {P} (g : N -> P -> N) (nf : nat) (ps : list P) (X : matrix N) : res (matrix N) :=
    if negb (Nat.eqb (mcols X) nf) then Err (EDimension nf (mcols X))
    else
      let* _ := newdense (nrows X) (mcols X) in
      let* rows := mapM (fun row => zip_row g row ps) (mrows X) in
      Ok (mkmat (mcols X) rows).

  (** * StandardScaler, scaler.go lines 38-55 *)
  Record sscaler := mkss {
    ss_fitted : bool; ss_mean : list N; ss_scale : list N; ss_nf : nat;
    ss_with_mean : bool; ss_with_std : bool }.
  (** scaler.go lines 79-84 *)
  Definition ss_new (wm ws : bool) : sscaler := mkss false [] [] 0 wm ws.
  (** core/model/base.go lines 121-123, promoted from BaseEstimator *)
  Definition ss_reset (s : sscaler) : sscaler :=
    mkss false (ss_mean s) (ss_scale s) (ss_nf s) (ss_with_mean s) (ss_with_std s).

  Definition nthreshold : N := nlit 1%Z 100000000%positive.   (* 1e-8 *)

  (** scaler.go lines 126-139 *)
  Definition ss_col_mean (wm : bool) (X : matrix N) (j : nat) : N :=
    if wm then nsum (column j (mrows X)) / nofnat (nrows X) else n0.
  (** scaler.go lines 142-162 *)
  Definition ss_col_scale (ws : bool) (X : matrix N) (j : nat) (m : N) : N :=
    if ws then
      let sumsq := fold_left (fun acc v => let diff := v - m in acc + diff * diff)
                             (column j (mrows X)) n0 in
      let sd := nsqrt (sumsq / nofnat (nrows X)) in
      if nabs sd <? nthreshold then n1 else sd
    else n1.
  (** scaler.go lines 114-166 *)
  Definition ss_fit (s : sscaler) (X : matrix N) : sscaler * res unit :=
    if (Nat.eqb (nrows X) 0 || Nat.eqb (mcols X) 0)%bool then (s, Err EModel)
    else
      let mean := map (ss_col_mean (ss_with_mean s) X) (seq 0 (mcols X)) in
      let scale := map (fun j => ss_col_scale (ss_with_std s) X j (nth j mean n0)) (seq 0 (mcols X)) in
      (mkss true mean scale (mcols X) (ss_with_mean s) (ss_with_std s), Ok tt).

  (** scaler.go line 209 and line 288 *)
  Definition ss_elem (v : N) (p : N * N) : N := (v - fst p) / snd p.
  Definition ss_inv_elem (v : N) (p : N * N) : N := v * snd p + fst p.

  (** The parameters used for column j; Mean[j] and Scale[j] must both exist. *)
  Definition ss_params (s : sscaler) : list (N * N) := combine (ss_mean s) (ss_scale s).

  (** scaler.go lines 191-215 *)
  Definition ss_transform (s : sscaler) (X : matrix N) : res (matrix N) :=
    recovered (if negb (ss_fitted s) then Err ENotFitted
               else map_matrix ss_elem (ss_nf s) (ss_params s) X).
  (** scaler.go lines 270-294 *)
  Definition ss_inverse (s : sscaler) (X : matrix N) : res (matrix N) :=
    recovered (if negb (ss_fitted s) then Err ENotFitted
               else map_matrix ss_inv_elem (ss_nf s) (ss_params s) X).
  (** scaler.go lines 239-245 *)
  Definition ss_fit_transform (s : sscaler) (X : matrix N) : sscaler * res (matrix N) :=
    match ss_fit s X with
    | (s', Ok _) => (s', ss_transform s' X)
    | (s', Err e) => (s', Err e)
    | (s', Panic) => (s', Err EPanic)
    end.

  (** * MinMaxScaler, scaler.go lines 315-338.  The exported fields Min and Max
      are not read by any method. *)
  Record mmscaler := mkmm {
    mm_fitted : bool; mm_dmin : list N; mm_dmax : list N; mm_scale : list N;
    mm_min : list N; mm_max : list N; mm_nf : nat; mm_lo : N; mm_hi : N }.
  (** scaler.go lines 360-364 *)
  Definition mm_new (lo hi : N) : mmscaler := mkmm false [] [] [] [] [] 0 lo hi.
  Definition mm_reset (s : mmscaler) : mmscaler :=
    mkmm false (mm_dmin s) (mm_dmax s) (mm_scale s) (mm_min s) (mm_max s) (mm_nf s) (mm_lo s) (mm_hi s).

  (** scaler.go lines 409-420 *)
  Definition col_min (c : list N) : N :=
    match c with
    | [] => n0
    | x :: r => fold_left (fun m v => if v <? m then v else m) r x
    end.
  Definition col_max (c : list N) : N :=
    match c with
    | [] => n0
    | x :: r => fold_left (fun m v => if v >? m then v else m) r x
    end.
  (** scaler.go lines 426-432 *)
  Definition mm_col_scale (lo hi : N) : N :=
    let range := hi - lo in if nabs range <? nthreshold then n1 else range.

  (** scaler.go lines 393-442 *)
  Definition mm_fit (s : mmscaler) (X : matrix N) : mmscaler * res unit :=
    if (Nat.eqb (nrows X) 0 || Nat.eqb (mcols X) 0)%bool then (s, Err EModel)
    else
      let cols := seq 0 (mcols X) in
      let mn := fun j => col_min (column j (mrows X)) in
      let mx := fun j => col_max (column j (mrows X)) in
      let sc := fun j => mm_col_scale (mn j) (mx j) in
      let fr := mm_hi s - mm_lo s in
      (mkmm true (map mn cols) (map mx cols) (map sc cols)
            (map (fun j => mm_lo s - mn j * fr / sc j) cols)
            (map (fun j => mm_hi s - mx j * fr / sc j) cols)
            (mcols X) (mm_lo s) (mm_hi s), Ok tt).

  (** scaler.go line 488 and line 569; parameters are (DataMin[j], Scale[j]) *)
  Definition mm_elem (lo hi : N) (v : N) (p : N * N) : N :=
    (v - fst p) / snd p * (hi - lo) + lo.
  Definition mm_inv_elem (lo hi : N) (v : N) (p : N * N) : N :=
    (v - lo) / (hi - lo) * snd p + fst p.
  Definition mm_params (s : mmscaler) : list (N * N) := combine (mm_dmin s) (mm_scale s).

  (** scaler.go lines 467-494 *)
  Definition mm_transform (s : mmscaler) (X : matrix N) : res (matrix N) :=
    recovered (if negb (mm_fitted s) then Err ENotFitted
               else map_matrix (mm_elem (mm_lo s) (mm_hi s)) (mm_nf s) (mm_params s) X).
  (** scaler.go lines 549-575 *)
  Definition mm_inverse (s : mmscaler) (X : matrix N) : res (matrix N) :=
    recovered (if negb (mm_fitted s) then Err ENotFitted
               else map_matrix (mm_inv_elem (mm_lo s) (mm_hi s)) (mm_nf s) (mm_params s) X).
  (** scaler.go lines 518-524 *)
  Definition mm_fit_transform (s : mmscaler) (X : matrix N) : mmscaler * res (matrix N) :=
    match mm_fit s X with
    | (s', Ok _) => (s', mm_transform s' X)
    | (s', Err e) => (s', Err e)
    | (s', Panic) => (s', Err EPanic)
    end.

  (** * Call histories, for statements about all uses of one scaler *)
  Inductive scall := CFit (X : matrix N) | CTransform (X : matrix N) | CInverse (X : matrix N)
                   | CFitTransform (X : matrix N) | CReset.
  Definition ss_step (s : sscaler) (c : scall) : sscaler :=
    match c with
    | CFit X => fst (ss_fit s X)
    | CTransform _ | CInverse _ => s
    | CFitTransform X => fst (ss_fit_transform s X)
    | CReset => ss_reset s
    end.
  Definition mm_step (s : mmscaler) (c : scall) : mmscaler :=
    match c with
    | CFit X => fst (mm_fit s X)
    | CTransform _ | CInverse _ => s
    | CFitTransform X => fst (mm_fit_transform s X)
    | CReset => mm_reset s
    end.
End Scaler.
Arguments sscaler N : clear implicits.
Arguments mmscaler N : clear implicits.
Arguments scall N : clear implicits.
