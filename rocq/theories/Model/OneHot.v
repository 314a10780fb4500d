(** preprocessing/encoder.go.  Go strings are byte strings, modelled by
    [Coq.Strings.String.string]; [String.ltb] is the byte-wise order used by
    sort.Strings. *)
From Coq Require Import String DecimalString List Arith Bool.
From Verif Require Import Base.Num Base.GoRes Base.Mat Base.ListX.
Import ListNotations.
Local Open Scope string_scope.

Definition smap : Type := string -> option nat.   (* map[string]int *)
Definition smap_empty : smap := fun _ => None.
Definition smap_set (m : smap) (k : string) (v : nat) : smap :=
  fun k' => if String.eqb k k' then Some v else m k'.

(** encoder.go lines 15-29 *)
Record encoder : Type := mkenc {
  e_fitted : bool; e_cats : list (list string); e_idx : list smap; e_nf : nat; e_nout : nat }.
(** encoder.go lines 41-43; base.go lines 121-123 *)
Definition e_new : encoder := mkenc false [] [] 0 0.
Definition e_reset (e : encoder) : encoder := mkenc false (e_cats e) (e_idx e) (e_nf e) (e_nout e).

(** encoder.go lines 95-98 *)
Fixpoint index_map (m : smap) (i : nat) (cats : list string) : smap :=
  match cats with
  | [] => m
  | c :: r => index_map (smap_set m c i) (S i) r
  end.

Section Enc.
  Context {N : Num}.
  (** [keys j col]: the keys of [categorySet] (encoder.go lines 78-89) in the order
      in which [range] happens to deliver them for feature [j]; [sortf] is
      sort.Strings. *)
  Variable keys : nat -> list string -> list string.
  Variable sortf : list string -> list string.

  (** encoder.go lines 77-92 *)
  Definition categories (data : list (list string)) (j : nat) : list string :=
    sortf (keys j (map (fun row => nth j row "") data)).

  (** encoder.go lines 52-110.  After the length check of lines 66-70 every
      [data[i][j]] is in range. *)
  Definition e_fit (e : encoder) (data : list (list string)) : encoder * res unit :=
    match data with
    | [] => (e, Err EModel)
    | [] :: _ => (e, Err EModel)
    | r0 :: _ =>
        let nf := length r0 in
        match find (fun row => negb (Nat.eqb (length row) nf)) data with
        | Some row => (e, Err (EDimension nf (length row)))
        | None =>
            let cats := map (categories data) (seq 0 nf) in
            (mkenc true cats (map (index_map smap_empty 0) cats) nf
                   (fold_left (fun n c => n + length c) cats 0), Ok tt)
        end
    end.

  (** mat.Dense.Set(i, k, v) on row i: panics out of range. *)
  Definition set_row (row : list N) (k : nat) (v : N) : res (list N) :=
    if Nat.ltb k (length row) then Ok (upd k (fun _ => v) row) else Panic.

  (** encoder.go lines 142-157 for one sample: features [j, j+1, ...], [out] is
      outputIdx, [acc] the current row of the result; [data[i][j]] panics when the
      row is too short. *)
  Fixpoint enc_row (cats : list (list string)) (maps : list smap) (nf : nat)
      (row : list string) (out : nat) (acc : list N) : res (list N) :=
    match nf with
    | O => Ok acc
    | S nf' =>
        match row, maps, cats with
        | v :: row', m :: maps', c :: cats' =>
            let* acc' := match m v with
                         | Some idx => set_row acc (out + idx) n1
                         | None => Ok acc
                         end in
            enc_row cats' maps' nf' row' (out + length c) acc'
        | _, _, _ => Panic
        end
    end.

  (** encoder.go lines 120-161 *)
  Definition e_transform (e : encoder) (data : list (list string)) : res (matrix N) :=
    recovered
      (if negb (e_fitted e) then Err ENotFitted
       else
         match data with
         | [] => let* _ := newdense 0 (e_nout e) in Ok (mkmat (e_nout e) [])
         | r0 :: _ =>
             if negb (Nat.eqb (length r0) (e_nf e)) then Err (EDimension (e_nf e) (length r0))
             else
               let* _ := newdense (length data) (e_nout e) in
               let* rows := mapM (fun row => enc_row (e_cats e) (e_idx e) (length r0) row 0
                                                     (repeat n0 (e_nout e))) data in
               Ok (mkmat (e_nout e) rows)
         end).

  (** encoder.go lines 171-177 *)
  Definition e_fit_transform (e : encoder) (data : list (list string)) : encoder * res (matrix N) :=
    match e_fit e data with
    | (e', Ok _) => (e', e_transform e' data)
    | (e', Err x) => (e', Err x)
    | (e', Panic) => (e', Err EPanic)
    end.
End Enc.

(** fmt.Sprintf("%d", i) *)
Definition itoa (i : nat) : string := NilEmpty.string_of_uint (Nat.to_uint i).

(** encoder.go lines 190-214; a nil [inputFeatures] behaves like an empty one. *)
Definition input_name (inputs : list string) (i : nat) : string :=
  match nth_error inputs i with Some s => s | None => "x" ++ itoa i end.
Definition e_names (e : encoder) (inputs : list string) : list string :=
  if e_fitted e then
    concat (mapi (fun i cats => map (fun c => input_name inputs i ++ "_" ++ c) cats) (e_cats e))
  else [].
