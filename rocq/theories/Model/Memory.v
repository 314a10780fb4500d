(** performance/memory_optimizer.go: matrix pool, views without copying, memory budget, data
    layout and aligned allocation.  GCOptimizer (lines 225-338) only steers the garbage
    collector and is left out. *)
From Coq Require Import List Arith ZArith Bool.
From Verif Require Import Base.GoRes Base.GoInt Base.ListX.
Import ListNotations.
Local Open Scope list_scope.
Local Open Scope Z_scope.

(** ** MatrixPool, lines 15-159 *)
Section Pool.
  Context {A : Type}.
  Variable zero : A.
  (** PooledMatrix, lines 126-132; [None] is the nil slice.  The pool field is left out: every
      matrix here comes from the one pool. *)
  Record pooled := mkpooled { pm_data : option (list A); pm_rows : Z; pm_cols : Z; pm_released : bool }.
  (** The matrices made so far (a pointer is a position), the contents of the sync.Pool, and
      the counters; their overflow is not modelled *)
  Record pool := mkpool { objs : list pooled; bag : list nat; in_use : Z; created : Z; recycled : Z; peak : Z }.
  (** NewMatrixPool, lines 36-51; maxSize is never used *)
  Definition new_pool : pool := mkpool [] [] 0 0 0 0.
  (** sync.Pool.Get returns any of its elements, or a new matrix ([None]), even when it is not
      empty *)
  Definition pool_take (choice : option nat) (p : pool) : option (nat * pool) :=
    match choice with
    | None => Some (List.length (objs p),
                    mkpool (objs p ++ [mkpooled None 0 0 false]) (bag p) (in_use p) (created p + 1) (recycled p) (peak p))
    | Some k => match nth_error (bag p) k with
                | Some h => Some (h, mkpool (objs p) (firstn k (bag p) ++ skipn (S k) (bag p)) (in_use p) (created p) (recycled p) (peak p))
                | None => None
                end
    end.
  (** Get, lines 54-73; [None] for an impossible choice of the pool.  make panics for a
      negative length. *)
  Definition get (choice : option nat) (rows cols : Z) (p : pool) : option (res (nat * pool)) :=
    match pool_take choice (mkpool (objs p) (bag p) (in_use p + 1) (created p) (recycled p) (peak p)) with
    | None => None
    | Some (h, p) =>
        match nth_error (objs p) h with
        | None => None
        | Some m =>
            let n := wrap (rows * cols) in
            let data := match pm_data m with
                        | None => if n <? 0 then None else Some (repeat zero (Z.to_nat n))
                        | Some d => if Z.of_nat (List.length d) <? n then Some (repeat zero (Z.to_nat n)) else Some d
                        end in
            match data with
            | None => Some Panic
            | Some d => Some (Ok (h, mkpool (upd h (fun _ => mkpooled (Some d) rows cols false) (objs p)) (bag p)
                                       (in_use p) (created p) (recycled p) (Z.max (peak p) (in_use p))))
            end
        end
    end.
  (** Put, lines 76-91, in two parts: the check, and the rest *)
  Definition put_check (h : nat) (p : pool) : bool := match nth_error (objs p) h with Some m => negb (pm_released m) | None => false end.
  Definition put_rest (h : nat) (p : pool) : pool :=
    match nth_error (objs p) h with
    | None => p
    | Some m => mkpool (upd h (fun _ => mkpooled (option_map (map (fun _ => zero)) (pm_data m)) (pm_rows m) (pm_cols m) true) (objs p))
                       (h :: bag p) (in_use p - 1) (created p) (recycled p + 1) (peak p)
    end.
  Definition put (h : nat) (p : pool) : pool := if put_check h p then put_rest h p else p.
  (** sync.Pool may drop elements at any garbage collection *)
  Definition pool_drop (k : nat) (p : pool) : pool :=
    mkpool (objs p) (firstn k (bag p) ++ skipn (S k) (bag p)) (in_use p) (created p) (recycled p) (peak p).
  (** At and Set, lines 135-142 *)
  Definition pm_index (m : pooled) (i j : Z) : Z := wrap (wrap (i * pm_cols m) + j).
  Definition pm_at (m : pooled) (i j : Z) : res A :=
    let k := pm_index m i j in
    match pm_data m with
    | Some d => if (0 <=? k) then match nth_error d (Z.to_nat k) with Some v => Ok v | None => Panic end else Panic
    | None => Panic
    end.
  Definition pm_set (h : nat) (i j : Z) (v : A) (p : pool) : res pool :=
    match nth_error (objs p) h with
    | None => Panic
    | Some m =>
        let k := pm_index m i j in
        match pm_data m with
        | Some d => if (0 <=? k) && (k <? Z.of_nat (List.length d))
                    then Ok (mkpool (upd h (fun _ => mkpooled (Some (upd (Z.to_nat k) (fun _ => v) d)) (pm_rows m) (pm_cols m) (pm_released m)) (objs p))
                                    (bag p) (in_use p) (created p) (recycled p) (peak p))
                    else Panic
        | None => Panic
        end
    end.
  (** ToMat, lines 157-159: gonum's NewDense panics for a dimension of zero or less and for
      data of another length *)
  Definition to_mat (m : pooled) : res (Z * Z * list A) :=
    if (pm_rows m <=? 0) || (pm_cols m <=? 0) then Panic
    else match pm_data m with
         | Some d => if wrap (pm_rows m * pm_cols m) =? Z.of_nat (List.length d) then Ok (pm_rows m, pm_cols m, d) else Panic
         | None => Ok (pm_rows m, pm_cols m, repeat zero (Z.to_nat (pm_rows m * pm_cols m)))
         end.
End Pool.
Arguments pooled : clear implicits.
Arguments pool : clear implicits.

(** ** ZeroCopyMatrix, lines 161-223 *)
(** [z_off] is the distance of the data pointer from the start of the buffer, in entries
    modulo 2^61 (addresses are modulo 2^64 bytes) *)
Record view := mkview { z_off : Z; z_rows : Z; z_cols : Z; z_stride : Z }.
(** What an access does: a value, a Go panic, or an access outside the buffer *)
Inductive access (A : Type) := Val (v : A) | Refused | Outside.
Arguments Val {A} v.
Arguments Refused {A}.
Arguments Outside {A}.
(** NewZeroCopyMatrix, lines 170-181; &data[0] panics for an empty slice *)
Definition new_view {A} (data : list A) (rows cols : Z) : res view :=
  if Z.of_nat (List.length data) <? wrap (rows * cols) then Panic
  else match data with [] => Panic | _ => Ok (mkview 0 rows cols cols) end.
(** uintptr(m.data) + uintptr(i*m.stride+j)*8 *)
Definition z_addr (m : view) (i j : Z) : Z := (z_off m + wrap (wrap (i * z_stride m) + j)) mod 2 ^ 61.
Definition z_bad (m : view) (i j : Z) : bool := (i <? 0) || (z_rows m <=? i) || (j <? 0) || (z_cols m <=? j).
(** At, lines 184-191 *)
Definition z_at {A} (m : view) (data : list A) (i j : Z) : access A :=
  if z_bad m i j then Refused
  else match nth_error data (Z.to_nat (z_addr m i j)) with Some v => Val v | None => Outside end.
(** Set, lines 194-201: the buffer after it *)
Definition z_set {A} (m : view) (data : list A) (i j : Z) (v : A) : access (list A) :=
  if z_bad m i j then Refused
  else if Nat.ltb (Z.to_nat (z_addr m i j)) (List.length data) then Val (upd (Z.to_nat (z_addr m i j)) (fun _ => v) data) else Outside.
(** Slice, lines 204-218 *)
Definition z_slice (m : view) (i0 i1 j0 j1 : Z) : res view :=
  if (i0 <? 0) || (z_rows m <? i1) || (j0 <? 0) || (z_cols m <? j1) || (i1 <=? i0) || (j1 <=? j0) then Panic
  else Ok (mkview (z_addr m i0 j0) (wrap (i1 - i0)) (wrap (j1 - j0)) (z_stride m)).

(** ** MemoryEfficientBatch, lines 340-393.  Every method runs under the mutex, so the calls of
    any number of goroutines take effect one after the other. *)
Record budget := mkbudget { max_mem : Z; used : Z }.
(** NewMemoryEfficientBatch, lines 348-352 *)
Definition new_budget (mb : Z) : budget := mkbudget (wrap (wrap (mb * 1024) * 1024)) 0.
(** CanAllocate, lines 355-360 *)
Definition can_allocate (bytes : Z) (m : budget) : bool := wrap (used m + bytes) <=? max_mem m.
(** Allocate, lines 363-374 *)
Definition allocate (bytes : Z) (m : budget) : budget * bool :=
  if max_mem m <? wrap (used m + bytes) then (m, false) else (mkbudget (max_mem m) (wrap (used m + bytes)), true).
(** Free, lines 377-385 *)
Definition free (bytes : Z) (m : budget) : budget :=
  let u := wrap (used m - bytes) in mkbudget (max_mem m) (if u <? 0 then 0 else u).

(** ** OptimizeDataLayout, lines 396-408 *)
Definition layout {A} (zero : A) (data : list A) (rows cols : Z) : res (list A) :=
  foldM (fun out i => foldM (fun out j =>
      let to := wrap (wrap (j * rows) + i) in
      let from := wrap (wrap (i * cols) + j) in
      if (0 <=? to) && (to <? Z.of_nat (List.length out)) && (0 <=? from) then
        match nth_error data (Z.to_nat from) with Some v => Ok (upd (Z.to_nat to) (fun _ => v) out) | None => Panic end
      else Panic) out (map Z.of_nat (seq 0 (Z.to_nat cols))))
    (repeat zero (List.length data)) (map Z.of_nat (seq 0 (Z.to_nat rows))).

(** ** AlignedAlloc, lines 411-421, for a positive alignment, when make returns memory at
    address [addr]: the address and length of the result.  Sizes near 2^63, for which make
    panics, are left out. *)
Definition aligned_alloc (addr size alignment : Z) : res (Z * Z) :=
  let n := size + Z.quot alignment 8 in
  if n <=? 0 then Panic (* make of a negative length, or &raw[0] of an empty slice *)
  else
    let offset := Z.rem (alignment - addr mod alignment) alignment in
    let lo := Z.quot offset 8 in
    if (0 <=? lo) && (lo <=? lo + size) && (lo + size <=? n) then Ok (addr + 8 * lo, size) else Panic.
