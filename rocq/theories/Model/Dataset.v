(** performance/large_scale.go: memory-mapped data sets and chunked processing.

    A float64 value is represented by its 64-bit pattern (0 <= v < 2^64); the mapped file is
    the list of its bytes (0..255).  Go's conversions between number types are arguments.
    The RWMutex of the data set only excludes concurrent accesses and is left out: calls are
    taken one at a time. *)
From Coq Require Import List Arith ZArith Bool.
From Verif Require Import Base.GoRes Base.GoInt Base.Mat.
Import ListNotations.
Local Open Scope list_scope.
Local Open Scope Z_scope.

(** DataType, lines 26-34; [Other] is any other integer *)
Inductive dtype := Float64 | Float32 | Int64 | Int32 | Other.
(** getElementSize, lines 345-356 *)
Definition elem_size (t : dtype) : Z := match t with Float64 => 8 | Float32 | Int32 => 4 | Int64 => 8 | Other => 8 end.

(** binary.LittleEndian.PutUint64/PutUint32 and Uint64/Uint32 *)
Fixpoint put_le (k : nat) (v : Z) : list Z := match k with O => [] | S k => v mod 256 :: put_le k (v / 256) end.
Fixpoint get_le (l : list Z) : Z := match l with [] => 0 | b :: r => b + 256 * get_le r end.

(** 0, 1, ..., n-1 for a loop bound that may be negative *)
Definition zseq (n : Z) : list Z := map Z.of_nat (seq 0 (Z.to_nat n)).

Section Dataset.
  (** Conversions between bit patterns: float32(v), float64(v), int64(v), float64(i), int32(v),
      float64(i); integers as their unsigned patterns *)
  Variables to32 of32 toi64 ofi64 toi32 ofi32 : Z -> Z.
  (** The bytes writeElement stores, lines 376-393, and the value readElement makes of them,
      lines 358-374 *)
  Definition enc (t : dtype) (v : Z) : list Z :=
    match t with
    | Float64 => put_le 8 v
    | Float32 => put_le 4 (to32 v)
    | Int64 => put_le 8 (toi64 v)
    | Int32 => put_le 4 (toi32 v)
    | Other => []
    end.
  Definition dec (t : dtype) (l : list Z) : Z :=
    match t with
    | Float64 => get_le l
    | Float32 => of32 (get_le l)
    | Int64 => ofi64 (get_le l)
    | Int32 => ofi32 (get_le l)
    | Other => 0
    end.
  Definition in_range (mem : list Z) (off k : Z) : bool := (0 <=? off) && (off + k <=? Z.of_nat (List.length mem)).
  (** readElement; the slice expression panics out of range.  For other types nothing is read. *)
  Definition read_elem (t : dtype) (mem : list Z) (off : Z) : res Z :=
    match t with
    | Other => Ok 0
    | _ => if in_range mem off (elem_size t)
           then Ok (dec t (firstn (Z.to_nat (elem_size t)) (skipn (Z.to_nat off) mem))) else Panic
    end.
  (** writeElement *)
  Definition write_elem (t : dtype) (mem : list Z) (off v : Z) : res (list Z) :=
    match t with
    | Other => Ok mem
    | _ => if in_range mem off (elem_size t)
           then Ok (firstn (Z.to_nat off) mem ++ enc t v ++ skipn (Z.to_nat (off + elem_size t)) mem) else Panic
    end.

  (** MemoryMappedDataset, lines 17-24 (the stored chunkSize is never used) *)
  Record dataset := mkds { d_rows : Z; d_cols : Z; d_type : dtype; d_mem : list Z }.
  (** NewMemoryMappedDataset, lines 37-64, for a file with contents [file]: Truncate fails for
      a negative size, Mmap for size 0.  Other failures of the system calls are not modelled. *)
  Definition new_dataset (file : list Z) (rows cols : Z) (t : dtype) : res dataset :=
    let size := wrap (wrap (rows * cols) * elem_size t) in
    if size <=? 0 then Err (EOther 1)
    else Ok (mkds rows cols t (firstn (Z.to_nat size) (file ++ repeat 0 (Z.to_nat size - List.length file)))).

  (** The index computed in the loops, lines 77-82 and 101-106 *)
  Definition index (d : dataset) (start i j : Z) : Z :=
    let es := elem_size (d_type d) in
    wrap (wrap (wrap (start * d_cols d) * es) + wrap (wrap (wrap (i * d_cols d) + j) * es)).
  (** GetChunk, lines 67-90.  make panics for a negative length; NewDense for a zero dimension
      (and a negative one). *)
  Definition get_chunk (d : dataset) (start stop : Z) : res (matrix Z) :=
    if (start <? 0) || (d_rows d <? stop) || (stop <=? start) then Err (EOther 2)
    else
      let rows := wrap (stop - start) in
      if wrap (rows * d_cols d) <? 0 then Panic
      else
        let* data := mapM (fun i => mapM (fun j => read_elem (d_type d) (d_mem d) (index d start i j)) (zseq (d_cols d))) (zseq rows) in
        if (d_cols d <=? 0) || (rows <=? 0) then Panic else Ok (mkmat (Z.to_nat (d_cols d)) data).
  (** SetChunk, lines 93-114: the memory after the call *)
  Definition mat_at (X : matrix Z) (i j : Z) : Z := nth (Z.to_nat j) (nth (Z.to_nat i) (mrows X) []) 0.
  Definition set_chunk (d : dataset) (start : Z) (chunk : matrix Z) : res (list Z) :=
    let rows := Z.of_nat (nrows chunk) in
    let cols := Z.of_nat (mcols chunk) in
    if (start <? 0) || (d_rows d <? wrap (start + rows)) || negb (cols =? d_cols d) then Err (EOther 3)
    else
      foldM (fun mem i => foldM (fun mem j => write_elem (d_type d) mem (index d start i j) (mat_at chunk i j)) mem (zseq cols))
            (d_mem d) (zseq rows).

  (** IterateChunks, lines 117-134.  The callback may change the memory of the data set (by
      SetChunk) and a state of its own, and may fail. *)
  Section Iterate.
    Context {S E : Type}.
    Variable fn : matrix Z -> Z -> list Z * S -> (list Z * S) * option E.
    Inductive iter_result := IDone | IFailed (e : E) | IRange (e : err) | IPanic.
    Fixpoint iterate (fuel : nat) (rows cols : Z) (t : dtype) (size start : Z) (st : list Z * S) : option ((list Z * S) * iter_result) :=
      match fuel with
      | O => None
      | Datatypes.S fuel =>
          if start <? rows then
            let stop := wrap (start + size) in
            let stop := if rows <? stop then rows else stop in
            match get_chunk (mkds rows cols t (fst st)) start stop with
            | Ok c =>
                match fn c start st with
                | (st, Some e) => Some (st, IFailed e)
                | (st, None) => iterate fuel rows cols t size (wrap (start + size)) st
                end
            | Err e => Some (st, IRange e)
            | Panic => Some (st, IPanic)
            end
          else Some (st, IDone)
      end.
  End Iterate.
End Dataset.

(** ** ChunkedProcessor, lines 144-247 *)
Section Process.
  Context {Row S E : Type}.
  Variable fn : list Row -> S -> S * option E.
  Inductive proc_result := PDone | PFailed (e : E) | PPanic.
  (** processSequential, lines 182-206, reading the rows [rows] from the scanner *)
  Fixpoint process_rows (size : Z) (rows buffer : list Row) (s : S) : S * proc_result :=
    match rows with
    | [] => match buffer with
            | [] => (s, PDone)
            | _ => match fn buffer s with (s, Some e) => (s, PFailed e) | (s, None) => (s, PDone) end
            end
    | r :: rows =>
        let buffer := buffer ++ [r] in
        if size <=? Z.of_nat (List.length buffer) then
          match fn buffer s with
          | (s, Some e) => (s, PFailed e)
          | (s, None) => process_rows size rows [] s
          end
        else process_rows size rows buffer s
    end.
  (** make([][]float64, 0, chunkSize) panics for a negative capacity *)
  Definition process_sequential (size : Z) (rows : list Row) (s : S) : S * proc_result :=
    if size <? 0 then (s, PPanic) else process_rows size rows [] s.
  (** The scanner, lines 395-417: Scan always returns false *)
  Definition scanned {Reader : Type} (data : Reader) : list Row := [].
End Process.
