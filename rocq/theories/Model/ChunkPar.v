(** performance/large_scale.go lines 207-245: processParallel, with the loop of processSequential (lines 181-205) as its producer,
    goroutines as steps of a state machine.  The rows are those that the scanner delivers; the one of this file never delivers any
    (see Model/Dataset.v).  [c] is chunkSize, which is at least 1 (0 behaves as 1), [cap] is bufferSize.  Memory is taken to be
    sequentially consistent, and the function to read its chunk at one moment. *)
From Coq Require Import List Arith Bool.
From Verif Require Import Base.ListX.
Import ListNotations.

Section ChunkPar.
  Context {R E : Type}.
  Variables c cap : nat.
  (** The goroutine of lines 227-233: in the loop over the rows, about to send the buffer, or past the close of the channel *)
  Inductive producer : Type := Reading | Sending | Closed.
  (** A worker, lines 213-223: at the receive, with a chunk received, or returned.  A chunk is a slice of the one buffer, so only
      its length is kept; the number of the chunk is there for the statements. *)
  Inductive worker : Type := WIdle | WHolds (k len : nat) | WDone.
  (** The rows to come, the length of the buffer and its array (nil rows are [None]), the producer, the number of chunks sent, the
      channel, the workers, the calls so far with the rows seen and the error returned, and the errors sent *)
  Record st : Type := mkst {
    unread : list R; fill : nat; cells : list (option R); prod : producer; sent : nat; chunks : list (nat * nat);
    workers : list worker; calls : list (nat * list (option R) * option E); errs : list E }.
  Definition start (rows : list R) (n : nat) : st := mkst rows 0 (repeat None c) Reading 0 [] (repeat WIdle n) [] [].
  Inductive step : st -> st -> Prop :=
  (** Lines 186-189: the row is written into the array of the buffer *)
  | p_row r u f m s q ws cs es :
      step (mkst (r :: u) f m Reading s q ws cs es)
           (mkst u (S f) (upd f (fun _ => Some r) m) (if c <=? S f then Sending else Reading) s q ws cs es)
  (** Line 200 *)
  | p_rest f m s q ws cs es : f <> 0 -> step (mkst [] f m Reading s q ws cs es) (mkst [] f m Sending s q ws cs es)
  (** Lines 230 and 194: the slice is sent, and the buffer used again *)
  | p_send u f m s q ws cs es : length q < cap ->
      step (mkst u f m Sending s q ws cs es) (mkst u 0 m Reading (S s) (q ++ [(s, f)]) ws cs es)
  | p_close m s q ws cs es : step (mkst [] 0 m Reading s q ws cs es) (mkst [] 0 m Closed s q ws cs es)
  | w_take u f m p s k len q a b cs es :
      step (mkst u f m p s ((k, len) :: q) (a ++ WIdle :: b) cs es) (mkst u f m p s q (a ++ WHolds k len :: b) cs es)
  (** fn returns nil, or an error that is sent, after which the worker ends *)
  | w_call u f m p s q k len a b cs es o :
      step (mkst u f m p s q (a ++ WHolds k len :: b) cs es)
           (mkst u f m p s q (a ++ (match o with None => WIdle | Some _ => WDone end) :: b) (cs ++ [(k, firstn len m, o)])
                 (es ++ match o with None => [] | Some e => [e] end))
  | w_end u f m s a b cs es : step (mkst u f m Closed s [] (a ++ WIdle :: b) cs es) (mkst u f m Closed s [] (a ++ WDone :: b) cs es).
  Inductive steps (s : st) : st -> Prop :=
  | s_refl : steps s s
  | s_next t u : steps s t -> step t u -> steps s u.
  (** Lines 236-244: Wait returns when all workers have returned, and the first error sent is the result ([None]: nil). *)
  Definition returned (s : st) : bool := forallb (fun w => match w with WDone => true | _ => false end) (workers s).
  Definition result (s : st) : option E := hd_error (errs s).
End ChunkPar.
Arguments st R E : clear implicits.
