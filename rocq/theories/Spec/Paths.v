(** Following a path from a directory, as the operating system does where there are no symbolic links. *)
From Coq Require Import String Ascii List Bool.
Import ListNotations.
Local Open Scope list_scope.

(** A place is the list of names from the root; [dir] tells the directories. *)
Definition place : Type := list string.
Definition up (a : place) : place := removelast a.
Section Walk.
  Variable dir : place -> bool.
  Definition follow1 (a : place) (x : string) : option place :=
    if dir a then Some (if ((x =? "") || (x =? "."))%string then a else if (x =? "..")%string then up a else a ++ [x]) else None.
  Fixpoint follow (a : place) (xs : list string) : option place :=
    match xs with [] => Some a | x :: r => match follow1 a x with Some b => follow b r | None => None end end.
End Walk.
(** A name that can stand between the slashes of a path without any second meaning *)
Definition proper (x : string) : bool := negb ((x =? "") || (x =? ".") || (x =? ".."))%string && negb (existsb (Ascii.eqb "/"%char) (list_ascii_of_string x)).
(** A path without any part of a second meaning and without two dots in a row: names with slashes between them and perhaps one in front,
    or the root, or the working directory.  [split] is the splitting at the slashes. *)
Definition dotless (x : string) : Prop := ~ exists a b, x = (a ++ ".." ++ b)%string.
Definition simple (p : string) : Prop :=
  p = "/"%string \/ p = "."%string \/
  exists x xs, Forall (fun y => proper y = true /\ dotless y) (x :: xs) /\
    (p = String.concat "/" (x :: xs) \/ p = ("/" ++ String.concat "/" (x :: xs))%string).
(** The place of a path, seen from the working directory *)
Definition resolve (split : string -> list string) (dir : place -> bool) (cwd : place) (p : string) : option place :=
  follow dir (if prefix "/" p then [] else cwd) (split p).
