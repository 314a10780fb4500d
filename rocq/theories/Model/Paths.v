(** The file paths of the model loaders of sklearn/lightgbm.  filepath.Clean, which is of Go's library, is written down after its
    documentation for Unix; reading the file of a path is an argument. *)
From Coq Require Import String Ascii List Bool.
From Verif Require Import Base.GoRes.
Import ListNotations.
Local Open Scope string_scope.
Local Open Scope list_scope.

(** strings.Split(p, "/") *)
Fixpoint parts (p : string) : list string :=
  match p with
  | EmptyString => [""%string]
  | String c r => if Ascii.eqb c "/" then ""%string :: parts r else match parts r with [] => [String c ""] | h :: t => String c h :: t end
  end.
Definition rooted (p : string) : bool := match p with String c _ => Ascii.eqb c "/" | EmptyString => false end.
(** strings.Contains(s, "..") *)
Fixpoint has_dots (s : string) : bool :=
  match s with
  | String c r => match r with String d _ => (Ascii.eqb c "." && Ascii.eqb d ".") || has_dots r | EmptyString => false end
  | EmptyString => false
  end.
(** The rules of filepath.Clean, with the elements kept so far in reverse *)
Fixpoint shorten (root : bool) (ps kept : list string) : list string :=
  match ps with
  | [] => rev kept
  | x :: r =>
      if ((x =? "") || (x =? "."))%string then shorten root r kept
      else if (x =? "..")%string then
        match kept with
        | y :: k => if (y =? "..")%string then shorten root r (x :: kept) else shorten root r k
        | [] => if root then shorten root r [] else shorten root r [x]
        end
      else shorten root r (x :: kept)
  end.
Definition join (ps : list string) : string := String.concat "/" ps.
Definition clean (p : string) : string :=
  let ps := shorten (rooted p) (parts p) [] in
  if rooted p then String "/" (join ps) else match ps with [] => "."%string | _ => join ps end.

(** loader.go lines 15-18 (LoadFromFile) and 271-274 (LoadFromJSONFile): the path that is opened *)
Definition load_path (p : string) : res string := Ok (clean p).
(** leaves_loader.go lines 26-38 *)
Definition leaves_path (p : string) : res string :=
  if negb (clean p =? p)%string then Err (EOther 1) else if has_dots (clean p) then Err (EOther 2) else Ok (clean p).
(** json_loader.go lines 71-79 *)
Definition json_path (p : string) : res string := if has_dots (clean p) then Err (EOther 2) else Ok (clean p).
(** json_loader.go lines 265-286: [json] tells whether a file can be read and is a JSON model with a version *)
Definition auto_path (json : string -> bool) (p : string) : res string := if json (clean p) then json_path p else leaves_path p.
