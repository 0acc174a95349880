(** Where the macros of core/cu29_derive look for the configuration file: the directory of the
    crate that is compiled (core/cu29_derive/src/utils.rs:38-71). Texts and names are lists of
    characters. The file system is a tree, read in the order the system gives. *)
From Coq Require Import String Ascii.
From Coq Require Import List Arith NArith Bool.
From Verif Require Import Base.
Import ListNotations.
Local Open Scope list_scope.

(** Names, paths below the current directory, contents (core/cu29_derive/src/utils.rs:39-42). *)
Definition text := list ascii.
(** What walkdir meets (core/cu29_derive/src/utils.rs:43-52): a file, with its content when it can
    be read as UTF-8 (58), a directory, something else (a link, which is not followed), an error. *)
Inductive tree :=
| File (name : text) (content : option text)
| Dir (name : text) (entries : list tree)
| Other (name : text)
| Unreadable.
(** An ASCII letter made small, in str::eq_ignore_ascii_case (core/cu29_derive/src/utils.rs:45, 56). *)
Definition small (c : ascii) : ascii :=
  let n := nat_of_ascii c in if (65 <=? n) && (n <=? 90) then ascii_of_nat (n + 32) else c.
(** str::eq_ignore_ascii_case (core/cu29_derive/src/utils.rs:45, 56). *)
Fixpoint same_name (a b : text) : bool :=
  match a, b with
  | [], [] => true
  | x :: a, y :: b => Ascii.eqb (small x) (small y) && same_name a b
  | _, _ => false
  end.
(** The directory that is not entered (core/cu29_derive/src/utils.rs:45). *)
Definition target : text := list_ascii_of_string "target".
(** The manifest of a crate (core/cu29_derive/src/utils.rs:56). *)
Definition manifest : text := list_ascii_of_string "Cargo.toml".
(** The files met by the walk, each with the names of the directories to it from the current one,
    in order (core/cu29_derive/src/utils.rs:43-55): an entry called target is left out with what
    is in it; errors are skipped (47-49). *)
Fixpoint walk (path : list text) (t : tree) : list (list text * text * option text) :=
  match t with
  | File name content => if same_name name target then [] else [(path, name, content)]
  | Dir name entries => if same_name name target then [] else flat_map (walk (path ++ [name])) entries
  | Other _ => []
  | Unreadable => []
  end.
(** char::is_whitespace (core/cu29_derive/src/utils.rs:63), for ASCII. *)
Definition is_space (c : ascii) : bool := let n := nat_of_ascii c in (n =? 32) || ((9 <=? n) && (n <=? 13)).
(** The text starts with the pattern (str::contains at core/cu29_derive/src/utils.rs:65). *)
Fixpoint starts (p s : text) : bool :=
  match p, s with
  | [], _ => true
  | x :: p, y :: s => Ascii.eqb x y && starts p s
  | _, [] => false
  end.
(** str::contains (core/cu29_derive/src/utils.rs:65). *)
Fixpoint contains (p s : text) : bool :=
  starts p s || match s with [] => false | _ :: s => contains p s end.
(** The text searched for (core/cu29_derive/src/utils.rs:42). *)
Definition search_entry (crate : text) : text := list_ascii_of_string "name=""" ++ crate ++ list_ascii_of_string """".
(** core/cu29_derive/src/utils.rs:56-67: a manifest in which the name of the crate is found. *)
Definition found (crate : text) (e : list text * text * option text) : bool :=
  let '(_, name, content) := e in
  same_name name manifest &&
  match content with
  | None => false
  | Some c => contains (search_entry crate) (filter (fun x => negb (is_space x)) c)
  end.
(** core/cu29_derive/src/utils.rs:38-71 (caller_crate_root); [root] is the current directory. The
    answer is a path that starts with the name of the current directory. *)
Definition caller_crate_root (crate : text) (name : text) (entries : list tree) : list text :=
  match find (found crate) (walk [] (Dir name entries)) with
  | Some (path, _, _) => path
  | None => [name]
  end.
(** core/cu29_derive/src/lib.rs:1289-1297 (config_full_path) for a relative path without
    directories: the directory and the file in it. *)
Definition config_full_path (crate name : text) (entries : list tree) (file : text) : list text * text :=
  (caller_crate_root crate name entries, file).
