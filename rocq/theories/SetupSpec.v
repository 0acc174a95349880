(** What the setup of a log is to do. *)
From Coq Require Import String List Arith NArith Bool.
From Verif Require Import Base BincodeModel LogModel ULogModel ConfigModel AppModel SetupModel.
Import ListNotations.
Local Open Scope list_scope.
Local Open Scope N_scope.

(** A file name is a stem and an extension, separated by its last dot (code point 46). *)
Definition parts (name stem ext : list N) : Prop := name = stem ++ 46 :: ext /\ ~ In 46 ext.

(** The last argument given to a setter of each kind. *)
Definition last_of {A B} (f : A -> option B) (l : list A) : option B :=
  fold_left (fun acc x => match f x with Some b => Some b | None => acc end) l None.
Definition base_given {P} (l : list (setter P)) : option P :=
  last_of (fun x => match x with SetBase p => Some p | _ => None end) l.
Definition size_given {P} (l : list (setter P)) : option N :=
  last_of (fun x => match x with SetSize n => Some n | _ => None end) l.
Definition write_asked {P} (l : list (setter P)) : Prop :=
  last_of (fun x => match x with SetWrite b => Some b | _ => None end) l = Some true.
Definition create_asked {P} (l : list (setter P)) : Prop :=
  last_of (fun x => match x with SetCreate b => Some b | _ => None end) l = Some true.

(** The size in bytes of the slabs that a configuration asks for. *)
Definition slab_asked (c : config) : option N :=
  match c_logging c with
  | Some l => option_map (fun mib => mib * 1048576) (lc_slab l)
  | None => None
  end.
(** The file the log is being written to. *)
Definition file_in_use (lg : logger) : option ULogModel.file := nth_error (lg_files lg) (lg_suffix lg).
(** [n] bytes in whole pages of [ps] bytes. *)
Definition in_pages (ps n : N) : N := (n + ps - 1) / ps * ps.
(** The size in bytes of the sections of copper lists: that asked for, else 64 copper lists. *)
Definition section_wanted (culist : N) (c : config) : N :=
  match c_logging c with
  | Some l => match lc_section l with Some mib => mib * 1048576 | None => 64 * culist end
  | None => 64 * culist
  end.
