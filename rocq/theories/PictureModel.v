(** The program that draws a configuration (core/cu29_runtime/src/rendercfg.rs). *)
From Coq Require Import String Ascii List Arith Bool.
From Verif Require Import Base ConfigModel RenderModel.
Import ListNotations.
Local Open Scope string_scope.

(** How the program dot ends (core/cu29_runtime/src/rendercfg.rs:52-58): its output cannot be read, it fails, or it
    has written a drawing. *)
Inductive dot_end := Lost | Failed | Drawn (svg : string).
(** write_all (core/cu29_runtime/src/rendercfg.rs:62, 72): all is written, or an error after some of it. *)
Inductive writing := Whole | Broken (n : nat).
(** What the program meets, all inputs of the model.
    - [g_file]: the parsed configuration file; [None] when it cannot be read or parsed, after which both
      `expect` of core/cu29_runtime/src/rendercfg.rs:27 and deserialize_ron (config.rs:562-570) panic
    - [g_show]: as in RenderModel
    - [g_spawn], [g_stdin], [g_dot]: dot can be started (36-41), takes what it is given (45), and how it ends
    - [g_create], [g_write]: output.svg can be created (71) and written (72)
    - [g_temp], [g_temp_write]: the same for the temporary file (61, 62)
    - [g_viewer]: inkscape can be started (65-68); its exit status is not looked at. *)
Record desk := Desk {
  g_file : option repr; g_show : params -> list (string * string);
  g_spawn : bool; g_stdin : bool; g_dot : string -> dot_end;
  g_create : bool; g_write : writing; g_temp : bool; g_temp_write : writing; g_viewer : bool }.
(** How the program ends: main returns Ok or Err, exit(1) (core/cu29_runtime/src/rendercfg.rs:48, 55), or a panic. *)
Inductive end_of := Success | Error | Exit1 | Panics.
(** What there is to see afterwards: output.svg in the current directory, what inkscape was started with, and how the
    program ended. The temporary file is gone in every case: it is removed when dropped
    (core/cu29_runtime/src/rendercfg.rs:61-69). *)
Record seen := Seen { v_output : option string; v_viewed : option string; v_end : end_of }.

(** A write_all of [s] to an empty file: what the file holds, and whether there was no error
    (core/cu29_runtime/src/rendercfg.rs:62, 72). *)
Definition write_all (w : writing) (s : string) : string * bool :=
  match w with Whole => (s, true) | Broken n => (substring 0 n s, false) end.
(** core/cu29_runtime/src/rendercfg.rs:26-33: the configuration is read and rendered; an error ends in the panic
    of `expect`. *)
Definition dot_text (d : desk) : outcome string :=
  match g_file d with
  | None => Panic
  | Some r => let! c := read_configuration r in match c with None => Panic | Some c => render (g_show d) c end
  end.
(** core/cu29_runtime/src/rendercfg.rs:59-74, from the drawing on. *)
Definition deliver (d : desk) (open : bool) (old : option string) (svg : string) : seen :=
  if open then
    if g_temp d then
      let (s, ok) := write_all (g_temp_write d) svg in
      if ok then if g_viewer d then Seen old (Some s) Success else Seen old None Panics
      else Seen old None Error
    else Seen old None Error
  else if g_create d then
    let (s, ok) := write_all (g_write d) svg in Seen (Some s) None (if ok then Success else Error)
  else Seen old None Error.
(** core/cu29_runtime/src/rendercfg.rs:23-75 (main), after the arguments have been parsed. [old] is output.svg before. *)
Definition picture_main (d : desk) (open : bool) (old : option string) : seen :=
  match dot_text d with
  | Panic => Seen old None Panics
  | Ret text =>
      if negb (g_spawn d) then Seen old None Panics
      else if negb (g_stdin d) then Seen old None Exit1
      else match g_dot d text with
           | Lost => Seen old None Panics
           | Failed => Seen old None Exit1
           | Drawn svg => deliver d open old svg
           end
  end.
