(** The command line program that exports a log (core/cu29_export/src/lib.rs:26-82). *)
From Coq Require Import String List Arith NArith Bool.
From Verif Require Import Base BincodeModel CodecModel ULogModel LogModel.
Import ListNotations.
Local Open Scope list_scope.

(** core/cu29_export/src/lib.rs:11-15, ExportFormat. *)
Inductive export_format := Json | Csv.
(** core/cu29_export/src/lib.rs:38-47, Command. The file of interned strings is given as its content; [None]: it cannot
    be read (117). *)
Inductive command := ExtractLog (index : option (list txt)) | ExtractCopperlist (f : export_format).
(** What the program prints (core/cu29_export/src/lib.rs:72, 76, 141-145). The notices about errors in the data
    (101, 106) are not modelled. *)
Inductive cli_out := Heading (f : export_format) | AList (text : string) | ALine (p : printed).

(** core/cu29_export/src/lib.rs:51-82 (run_cli), after the arguments have been parsed. [src t] are the bytes
    UnifiedLoggerIOReader delivers for the type [t], [None] when the log cannot be opened (58-64); [pretty] is the derived
    Debug of a copper list, pretty-printed. Returns what is printed and whether the program panicked; what textlog_dump
    returns at the end of the data is not modelled, nor the error for an index that cannot be read. *)
Definition run_cli {ps} (pretty : copperlist ps -> string) (X : formats) (src : option (logtype -> bytes)) (c : command) : list cli_out * bool :=
  match src with
  | None => ([], true)
  | Some src =>
      match c with
      | ExtractLog None => ([], false)
      | ExtractLog (Some strings) => let (l, p) := textlog_dump X strings (src TStructured) in (map ALine l, p)
      | ExtractCopperlist f => (Heading f :: map (fun c => AList (pretty c)) (@copperlists_dump ps (src TCopperList)), false)
      end
  end.
