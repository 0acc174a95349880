(** Setting up the log of an application: the builder of the logger, the names of its
    files, the setup helper and the copper list stream of the application. *)
From Coq Require Import String List Arith NArith Bool.
From Verif Require Import Base BincodeModel LogModel ULogModel ConfigModel AppModel.
Import ListNotations.
Local Open Scope list_scope.
Local Open Scope N_scope.

(** ** Names of files *)
(** The pieces of str::split('.'), as at core/cu29_unifiedlog/src/lib.rs:442: one more than
    there are dots. *)
Fixpoint split_dot (s : txt) : list txt :=
  match s with
  | [] => [[]]
  | c :: s => if c =? 46 then [] :: split_dot s
              else match split_dot s with
                   | [] => [[c]]
                   | p :: ps => (c :: p) :: ps
                   end
  end.
(** The last component of a path (Path::file_name and to_str, at
    core/cu29_unifiedlog/src/lib.rs:441): there is none, it is not UTF-8, or it is a text. *)
Inductive last_component := NoName | NotText | Name (s : txt).
(** build_slab_path (core/cu29_unifiedlog/src/lib.rs:439-448): the last component of the
    path of slab [k]; the components before it are kept. *)
Definition slab_name (base : last_component) (k : N) : outcome txt :=
  match base with
  | Name s =>
      let pieces := split_dot s in
      let extension := last pieces [] in
      let stem := join (lit ".") (removelast pieces) in
      Ret (stem ++ lit "_" ++ show_N k ++ lit "." ++ extension)
  | _ => Panic
  end.

(** ** The builder *)
(** UnifiedLoggerBuilder (core/cu29_unifiedlog/src/lib.rs:152-157); [P] is the type of paths. *)
Record builder (P : Type) := Builder {
  b_base : option P; b_size : option N; b_write : bool; b_create : bool }.
Arguments Builder {P}.
Arguments b_base {P}.
Arguments b_size {P}.
Arguments b_write {P}.
Arguments b_create {P}.
(** new (core/cu29_unifiedlog/src/lib.rs:166-173). *)
Definition builder_new {P} : builder P := Builder None None false false.
(** The four setters (core/cu29_unifiedlog/src/lib.rs:176-194). *)
Inductive setter (P : Type) := SetBase (p : P) | SetSize (n : N) | SetWrite (b : bool) | SetCreate (b : bool).
Arguments SetBase {P}.
Arguments SetSize {P}.
Arguments SetWrite {P}.
Arguments SetCreate {P}.
(** One call (core/cu29_unifiedlog/src/lib.rs:176-194). *)
Definition set {P} (b : builder P) (x : setter P) : builder P :=
  match x with
  | SetBase p => Builder (Some p) (b_size b) (b_write b) (b_create b)
  | SetSize n => Builder (b_base b) (Some n) (b_write b) (b_create b)
  | SetWrite w => Builder (b_base b) (b_size b) w (b_create b)
  | SetCreate c => Builder (b_base b) (b_size b) (b_write b) c
  end.
(** What build asks for (core/cu29_unifiedlog/src/lib.rs:196-214): a new log to write, an
    existing one to read, or an error. *)
Inductive built (P : Type) := Writes (p : P) (size : N) | Reads (p : P) | BuildError.
Arguments Writes {P}.
Arguments Reads {P}.
Arguments BuildError {P}.
(** build (core/cu29_unifiedlog/src/lib.rs:196-214), without opening the files. *)
Definition build {P} (b : builder P) : outcome (built P) :=
  if b_write b && b_create b then
    match b_base b with
    | None => Panic
    | Some p => match b_size b with None => Panic | Some n => Ret (Writes p n) end
    end
  else match b_base b with None => Ret BuildError | Some p => Ret (Reads p) end.

(** ** The setup *)
(** The size of the slabs (core/cu29_helpers/src/lib.rs:32). *)
Definition setup_size (slab_size : option N) : N :=
  match slab_size with Some n => n | None => 1024 * 1024 * 10 end.
(** basic_copper_setup (core/cu29_helpers/src/lib.rs:26-73) for the page size [ps]: the log and
    its stream of log lines. The clock, the text logger and the logger runtime are not part
    of this. *)
Definition setup (ps : N) (slab_size : option N) : outcome (logger * stream) :=
  let size := setup_size slab_size in
  let! lg := logger_new ps size in
  stream_new ps size TStructured (4096 * 10) lg.
(** What a generated application then does with the log (core/cu29_derive/src/lib.rs:1048-1058):
    it opens the stream of copper lists; [culist] is the size of a copper list in memory. *)
Definition open_lists (ps : N) (slab_size : option N) (mode : ovf_mode) (culist : N) (c : config) (lg : logger)
    : outcome (logger * stream) :=
  let! n := section_size mode culist c in
  stream_new ps (setup_size slab_size) TCopperList n lg.
(** Both (core/cu29_helpers/src/lib.rs:26-73, core/cu29_derive/src/lib.rs:1048-1058). *)
Definition start_log (ps : N) (slab_size : option N) (mode : ovf_mode) (culist : N) (c : config) : outcome (logger * stream) :=
  let! (lg, _) := setup ps slab_size in open_lists ps slab_size mode culist c lg.
