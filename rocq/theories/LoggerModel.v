(** The logger behind debug!: its global state, the file writer that needs no unified
    log, and the error type. *)
From Coq Require Import String List Arith NArith Bool.
From Verif Require Import Base BincodeModel ValueModel LogModel.
Import ListNotations.
Local Open Scope list_scope.
Local Open Scope nat_scope.

(** ** The global logger *)
Section Logger.
(** A line: a log entry without its time (core/cu29_log/src/lib.rs:21-34). *)
Context {L : Type}.
(** What clock [c] shows at machine time [t] (core/cu29_clock/src/lib.rs: see
    ClockModel). *)
Variable read : nat -> N -> N.

(** core/cu29_log_runtime/src/lib.rs:20-30: a destination given to [init], or the
    DummyWriteStream, which prints on stderr. *)
Inductive dest := Dest (k : nat) | Dummy.
(** The functions of core/cu29_log_runtime/src/lib.rs as called by a program: [init]
    (53-76) with destination [k] and clock [c], the [drop] (94-102) of the LoggerRuntime
    that [init] returned for destination [k], and [log] (108-126). *)
Inductive call := Init (k c : nat) | Drop (k : nat) | Log (l : L).
(** Where a thread is between two accesses of the shared WRITER:
    in [init] after [WRITER.get()] at core/cu29_log_runtime/src/lib.rs:62 returned
    something (before the lock of line 63) or nothing (before the set of lines 66-68), in
    [drop] after the flush of line 95, in [log] after the clock was read (line 114, before
    the lock of line 115); [Panicked]: the unwrap of line 68. No destination panics, so no
    lock is ever poisoned. *)
Inductive pc := Idle | Replacing (k : nat) | Setting (k c : nat) | Dropping | Stamped (t : N) (l : L) | Panicked.
(** The shared state: WRITER (core/cu29_log_runtime/src/lib.rs:32), the entries
    handed to destinations with their thread and time, the lines for which [log] returned
    an error, and the threads. *)
Record world := World { w_writer : option (dest * nat); w_out : list (nat * dest * N * L);
                        w_refused : list (nat * L); w_pc : nat -> pc }.

(** Thread [th] is now at [p] (bookkeeping for core/cu29_log_runtime/src/lib.rs:53-126). *)
Definition goto (th : nat) (p : pc) (w : world) : world :=
  World (w_writer w) (w_out w) (w_refused w) (fun u => if u =? th then p else w_pc w u).

(** The start of a call, up to the next access of WRITER: core/cu29_log_runtime/src/lib.rs:62
    for [init], 95 for [drop], 109-114 for [log]. A thread in the middle of a call
    starts no other. *)
Definition begin (th : nat) (now : N) (x : call) (w : world) : world :=
  match w_pc w th with
  | Idle =>
      match x with
      | Init k c => goto th (match w_writer w with Some _ => Replacing k | None => Setting k c end) w
      | Drop k => goto th Dropping w
      | Log l => match w_writer w with
                 | None => World (w_writer w) (w_out w) (w_refused w ++ [(th, l)]) (w_pc w)
                 | Some (_, c) => goto th (Stamped (read c now) l) w
                 end
      end
  | _ => w
  end.

(** The rest of the call: core/cu29_log_runtime/src/lib.rs:62-65 (the destination is
    replaced, the clock stays), 66-68 (a second [set] panics), 96-101, 115-117 (the result
    of the destination is only printed). *)
Definition finish_call (th : nat) (w : world) : world :=
  match w_pc w th with
  | Idle | Panicked => w
  | Replacing k =>
      goto th Idle (World (match w_writer w with Some (_, c) => Some (Dest k, c) | None => None end)
                          (w_out w) (w_refused w) (w_pc w))
  | Setting k c =>
      match w_writer w with
      | None => goto th Idle (World (Some (Dest k, c)) (w_out w) (w_refused w) (w_pc w))
      | Some _ => goto th Panicked w
      end
  | Dropping =>
      goto th Idle (World (match w_writer w with Some (_, c) => Some (Dummy, c) | None => None end)
                          (w_out w) (w_refused w) (w_pc w))
  | Stamped t l =>
      goto th Idle (World (w_writer w)
                          (match w_writer w with Some (d, _) => w_out w ++ [(th, d, t, l)] | None => w_out w end)
                          (w_refused w) (w_pc w))
  end.

(** An interleaving of the calls of core/cu29_log_runtime/src/lib.rs:53-126: at machine
    time [now], thread [th] starts a call or goes on with it. *)
Inductive action := Begin (th : nat) (now : N) (x : call) | Finish (th : nat).
(** One access to WRITER (core/cu29_log_runtime/src/lib.rs:53-126). *)
Definition act (w : world) (x : action) : world :=
  match x with Begin th now x => begin th now x w | Finish th => finish_call th w end.
(** At the start of the program: core/cu29_log_runtime/src/lib.rs:32. *)
Definition world0 : world := World None [] [] (fun _ => Idle).
(** All actions in a row (core/cu29_log_runtime/src/lib.rs:53-126). *)
Definition acts (l : list action) : world := fold_left act l world0.
(** The calls of one thread, one after the other (core/cu29_log_runtime/src/lib.rs:53-126). *)
Definition alone (h : list (N * call)) : list action :=
  flat_map (fun x => [Begin 0 (fst x) (snd x); Finish 0]) h.
End Logger.
Arguments call : clear implicits.
Arguments action : clear implicits.
Arguments world : clear implicits.
Arguments pc : clear implicits.

(** ** SimpleFileWriter *)
(** The file, the room left on the disk, the buffer and its capacity (std's BufWriter, at
    core/cu29_log_runtime/src/lib.rs:172-183, 8192 bytes). *)
Record filew := Filew { f_file : bytes; f_room : nat; f_buf : bytes; f_cap : nat }.

(** std's File::write_all on a disk with some room left: what fits is written (core/cu29_log_runtime/src/lib.rs:199-208). *)
Definition disk_write (b : bytes) (w : filew) : filew * bool :=
  let k := Nat.min (f_room w) (length b) in
  (Filew (f_file w ++ firstn k b) (f_room w - k) (f_buf w) (f_cap w), length b <=? f_room w).
(** std's BufWriter::flush_buf, called from core/cu29_log_runtime/src/lib.rs:189-194, 199-208: what was
    written leaves the buffer, also when there is an error. *)
Definition flush_buf (w : filew) : filew * bool :=
  let k := Nat.min (f_room w) (length (f_buf w)) in
  (Filew (f_file w ++ firstn k (f_buf w)) (f_room w - k) (skipn k (f_buf w)) (f_cap w), length (f_buf w) <=? f_room w).
(** Room left in the buffer (std's BufWriter behind core/cu29_log_runtime/src/lib.rs:199-208). *)
Definition spare (w : filew) : nat := f_cap w - length (f_buf w).
(** std's BufWriter::write_all, called at core/cu29_log_runtime/src/lib.rs:199-208. *)
Definition buf_write (b : bytes) (w : filew) : filew * bool :=
  let keep w := (Filew (f_file w) (f_room w) (f_buf w ++ b) (f_cap w), true) in
  if length b <? spare w then keep w
  else let (w, ok) := if spare w <? length b then flush_buf w else (w, true) in
       if ok then (if f_cap w <=? length b then disk_write b w else keep w) else (w, false).
(** core/cu29_log_runtime/src/lib.rs:244-248 (log): the encoder writes the entry in
    pieces and stops at the first error. How bincode cuts it into pieces is left open. *)
Fixpoint write_pieces (l : list bytes) (w : filew) : filew * bool :=
  match l with
  | [] => (w, true)
  | b :: l => let (w, ok) := buf_write b w in if ok then write_pieces l w else (w, false)
  end.
(** core/cu29_log_runtime/src/lib.rs:218-233 (SimpleFileWriter::new): an empty file. *)
Definition filew_new (room cap : nat) : filew := Filew [] room [] cap.
(** What happens to the writer: a line is logged (core/cu29_log_runtime/src/lib.rs:244-248),
    a flush (250-256), or somebody else changes the room left on the disk. *)
Inductive fileop := FLog (pieces : list bytes) | FFlush | FRoom (room : nat).
(** core/cu29_log_runtime/src/lib.rs:244-256; also whether it succeeded. *)
Definition fileop_do (x : fileop) (w : filew) : filew * bool :=
  match x with
  | FLog l => write_pieces l w
  | FFlush => flush_buf w
  | FRoom r => (Filew (f_file w) r (f_buf w) (f_cap w), true)
  end.
(** All of them (core/cu29_log_runtime/src/lib.rs:244-256): [log] returns Ok whatever the destination answered (115-117), so errors
    stop nothing. *)
Fixpoint fileops (l : list fileop) (w : filew) : filew * list bool :=
  match l with
  | [] => (w, [])
  | x :: l => let (w, ok) := fileop_do x w in let (w, oks) := fileops l w in (w, ok :: oks)
  end.
(** The end of a program: LoggerRuntime is dropped, which flushes and drops the writer (core/cu29_log_runtime/src/lib.rs:94-102; BufWriter's
    drop flushes once more, which is for nothing or fails again). *)
Definition file_closed (l : list fileop) (w : filew) : bytes := f_file (fst (flush_buf (fst (fileops l w)))).

(** ** CuError *)
(** core/cu29_traits/src/lib.rs:7-11. *)
Record cu_error := CuError { ce_message : txt; ce_cause : option txt }.
(** core/cu29_traits/src/lib.rs:26-42 (From). *)
Definition error_from (s : txt) : cu_error := CuError s None.
(** core/cu29_traits/src/lib.rs:45-50 (new_with_cause), with the text of the cause. *)
Definition error_with_cause (s cause : txt) : cu_error := CuError s (Some cause).
(** core/cu29_traits/src/lib.rs:52-55. *)
Definition add_cause (e : cu_error) (context : txt) : cu_error := CuError (ce_message e) (Some context).
(** core/cu29_traits/src/lib.rs:13-22 (Display). *)
Definition show_error (e : cu_error) : txt :=
  ce_message e ++ [10%N] ++ lit "   context:" ++ match ce_cause e with Some c => c | None => lit "None" end.
