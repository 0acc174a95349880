(** The console's screen of tasks, its keys and quitting
    (components/monitors/cu_consolemon/src/lib.rs:46-54, 180-192, 259-314, 619-733, 838-889),
    without the feature debug_pane. The user interface is a thread of its own; each of its steps
    and each call by the robot is one event. *)
From Coq Require Import List Arith NArith Bool.
From Verif Require Import Base RuntimeModel.
Import ListNotations.
Local Open Scope nat_scope.

(** Texts (components/monitors/cu_consolemon/src/lib.rs:183-184, 291), as their characters. *)
Definition text := list N.
(** Bytes of a character in UTF-8, as counted by len at
    components/monitors/cu_consolemon/src/lib.rs:302. *)
Definition char_len (c : N) : nat := if (c <? 128)%N then 1 else if (c <? 2048)%N then 2 else if (c <? 65536)%N then 3 else 4.
(** str::len, as at components/monitors/cu_consolemon/src/lib.rs:302. *)
Definition byte_len (s : text) : nat := list_sum (map char_len s).
(** [&s\[k..\]] at components/monitors/cu_consolemon/src/lib.rs:302; it panics inside a character. *)
Fixpoint slice_from (k : nat) (s : text) : outcome text :=
  match k, s with
  | O, _ => Ret s
  | _, [] => Panic
  | _, c :: r => if char_len c <=? k then slice_from (k - char_len c) r else Panic
  end.
(** The end of the type name shown (components/monitors/cu_consolemon/src/lib.rs:302, with the
    widths of 251-252). *)
Definition type_end (s : text) : outcome text := slice_from (byte_len s - 25) s.

(** components/monitors/cu_consolemon/src/lib.rs:181-185 (TaskStatus). *)
Record task_status := Status { t_error : bool; t_status : text; t_text : text }.
(** The last line of a node (components/monitors/cu_consolemon/src/lib.rs:293-297), in red or
    green (306-310). *)
Inductive line := Red (e : text) | Green (s : text).
(** components/monitors/cu_consolemon/src/lib.rs:288-314, for the nodes of these types: the
    statuses after it, and what is shown, [None] for a panic. There is a zone for every node. *)
Fixpoint draw_nodes (types : list text) (sts : list task_status) : list task_status * option (list (text * line)) :=
  match types, sts with
  | [], _ => (sts, Some [])
  | _ :: _, [] => (sts, None)
  | ty :: types, s :: sts =>
      match type_end ty with
      | Panic => (s :: sts, None)
      | Ret t => let (sts, r) := draw_nodes types sts in
                 (Status false (t_status s) (t_text s) :: sts,
                  option_map (cons (t, if t_error s then Red (t_text s) else Green (t_status s))) r)
      end
  end.

(** components/monitors/cu_consolemon/src/lib.rs:46-54 (Screen). *)
Inductive screen := Neofetch | Dag | Latency | MemoryPools.
(** The monitor and its thread (components/monitors/cu_consolemon/src/lib.rs:330-350): the
    statuses, whether their mutex is poisoned, the screen, whether the thread still runs, whether
    it has set quitting. *)
Record console := Console { c_statuses : list task_status; c_poisoned : bool; c_screen : screen; c_alive : bool; c_quitting : bool }.
(** components/monitors/cu_consolemon/src/lib.rs:737-754 (new) and 369, 394 for [n] tasks. *)
Definition console_new (n : nat) : console := Console (repeat (Status false [] []) n) false Neofetch true false.

(** What happens: an error of a task (components/monitors/cu_consolemon/src/lib.rs:876), a copper
    list with the statuses of the tasks (838), a turn of the user interface (664-671), a key (676). *)
Inductive happening := AnError (t : nat) (ph : phase) (e : text) | AList (statuses : list text) | ADraw | AKey (c : N).
(** Its effect: a decision (components/monitors/cu_consolemon/src/lib.rs:882-888), Ok or Err
    (870-873), nodes drawn (312), nothing of the kind. *)
Inductive effect := Decided (d : decision) | Accepted | Exiting | Drawn (l : list (text * line)) | Nothing.

(** components/monitors/cu_consolemon/src/lib.rs:882-888 (in process_error). *)
Definition console_decide (ph : phase) : decision :=
  match ph with Start => Shutdown | Preprocess => Abort | Process => Ignore | Postprocess => Ignore | Stop => Shutdown end.
(** components/monitors/cu_consolemon/src/lib.rs:876-889 (process_error). *)
Definition process_error (t : nat) (ph : phase) (e : text) (c : console) : outcome (console * effect) :=
  if c_poisoned c then Panic
  else match nth_error (c_statuses c) t with
       | None => Panic
       | Some s => Ret (Console (upd t (Status true (t_status s) e) (c_statuses c)) false (c_screen c) (c_alive c) (c_quitting c),
                        Decided (console_decide ph))
       end.
(** components/monitors/cu_consolemon/src/lib.rs:845-851, from task [i] on. *)
Fixpoint set_statuses (i : nat) (l : list text) (sts : list task_status) : outcome (list task_status) :=
  match l with
  | [] => Ret sts
  | x :: l =>
      match nth_error sts i, x with
      | Some s, b :: _ => set_statuses (i + 1) l (upd i (Status (t_error s) (if (b =? 0)%N then [] else x) (t_text s)) sts)
      | _, _ => Panic
      end
  end.
(** components/monitors/cu_consolemon/src/lib.rs:838-874 (process_copperlist), the statuses and
    quitting. *)
Definition process_list (l : list text) (c : console) : outcome (console * effect) :=
  if c_poisoned c then Panic
  else let! sts := set_statuses 0 l (c_statuses c) in
       Ret (Console sts false (c_screen c) (c_alive c) (c_quitting c), if c_quitting c then Exiting else Accepted).
(** components/monitors/cu_consolemon/src/lib.rs:619-656, 664-671 (draw) while the thread runs; the
    other screens do not touch the statuses. A panic ends the thread and poisons the mutex it
    holds. *)
Definition draw (types : list text) (c : console) : console * effect :=
  match c_screen c, c_alive c with
  | Dag, true =>
      if c_poisoned c then (Console (c_statuses c) true Dag false (c_quitting c), Nothing)
      else match draw_nodes types (c_statuses c) with
           | (sts, Some l) => (Console sts false Dag true (c_quitting c), Drawn l)
           | (sts, None) => (Console sts true Dag false (c_quitting c), Nothing)
           end
  | _, _ => (c, Nothing)
  end.
(** components/monitors/cu_consolemon/src/lib.rs:673-733 with 831: the characters 1 to 4 and q;
    other keys change nothing modelled here. *)
Definition key (k : N) (c : console) : console :=
  if c_alive c then
    let to x := Console (c_statuses c) (c_poisoned c) x true (c_quitting c) in
    if (k =? 49)%N then to Neofetch else if (k =? 50)%N then to Dag
    else if (k =? 51)%N then to Latency else if (k =? 52)%N then to MemoryPools
    else if (k =? 113)%N then Console (c_statuses c) (c_poisoned c) (c_screen c) false true
    else c
  else c.
(** One event of the above (components/monitors/cu_consolemon/src/lib.rs:664-733, 838-889);
    a panic of the robot's own thread is a panic here. *)
Definition happen (types : list text) (x : happening) (c : console) : outcome (console * effect) :=
  match x with
  | AnError t ph e => process_error t ph e c
  | AList l => process_list l c
  | ADraw => Ret (draw types c)
  | AKey k => Ret (key k c, Nothing)
  end.
(** Events in a row (components/monitors/cu_consolemon/src/lib.rs:664-733, 838-889). *)
Fixpoint happens (types : list text) (l : list happening) (c : console) : outcome (console * list effect) :=
  match l with
  | [] => Ret (c, [])
  | x :: l => let! (c, y) := happen types x c in let! (c, ys) := happens types l c in Ret (c, y :: ys)
  end.
