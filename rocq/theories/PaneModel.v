(** The debug pane of the console monitor: components/monitors/cu_consolemon/src/debug_pane.rs
    (with the feature debug_pane). *)
From Coq Require Import List NArith.
From Verif Require Import Base.
Import ListNotations.
Open Scope N_scope.

(** A String (components/monitors/cu_consolemon/src/debug_pane.rs:19), as its characters. *)
Definition text := list N.
(** components/monitors/cu_consolemon/src/debug_pane.rs:17-22 (DebugLog); [p_queue] is what is in
    the channel. *)
Record pane := Pane { p_log : list text; p_max : nat; p_queue : list text }.
(** components/monitors/cu_consolemon/src/debug_pane.rs:26-36 (DebugLog::new). *)
Definition pane_new (max_lines : nat) : pane := Pane [] max_lines [].
(** The loop at components/monitors/cu_consolemon/src/debug_pane.rs:45-47. *)
Fixpoint trim (max_row : nat) (l : list text) : list text :=
  match l with [] => [] | _ :: r => if Nat.ltb max_row (length l) then trim max_row r else l end.
(** components/monitors/cu_consolemon/src/debug_pane.rs:38-48 (DebugLog::push_logs). *)
Definition push_logs (logs : text) (p : pane) : pane :=
  match logs with [] => p | _ => Pane (trim (p_max p) (p_log p ++ [logs])) (p_max p) (p_queue p) end.
(** One turn of the loop at components/monitors/cu_consolemon/src/debug_pane.rs:53-62. *)
Definition take (max_row : nat) (l : list text) (log : text) : list text :=
  match log with
  | [] => l
  | _ => let l := l ++ [log] in if Nat.ltb max_row (length l) then tl l else l
  end.
(** components/monitors/cu_consolemon/src/debug_pane.rs:50-63 (DebugLog::update_logs); all that is
    in the channel is taken, nothing is sent meanwhile. *)
Definition update_logs (p : pane) : pane :=
  Pane (fold_left (take (p_max p)) (p_queue p) (p_log p)) (p_max p) [].

(** Levels of the log crate as used at components/monitors/cu_consolemon/src/debug_pane.rs:96-98
    (their order; LevelFilter::Debug at 83 lets the same ones pass). *)
Inductive level := Error | Warn | Info | Debug | Trace.
(** components/monitors/cu_consolemon/src/debug_pane.rs:96-98 (enabled). *)
Definition enabled (l : level) : bool := match l with Trace => false | _ => true end.
(** The text of a level (the Display of the log crate, used at
    components/monitors/cu_consolemon/src/debug_pane.rs:102-107). *)
Definition level_text (l : level) : text :=
  match l with
  | Error => [69; 82; 82; 79; 82] | Warn => [87; 65; 82; 78] | Info => [73; 78; 70; 79]
  | Debug => [68; 69; 66; 85; 71] | Trace => [84; 82; 65; 67; 69]
  end.
(** The message at components/monitors/cu_consolemon/src/debug_pane.rs:102-107; [stamp] is the
    time. *)
Definition message (stamp : text) (l : level) (args : text) : text :=
  stamp ++ [32; 91] ++ level_text l ++ [93; 32; 45; 32] ++ args ++ [10].
(** components/monitors/cu_consolemon/src/debug_pane.rs:100-112 with 87-92 (LogSubscriber::log,
    push_logs) on the channel of 1000 places made at 27; [None] when the call waits for a place. *)
Definition log (stamp : text) (l : level) (args : text) (p : pane) : option pane :=
  if enabled l
  then if Nat.ltb (length (p_queue p)) 1000 then Some (Pane (p_log p) (p_max p) (p_queue p ++ [message stamp l args])) else None
  else Some p.

(** The lines of a text (str::lines, without the removal of carriage returns, by which ratatui makes the
    Paragraph of components/monitors/cu_consolemon/src/debug_pane.rs:144-149 from it). *)
Fixpoint lines_from (cur : text) (s : text) : list text :=
  match s with
  | [] => match cur with [] => [] | _ => [cur] end
  | c :: s => if c =? 10 then cur :: lines_from [] s else lines_from (cur ++ [c]) s
  end.
(** As above, from the start (components/monitors/cu_consolemon/src/debug_pane.rs:142-149). *)
Definition lines (s : text) : list text := lines_from [] s.
(** The rows inside the pane on a terminal of [height] rows: below the menu of
    components/monitors/cu_consolemon/src/lib.rs:613-621, inside the borders of
    components/monitors/cu_consolemon/src/debug_pane.rs:144-149. *)
Definition inside (height : nat) : nat := height - 3 - 2.
(** The lines on the screen (components/monitors/cu_consolemon/src/debug_pane.rs:134-150,
    draw_debug_output): a Paragraph shows its first lines; its width is not modelled. *)
Definition shown (height : nat) (p : pane) : list text := firstn (inside height) (lines (concat (p_log p))).

(** What happens: a record is logged, or the user interface makes a turn of the loop at
    components/monitors/cu_consolemon/src/lib.rs:655-732, with what was written to stderr before
    it updates and before it draws, whether the pane is on the screen, the height of the
    terminal, and the new number of rows if the event of this turn is a resize. *)
Inductive action :=
| Logged (stamp : text) (l : level) (args : text)
| Turn (err1 err2 : text) (visible : bool) (height : nat) (resized : option nat).
(** One action on the pane; also what is on the screen
    (components/monitors/cu_consolemon/src/lib.rs:655-732, with
    components/monitors/cu_consolemon/src/debug_pane.rs:124-150). *)
Definition act (a : action) (p : pane) : option (pane * option (list text)) :=
  match a with
  | Logged stamp l args => match log stamp l args p with Some p => Some (p, None) | None => None end
  | Turn err1 err2 visible height resized =>
      let p := update_logs (push_logs err1 p) in
      let p := if visible then push_logs err2 p else p in
      let screen := if visible then Some (shown height p) else None in
      Some (Pane (p_log p) (match resized with Some rows => rows | None => p_max p end) (p_queue p), screen)
  end.
(** Actions one after the other: the pane and the screens
    (components/monitors/cu_consolemon/src/lib.rs:655-732). *)
Fixpoint run (l : list action) (p : pane) : option (pane * list (option (list text))) :=
  match l with
  | [] => Some (p, [])
  | a :: l => match act a p with
              | Some (p, s) => match run l p with Some (p, ss) => Some (p, s :: ss) | None => None end
              | None => None
              end
  end.
(** The number of rows the console starts the pane with
    (components/monitors/cu_consolemon/src/lib.rs:796-797): height - 5 on a u16, in a part that
    is only compiled with debug assertions. *)
Definition start (height : nat) : outcome pane := if Nat.ltb height 5 then Panic else Ret (pane_new (height - 5)).
