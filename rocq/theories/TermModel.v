(** The console from start to stop (components/monitors/cu_consolemon/src/lib.rs), without the
    feature debug_pane: the terminal it takes over, the thread of its user interface, and the
    latencies it keeps, in a program that calls run (core/cu29_derive/src/lib.rs:1003-1014) any
    number of times. Every thread is cut into the steps another thread can see. *)
From Coq Require Import List Arith NArith Bool.
From Verif Require Import Base StatsModel ConsoleModel.
Import ListNotations.
Local Open Scope nat_scope.

(** components/monitors/cu_consolemon/src/lib.rs:46-54 (Screen). *)
Inductive screen := Neofetch | Dag | Latency | MemoryPools.
(** Where the thread of components/monitors/cu_consolemon/src/lib.rs:766-834 is: before
    enable_raw_mode (922), EnterAlternateScreen (923), the redirection of stderr (815), the hooks
    (387 to 905-919), in run_app (824), before the drop (826), quitting (829), LeaveAlternateScreen
    (928), disable_raw_mode (930), at its end; or panicking, in the hook that restores the terminal
    (914-917) before 928 and before 930, before the unwinding, at its end. The feature is off, and
    the terminal's calls succeed. *)
Inductive place := AtRaw | AtAlt | AtGag | AtHooks | InLoop | AtUngag | AtQuit | AtLeave | AtUnraw | Done
  | HookLeave | HookUnraw | Unwind | Dead.
(** A thread (components/monitors/cu_consolemon/src/lib.rs:766): where it is, its screen (394),
    whether it holds the redirection of stderr (815), and whether it has got to run_app (824). *)
Record ui := Ui { u_at : place; u_screen : screen; u_holds : bool; u_shown : bool }.
(** Where the program is in run (core/cu29_derive/src/lib.rs:1003-1014): not in it; in its loop
    (1005-1010); after it (1011); in the console's stop before
    components/monitors/cu_consolemon/src/lib.rs:928 and before 930; or ended. *)
Inductive main := Idle | Looping | Broken | Stop1 | Stop2 | Ended.
(** The program (components/monitors/cu_consolemon/src/lib.rs:320-328 and 905-931): the main thread,
    raw mode, the alternate screen, stderr redirected, hooks installed, quitting, the threads of the
    user interface, the latencies. *)
Record prog := Prog { p_main : main; p_raw : bool; p_alt : bool; p_gag : bool; p_hooks : bool; p_quit : bool;
                      p_uis : list ui; p_stats : console }.
(** A program with a console just created (components/monitors/cu_consolemon/src/lib.rs:737-754),
    for [n] tasks. *)
Definition prog_new (n : nat) : outcome prog :=
  let! k := console_new n in Ret (Prog Idle false false false false false [] k).

(** TaskStats::reset (components/monitors/cu_consolemon/src/lib.rs:81-86). *)
Definition reset_all (k : console) : console :=
  Console (map stats_reset (k_stats k)) (stats_reset (k_end2end k)) (k_statuses k).
(** components/monitors/cu_consolemon/src/lib.rs:894-899 (in stop). *)
Definition reset_tasks (k : console) : console :=
  Console (map stats_reset (k_stats k)) (k_end2end k) (k_statuses k).

(** What can happen next: run is called and the tasks and the console are started
    (core/cu29_derive/src/lib.rs:990-994, 1004); an iteration ends, having given these metadata to
    the console (1006); an iteration ends otherwise with an error (1006-1009); the tasks are stopped
    (997); the stop of a task fails, at which the console decides for shutdown (482-486 with
    components/monitors/cu_consolemon/src/lib.rs:887); the two steps of the console's stop (892-899);
    the program ends; a step of a thread (766-834); a key in a thread's loop (676); a panic in a
    thread's loop (668). *)
Inductive event := Start_ | List_ (msgs : list metadata) | Error_ | TasksStopped | StopFailed | Leave_ | Unraw_ | Exit_
  | Step_ (i : nat) | Key_ (i : nat) (c : N) | Fail_ (i : nat).
(** What became of the latencies: recorded, all reset, the console stopped
    (components/monitors/cu_consolemon/src/lib.rs:70-86, 891-901). *)
Inductive seen := Recorded (msgs : list metadata) | AllReset | Stopped.

(** The main thread goes on (core/cu29_derive/src/lib.rs:1003-1014). *)
Definition to (m : main) (p : prog) : prog :=
  Prog m (p_raw p) (p_alt p) (p_gag p) (p_hooks p) (p_quit p) (p_uis p) (p_stats p).
(** The main thread goes on with other latencies (components/monitors/cu_consolemon/src/lib.rs:838-875). *)
Definition to_with (m : main) (k : console) (p : prog) : prog :=
  Prog m (p_raw p) (p_alt p) (p_gag p) (p_hooks p) (p_quit p) (p_uis p) k.
(** A panic of thread [i] (components/monitors/cu_consolemon/src/lib.rs:914-917): with the hooks
    installed the terminal is restored first. *)
Definition panicking (i : nat) (holds : bool) (u : ui) (p : prog) : prog :=
  Prog (p_main p) (p_raw p) (p_alt p) (p_gag p) (p_hooks p) (p_quit p)
    (upd i (Ui (if p_hooks p then HookLeave else Unwind) (u_screen u) holds (u_shown u)) (p_uis p)) (p_stats p).
(** The next step of thread [i] (components/monitors/cu_consolemon/src/lib.rs:766-834); [None] when
    it has none of its own. A second redirection of stderr fails while the first lasts (815), a
    second installation of the hooks always (909-913). *)
Definition ui_step (i : nat) (u : ui) (p : prog) : option prog :=
  let go raw alt gag hooks quit at_ holds shown :=
    Some (Prog (p_main p) raw alt gag hooks quit (upd i (Ui at_ (u_screen u) holds shown) (p_uis p)) (p_stats p)) in
  match u_at u with
  | AtRaw => go true (p_alt p) (p_gag p) (p_hooks p) (p_quit p) AtAlt false (u_shown u)
  | AtAlt => go (p_raw p) true (p_gag p) (p_hooks p) (p_quit p) AtGag false (u_shown u)
  | AtGag => if p_gag p then Some (panicking i false u p)
             else go (p_raw p) (p_alt p) true (p_hooks p) (p_quit p) AtHooks true (u_shown u)
  | AtHooks => if p_hooks p then Some (panicking i true u p)
               else go (p_raw p) (p_alt p) (p_gag p) true (p_quit p) InLoop true true
  | InLoop => None
  | AtUngag => go (p_raw p) (p_alt p) false (p_hooks p) (p_quit p) AtQuit false (u_shown u)
  | AtQuit => go (p_raw p) (p_alt p) (p_gag p) (p_hooks p) true AtLeave (u_holds u) (u_shown u)
  | AtLeave => go (p_raw p) false (p_gag p) (p_hooks p) (p_quit p) AtUnraw (u_holds u) (u_shown u)
  | AtUnraw => go false (p_alt p) (p_gag p) (p_hooks p) (p_quit p) Done (u_holds u) (u_shown u)
  | Done => None
  | HookLeave => go (p_raw p) false (p_gag p) (p_hooks p) (p_quit p) HookUnraw (u_holds u) (u_shown u)
  | HookUnraw => go false (p_alt p) (p_gag p) (p_hooks p) (p_quit p) Unwind (u_holds u) (u_shown u)
  | Unwind => go (p_raw p) (p_alt p) (if u_holds u then false else p_gag p) (p_hooks p) (p_quit p) Dead false (u_shown u)
  | Dead => None
  end.
(** components/monitors/cu_consolemon/src/lib.rs:676-722: the characters 1 to 4, r and q; the
    others scroll. *)
Definition ui_key (i : nat) (c : N) (u : ui) (p : prog) : prog * list seen :=
  let set at_ sc k := Prog (p_main p) (p_raw p) (p_alt p) (p_gag p) (p_hooks p) (p_quit p)
                        (upd i (Ui at_ sc (u_holds u) (u_shown u)) (p_uis p)) k in
  if (c =? 49)%N then (set InLoop Neofetch (p_stats p), [])
  else if (c =? 50)%N then (set InLoop Dag (p_stats p), [])
  else if (c =? 51)%N then (set InLoop Latency (p_stats p), [])
  else if (c =? 52)%N then (set InLoop MemoryPools (p_stats p), [])
  else if (c =? 114)%N then
    match u_screen u with Latency => (set InLoop Latency (reset_all (p_stats p)), [AllReset]) | _ => (p, []) end
  else if (c =? 113)%N then (set AtUngag (u_screen u) (p_stats p), [])
  else (p, []).
(** One event (core/cu29_derive/src/lib.rs:1003-1014 and
    components/monitors/cu_consolemon/src/lib.rs:756-901); [None] when it cannot happen now. A panic
    of the console in the main thread ends what is modelled. *)
Definition step (e : event) (p : prog) : option (prog * list seen) :=
  match p_main p with
  | Ended => None
  | m =>
  match e, m with
  | Start_, Idle => Some (Prog Looping (p_raw p) (p_alt p) (p_gag p) (p_hooks p) (p_quit p)
                            (p_uis p ++ [Ui AtRaw Neofetch false false]) (p_stats p), [])
  | List_ msgs, Looping =>
      match process_copperlist msgs (p_stats p) with
      | Panic => None
      | Ret k => Some (to_with (if p_quit p then Broken else Looping) k p, [Recorded msgs])
      end
  | Error_, Looping => Some (to Broken p, [])
  | TasksStopped, Broken => Some (to Stop1 p, [])
  | StopFailed, Broken => Some (to Idle p, [])
  | Leave_, Stop1 => Some (Prog Stop2 (p_raw p) false (p_gag p) (p_hooks p) (p_quit p) (p_uis p) (p_stats p), [])
  | Unraw_, Stop2 => Some (Prog Idle false (p_alt p) (p_gag p) (p_hooks p) (p_quit p) (p_uis p) (reset_tasks (p_stats p)), [Stopped])
  | Exit_, Idle => Some (to Ended p, [])
  | Step_ i, _ => match nth_error (p_uis p) i with
                  | Some u => match ui_step i u p with Some p' => Some (p', []) | None => None end
                  | None => None
                  end
  | Key_ i c, _ => match nth_error (p_uis p) i with
                   | Some u => match u_at u with InLoop => Some (ui_key i c u p) | _ => None end
                   | None => None
                   end
  | Fail_ i, _ => match nth_error (p_uis p) i with
                  | Some u => match u_at u with InLoop => Some (panicking i true u p, []) | _ => None end
                  | None => None
                  end
  | _, _ => None
  end
  end.
(** Events in a row (core/cu29_derive/src/lib.rs:1003-1014 and
    components/monitors/cu_consolemon/src/lib.rs:756-901). *)
Fixpoint steps (l : list event) (p : prog) : option (prog * list seen) :=
  match l with
  | [] => Some (p, [])
  | e :: l => match step e p with
              | None => None
              | Some (p, a) => match steps l p with None => None | Some (p, b) => Some (p, a ++ b) end
              end
  end.
