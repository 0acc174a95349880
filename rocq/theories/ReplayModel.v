(** Replaying a recorded run: the program of examples/cu_rp_balancebot/src/resim.rs, for
    any configuration. The sources are answered from the log, the sinks by the program,
    the other tasks are run by the runtime. *)
From Coq Require Import String List Arith NArith Bool.
From Verif Require Import Base CuListModel PlanModel RuntimeModel.
Import ListNotations.
Local Open Scope list_scope.
Local Open Scope nat_scope.

(** The environment of the replay: the states of the tasks, the mocked clock
    ([robot_clock], examples/cu_rp_balancebot/src/resim.rs:24) and the messages of the
    recorded copper list ([msgs], line 28). *)
Record replay (S V M : Type) := Replay { r_tasks : nat -> S; r_clock : N; r_rec : list (msg V M) }.
Arguments Replay {S V M}. Arguments r_tasks {S V M}. Arguments r_clock {S V M}. Arguments r_rec {S V M}.

Section Replay.
Context {S V M Er : Type}.
Notation message := (msg V M).
(** The application, compiled for the replay with [sim_mode = true]. *)
Variable a : application.
(** The part each task plays, as chosen by the variants the callback matches
    (examples/cu_rp_balancebot/src/resim.rs:40-69). *)
Variable kind : nat -> task_type.
(** The code of the tasks run by the runtime, as a function of the time shown by the
    clock and of the state of the task
    (core/cu29_runtime/src/cutask.rs:177-270). *)
Variable f_task : phase -> nat -> N -> S -> S * option Er.
(** core/cu29_runtime/src/cutask.rs:263-268, [process]. *)
Variable f_process : nat -> N -> list message -> message -> S -> S * message * option Er.
(** What the callback makes of the message of a sink
    (examples/cu_rp_balancebot/src/resim.rs:52-66). *)
Variable g_sink : nat -> list message -> message -> message.
(** The decisions of the monitor of the replay. *)
Variable policy : phase -> nat -> Er -> decision.

(** [sim_mode = true] at examples/cu_rp_balancebot/src/resim.rs:8, the rest of the
    configuration unchanged. *)
Definition sim_of : application := App (a_tasks a) (a_plan a) true (a_logging a) (a_mode a).

(** The answer of the callback: examples/cu_rp_balancebot/src/resim.rs:11-19 (start and
    stop) and 44, 50, 65-68 (iterations). *)
Definition answer (t : nat) : override Er :=
  match kind t with Regular => ExecuteByRuntime | _ => ExecutedBySim end.

(** [msgs.get_..._output()] for task [t]: examples/cu_rp_balancebot/src/resim.rs:43, 48,
    through the getter generated at core/cu29_derive/src/lib.rs:148-159. A getter of a
    missing field would not compile. *)
Definition recorded (t : nat) (msgs : list message) : option message :=
  match getter_field a t with Some k => nth_error msgs k | None => None end.

(** The callback on a process step: examples/cu_rp_balancebot/src/resim.rs:40-69. *)
Definition callback (t : nat) (ins : list message) (out : message) (msgs : list message) : message :=
  match kind t with
  | Source => match recorded t msgs with Some x => x | None => out end
  | Regular => out
  | Sink => g_sink t ins out
  end.

(** A new state of task [t] in [tasks] (core/cu29_runtime/src/curuntime.rs:32-46), the
    others unchanged. *)
Definition set_task (t : nat) (x : S) (env : replay S V M) : replay S V M :=
  Replay (fun u => if u =? t then x else r_tasks env u) (r_clock env) (r_rec env).

(** The replay as an environment for the generated code of core/cu29_derive/src/lib.rs. The
    placeholders of sources and sinks (core/cu29_runtime/src/simulation.rs:176-178, 199-201)
    are never called, since the callback never answers ExecuteByRuntime for them. The
    monitor accepts every copper list, as core/cu29_runtime/src/monitoring.rs:56-71. *)
Definition replay_oracles : oracles V M Er (replay S V M) :=
  {| o_task := fun ph t env =>
       let (x, r) := f_task ph t (r_clock env) (r_tasks env t) in (set_task t x env, r);
     o_process := fun t ins out env =>
       let '(x, out, r) := f_process t (r_clock env) ins out (r_tasks env t) in (set_task t x env, out, r);
     o_sink := fun t ins env => (env, None);
     o_sim := fun ph t env => (env, answer t);
     o_sim_process := fun t ins out env => (env, callback t ins out (r_rec env), answer t);
     o_decide := fun ph t e env => (env, policy ph t e);
     o_report := fun md env => (env, None);
     o_monitor := fun ph env => (env, None);
     o_now := fun env => (env, r_clock env);
     o_log := fun env c => true |}.

(** examples/cu_rp_balancebot/src/resim.rs:27-37: the clock is set to the start time of the
    recorded message of the source [src]; [None]: the [unwrap] panics. *)
Definition load (src : nat) (msgs : list message) (env : replay S V M) : option (replay S V M) :=
  match recorded src msgs with
  | None => None
  | Some x => match m_start x with None => None | Some c => Some (Replay (r_tasks env) c msgs) end
  end.

(** The loop of examples/cu_rp_balancebot/src/resim.rs:109-112 with run_one_copperlist
    (22-74), over the messages of the recorded lists; an error or a panic of an iteration
    ends it (the [expect] of line 73). Also returns the trace and the result of each
    iteration. *)
Fixpoint resim_loop (src : nat) (recs : list (list message)) (m : mgr (list message)) (env : replay S V M)
    : replay S V M * mgr (list message) * list (list (event V M Er) * result (Er := Er)) :=
  match recs with
  | [] => (env, m, [])
  | msgs :: recs =>
      match load src msgs env with
      | None => (env, m, [([], RPanic)])
      | Some env =>
          let '(env, m, tr, r) := run_one_iteration sim_of replay_oracles m env in
          match r with
          | ROk => let '(env, m, l) := resim_loop src recs m env in (env, m, (tr, r) :: l)
          | _ => (env, m, [(tr, r)])
          end
      end
  end.

(** examples/cu_rp_balancebot/src/resim.rs:94-112: start_all_tasks, then the loop; an error
    of start_all_tasks panics. *)
Definition resim (src : nat) (recs : list (list message)) (m : mgr (list message)) (env : replay S V M)
    : replay S V M * mgr (list message) * list (list (event V M Er) * result (Er := Er)) :=
  let '(env, tr, r) := all_tasks sim_of replay_oracles Start env in
  match r with
  | ROk => let '(env, m, l) := resim_loop src recs m env in (env, m, (tr, r) :: l)
  | _ => (env, m, [(tr, r)])
  end.
End Replay.
