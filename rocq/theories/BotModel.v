(** The balancing robot (examples/cu_rp_balancebot): its configuration, its tasks and its main
    loop on the generated code of [RuntimeModel]. The drivers of the two sensors are given by
    what they send, see [world]. The status texts of messages are left out. *)
From Coq Require Import String List NArith ZArith Bool SpecFloat.
From Verif Require Import Base CuListModel PlanModel RuntimeModel FloatModel PidModel MotorModel.
Import ListNotations.

(** The connections of examples/cu_rp_balancebot/copperconfig.ron:57-63 between the tasks of
    lines 2-56, numbered in their order: 0 balpos, 1 railpos, 2 balpos_pid, 3 railpos_pid,
    4 merge_pids, 5 motor. *)
Definition bot_graph : graph := Graph 6
  [Edge 0 2 "cu_ads7883_new::ADSReadingPayload"; Edge 1 3 "cu_rp_encoder::EncoderPayload";
   Edge 2 4 "cu_pid::PIDControlOutputPayload"; Edge 3 4 "cu_pid::PIDControlOutputPayload";
   Edge 4 5 "cu_rp_sn754410_new::MotorPayload"]%string.
(** The application of examples/cu_rp_balancebot/src/main.rs:9-10 ([copper_runtime] with the
    configuration above; core/cu29_derive/src/lib.rs:293-299 computes the plan), with the
    logging of messages on, as is the default (core/cu29_runtime/src/curuntime.rs:75-84). *)
Definition bot_app (mode : ovf_mode) : application :=
  App 6 (match compute_plan bot_graph with Ret (Some p) => p | _ => [] end) false true mode.

(** examples/cu_rp_balancebot/copperconfig.ron:18-28 (balpos_pid): kp .015, ki 0, kd .01,
    setpoint 3072; the limits and the sampling time of components/tasks/cu_pid/src/lib.rs:171-182. *)
Definition bal_gains : gains :=
  Gains (of_bits 0x3c75c28f) (of_bits 0) (of_bits 0x3c23d70a) (of_bits 0x45400000) (of_bits 0x40000000) (of_bits 0x3f800000) (of_bits 0x40000000) (of_bits 0x3f800000) 0.
(** As in line 26: cutoff 170 (examples/cu_rp_balancebot/copperconfig.ron:18-28). *)
Definition bal_cutoff : f32 := of_bits 0x432a0000.
(** examples/cu_rp_balancebot/copperconfig.ron:30-41 (railpos_pid): kp .0005, ki 0, kd .5,
    setpoint 0, sampling 100 ms. *)
Definition rail_gains : gains :=
  Gains (of_bits 0x3a03126f) (of_bits 0) (of_bits 0x3f000000) (of_bits 0) (of_bits 0x40000000) (of_bits 0x3f800000) (of_bits 0x40000000) (of_bits 0x3f800000) 100000000.
(** As in line 38: cutoff 1000 (examples/cu_rp_balancebot/copperconfig.ron:30-41). *)
Definition rail_cutoff : f32 := of_bits 0x447a0000.
(** examples/cu_rp_balancebot/copperconfig.ron:48-55 (motor): deadzone 0.3. *)
Definition bot_deadzone : f32 := of_bits 0x3e99999a.

(** The payloads of the messages: components/sources/cu_ads7883/src/lib.rs:39-48 (a u16),
    components/sources/cu_rp_encoder/src/lib.rs:38-41 (an i32),
    components/tasks/cu_pid/src/lib.rs:10-19, components/sinks/cu_rp_sn754410/src/lib.rs:24-27. *)
Inductive value := VAngle (analog_value : N) | VRail (ticks : Z) | VPid (p : payload) | VMotor (power : f32).
(** The errors: of the drivers, components/tasks/cu_pid/src/lib.rs:219 and 237-247,
    examples/cu_rp_balancebot/src/tasks.rs:34 and 38, components/sinks/cu_rp_sn754410/src/lib.rs:33-63
    and 207, and of the monitor (components/monitors/cu_consolemon/src/lib.rs:871). *)
Inductive fault := FDriver | FTov | FCutoff | FSafety | FHardware | FExiting.
(** A message of the bot; its metadata is the time of validity
    (core/cu29_runtime/src/cutask.rs:99-107), [None] for what is not a single time. *)
Notation message := (msg value (option N)).

(** What is outside: the drivers of the sensors (what the converter's task sends, or its
    error, components/sources/cu_ads7883/src/lib.rs:143-165; what the encoder's sends,
    components/sources/cu_rp_encoder/src/lib.rs:108-114; starting and stopping them), the
    outcome of two writes to the PWM channels (components/sinks/cu_rp_sn754410/src/lib.rs:31-87),
    the clock, the monitor's view of a copper list and the log. *)
Record world (W : Type) := World {
  w_angle : W -> W * option (N * N);
  w_rail : W -> W * (Z * N);
  w_life : phase -> nat -> W -> W * option fault;
  w_hw : W -> W * (bool * bool);
  w_now : W -> W * N;
  w_report : list message -> W -> W * option fault;
  w_log : W -> cl (list message) -> bool }.
Arguments w_angle {W}. Arguments w_rail {W}. Arguments w_life {W}. Arguments w_hw {W}.
Arguments w_now {W}. Arguments w_report {W}. Arguments w_log {W}.

(** The states of the tasks that have one, whether the two PWM channels are enabled, and
    whether a PID has panicked, which ends the program (components/tasks/cu_pid/src/lib.rs:209-256). *)
Record bot (W : Type) := Bot { b_world : W; b_bal : task; b_rail : task; b_motor : motor; b_on : bool * bool; b_dead : bool }.
Arguments Bot {W}. Arguments b_world {W}. Arguments b_bal {W}. Arguments b_rail {W}.
Arguments b_motor {W}. Arguments b_on {W}. Arguments b_dead {W}.

(** f32::from(&payload): components/sources/cu_ads7883/src/lib.rs:57-61 and
    components/sources/cu_rp_encoder/src/lib.rs:44-48. *)
Definition measure (v : value) : option f32 :=
  match v with
  | VAngle a => Some (f32_of a)
  | VRail t => Some (if (t <? 0)%Z then fopp (f32_of (Z.to_N (- t))) else f32_of (Z.to_N t))
  | _ => None
  end.
(** The input of a PID (components/tasks/cu_pid/src/lib.rs:215-222); the other payloads are
    excluded by the types. *)
Definition reading (x : message) : option (f32 * option N) :=
  match m_payload x with
  | Some v => match measure v with Some f => Some (f, m_meta x) | None => None end
  | None => None
  end.
(** set_payload and clear_payload (core/cu29_runtime/src/cutask.rs:163-169). *)
Definition with_payload (v : option value) (m : message) : message := Msg v (m_meta m) (m_start m) (m_end m).
(** [metadata.tov = ...] (core/cu29_runtime/src/cutask.rs:99-107). *)
Definition with_tov (t : option N) (m : message) : message := Msg (m_payload m) t (m_start m) (m_end m).
(** What a PID does with its output message (components/tasks/cu_pid/src/lib.rs:209-256). *)
Definition pid_out (r : result) (out : message) : message * option fault :=
  match r with
  | Sent p => (with_payload (option_map VPid p) out, None)
  | Failed => (out, Some FCutoff)
  end.
(** The payload of a message of a PID, or of a command for the motor (types of
    examples/cu_rp_balancebot/src/tasks.rs:15-16). *)
Definition pid_payload (x : message) : option payload := match m_payload x with Some (VPid p) => Some p | _ => None end.
(** As above, of components/sinks/cu_rp_sn754410/src/lib.rs:133. *)
Definition power (x : message) : option f32 := match m_payload x with Some (VMotor p) => Some p | _ => None end.
(** f32::clamp(-1.0, 1.0) at examples/cu_rp_balancebot/src/tasks.rs:42. *)
Definition clamp1 (x : f32) : f32 := if flt x (fopp one) then fopp one else if flt one x then one else x.
(** examples/cu_rp_balancebot/src/tasks.rs:25-51 (PIDMerger::process). *)
Definition merge (ins : list message) (out : message) : message * option fault :=
  match ins with
  | [bal; pos] =>
      match pid_payload bal with
      | None => (out, Some FSafety)
      | Some b => match pid_payload pos with
                  | None => (out, Some FSafety)
                  | Some p => (with_payload (Some (VMotor (clamp1 (fsub (o_output b) (o_output p))))) (with_tov (m_meta bal) out), None)
                  end
      end
  | _ => (out, Some FSafety)
  end.

(** components/monitors/cu_consolemon/src/lib.rs:876-889 (process_error), the monitor of
    examples/cu_rp_balancebot/copperconfig.ron:64-66. *)
Definition console (ph : phase) (t : nat) (e : fault) : decision :=
  match ph with Start => Shutdown | Preprocess => Abort | RuntimeModel.Process => Ignore | Postprocess => Ignore | RuntimeModel.Stop => Shutdown end.

Section Bot.
Context {W : Type}.
Variable w : world W.
Variable monitor : phase -> nat -> fault -> decision.
Notation env := (bot W).

(** A new state of the world, everything else unchanged (the calls of the drivers,
    components/sinks/cu_rp_sn754410/src/lib.rs:31-87 and the others of [world]). *)
Definition set_world (x : W) (e : env) : env := Bot x (b_bal e) (b_rail e) (b_motor e) (b_on e) (b_dead e).
(** A call of something outside ([world], as examples/cu_rp_balancebot/src/main.rs:43-53 uses it). *)
Definition outside {A} (f : W -> W * A) (e : env) : env * A := let (x, r) := f (b_world e) in (set_world x e, r).

(** process of the sources: components/sources/cu_ads7883/src/lib.rs:143-165 and
    components/sources/cu_rp_encoder/src/lib.rs:108-114; of the PIDs
    (components/tasks/cu_pid/src/lib.rs:209-256) and of the merger
    (examples/cu_rp_balancebot/src/tasks.rs:25-51). *)
Definition bot_process (t : nat) (ins : list message) (out : message) (e : env) : env * message * option fault :=
  match t, ins with
  | 0, _ => let (e, r) := outside (w_angle w) e in
            match r with
            | Some (a, tov) => (e, with_payload (Some (VAngle a)) (with_tov (Some tov) out), None)
            | None => (e, out, Some FDriver)
            end
  | 1, _ => let (e, r) := outside (w_rail w) e in
            (e, with_payload (Some (VRail (fst r))) (with_tov (Some (snd r)) out), None)
  | 2, [x] => match PidModel.process (reading x) (b_bal e) with
              | Ret (p, r) => let (out, f) := pid_out r out in
                              (Bot (b_world e) p (b_rail e) (b_motor e) (b_on e) (b_dead e), out, f)
              | Panic => (Bot (b_world e) (b_bal e) (b_rail e) (b_motor e) (b_on e) true, out, None)
              end
  | 3, [x] => match PidModel.process (reading x) (b_rail e) with
              | Ret (p, r) => let (out, f) := pid_out r out in
                              (Bot (b_world e) (b_bal e) p (b_motor e) (b_on e) (b_dead e), out, f)
              | Panic => (Bot (b_world e) (b_bal e) (b_rail e) (b_motor e) (b_on e) true, out, None)
              end
  | _, _ => let (out, f) := merge ins out in (e, out, f)
  end%nat.
(** process of the motor (components/sinks/cu_rp_sn754410/src/lib.rs:169-210). *)
Definition bot_sink (t : nat) (ins : list message) (e : env) : env * option fault :=
  match ins with
  | [x] => let (e, hw) := outside (w_hw w) e in
           let (m, ok) := MotorModel.process (power x) hw (b_motor e) in
           (Bot (b_world e) (b_bal e) (b_rail e) m (b_on e) (b_dead e), if ok then None else Some FHardware)
  | _ => (e, None)
  end.
(** Two writes to the channels, enabling or disabling them
    (components/sinks/cu_rp_sn754410/src/lib.rs:66-87, called at 165-168 and 212-215). *)
Definition set_channels (on : bool) (e : env) : env * option fault :=
  let (e, hw) := outside (w_hw w) e in
  let s := if fst hw then if snd hw then (on, on) else (on, snd (b_on e)) else b_on e in
  (Bot (b_world e) (b_bal e) (b_rail e) (b_motor e) s (b_dead e), if fst hw && snd hw then None else Some FHardware).
(** start and stop of the tasks that have one: components/sources/cu_ads7883/src/lib.rs:134-142,
    components/sources/cu_rp_encoder/src/lib.rs:90-107 and 115-121,
    components/tasks/cu_pid/src/lib.rs:258-262, components/sinks/cu_rp_sn754410/src/lib.rs:165-168
    and 212-215; the rest is core/cu29_runtime/src/cutask.rs:198-322. *)
Definition bot_task (ph : phase) (t : nat) (e : env) : env * option fault :=
  match ph, t with
  | Start, 5 => set_channels true e
  | RuntimeModel.Stop, 5 => set_channels false e
  | Start, 0 | Start, 1 | RuntimeModel.Stop, 1 => outside (w_life w ph t) e
  | RuntimeModel.Stop, 2 => (Bot (b_world e) (PidModel.stop (b_bal e)) (b_rail e) (b_motor e) (b_on e) (b_dead e), None)
  | RuntimeModel.Stop, 3 => (Bot (b_world e) (b_bal e) (PidModel.stop (b_rail e)) (b_motor e) (b_on e) (b_dead e), None)
  | _, _ => (e, None)
  end%nat.
(** The tasks, the monitor and the clock for the generated code
    (core/cu29_derive/src/lib.rs:415-1014); the callbacks of the simulation are not called. *)
Definition bot_oracles : oracles value (option N) fault env :=
  {| o_task := bot_task;
     o_process := bot_process;
     o_sink := bot_sink;
     o_sim := fun ph t e => (e, ExecuteByRuntime);
     o_sim_process := fun t ins out e => (e, out, ExecuteByRuntime);
     o_decide := fun ph t f e => (e, monitor ph t f);
     o_report := fun md e => outside (w_report w md) e;
     o_monitor := fun ph e => (e, None);
     o_now := fun e => outside (w_now w) e;
     o_log := fun e => w_log w (b_world e) |}.
End Bot.

(** The tasks as the builder makes them from the configuration
    (examples/cu_rp_balancebot/src/main.rs:31-34); the channels are created disabled
    (components/sinks/cu_rp_sn754410/src/lib.rs:147-152). *)
Definition bot_new {W} (x : W) : bot W :=
  Bot x (task_new bal_gains bal_cutoff) (task_new rail_gains rail_cutoff) (motor_new bot_deadzone false) (false, false) false.
(** The default messages (core/cu29_runtime/src/cutask.rs:122-158) of the ten copper lists of
    core/cu29_derive/src/lib.rs:29 and core/cu29_runtime/src/copperlist.rs:100-118. *)
Definition bot_zero : list message := repeat (Msg None None None None) 6.

(** How examples/cu_rp_balancebot/src/main.rs:43-53 ends: normally, by a panic (of [expect] on
    an error, of the runtime or of a PID), or not within [fuel] iterations. *)
Inductive ending := Ended | Crashed | Running.
(** The loop of examples/cu_rp_balancebot/src/main.rs:46-50 and the end, 51-53. [stop e]: the
    flag set by Ctrl-C, when the state is [e]. Also returns the trace. *)
Fixpoint main_loop {W} (w : world W) monitor mode (stop : bot W -> bool) (fuel : nat) (m : mgr (list message)) (e : bot W)
    : bot W * list (event value (option N) fault) * ending :=
  match fuel with
  | O => (e, [], Running)
  | S fuel =>
      if stop e
      then let '(e, tr, r) := all_tasks (bot_app mode) (bot_oracles w monitor) RuntimeModel.Stop e in
           (e, tr, match r with ROk => Ended | _ => Crashed end)
      else let '(e, m, tr, r) := run_one_iteration (bot_app mode) (bot_oracles w monitor) m e in
           match r with
           | ROk => if b_dead e then (e, tr, Crashed)
                    else let '(e, tr', x) := main_loop w monitor mode stop fuel m e in (e, tr ++ tr', x)
           | _ => (e, tr, Crashed)
           end
  end.
(** examples/cu_rp_balancebot/src/main.rs:43-53 (the end of main). *)
Definition bot_main {W} (w : world W) monitor mode (stop : bot W -> bool) (fuel : nat) (m : mgr (list message)) (e : bot W)
    : bot W * list (event value (option N) fault) * ending :=
  let '(e, tr, r) := all_tasks (bot_app mode) (bot_oracles w monitor) Start e in
  match r with
  | ROk => let '(e, tr', x) := main_loop w monitor mode stop fuel m e in (e, tr ++ tr', x)
  | _ => (e, tr, Crashed)
  end.
