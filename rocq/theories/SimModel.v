(** The simulator of the balancing robot (examples/cu_rp_balancebot/src/sim.rs) and the program
    that runs its log again (examples/cu_rp_balancebot/src/resim.rs), on the generated code of
    [RuntimeModel] and the tasks of [BotModel]. The physics are given by the frames they produce.
    The status texts of messages are left out, as in [BotModel]. *)
From Coq Require Import String List NArith ZArith Bool SpecFloat.
From Verif Require Import Base CuListModel PlanModel RuntimeModel FloatModel PidModel MotorModel BotModel.
Import ListNotations.

(** [as u16] and [as i32] of an f32 (examples/cu_rp_balancebot/src/sim.rs:123 and 133): toward
    zero, the nearest bound outside of the range, 0 for NaN. *)
Definition cast_f32 (lo hi : Z) (x : f32) : Z :=
  match x with
  | S754_nan | S754_zero _ => 0
  | S754_infinity s => if s then lo else hi
  | S754_finite s m e =>
      let t := (if 0 <=? e then Zpos m * 2 ^ e else Zpos m / 2 ^ (- e))%Z in
      Z.max lo (Z.min hi (if s then - t else t))
  end%Z.
(** std::f32::consts::FRAC_PI_2 (examples/cu_rp_balancebot/src/sim.rs:117). *)
Definition half_pi : f32 := of_bits 0x3fc90fdb.
(** [2.0 * std::f32::consts::PI] (examples/cu_rp_balancebot/src/sim.rs:119 and 123). *)
Definition two_pi : f32 := of_bits 0x40c90fdb.
(** What the simulated converter reads for the third Euler angle of the rod
    (examples/cu_rp_balancebot/src/sim.rs:115-123). *)
Definition adc (yaw : f32) : N :=
  let a := fsub yaw half_pi in
  let a := if flt a (S754_zero false) then fadd a two_pi else a in
  Z.to_N (cast_f32 0 65535 (fmul (fdiv a two_pi) (of_bits 0x45800000))).
(** What the simulated encoder reads for the position of the cart
    (examples/cu_rp_balancebot/src/sim.rs:131-133). *)
Definition rail_ticks (x : f32) : Z := cast_f32 (- 2 ^ 31) (2 ^ 31 - 1) (fmul x (of_bits 0x44fa0000)).

(** A frame of the simulation (examples/cu_rp_balancebot/src/sim.rs:93-108): whether the cart is
    there, the third Euler angle of the rod, the position of the cart, the time of the physics in
    nanoseconds. *)
Record frame := Frame { f_cart : bool; f_yaw : f32; f_x : f32; f_time : N }.
(** What the callback sees and does (examples/cu_rp_balancebot/src/sim.rs:109-163): the frame and
    the mocked clock, and the forces it has applied to the cart, in order (their components along
    the rail; the others are 0). *)
Record sim := Sim { s_frame : frame; s_clock : N; s_forces : list f32 }.
(** [cart_force.apply_force] (examples/cu_rp_balancebot/src/sim.rs:145, 150, 156). *)
Definition push (f : f32) (s : sim) : sim := Sim (s_frame s) (s_clock s) (s_forces s ++ [f]).
(** The force along the rail for a command (examples/cu_rp_balancebot/src/sim.rs:142-157). *)
Definition force (p : option f32) : f32 :=
  match p with
  | Some S754_nan | None => S754_zero false
  | Some p => fmul p (of_bits 0x40000000)
  end.

(** The parts of the runtime around the tasks: the report to the console, which may ask to quit
    (components/monitors/cu_consolemon/src/lib.rs:871), and the mocked clock
    (examples/cu_rp_balancebot/src/sim.rs:57). The drivers are replaced by placeholders that are
    never called (core/cu29_runtime/src/simulation.rs:176-178, 199-201). Log writes succeed. *)
Definition sim_world (report : list message -> sim -> option fault) : world sim := {|
  w_angle := fun s => (s, None);
  w_rail := fun s => (s, (0%Z, 0%N));
  w_life := fun ph t s => (s, None);
  w_hw := fun s => (s, (true, true));
  w_now := fun s => (s, s_clock s);
  w_report := fun md s => (s, report md s);
  w_log := fun s c => true |}.
(** Which tasks the callbacks answer for (examples/cu_rp_balancebot/src/sim.rs:38-46, 129, 137,
    159-160 and examples/cu_rp_balancebot/src/resim.rs:11-19, 46, 51, 67-68). *)
Definition sim_answer (t : nat) : override fault :=
  match t with 0 | 1 | 5 => ExecutedBySim | _ => ExecuteByRuntime end%nat.
(** examples/cu_rp_balancebot/src/sim.rs:109-161 (sim_callback), the process steps. *)
Definition sim_callback (t : nat) (ins : list message) (out : message) (e : bot sim) : bot sim * message * override fault :=
  let s := b_world e in
  match t, ins with
  | 0, _ => (e, with_tov (Some (s_clock s)) (with_payload (Some (VAngle (adc (f_yaw (s_frame s))))) out), ExecutedBySim)
  | 1, _ => (e, with_tov (Some (s_clock s)) (with_payload (Some (VRail (rail_ticks (f_x (s_frame s))))) out), ExecutedBySim)
  | 5, [x] => (set_world (push (force (power x)) s) e, out,
               match power x with Some _ => ExecutedBySim | None => Errored FSafety end)
  | _, _ => (e, out, sim_answer t)
  end%nat.
(** [sim_mode = true] (examples/cu_rp_balancebot/src/sim.rs:18-20 and resim.rs:7-9), the
    configuration of the robot. *)
Definition sim_app (mode : ovf_mode) : application :=
  App 6 (a_plan (bot_app mode)) true true mode.
(** The simulator for the generated code (core/cu29_derive/src/lib.rs:415-1014). *)
Definition sim_oracles (report : list message -> sim -> option fault) : oracles value (option N) fault (bot sim) :=
  let o := bot_oracles (sim_world report) console in
  {| o_task := o_task o; o_process := o_process o; o_sink := o_sink o;
     o_sim := fun ph t e => (e, sim_answer t);
     o_sim_process := sim_callback;
     o_decide := o_decide o; o_report := o_report o; o_monitor := o_monitor o; o_now := o_now o; o_log := o_log o |}.
(** The clock is set to the time of the frame (examples/cu_rp_balancebot/src/sim.rs:105-108), by a cast from
    u128. *)
Definition load_frame (f : frame) (e : bot sim) : bot sim :=
  set_world (Sim f (f_time f mod 2 ^ 64) (s_forces (b_world e))) e.
(** The calls of run_copper_callback (examples/cu_rp_balancebot/src/sim.rs:90-168), one for each
    frame; [None]: the program panics, by the [expect] of line 167 or in a PID. *)
Fixpoint sim_loop mode report (fs : list frame) (m : mgr (list message)) (e : bot sim)
    : option (bot sim * mgr (list message) * list (event value (option N) fault)) :=
  match fs with
  | [] => Some (e, m, [])
  | f :: fs =>
      if f_cart f
      then let '(e, m, tr, r) := run_one_iteration (sim_app mode) (sim_oracles report) m (load_frame f e) in
           match r with
           | ROk => if b_dead e then None
                    else match sim_loop mode report fs m e with
                         | Some (e, m, tr') => Some (e, m, tr ++ tr')
                         | None => None
                         end
           | _ => None
           end
      else sim_loop mode report fs m e
  end.
(** The tasks as the builder makes them, before the first frame, with the clock at 0
    (examples/cu_rp_balancebot/src/sim.rs:57-79, core/cu29_clock/src/lib.rs:429-441). *)
Definition sim_new : bot sim := bot_new (Sim (Frame false (S754_zero false) (S754_zero false) 0) 0 []).
(** examples/cu_rp_balancebot/src/sim.rs:80-82 (start) and the frames. *)
Definition sim_run mode report (fs : list frame) : option (bot sim * mgr (list message) * list (event value (option N) fault)) :=
  let '(e, tr, r) := all_tasks (sim_app mode) (sim_oracles report) Start sim_new in
  match r with
  | ROk => match sim_loop mode report fs (mgr_new 10 bot_zero) e with
           | Some (e, m, tr') => Some (e, m, tr ++ tr')
           | None => None
           end
  | _ => None
  end.

(** The program of examples/cu_rp_balancebot/src/resim.rs:22-74: the clock and the messages of
    the recorded list. *)
Record rerun := Rerun { q_clock : N; q_msgs : list message }.
(** As [sim_world], for examples/cu_rp_balancebot/src/resim.rs:76-117. *)
Definition rerun_world : world rerun := {|
  w_angle := fun s => (s, None);
  w_rail := fun s => (s, (0%Z, 0%N));
  w_life := fun ph t s => (s, None);
  w_hw := fun s => (s, (true, true));
  w_now := fun s => (s, q_clock s);
  w_report := fun md s => (s, None);
  w_log := fun s c => true |}.
(** [msgs.get_balpos_output()] and [msgs.get_railpos_output()]
    (examples/cu_rp_balancebot/src/resim.rs:32, 43, 48) through the generated getters
    (core/cu29_derive/src/lib.rs:148-159). *)
Definition get_output (t : nat) (msgs : list message) : option message :=
  match getter_field (sim_app Checked) t with Some k => nth_error msgs k | None => None end.
(** examples/cu_rp_balancebot/src/resim.rs:39-69 (sim_callback), the process steps. *)
Definition rerun_callback (t : nat) (ins : list message) (out : message) (e : bot rerun) : bot rerun * message * override fault :=
  match t with
  | 0 | 1 => (e, match get_output t (q_msgs (b_world e)) with Some x => x | None => out end, ExecutedBySim)
  | _ => (e, out, sim_answer t)
  end%nat.
(** The program for the generated code (core/cu29_derive/src/lib.rs:415-1014). *)
Definition rerun_oracles : oracles value (option N) fault (bot rerun) :=
  let o := bot_oracles rerun_world console in
  {| o_task := o_task o; o_process := o_process o; o_sink := o_sink o;
     o_sim := fun ph t e => (e, sim_answer t);
     o_sim_process := rerun_callback;
     o_decide := o_decide o; o_report := o_report o; o_monitor := o_monitor o; o_now := o_now o; o_log := o_log o |}.
(** examples/cu_rp_balancebot/src/resim.rs:109-112 with run_one_copperlist (22-74); [None]: the
    program panics, by the [unwrap] of line 36, the [expect] of line 73 or in a PID. *)
Fixpoint rerun_loop mode (recs : list (list message)) (m : mgr (list message)) (e : bot rerun)
    : option (bot rerun * mgr (list message) * list (event value (option N) fault)) :=
  match recs with
  | [] => Some (e, m, [])
  | msgs :: recs =>
      match (match get_output 0 msgs with Some x => m_start x | None => None end) with
      | None => None
      | Some t =>
          let '(e, m, tr, r) := run_one_iteration (sim_app mode) rerun_oracles m (set_world (Rerun t msgs) e) in
          match r with
          | ROk => if b_dead e then None
                   else match rerun_loop mode recs m e with
                        | Some (e, m, tr') => Some (e, m, tr ++ tr')
                        | None => None
                        end
          | _ => None
          end
      end
  end.
(** examples/cu_rp_balancebot/src/resim.rs:75-112 (main), without the end. *)
Definition rerun_main mode (recs : list (list message)) : option (bot rerun * mgr (list message) * list (event value (option N) fault)) :=
  let '(e, tr, r) := all_tasks (sim_app mode) rerun_oracles Start (bot_new (Rerun 0 [])) in
  match r with
  | ROk => match rerun_loop mode recs (mgr_new 10 bot_zero) e with
           | Some (e, m, tr') => Some (e, m, tr ++ tr')
           | None => None
           end
  | _ => None
  end.
