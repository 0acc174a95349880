(** The caterpillar example (examples/cu_caterpillar) on the Raspberry Pi, with the GPIO sink
    (components/sinks/cu_rp_gpio/src/lib.rs), for the connections of its configuration or others. *)
From Coq Require Import String List NArith Bool.
From Verif Require Import Base CuListModel PlanModel RuntimeModel.
Import ListNotations.
Open Scope nat_scope.

(** The type of all its messages, examples/cu_caterpillar/copperconfig.ron:96-115. *)
Definition gpio_payload : string := "cu_rp_gpio::RPGpioPayload".
(** The connections of examples/cu_caterpillar/copperconfig.ron:96-115 between the tasks of lines
    2-95, numbered in their order: 0 src, then ct-0, gpio-0, ct-1, gpio-1 ... gpio-7. *)
Definition caterpillar : graph := Graph 17
  (map (fun c => Edge (fst c) (snd c) gpio_payload)
    [(0, 1); (1, 3); (3, 5); (5, 7); (7, 9); (9, 11); (11, 13); (13, 15);
     (1, 2); (3, 4); (5, 6); (7, 8); (9, 10); (11, 12); (13, 14); (15, 16)]).
(** The application (examples/cu_caterpillar/src/main.rs:6-7, copper_runtime with the
    configuration; core/cu29_derive/src/lib.rs:293-299 computes the plan). *)
Definition cat_app (g : graph) (mode : ovf_mode) : application :=
  App (g_n g) (match compute_plan g with Ret (Some p) => p | _ => [] end) false true mode.

(** The level of a pin (of rppal), components/sinks/cu_rp_gpio/src/lib.rs:48-57. *)
Inductive level := Low | High.
(** components/sinks/cu_rp_gpio/src/lib.rs:48-57 (From<RPGpioPayload> for Level). *)
Definition level_of (on : bool) : level := if on then Low else High.
(** A message: the payload is RPGpioPayload (components/sinks/cu_rp_gpio/src/lib.rs:27-30); the
    metadata set by the tasks is the status text only, which is left out. *)
Notation message := (msg bool unit).

(** What is outside: the clock, the monitor's view of a copper list and the log
    (core/cu29_derive/src/lib.rs:964-988). *)
Record world (W F : Type) := World {
  w_now : W -> W * N; w_report : list message -> W -> W * option F; w_log : W -> cl (list message) -> bool }.
Arguments w_now {W F}. Arguments w_report {W F}. Arguments w_log {W F}.

(** The states of the sources (examples/cu_caterpillar/src/tasks.rs:11-14) by task, the writes to
    pins so far, by the task that owns the pin, and whether a task has panicked. *)
Record cat (W : Type) := Cat { c_world : W; c_state : nat -> bool; c_pins : list (nat * level); c_dead : bool }.
Arguments Cat {W}. Arguments c_world {W}. Arguments c_state {W}. Arguments c_pins {W}. Arguments c_dead {W}.

(** set_payload (core/cu29_runtime/src/cutask.rs:163-165). *)
Definition with_payload (on : bool) (m : message) : message := Msg (Some on) (m_meta m) (m_start m) (m_end m).

Section Cat.
Context {W F : Type}.
Variable w : world W F.
Variable monitor : phase -> nat -> F -> decision.

(** A call of something outside ([world], as core/cu29_derive/src/lib.rs:964-988 uses it). *)
Definition outside {A} (f : W -> W * A) (e : cat W) : cat W * A :=
  let (x, r) := f (c_world e) in (Cat x (c_state e) (c_pins e) (c_dead e), r).
(** process of a source (examples/cu_caterpillar/src/tasks.rs:37-43), which has no input, and of
    a task (61-72), which has one; [unwrap] of an empty payload panics. Other numbers of inputs
    are excluded by the types. *)
Definition cat_process (t : nat) (ins : list message) (out : message) (e : cat W) : cat W * message * option F :=
  match ins with
  | [] => let on := negb (c_state e t) in
          (Cat (c_world e) (fun u => if Nat.eqb u t then on else c_state e u) (c_pins e) (c_dead e), with_payload on out, None)
  | [x] => match m_payload x with
           | Some incoming => (e, with_payload incoming out, None)
           | None => (Cat (c_world e) (c_state e) (c_pins e) true, out, None)
           end
  | _ => (Cat (c_world e) (c_state e) (c_pins e) true, out, None)
  end.
(** components/sinks/cu_rp_gpio/src/lib.rs:87-99 (RPGpio::process, on hardware). *)
Definition cat_sink (t : nat) (ins : list message) (e : cat W) : cat W * option F :=
  match ins with
  | [x] => match m_payload x with
           | Some on => (Cat (c_world e) (c_state e) (c_pins e ++ [(t, level_of on)]) (c_dead e), None)
           | None => (Cat (c_world e) (c_state e) (c_pins e) true, None)
           end
  | _ => (Cat (c_world e) (c_state e) (c_pins e) true, None)
  end.
(** The tasks for the generated code (core/cu29_derive/src/lib.rs:415-1014); none has start,
    stop, preprocess or postprocess. *)
Definition cat_oracles : oracles bool unit F (cat W) :=
  {| o_task := fun ph t e => (e, None);
     o_process := cat_process;
     o_sink := cat_sink;
     o_sim := fun ph t e => (e, ExecuteByRuntime);
     o_sim_process := fun t ins out e => (e, out, ExecuteByRuntime);
     o_decide := fun ph t f e => (e, monitor ph t f);
     o_report := fun md e => outside (w_report w md) e;
     o_monitor := fun ph e => (e, None);
     o_now := fun e => outside (w_now w) e;
     o_log := fun e => w_log w (c_world e) |}.
End Cat.
(** The tasks as created (examples/cu_caterpillar/src/tasks.rs:30-35). *)
Definition cat_new {W} (x : W) : cat W := Cat x (fun _ => true) [] false.
(** The default messages (core/cu29_runtime/src/cutask.rs:122-158) of a copper list. *)
Definition cat_zero (g : graph) : list message :=
  repeat (Msg None tt None None) (length (a_plan (cat_app g Checked))).
