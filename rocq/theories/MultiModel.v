(** The example with two sources (examples/cu_multisources): its tasks and the application the
    runtime makes of its configuration. *)
From Coq Require Import String List NArith ZArith Bool.
From Verif Require Import Base CuListModel PlanModel RuntimeModel FloatModel.
Import ListNotations.
Open Scope nat_scope.

(** The connections of examples/cu_multisources/copperconfig.ron:24-35 between the tasks of lines
    2-23, numbered in their order: 0 i, 1 f, 2 merger, 3 merger_sink, 4 merged_sink. *)
Definition multisources : graph := Graph 5
  [Edge 0 3 "i32"; Edge 1 3 "f32"; Edge 0 2 "i32"; Edge 1 2 "f32"; Edge 2 4 "(i32, f32)"].
(** The application (examples/cu_multisources/src/main.rs:9-10, copper_runtime with the
    configuration; core/cu29_derive/src/lib.rs:293-299 computes the plan). *)
Definition multi_app (mode : ovf_mode) : application :=
  App 5 (match compute_plan multisources with Ret (Some p) => p | _ => [] end) false true mode.
(** The payloads: i32, f32 and the pair of both (examples/cu_multisources/src/tasks.rs:11, 31, 77). *)
Inductive payload := PInt (z : Z) | PFloat (x : f32) | PPair (z : Z) (x : f32).
(** A message (core/cu29_runtime/src/cutask.rs:122-158); the tasks set no metadata. *)
Notation message := (msg payload unit).
(** What the two sinks print (examples/cu_multisources/src/tasks.rs:57-61, 110). *)
Inductive line := SinkTask1 (z : Z) (x : f32) | SinkTask2 (z : Z) (x : f32).
(** What is outside: the clock, the monitor's view of a copper list and the log
    (core/cu29_derive/src/lib.rs:964-988). *)
Record world (W F : Type) := World {
  w_now : W -> W * N; w_report : list message -> W -> W * option F; w_log : W -> cl (list message) -> bool }.
Arguments w_now {W F}. Arguments w_report {W F}. Arguments w_log {W F}.
(** The values of the two sources (examples/cu_multisources/src/tasks.rs:4-6, 24-26), the lines
    printed and whether a task has panicked. *)
Record multi (W : Type) := Multi { u_world : W; u_int : Z; u_float : f32; u_lines : list line; u_dead : bool }.
Arguments Multi {W}. Arguments u_world {W}. Arguments u_int {W}. Arguments u_float {W}. Arguments u_lines {W}. Arguments u_dead {W}.
(** The tasks as created (examples/cu_multisources/src/tasks.rs:12-14, 32-34). *)
Definition multi_new {W} (x : W) : multi W := Multi x 42 (f32_of 24) [] false.
(** set_payload (core/cu29_runtime/src/cutask.rs:163-165). *)
Definition with_payload (p : payload) (m : message) : message := Msg (Some p) (m_meta m) (m_start m) (m_end m).
(** [+ 1] of an i32 (examples/cu_multisources/src/tasks.rs:17). *)
Definition next_i32 (mode : ovf_mode) (z : Z) : outcome Z :=
  if (z <? 2 ^ 31 - 1)%Z then Ret (z + 1)%Z
  else match mode with Checked => Panic | Wrapping => Ret (- 2 ^ 31)%Z end.

Section Multi.
Context {W F : Type}.
Variable w : world W F.
Variable monitor : phase -> nat -> F -> decision.
Variable mode : ovf_mode.
(** A panic of a task: any [unwrap] of examples/cu_multisources/src/tasks.rs:59-60, 93, 110 or the
    overflow of line 17. *)
Definition die (e : multi W) : multi W := Multi (u_world e) (u_int e) (u_float e) (u_lines e) true.
(** A call of something outside ([world], as core/cu29_derive/src/lib.rs:964-988 uses it). *)
Definition outside {A} (f : W -> W * A) (e : multi W) : multi W * A :=
  let (x, r) := f (u_world e) in (Multi x (u_int e) (u_float e) (u_lines e) (u_dead e), r).
(** process of IntegerSrcTask, FloatSrcTask and MergerTask (examples/cu_multisources/src/tasks.rs:16-20,
    36-40, 83-95). Other inputs are excluded by the types. *)
Definition multi_process (t : nat) (ins : list message) (out : message) (e : multi W) : multi W * message * option F :=
  match t, ins with
  | 0, [] => match next_i32 mode (u_int e) with
             | Ret z => (Multi (u_world e) z (u_float e) (u_lines e) (u_dead e), with_payload (PInt z) out, None)
             | Panic => (die e, out, None)
             end
  | 1, [] => let x := fadd (u_float e) (f32_of 1) in
             (Multi (u_world e) (u_int e) x (u_lines e) (u_dead e), with_payload (PFloat x) out, None)
  | 2, [i; f] => match m_payload i, m_payload f with
                 | Some (PInt z), Some (PFloat x) => (e, with_payload (PPair z x) out, None)
                 | _, _ => (die e, out, None)
                 end
  | _, _ => (die e, out, None)
  end.
(** A line on the standard output (examples/cu_multisources/src/tasks.rs:57, 110). *)
Definition print (l : line) (e : multi W) : multi W := Multi (u_world e) (u_int e) (u_float e) (u_lines e ++ [l]) (u_dead e).
(** process of MergingSinkTask and MergedSinkTask (examples/cu_multisources/src/tasks.rs:55-63, 109-112). *)
Definition multi_sink (t : nat) (ins : list message) (e : multi W) : multi W * option F :=
  match t, ins with
  | 3, [i; f] => match m_payload i, m_payload f with
                 | Some (PInt z), Some (PFloat x) => (print (SinkTask1 z x) e, None)
                 | _, _ => (die e, None)
                 end
  | 4, [p] => match m_payload p with Some (PPair z x) => (print (SinkTask2 z x) e, None) | _ => (die e, None) end
  | _, _ => (die e, None)
  end.
(** The tasks for the generated code (core/cu29_derive/src/lib.rs:415-1014); none has start,
    stop, preprocess or postprocess. *)
Definition multi_oracles : oracles payload unit F (multi W) :=
  {| o_task := fun ph t e => (e, None);
     o_process := multi_process;
     o_sink := multi_sink;
     o_sim := fun ph t e => (e, ExecuteByRuntime);
     o_sim_process := fun t ins out e => (e, out, ExecuteByRuntime);
     o_decide := fun ph t f e => (e, monitor ph t f);
     o_report := fun md e => outside (w_report w md) e;
     o_monitor := fun ph e => (e, None);
     o_now := fun e => outside (w_now w) e;
     o_log := fun e => w_log w (u_world e) |}.
End Multi.
(** The default messages (core/cu29_runtime/src/cutask.rs:122-158) of a copper list. *)
Definition multi_zero : list message := repeat (Msg None tt None None) 5.
