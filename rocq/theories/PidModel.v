(** The PID controller and its task (components/tasks/cu_pid/src/lib.rs). Measurements are
    given already converted to f32, the configuration already read; the status text of the
    message is left out. Arithmetic on durations panics out of 64 bits, as in a debug build. *)
From Coq Require Import List NArith ZArith Bool SpecFloat.
From Verif Require Import Base BincodeModel CodecModel FloatModel.
Import ListNotations.
Local Open Scope N_scope.

(** components/tasks/cu_pid/src/lib.rs:22-32 (the configuration in PIDController). *)
Record gains := Gains { kp : f32; ki : f32; kd : f32; setpoint : f32; p_limit : f32; i_limit : f32; d_limit : f32; output_limit : f32; sampling : N }.
(** components/tasks/cu_pid/src/lib.rs:10-19 (PIDControlOutputPayload). *)
Record payload := Payload { o_p : f32; o_i : f32; o_d : f32; o_output : f32 }.
(** components/tasks/cu_pid/src/lib.rs:22-38 (PIDController). *)
Record pid := Pid { g : gains; integral : f32; last_error : f32; elapsed : N; last_output : payload }.
(** 0f32, as at components/tasks/cu_pid/src/lib.rs:71. *)
Definition f0 : f32 := S754_zero false.
(** components/tasks/cu_pid/src/lib.rs:9 (Default of PIDControlOutputPayload). *)
Definition payload0 : payload := Payload f0 f0 f0 f0.
(** components/tasks/cu_pid/src/lib.rs:42-68 (PIDController::new). *)
Definition pid_new (g : gains) : pid := Pid g f0 f0 0 payload0.
(** components/tasks/cu_pid/src/lib.rs:70-73 (reset). *)
Definition reset (p : pid) : pid := Pid (g p) f0 f0 (elapsed p) (last_output p).
(** components/tasks/cu_pid/src/lib.rs:75-78 (init_measurement). *)
Definition init_measurement (m : f32) (p : pid) : pid := Pid (g p) (integral p) (fsub (setpoint (g p)) m) (sampling (g p)) (last_output p).
(** f32::clamp as used at components/tasks/cu_pid/src/lib.rs:98: asserts min <= max, then two
    comparisons. *)
Definition clamp (x lo hi : f32) : outcome f32 :=
  if fle lo hi then let x := if flt x lo then lo else x in Ret (if flt hi x then hi else x) else Panic.
(** 1_000_000f32 (components/tasks/cu_pid/src/lib.rs:94). *)
Definition million : f32 := f32_of 1000000.
(** components/tasks/cu_pid/src/lib.rs:80-122 (next_control_output). *)
Definition next_control_output (m : f32) (dt : N) (s : pid) : outcome (pid * payload) :=
  let e := elapsed s + dt in
  if 2 ^ 64 <=? e then Panic
  else if e <? sampling (g s) then Ret (Pid (g s) (integral s) (last_error s) e (last_output s), last_output s)
  else
    let error := fsub (setpoint (g s)) m in
    let dt := fdiv (f32_of e) million in
    let! p := clamp (fmul (kp (g s)) error) (fopp (p_limit (g s))) (p_limit (g s)) in
    let integral := fadd (integral s) (fmul error dt) in
    let! i := clamp (fmul (ki (g s)) integral) (fopp (i_limit (g s))) (i_limit (g s)) in
    let derivative := fdiv (fsub error (last_error s)) dt in
    let! d := clamp (fmul (kd (g s)) derivative) (fopp (d_limit (g s))) (d_limit (g s)) in
    let! output := clamp (fadd (fadd p i) d) (fopp (output_limit (g s))) (output_limit (g s)) in
    let out := Payload p i d output in
    Ret (Pid (g s) integral error 0 out, out).

(** components/tasks/cu_pid/src/lib.rs:126-136 (GenericPIDTask). *)
Record task := Task { t_pid : pid; first_run : bool; last_tov : N; t_setpoint : f32; cutoff : f32 }.
(** components/tasks/cu_pid/src/lib.rs:184-203 (the end of GenericPIDTask::new). *)
Definition task_new (g : gains) (c : f32) : task := Task (pid_new g) true 0 (setpoint g) c.
(** What process does with the output message (components/tasks/cu_pid/src/lib.rs:209-256):
    the new payload, or an error with the message untouched. *)
Inductive result := Sent (o : option payload) | Failed.
(** components/tasks/cu_pid/src/lib.rs:209-256 (process). The input is a payload with its time
    of validity, [None] when that is not a single time (217-220). *)
Definition process (input : option (f32 * option N)) (t : task) : outcome (task * result) :=
  match input with
  | None => Ret (t, Sent None)
  | Some (_, None) => Ret (t, Failed)
  | Some (m, Some tov) =>
      if first_run t then Ret (Task (init_measurement m (t_pid t)) false tov (t_setpoint t) (cutoff t), Sent None)
      else if tov <? last_tov t then Panic
      else let! (p, state) := next_control_output m (tov - last_tov t) (t_pid t) in
           let t := Task p false tov (t_setpoint t) (cutoff t) in
           if flt (fadd (t_setpoint t) (cutoff t)) m then Ret (t, Failed)
           else if flt m (fsub (t_setpoint t) (cutoff t)) then Ret (t, Failed)
           else Ret (t, Sent (Some state))
  end.
(** components/tasks/cu_pid/src/lib.rs:258-262 (stop). *)
Definition stop (t : task) : task := Task (reset (t_pid t)) true (last_tov t) (t_setpoint t) (cutoff t).
(** A task's life (the calls of the runtime to components/tasks/cu_pid/src/lib.rs:209-262). *)
Inductive op := Process (input : option (f32 * option N)) | Stop.
(** The results of the processed messages (components/tasks/cu_pid/src/lib.rs:209-262). *)
Fixpoint run (l : list op) (t : task) : outcome (task * list result) :=
  match l with
  | [] => Ret (t, [])
  | Stop :: l => run l (stop t)
  | Process i :: l => let! (t, r) := process i t in let! (t, rs) := run l t in Ret (t, r :: rs)
  end.
(** components/tasks/cu_pid/src/lib.rs:9 (Encode of PIDControlOutputPayload). *)
Definition enc_payload (o : payload) : bytes :=
  enc_f32 (to_bits (o_p o)) ++ enc_f32 (to_bits (o_i o)) ++ enc_f32 (to_bits (o_d o)) ++ enc_f32 (to_bits (o_output o)).
(** An f32 read by bincode (components/tasks/cu_pid/src/lib.rs:279). *)
Definition dec_float : decoder f32 := let? b := dec_f32 in dret (of_bits b).
(** components/tasks/cu_pid/src/lib.rs:9 (Decode of PIDControlOutputPayload). *)
Definition dec_payload : decoder payload :=
  let? p := dec_float in let? i := dec_float in let? d := dec_float in let? o := dec_float in dret (Payload p i d o).
(** components/tasks/cu_pid/src/lib.rs:270-276 (freeze). *)
Definition freeze (t : task) : bytes :=
  enc_f32 (to_bits (integral (t_pid t))) ++ enc_f32 (to_bits (last_error (t_pid t))) ++ enc_time (elapsed (t_pid t)) ++ enc_payload (last_output (t_pid t)).
(** components/tasks/cu_pid/src/lib.rs:278-284 (thaw) of a task created with [t]'s
    configuration. *)
Definition thaw (t : task) : decoder task :=
  let? i := dec_float in let? e := dec_float in let? el := dec_time in let? o := dec_payload in
  dret (Task (Pid (g (t_pid t)) i e el o) (first_run t) (last_tov t) (t_setpoint t) (cutoff t)).
