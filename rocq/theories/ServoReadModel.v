(** The readings a program takes from LewanSoul servos (components/sinks/cu_lewansoul/src/lib.rs).
    The port is the list of the bytes that have arrived and are not read yet. Writing to the
    port succeeds; the bytes that arrive between the writing and the end of the reading come
    with each reading, whatever the servos do. *)
From Coq Require Import List Arith NArith ZArith Bool.
From Coq Require Import SpecFloat.
From Verif Require Import Base FloatModel PayloadModel ServoModel.
Import ListNotations.
Local Open Scope N_scope.

(** What can be asked of a servo (components/sinks/cu_lewansoul/src/lib.rs:97, 104, 111, 118, 125). *)
Inductive ask := Reassign (new_id : N) | AskPosition | AskVoltage | AskTemperature | AskLimits.
(** The results (components/sinks/cu_lewansoul/src/lib.rs:97, 104, 111, 118, 125). *)
Inductive reading := Done | Degrees (x : f32) | Volts (x : f32) | Celsius (t : N) | Limits (low high : f32).
(** The commands (components/sinks/cu_lewansoul/src/lib.rs:24, 31, 35-37, as used at 98, 105, 112, 119, 126). *)
Definition ask_command (a : ask) : N :=
  match a with Reassign _ => 13 | AskPosition => 28 | AskVoltage => 0x1B | AskTemperature => 0x1A | AskLimits => 21 end.
(** The data sent with them (components/sinks/cu_lewansoul/src/lib.rs:98, 105, 112, 119, 126). *)
Definition ask_data (a : ask) : list N := match a with Reassign n => [n] | _ => [] end.
(** An i16 [as f32 * 240.0 / 1000.0] (components/sinks/cu_lewansoul/src/lib.rs:107, 129, 130). *)
Definition degrees (raw : Z) : f32 := fdiv (fmul (f32_of_z raw) (f32_of 240)) (f32_of 1000).
(** A u16 [as f32 / 1000.0] (components/sinks/cu_lewansoul/src/lib.rs:114). *)
Definition volts (raw : N) : f32 := fdiv (f32_of raw) (f32_of 1000).
(** What is made of the data of the answer (components/sinks/cu_lewansoul/src/lib.rs:99-100, 107,
    114, 121, 128-131); an index past the end panics. *)
Definition reading_of (a : ask) (data : list N) : outcome reading :=
  match a with
  | Reassign _ => Ret Done
  | AskPosition => let! p := get_i16 data 0 in Ret (Degrees (degrees p))
  | AskVoltage =>
      match data with lo :: hi :: _ => Ret (Volts (volts (lo + 256 * hi))) | _ => Panic end
  | AskTemperature => match data with t :: _ => Ret (Celsius t) | [] => Panic end
  | AskLimits =>
      let! low := get_i16 data 0 in let! high := get_i16 data 2 in
      Ret (Limits (degrees low) (degrees high))
  end.
(** reassign_servo_id, read_current_position, read_present_voltage, read_temperature and
    read_angle_limits (components/sinks/cu_lewansoul/src/lib.rs:97-132): the result, the bytes
    sent and the bytes left unread. *)
Definition servo_read (id : N) (a : ask) (port arriving : list N) : outcome ((reading + io_error) * list N * list N) :=
  let! sent := send_packet id (ask_command a) (ask_data a) in
  let! (r, port) := read_response (port ++ arriving) in
  match r with
  | inl (_, _, data) => let! x := reading_of a data in Ret (inl x, sent, port)
  | inr e => Ret (inr e, sent, port)
  end.
(** Readings one after the other on one port (the [&mut self] of
    components/sinks/cu_lewansoul/src/lib.rs:97-125), each with the bytes that arrive during it. *)
Fixpoint servo_session (l : list (N * ask * list N)) (port : list N) : outcome (list (reading + io_error) * list N) :=
  match l with
  | [] => Ret ([], port)
  | (id, a, arriving) :: l =>
      let! (r, _, port) := servo_read id a port arriving in
      let! (rs, port) := servo_session l port in
      Ret (r :: rs, port)
  end.
