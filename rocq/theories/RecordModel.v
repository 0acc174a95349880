(** The copper lists of the example with two sources as they are recorded
    (examples/cu_multisources): the types of their messages and what is written of a list. *)
From Coq Require Import List NArith ZArith Bool.
From Verif Require Import Base BincodeModel CodecModel FloatModel PidModel RuntimeModel MultiModel.
Import ListNotations.
Local Open Scope N_scope.

(** The payloads of the tuple of messages: i32, f32, (i32, f32) and nothing for the two sinks
    (examples/cu_multisources/copperconfig.ron:24-35, in the order of the plan;
    core/cu29_derive/src/lib.rs:1334-1363). *)
Definition multi_payloads : list CodecModel.payload :=
  [CodecModel.Payload Z enc_signed (dec_signed 4);
   CodecModel.Payload f32 (fun x => enc_f32 (to_bits x)) dec_float;
   CodecModel.Payload (Z * f32) (enc_pair enc_signed (fun x => enc_f32 (to_bits x))) (dec_pair (dec_signed 4) dec_float);
   CodecModel.Payload unit (fun _ => []) (dret tt);
   CodecModel.Payload unit (fun _ => []) (dret tt)].

(** The metadata of a message (core/cu29_runtime/src/cutask.rs:99-118): the tasks leave the time
    of validity and the status as they are by default. *)
Definition recorded_meta (m : message) : metadata :=
  Metadata (PartialRange (oct_of_option (m_start m)) (oct_of_option (m_end m))) TovNone [].
(** A message with its payload (core/cu29_runtime/src/cutask.rs:126-136); a payload of another
    type is excluded by the types. *)
Definition recorded {T} (f : MultiModel.payload -> option T) (m : message) : cumsg T :=
  CuMsg (match m_payload m with Some p => f p | None => None end) (recorded_meta m).
(** The payload as i32 (examples/cu_multisources/src/tasks.rs:11). *)
Definition as_int (p : MultiModel.payload) : option Z := match p with PInt z => Some z | _ => None end.
(** The payload as f32 (examples/cu_multisources/src/tasks.rs:31). *)
Definition as_float (p : MultiModel.payload) : option f32 := match p with PFloat x => Some x | _ => None end.
(** The payload as a pair (examples/cu_multisources/src/tasks.rs:77). *)
Definition as_pair (p : MultiModel.payload) : option (Z * f32) := match p with PPair z x => Some (z, x) | _ => None end.
(** The payload of a sink (core/cu29_derive/src/lib.rs:1334-1363); a sink sets none. *)
Definition as_unit (p : MultiModel.payload) : option unit := None.

(** The list handed to the log (core/cu29_runtime/src/curuntime.rs:111-114): in the state
    BeingSerialized. A list of other than five messages is excluded by the types. *)
Definition record_list (id : N) (l : list message) : option (copperlist multi_payloads) :=
  match l with
  | [a; b; c; d; e] =>
      Some (@CopperList multi_payloads id BeingSerialized
        (recorded as_int a, (recorded as_float b, (recorded as_pair c, (recorded as_unit d, (recorded as_unit e, tt))))))
  | _ => None
  end.
