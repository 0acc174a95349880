(** The motor driver (components/sinks/cu_rp_sn754410/src/lib.rs). The duty cycles of the two
    channels are kept as f32: the conversions to f64 (194, 196) are exact. *)
From Coq Require Import List NArith ZArith Bool SpecFloat.
From Verif Require Import Base FloatModel.
Import ListNotations.

(** components/sinks/cu_rp_sn754410/src/lib.rs:14-23 (SN754410), with the duty cycles the
    channels have; last_update is not read. *)
Record motor := Motor { current_power : f32; deadzone : f32; dryrun : bool; duty0 : f32; duty1 : f32 }.
(** 0.0 and 1.0 (components/sinks/cu_rp_sn754410/src/lib.rs:182-183). *)
Definition zero : f32 := S754_zero false.
(** As at components/sinks/cu_rp_sn754410/src/lib.rs:183. *)
Definition one : f32 := f32_of 1.
(** components/sinks/cu_rp_sn754410/src/lib.rs:146-163 (the end of new). *)
Definition motor_new (dz : f32) (dry : bool) : motor := Motor zero dz dry zero zero.
(** Two calls of set_duty_cycle (components/sinks/cu_rp_sn754410/src/lib.rs:33-41, 44-52,
    55-63: forward, reverse and stop), of which the hardware accepts the first or the second
    as [hw] says; the second is not made if the first fails. *)
Definition set_duties (hw : bool * bool) (a b : f32) (m : motor) : motor * bool :=
  if fst hw
  then let m := Motor (current_power m) (deadzone m) (dryrun m) a (duty1 m) in
       if snd hw then (Motor (current_power m) (deadzone m) (dryrun m) (duty0 m) b, true) else (m, false)
  else (m, false).
(** components/sinks/cu_rp_sn754410/src/lib.rs:179-189. *)
Definition compensated (dz p : f32) : f32 :=
  if fne p zero
  then if flt zero p then fadd dz (fmul (fsub one dz) p) else fadd (fopp dz) (fmul (fadd one dz) p)
  else p.
(** components/sinks/cu_rp_sn754410/src/lib.rs:169-210 (process): the new state and whether it
    returned Ok. *)
Definition process (input : option f32) (hw : bool * bool) (m : motor) : motor * bool :=
  match input with
  | Some p =>
      if dryrun m then set_duties hw zero zero m
      else
        let c := compensated (deadzone m) p in
        if fne c (current_power m)
        then let m := Motor c (deadzone m) (dryrun m) (duty0 m) (duty1 m) in
             if flt zero c then set_duties hw c zero m
             else if flt (current_power m) zero then set_duties hw zero (fopp (current_power m)) m
             else set_duties hw zero zero m
        else (m, true)
  | None => (fst (set_duties hw zero zero m), false)
  end.
(** A history of messages (the runtime's calls to
    components/sinks/cu_rp_sn754410/src/lib.rs:169-210). *)
Fixpoint run (l : list (option f32 * (bool * bool))) (m : motor) : motor :=
  match l with [] => m | (i, hw) :: l => run l (fst (process i hw m)) end.
