(** f32 numbers: the IEEE 754 operations of Coq's SpecFloat with 24 bits of precision and
    exponents below 128 (round to nearest, ties to even), and their bits. They stand for the
    f32 arithmetic used in the components (for example components/tasks/cu_pid/src/lib.rs). *)
From Coq Require Import NArith ZArith Bool SpecFloat.
From Verif Require Import Base.
Local Open Scope Z_scope.

(** f32, as in components/tasks/cu_pid/src/lib.rs:10-19. *)
Definition f32 := spec_float.
(** f32 multiplication (as at components/tasks/cu_pid/src/lib.rs:97). *)
Definition fmul : f32 -> f32 -> f32 := SFmul 24 128.
(** f32 division (as at components/tasks/cu_pid/src/lib.rs:106). *)
Definition fdiv : f32 -> f32 -> f32 := SFdiv 24 128.
(** f32 addition (as at components/tasks/cu_pid/src/lib.rs:101). *)
Definition fadd : f32 -> f32 -> f32 := SFadd 24 128.
(** f32 subtraction (as at components/tasks/cu_pid/src/lib.rs:92). *)
Definition fsub : f32 -> f32 -> f32 := SFsub 24 128.
(** [<] of f32 (in f32::clamp, as at components/tasks/cu_pid/src/lib.rs:98). *)
Definition flt : f32 -> f32 -> bool := SFltb.
(** [<=] of f32 (in f32::clamp, as at components/tasks/cu_pid/src/lib.rs:98). *)
Definition fle : f32 -> f32 -> bool := SFleb.
(** Negation of f32 (as at components/tasks/cu_pid/src/lib.rs:98). *)
Definition fopp : f32 -> f32 := SFopp.
(** [!=] of f32 (as at components/sinks/cu_rp_sn754410/src/lib.rs:179). *)
Definition fne (x y : f32) : bool := negb (SFeqb x y).
(** A u64 as f32, rounded (components/tasks/cu_pid/src/lib.rs:94). *)
Definition f32_of (n : N) : f32 := binary_normalize 24 128 (Z.of_N n) 0 false.
(** f32::from_bits (the bytes read by bincode at
    components/payloads/cu_sensor_payloads/src/pointcloud.rs:31). *)
Definition of_bits (b : N) : f32 :=
  let b := Z.of_N b in
  let s := Z.testbit b 31 in
  let e := (b / 2 ^ 23) mod 256 in
  let m := b mod 2 ^ 23 in
  if e =? 255 then (if m =? 0 then S754_infinity s else S754_nan)
  else if e =? 0 then (match m with Zpos p => S754_finite s p (-149) | _ => S754_zero s end)
  else (match m + 2 ^ 23 with Zpos p => S754_finite s p (e - 150) | _ => S754_nan end).
(** f32::to_bits (the bytes written by bincode at
    components/payloads/cu_sensor_payloads/src/pointcloud.rs:24); the bits of a NaN are
    those of f32::NAN. *)
Definition to_bits (x : f32) : N :=
  let sign (s : bool) := if s then 2 ^ 31 else 0 in
  Z.to_N (match x with
          | S754_zero s => sign s
          | S754_infinity s => sign s + 255 * 2 ^ 23
          | S754_nan => 0x7FC00000
          | S754_finite s m e => sign s + (if Zpos m <? 2 ^ 23 then Zpos m else (e + 150) * 2 ^ 23 + (Zpos m - 2 ^ 23))
          end).
