(** Timestamps exported to Python (core/cu29_export/src/lib.rs:250-261). *)
From Coq Require Import NArith ZArith.
From Verif Require Import Base.
Local Open Scope N_scope.

(** Rust's [as i32] on a u64, as used at core/cu29_export/src/lib.rs:256-258. *)
Definition as_i32 (v : N) : Z :=
  let w := v mod 2 ^ 32 in if w <? 2 ^ 31 then Z.of_N w else (Z.of_N w - 2 ^ 32)%Z.
(** A datetime.timedelta built without normalization (core/cu29_export/src/lib.rs:260):
    days, seconds, microseconds as given. *)
Record delta := Delta { d_days : Z; d_seconds : Z; d_micros : Z }.
(** core/cu29_export/src/lib.rs:252-261 (ts). *)
Definition ts (ns : N) : delta :=
  Delta (as_i32 (ns / 86400000000000)) (as_i32 (ns / 1000000000)) (as_i32 ((ns mod 1000000000) / 1000)).
