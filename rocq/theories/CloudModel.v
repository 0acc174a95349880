(** Point clouds (components/payloads/cu_sensor_payloads/src/pointcloud.rs): the sort, and the
    serialization of a reflectivity. The stack is unbounded. *)
From Coq Require Import List Arith NArith ZArith Bool.
From Verif Require Import Base BincodeModel CodecModel FloatModel.
Import ListNotations.
Local Open Scope nat_scope.

Section Cloud.
Context {V : Type}.
(** The arrays generated for components/payloads/cu_sensor_payloads/src/pointcloud.rs:78-86
    (PointCloudSoa) and the length in use; [V] is the type of the distances and
    reflectivities. *)
Record cloud := Cloud { c_tov : list N; c_x : list V; c_y : list V; c_z : list V; c_i : list V; c_order : list N; c_len : nat }.
(** slice::swap (components/payloads/cu_sensor_payloads/src/pointcloud.rs:185-189); panics out
    of bounds. *)
Definition slice_swap {X} (a b : nat) (l : list X) : outcome (list X) :=
  match nth_error l a, nth_error l b with
  | Some u, Some v => Ret (upd b u (upd a v l))
  | _, _ => Panic
  end.
(** components/payloads/cu_sensor_payloads/src/pointcloud.rs:184-190 (swap). *)
Definition swap (a b : nat) (c : cloud) : outcome cloud :=
  let! t := slice_swap a b (c_tov c) in
  let! x := slice_swap a b (c_x c) in
  let! y := slice_swap a b (c_y c) in
  let! z := slice_swap a b (c_z c) in
  let! i := slice_swap a b (c_i c) in
  Ret (Cloud t x y z i (c_order c) (c_len c)).
(** components/payloads/cu_sensor_payloads/src/pointcloud.rs:173-178, [n] turns from [j]. *)
Fixpoint partition_loop (n : nat) (pivot : N) (j i : nat) (c : cloud) : outcome (nat * cloud) :=
  match n with
  | O => Ret (i, c)
  | S n => match nth_error (c_tov c) j with
           | None => Panic
           | Some t => if (t <=? pivot)%N
                       then let! c := swap i j c in partition_loop n pivot (j + 1) (i + 1) c
                       else partition_loop n pivot (j + 1) i c
           end
  end.
(** components/payloads/cu_sensor_payloads/src/pointcloud.rs:170-181 (partition). *)
Definition partition (low high : nat) (c : cloud) : outcome (nat * cloud) :=
  match nth_error (c_tov c) high with
  | None => Panic
  | Some pivot => let! (i, c) := partition_loop (high - low) pivot low low c in
                  let! c := swap i high c in Ret (i, c)
  end.
(** components/payloads/cu_sensor_payloads/src/pointcloud.rs:159-167 (quicksort); [None]: not
    enough [fuel] for the depth of the recursion. *)
Fixpoint quicksort (fuel : nat) (low high : nat) (c : cloud) : option (outcome cloud) :=
  match fuel with
  | O => None
  | S fuel =>
      if low <? high
      then match partition low high c with
           | Panic => Some Panic
           | Ret (p, c) =>
               match (if 0 <? p then quicksort fuel low (p - 1) c else Some (Ret c)) with
               | Some (Ret c) => quicksort fuel (p + 1) high c
               | r => r
               end
           end
      else Some (Ret c)
  end.
(** components/payloads/cu_sensor_payloads/src/pointcloud.rs:154-156 (sort) of a cloud with
    room for [n] points; [N - 1] panics for 0. *)
Definition sort (n : nat) (c : cloud) : option (outcome cloud) :=
  match n with O => Some Panic | S m => quicksort (n + 1) 0 m c end.
(** The points in use (core/cu29_soa_derive/src/lib.rs:247-249, the generated iterator), for
    reading results. *)
Definition point (d : V) (c : cloud) (k : nat) : N * (V * V * V * V) * N :=
  (nth k (c_tov c) 0%N, (nth k (c_x c) d, nth k (c_y c) d, nth k (c_z c) d, nth k (c_i c) d), nth k (c_order c) 0%N).
(** The same for all points in use (core/cu29_soa_derive/src/lib.rs:247-249). *)
Definition points (d : V) (c : cloud) : list (N * (V * V * V * V) * N) := map (point d c) (seq 0 (c_len c)).
End Cloud.
Arguments cloud : clear implicits.

(** uom multiplies by the coefficient of a unit or divides by its inverse, depending on the
    version; both are considered (components/payloads/cu_sensor_payloads/src/pointcloud.rs:32). *)
Inductive conversion := ByMultiplication | ByDivision.
(** Ratio::new::<percent> (components/payloads/cu_sensor_payloads/src/pointcloud.rs:32): the
    ratio of a percentage, as bits. *)
Definition percent (v : conversion) (bits : N) : N :=
  to_bits (match v with
           | ByMultiplication => fmul (of_bits bits) (of_bits 0x3C23D70A)
           | ByDivision => fdiv (of_bits bits) (of_bits 0x42C80000)
           end).
(** components/payloads/cu_sensor_payloads/src/pointcloud.rs:21-26 (Encode for Reflectivity):
    the bits of the ratio. *)
Definition enc_reflectivity (bits : N) : bytes := enc_f32 bits.
(** components/payloads/cu_sensor_payloads/src/pointcloud.rs:29-34 (Decode for Reflectivity). *)
Definition dec_reflectivity (v : conversion) : decoder N := let? b := dec_f32 in dret (percent v b).
(** components/payloads/cu_sensor_payloads/src/pointcloud.rs:79-86 (PointCloud); floats as
    bits. *)
Record pt := Pt { p_tov : N; p_x : N; p_y : N; p_z : N; p_i : N; p_order : N }.
(** components/payloads/cu_sensor_payloads/src/pointcloud.rs:88-97 (Encode for PointCloud). *)
Definition enc_pt (p : pt) : bytes :=
  enc_time (p_tov p) ++ enc_f32 (p_x p) ++ enc_f32 (p_y p) ++ enc_f32 (p_z p) ++ enc_reflectivity (p_i p) ++ enc_u8 (p_order p).
(** components/payloads/cu_sensor_payloads/src/pointcloud.rs:99-118 (Decode for PointCloud);
    Length::new::<meter> keeps the value (62-67). *)
Definition dec_pt (v : conversion) : decoder pt :=
  let? t := dec_time in let? x := dec_f32 in let? y := dec_f32 in let? z := dec_f32 in
  let? i := dec_reflectivity v in let? o := dec_u8 in dret (Pt t x y z i o).
