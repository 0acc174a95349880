(** Payloads of sensors: poses and their conversions, the readings of an inertial unit,
    and images. *)
From Coq Require Import List Arith NArith ZArith Bool SpecFloat.
From Verif Require Import Base BincodeModel FloatModel.
Import ListNotations.
Local Open Scope nat_scope.

(** *** Poses *)
(** Transform3D (components/payloads/cu_spatial_payloads/src/lib.rs:12-15): entry of row and
    column, both below 4. Numbers are integers here: the conversions only copy them, and the
    motions of points are compared without rounding. *)
Definition pose := nat -> nat -> Z.
(** Default (components/payloads/cu_spatial_payloads/src/lib.rs:77-83). *)
Definition pose_default : pose := fun _ _ => 0%Z.
(** translation() (components/payloads/cu_spatial_payloads/src/lib.rs:18-24, 48-54), in meters. *)
Definition pose_translation (p : pose) : list Z := [p 0 3; p 1 3; p 2 3].

(** A vector of glam, and its DAffine3: three columns and a translation (as used at
    components/payloads/cu_spatial_payloads/src/lib.rs:154-169). *)
Record v3 := V3 { vx : Z; vy : Z; vz : Z }.
(** DAffine3 of glam (components/payloads/cu_spatial_payloads/src/lib.rs:154). *)
Record affine := Affine { x_axis : v3; y_axis : v3; z_axis : v3; offset_of : v3 }.
(** transform_point3 of glam: x_axis * x + y_axis * y + z_axis * z + translation (the library
    used at components/payloads/cu_spatial_payloads/src/lib.rs:149). *)
Definition glam_move (a : affine) (p : v3) : v3 :=
  let comb f := (f (x_axis a) * vx p + f (y_axis a) * vy p + f (z_axis a) * vz p + f (offset_of a))%Z in
  V3 (comb vx) (comb vy) (comb vz).
(** components/payloads/cu_spatial_payloads/src/lib.rs:152-173. *)
Definition to_glam (p : pose) : affine :=
  Affine (V3 (p 0 0) (p 0 1) (p 0 2)) (V3 (p 1 0) (p 1 1) (p 1 2)) (V3 (p 2 0) (p 2 1) (p 2 2)) (V3 (p 0 3) (p 1 3) (p 2 3)).
(** components/payloads/cu_spatial_payloads/src/lib.rs:175-199. *)
Definition of_glam (a : affine) : pose := fun r c =>
  match r, c with
  | 0, 0 => vx (x_axis a) | 0, 1 => vy (x_axis a) | 0, 2 => vz (x_axis a)
  | 1, 0 => vx (y_axis a) | 1, 1 => vy (y_axis a) | 1, 2 => vz (y_axis a)
  | 2, 0 => vx (z_axis a) | 2, 1 => vy (z_axis a) | 2, 2 => vz (z_axis a)
  | 0, 3 => vx (offset_of a) | 1, 3 => vy (offset_of a) | 2, 3 => vz (offset_of a)
  | 3, 3 => 1%Z
  | _, _ => 0%Z
  end.

(** A matrix of faer (components/payloads/cu_spatial_payloads/src/lib.rs:90-113). *)
Record fmat := Fmat { f_rows : nat; f_cols : nat; f_get : nat -> nat -> Z }.
(** components/payloads/cu_spatial_payloads/src/lib.rs:90-100: entry by entry into zeros. *)
Definition to_faer (p : pose) : fmat :=
  Fmat 4 4 (fold_right (fun rc f => fun r c => if (r =? fst rc) && (c =? snd rc) then p (fst rc) (snd rc) else f r c) (fun _ _ => 0%Z)
    (list_prod (seq 0 4) (seq 0 4))).
(** components/payloads/cu_spatial_payloads/src/lib.rs:102-113. *)
Definition of_faer (m : fmat) : outcome pose :=
  if (f_rows m =? 4) && (f_cols m =? 4) then Ret (f_get m) else Panic.

Section Nalgebra.
(** nalgebra turns the rotation matrix into a unit quaternion and back; [unit] is what this
    makes of the matrix (components/payloads/cu_spatial_payloads/src/lib.rs:129, 134). *)
Variable unit : (nat -> nat -> Z) -> nat -> nat -> Z.
(** Isometry3: rotation and translation (components/payloads/cu_spatial_payloads/src/lib.rs:134). *)
Record iso := Iso { i_rot : nat -> nat -> Z; i_tr : nat -> Z }.
(** components/payloads/cu_spatial_payloads/src/lib.rs:123-136, over the flat array of 16 entries in row order. *)
Definition to_iso (p : pose) : iso :=
  let flat i := p (i / 4) (i mod 4) in
  let matrix r c := flat (r * 4 + c) in
  Iso (unit (fun r c => matrix r c)) (fun r => matrix r 3).
(** components/payloads/cu_spatial_payloads/src/lib.rs:138-144 (to_homogeneous). *)
Definition of_iso (i : iso) : pose := fun r c =>
  if r <? 3 then (if c <? 3 then i_rot i r c else i_tr i r) else if c <? 3 then 0%Z else 1%Z.
(** A point moved by an isometry (the library used at components/payloads/cu_spatial_payloads/src/lib.rs:121). *)
Definition iso_move (i : iso) (p : v3) : v3 :=
  let row r := (i_rot i r 0 * vx p + i_rot i r 1 * vy p + i_rot i r 2 * vz p + i_tr i r)%Z in
  V3 (row 0) (row 1) (row 2).
End Nalgebra.

(** *** The inertial unit WT901 *)
Section Imu.
(** What the constructors of uom make of a number of standard gravities, of degrees per
    second, of nanoteslas and of degrees: the value in SI units
    (components/sources/cu_wt901/src/lib.rs:259, 266, 273, 279). *)
Variables of_g of_dps of_nt of_deg : f32 -> f32.

(** Registers::offset (components/sources/cu_wt901/src/lib.rs:27-54). *)
Definition reg_offset (reg : N) : nat := N.to_nat ((reg - 0x34) * 2)%N.
(** get_vec_i16 (components/sources/cu_wt901/src/lib.rs:251-253). *)
Definition get_i16 (buf : list N) (off : nat) : outcome Z :=
  match nth_error buf off, nth_error buf (S off) with
  | Some lo, Some hi => let u := (Z.of_N lo + 256 * Z.of_N hi)%Z in Ret (if (u <? 32768)%Z then u else (u - 65536)%Z)
  | _, _ => Panic
  end.
(** A whole number as f32 (components/sources/cu_wt901/src/lib.rs:258). *)
Definition f32_of_z (z : Z) : f32 := binary_normalize 24 128 z 0 false.
(** convert_acc, the number of standard gravities (components/sources/cu_wt901/src/lib.rs:256-260). *)
Definition acc_g (raw : Z) : f32 := fmul (fdiv (f32_of_z raw) (f32_of 32768)) (f32_of 16).
(** convert_ang_vel, degrees per second (components/sources/cu_wt901/src/lib.rs:263-267). *)
Definition gyro_dps (raw : Z) : f32 := fmul (fdiv (f32_of_z raw) (f32_of 32768)) (f32_of 2000).
(** convert_mag, nanoteslas (components/sources/cu_wt901/src/lib.rs:270-274); 8.333 as f32. *)
Definition mag_nt (raw : Z) : f32 := fmul (fdiv (f32_of_z raw) (f32_of 32768)) (of_bits 0x410553f8).
(** convert_angle, degrees (components/sources/cu_wt901/src/lib.rs:277-280). *)
Definition angle_deg (raw : Z) : f32 := fmul (fdiv (f32_of_z raw) (f32_of 32768)) (f32_of 180).

(** PositionalReadingsPayload (components/sources/cu_wt901/src/lib.rs:67-81): its twelve
    fields in order, in SI units. *)
Definition reading := list f32.
(** One field read from the buffer (components/sources/cu_wt901/src/lib.rs:195-206). *)
Definition field (buf : list N) (reg : N) (conv : Z -> f32) : outcome f32 :=
  let! raw := get_i16 buf (reg_offset reg) in Ret (conv raw).
(** bulk_position_read (components/sources/cu_wt901/src/lib.rs:186-209), on hardware; [bus]:
    the 24 bytes read, or the failure of the bus, at which it panics. *)
Definition bulk_read (bus : option (list N)) : outcome reading :=
  match bus with
  | None => Panic
  | Some buf =>
      let! ax := field buf 0x34 (fun z => of_g (acc_g z)) in
      let! ay := field buf 0x35 (fun z => of_g (acc_g z)) in
      let! az := field buf 0x36 (fun z => of_g (acc_g z)) in
      let! gx := field buf 0x37 (fun z => of_dps (gyro_dps z)) in
      let! gy := field buf 0x38 (fun z => of_dps (gyro_dps z)) in
      let! gz := field buf 0x39 (fun z => of_dps (gyro_dps z)) in
      let! mx := field buf 0x3A (fun z => of_nt (mag_nt z)) in
      let! my := field buf 0x3B (fun z => of_nt (mag_nt z)) in
      let! mz := field buf 0x3C (fun z => of_nt (mag_nt z)) in
      let! ro := field buf 0x3D (fun z => of_deg (angle_deg z)) in
      let! pi := field buf 0x3E (fun z => of_deg (angle_deg z)) in
      let! ya := field buf 0x3F (fun z => of_deg (angle_deg z)) in
      Ret [ax; ay; az; gx; gy; gz; mx; my; mz; ro; pi; ya]
  end.

(** Serialize for PositionalReadingsPayload (components/sources/cu_wt901/src/lib.rs:102-119): the values in SI units. *)
Definition ser_reading (r : reading) : list f32 := r.
(** Deserialize (components/sources/cu_wt901/src/lib.rs:121-139), from a format that stores
    fields by position. *)
Definition de_reading (l : list f32) : option reading :=
  match l with
  | [a; b; c; d; e; f; g; h; i; j; k; m] =>
      Some [of_g a; of_g b; of_g c; of_dps d; of_dps e; of_dps f; of_nt g; of_nt h; of_nt i; of_deg j; of_deg k; of_deg m]
  | _ => None
  end.
End Imu.

(** Encode (components/sources/cu_wt901/src/lib.rs:141-158), on the bits of the values in SI units. *)
Definition enc_reading (r : list N) : bytes := enc_all enc_f32 r.
(** Decode (components/sources/cu_wt901/src/lib.rs:160-178). The constructors of SI units leave the value as it is. *)
Definition dec_reading : decoder (list N) := dec_n dec_f32 12.

(** *** Images *)
(** CuImageBufferFormat (components/payloads/cu_sensor_payloads/src/image.rs:14-20). *)
Record image_format := Format { i_width : N; i_height : N; i_stride : N; i_pixel : list N }.
(** byte_size (components/payloads/cu_sensor_payloads/src/image.rs:23-25). The product of two u32 fits in usize. *)
Definition byte_size (f : image_format) : N := (i_stride f * i_height f)%N.
(** CuImage with the content of its buffer (components/payloads/cu_sensor_payloads/src/image.rs:28-36). *)
Record image := Image { i_seq : N; i_format : image_format; i_data : list N }.
(** CuImage::new (components/payloads/cu_sensor_payloads/src/image.rs:57-67). *)
Definition image_new (f : image_format) (data : list N) : outcome image :=
  if (byte_size f <=? N.of_nat (length data))%N then Ret (Image 0 f data) else Panic.

(** Encode of the format (components/payloads/cu_sensor_payloads/src/image.rs:14, derived). *)
Definition enc_format (f : image_format) : bytes :=
  enc_u32 (i_width f) ++ enc_u32 (i_height f) ++ enc_u32 (i_stride f) ++ enc_all enc_u8 (i_pixel f).
(** Decode of the format (components/payloads/cu_sensor_payloads/src/image.rs:14, derived). *)
Definition dec_format : decoder image_format :=
  let? w := dec_u32 in let? h := dec_u32 in let? s := dec_u32 in let? p := dec_n dec_u8 4 in dret (Format w h s p).
(** Encode of an image (components/payloads/cu_sensor_payloads/src/image.rs:28, derived; its
    handle encodes the vector it holds, core/cu29_runtime/src/pool.rs:162-171). *)
Definition enc_image (i : image) : bytes := enc_u64 (i_seq i) ++ enc_format (i_format i) ++ enc_vec enc_u8 (i_data i).
(** Decode of an image (components/payloads/cu_sensor_payloads/src/image.rs:38-50). *)
Definition dec_image : decoder image :=
  let? s := dec_u64 in let? f := dec_format in let? d := dec_vec dec_u8 in dret (Image s f d).

(** A view of memory: [v_count] items of [v_size] bytes each from the start of the buffer on,
    as the slices at components/payloads/cu_sensor_payloads/src/image.rs:84-87, 104-110. *)
Record view := View { v_width : N; v_height : N; v_channels : N; v_size : N; v_count : N }.
(** as_image_buffer (components/payloads/cu_sensor_payloads/src/image.rs:76-90), for pixels of
    [ch] channels of [size] bytes. ImageBuffer::from_raw of the image crate wants
    width * height * channels items at least. *)
Definition as_image_buffer (size ch : N) (i : image) : outcome (option view) :=
  let f := i_format i in
  if (i_width f =? i_stride f)%N then
    let count := N.of_nat (length (i_data i)) in
    Ret (if (i_width f * i_height f * ch <=? count)%N then Some (View (i_width f) (i_height f) ch size count) else None)
  else Panic.
(** as_kornia_image (components/payloads/cu_sensor_payloads/src/image.rs:93-114): kornia is
    given the pointer and the number of items, not the slice. *)
Definition as_kornia (size ch : N) (i : image) : outcome (option view) :=
  let f := i_format i in
  if (i_width f =? i_stride f)%N then
    Ret (Some (View (i_width f) (i_height f) ch size (i_width f * i_height f * ch)))
  else Panic.
(** The byte at which a view has byte [b] of channel [c] of the pixel in column [x] and row [y]: pixels
    of ImageBuffer and kornia follow each other row by row (components/payloads/cu_sensor_payloads/src/image.rs:88, 112). *)
Definition view_at (v : view) (x y c b : N) : N := (((y * v_width v + x) * v_channels v + c) * v_size v + b)%N.
