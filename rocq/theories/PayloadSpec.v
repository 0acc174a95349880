(** What poses, readings and images mean. *)
From Coq Require Import List Arith NArith ZArith QArith SpecFloat.
From Verif Require Import Base FloatModel PayloadModel.
Import ListNotations.

(** A pose is a homogeneous matrix: it moves a point by its rows, the translation being in
    the last column. *)
Definition moves (p : pose) (a : v3) : v3 :=
  let row r := (p r 0%nat * vx a + p r 1%nat * vy a + p r 2%nat * vz a + p r 3%nat)%Z in
  V3 (row 0%nat) (row 1%nat) (row 2%nat).
Definition last_row_ok (p : pose) : Prop :=
  (p 3%nat 0%nat = 0 /\ p 3%nat 1%nat = 0 /\ p 3%nat 2%nat = 0 /\ p 3%nat 3%nat = 1)%Z.
Definition same_pose (p q : pose) : Prop := forall r c, (r < 4)%nat -> (c < 4)%nat -> p r c = q r c.
(** The rotation part is its own transpose. *)
Definition symmetric (p : pose) : Prop := p 0%nat 1%nat = p 1%nat 0%nat /\ p 0%nat 2%nat = p 2%nat 0%nat /\ p 1%nat 2%nat = p 2%nat 1%nat.
(** The columns of the rotation part are orthonormal. *)
Definition rotates (p : pose) : Prop := forall c d, (c < 3)%nat -> (d < 3)%nat ->
  (p 0%nat c * p 0%nat d + p 1%nat c * p 1%nat d + p 2%nat c * p 2%nat d = if (c =? d)%nat then 1 else 0)%Z.

(** The number a float stands for: [m * 2 ^ e]. *)
Definition stands_for (x : f32) (q : Q) : Prop :=
  match x with
  | S754_zero _ => q == 0
  | S754_finite s m e => q * inject_Z (2 ^ Z.max 0 (- e)) == inject_Z ((if s then Zneg m else Zpos m) * 2 ^ Z.max 0 e)
  | _ => False
  end.
(** The signed 16 bit number in register [k] (counted from 0), low byte first. *)
Definition register (buf : list N) (k : nat) : Z :=
  let u := (Z.of_N (nth (2 * k) buf 0%N) + 256 * Z.of_N (nth (2 * k + 1) buf 0%N))%Z in
  if (32768 <=? u)%Z then (u - 65536)%Z else u.

(** Where an image has byte [b] of channel [c] of the pixel in column [x] and row [y]: rows
    are [stride] bytes apart. *)
Definition image_at (i : image) (ch size : N) (x y c b : N) : N :=
  (y * i_stride (i_format i) + (x * ch + c) * size + b)%N.
(** The format has room for rows of [ch] channels of [size] bytes. *)
Definition rows_fit (i : image) (ch size : N) : Prop := (i_width (i_format i) * ch * size <= i_stride (i_format i))%N.
Definition in_view (v : view) (x y c b : N) : Prop := (x < v_width v /\ y < v_height v /\ c < v_channels v /\ b < v_size v)%N.
(** The bytes a view may touch are in the buffer. *)
Definition within (v : view) (i : image) : Prop := (v_count v * v_size v <= N.of_nat (length (i_data i)))%N.
Definition wf_format (f : image_format) : Prop :=
  (i_width f < 2 ^ 32 /\ i_height f < 2 ^ 32 /\ i_stride f < 2 ^ 32)%N /\ length (i_pixel f) = 4%nat /\ Forall (fun b => (b < 256)%N) (i_pixel f).
Definition wf_image (i : image) : Prop :=
  (i_seq i < 2 ^ 64)%N /\ wf_format (i_format i) /\ (N.of_nat (length (i_data i)) < 2 ^ 64)%N /\ Forall (fun b => (b < 256)%N) (i_data i).
