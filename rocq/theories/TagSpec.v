(** What the detector of tags is to do. *)
From Coq Require Import List Arith NArith ZArith Bool SpecFloat.
From Verif Require Import Base BincodeModel BincodeSpec FloatModel PayloadModel TagModel.
Import ListNotations.
Local Open Scope N_scope.

(** Detections the Rust type can hold: at most 16 in each column, four rows of four f32. *)
Definition mat4_wf (p : mat4) : Prop := length p = 4%nat /\ Forall (fun r => length r = 4%nat /\ Forall (ubits 32) r) p.
Definition tags_wf (t : detections) : Prop :=
  (length (t_ids t) <= 16)%nat /\ (length (t_poses t) <= 16)%nat /\ (length (t_margins t) <= 16)%nat /\
  Forall (ubits 64) (t_ids t) /\ Forall mat4_wf (t_poses t) /\ Forall (ubits 32) (t_margins t).
(** The columns have one height. *)
Definition aligned (t : detections) : Prop :=
  length (t_poses t) = length (t_ids t) /\ length (t_margins t) = length (t_ids t).

(** The tags of which the library gives a pose. *)
Definition estimated (ds : list detection) : list (N * estimate * N) :=
  flat_map (fun d => match d_est d with Some e => [(d_id d, e, d_margin d)] | None => [] end) ds.

(** The element of a pose in row [r], column [c]. *)
Definition entry (p : mat4) (r c : nat) : option N :=
  match nth_error p r with Some l => nth_error l c | None => None end.
(** The library's matrix R, row after row. *)
Definition rot (e : estimate) (r c : nat) : option N := nth_error (e_rot e) (3 * r + c).
Definition est_wf (e : estimate) : Prop := length (e_rot e) = 9%nat /\ length (e_trans e) = 3%nat.

(** A pose has the translation, the rotation of an estimate; is a homogeneous matrix
    (its last row is 0 0 0 1). *)
Definition has_translation (as32 : N -> N) (e : estimate) (p : mat4) : Prop :=
  forall r, (r < 3)%nat -> entry p r 3 = option_map as32 (nth_error (e_trans e) r).
Definition has_rotation (as32 : N -> N) (e : estimate) (p : mat4) : Prop :=
  forall r c, (r < 3)%nat -> (c < 3)%nat -> entry p r c = option_map as32 (rot e r c).
Definition homogeneous (p : mat4) : Prop := nth_error p 3 = Some [0; 0; 0; 0x3F800000].

(** A detector working on a view may look at any pixel (x, y) of it: at the byte
    y * stride + x from the start. *)
Definition touches (v : view) (i : Z) : Prop :=
  exists x y, (0 <= x < v_width v /\ 0 <= y < v_height v /\ i = y * v_stride v + x)%Z.
