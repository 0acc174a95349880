(** The detector of AprilTags: its payload, the task and the view of the image it works on. *)
From Coq Require Import List Arith NArith ZArith Bool.
From Verif Require Import Base BincodeModel FloatModel PayloadModel.
Import ListNotations.
Local Open Scope N_scope.

(** MAX_DETECTIONS (components/tasks/cu_apriltag/src/lib.rs:22). *)
Definition max_detections : nat := 16.

(** ArrayVec::push, as called at components/tasks/cu_apriltag/src/lib.rs:73, 98, 161-165,
    332-336: it panics when the capacity [n] is reached. *)
Definition push {A} (n : nat) (l : list A) (a : A) : outcome (list A) :=
  if (length l <? n)%nat then Ret (l ++ [a]) else Panic.

(** Encode of a CuArrayVec (components/tasks/cu_apriltag/src/lib.rs:48-56): as a slice. *)
Definition enc_arrayvec {A} (e : A -> bytes) (l : list A) : bytes := enc_vec e l.

(** The loop of components/tasks/cu_apriltag/src/lib.rs:72-74; a panic cannot happen
    there (the length was checked), it is given as [None]. *)
Fixpoint push_all {A} (n : nat) (acc items : list A) : option (list A) :=
  match items with
  | [] => Some acc
  | x :: items => match push n acc x with Ret acc => push_all n acc items | Panic => None end
  end.

(** Decode of a CuArrayVec of capacity [n] (components/tasks/cu_apriltag/src/lib.rs:58-77;
    the same at 79-102 for borrowed data). *)
Definition dec_arrayvec {A} (n : nat) (d : decoder A) : decoder (list A) :=
  let? inner := dec_vec d in
  if (n <? length inner)%nat then dfail
  else match push_all n [] inner with Some l => dret l | None => dfail end.

(** A CuPose<f32> (components/payloads/cu_spatial_payloads/src/lib.rs:12-15): four rows of
    four f32, by their bits. *)
Definition mat4 := list (list N).
(** Encode of a pose (components/payloads/cu_spatial_payloads/src/lib.rs:12, derived): arrays have no length. *)
Definition enc_mat4 (p : mat4) : bytes := enc_all (enc_all enc_f32) p.
(** Decode of a pose (components/payloads/cu_spatial_payloads/src/lib.rs:12, derived). *)
Definition dec_mat4 : decoder mat4 := dec_n (dec_n dec_f32 4) 4.
(** Default of a pose (components/payloads/cu_spatial_payloads/src/lib.rs:77-83): zeros. *)
Definition mat4_default : mat4 := repeat (repeat 0 4) 4.

(** AprilTagDetections (components/tasks/cu_apriltag/src/lib.rs:104-109); margins are f32 bits. *)
Record detections := Detections { t_ids : list N; t_poses : list mat4; t_margins : list N }.
(** AprilTagDetections::new (components/tasks/cu_apriltag/src/lib.rs:176-178). *)
Definition no_detections : detections := Detections [] [] [].

(** Encode of the detections (components/tasks/cu_apriltag/src/lib.rs:104, derived); a usize
    is written as a u64. *)
Definition enc_detections (t : detections) : bytes :=
  enc_arrayvec enc_u64 (t_ids t) ++ enc_arrayvec enc_mat4 (t_poses t) ++ enc_arrayvec enc_f32 (t_margins t).
(** Decode of the detections (components/tasks/cu_apriltag/src/lib.rs:111-122). *)
Definition dec_detections : decoder detections :=
  let? ids := dec_arrayvec max_detections dec_u64 in
  let? poses := dec_arrayvec max_detections dec_mat4 in
  let? margins := dec_arrayvec max_detections dec_f32 in
  dret (Detections ids poses margins).

(** The two zips of components/tasks/cu_apriltag/src/lib.rs:133-136 and 188-190. *)
Definition rows (t : detections) : list (N * mat4 * N) :=
  combine (combine (t_ids t) (t_poses t)) (t_margins t).

(** Serialize (components/tasks/cu_apriltag/src/lib.rs:126-144): the length announced and
    the elements written. *)
Definition serialize_tags (t : detections) : nat * list (N * mat4 * N) := (length (t_ids t), rows t).
(** The visitor of Deserialize (components/tasks/cu_apriltag/src/lib.rs:154-169), on the
    elements the format gives it. *)
Fixpoint visit_tags (t : detections) (l : list (N * mat4 * N)) : outcome detections :=
  match l with
  | [] => Ret t
  | (id, p, m) :: l =>
      let! ids := push max_detections (t_ids t) id in
      let! poses := push max_detections (t_poses t) p in
      let! margins := push max_detections (t_margins t) m in
      visit_tags (Detections ids poses margins) l
  end.

(** filtered_by_decision_margin (components/tasks/cu_apriltag/src/lib.rs:179-194). *)
Definition filtered (thr : N) (t : detections) : list (N * mat4 * N) :=
  filter (fun r => flt (of_bits thr) (of_bits (snd r))) (rows t).

(** What the apriltag library reports for a tag (used at
    components/tasks/cu_apriltag/src/lib.rs:312-336): its number, its decision margin and,
    when estimate_tag_pose succeeds, the data of the matrix R (3 by 3) and of the vector t
    (3 by 1) of the estimate, f64 by their bits. The library (matd) stores a matrix row after row. *)
Record estimate := Estimate { e_rot : list N; e_trans : list N }.
Record detection := Detection { d_id : N; d_margin : N; d_est : option estimate }.

(** Indexing of the data of a matrix (components/tasks/cu_apriltag/src/lib.rs:317-328);
    R has 9 elements and t has 3, so no index is out of bounds. *)
Definition at_ (l : list N) (i : nat) : N := nth i l 0.

(** The pose built at components/tasks/cu_apriltag/src/lib.rs:314-328, where [as32] is the
    [as f32] of an f64. *)
Definition pose_of (as32 : N -> N) (e : estimate) : mat4 :=
  let t i := as32 (at_ (e_trans e) i) in
  let r i := as32 (at_ (e_rot e) i) in
  upd 0 [r 0%nat; r 3%nat; r 6%nat; t 0%nat]
    (upd 1 [r 1%nat; r 4%nat; r 7%nat; t 1%nat]
       (upd 2 [r 2%nat; r 5%nat; r 8%nat; t 2%nat] mat4_default)).

(** The loop of components/tasks/cu_apriltag/src/lib.rs:311-338. *)
Fixpoint report (as32 : N -> N) (ds : list detection) (t : detections) : outcome detections :=
  match ds with
  | [] => Ret t
  | d :: ds =>
      match d_est d with
      | None => report as32 ds t
      | Some e =>
          let! poses := push max_detections (t_poses t) (pose_of as32 e) in
          let! margins := push max_detections (t_margins t) (d_margin d) in
          let! ids := push max_detections (t_ids t) (d_id d) in
          report as32 ds (Detections ids poses margins)
      end
  end.

(** process (components/tasks/cu_apriltag/src/lib.rs:300-343), for what the library detects
    in the image of the input, [None] when the input has no payload; [tov] is the time of
    validity of the input. The result is the payload and time of validity of the output. *)
Definition tags_process (as32 : N -> N) (input : option (list detection)) {T} (tov : T) : outcome (detections * T) :=
  let! t := match input with
            | None => Ret no_detections
            | Some ds => report as32 ds no_detections
            end in
  Ret (t, tov).

(** A u32 as i32 (components/tasks/cu_apriltag/src/lib.rs:214-216). *)
Definition u32_as_i32 (n : N) : Z := if n <? 2 ^ 31 then Z.of_N n else (Z.of_N n - 2 ^ 32)%Z.
(** The image_u8_t made by image_from_cuimage (components/tasks/cu_apriltag/src/lib.rs:204-221):
    the address of the buffer is not part of the model, positions count from its start. *)
Record view := View { v_width : Z; v_height : Z; v_stride : Z }.
(** image_from_cuimage (components/tasks/cu_apriltag/src/lib.rs:204-221). *)
Definition image_from (f : image_format) : view :=
  View (u32_as_i32 (i_width f)) (u32_as_i32 (i_height f)) (u32_as_i32 (i_stride f)).
