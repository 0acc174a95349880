(** Properties C98 to C103: poses, inertial readings and images. *)
From Coq Require Import List Arith NArith ZArith QArith Qabs Bool Lia SpecFloat.
From Verif Require Import Base BincodeModel BincodeSpec FloatModel PayloadModel PayloadSpec PayloadProofs PayloadFloat.
Import ListNotations.
Local Open Scope nat_scope.

(** *** C98: a pose moves points alike in every library *)

(** A quarter turn about the z axis. *)
Definition quarter : pose := fun r c =>
  match r, c with 0, 1 => (-1)%Z | 1, 0 => 1%Z | 2, 2 => 1%Z | 3, 3 => 1%Z | 0, 3 => 5%Z | _, _ => 0%Z end.

(** glam gets the transposed rotation. *)
Theorem C98_refuted :
  exists p a, rotates p /\ last_row_ok p /\ glam_move (to_glam p) a <> moves p a.
Proof.
  exists quarter, (V3 1 0 0). split; [|split; [now repeat split|vm_compute; discriminate]].
  intros c d Hc Hd. destruct c as [|[|[|]]]; try lia; (destruct d as [|[|[|]]]; try lia; reflexivity).
Qed.
Print Assumptions C98_refuted.

(** It moves points alike exactly when the rotation is symmetric (both ways), and otherwise
    turns in the other direction. *)
Theorem C98_glam_partial :
  (forall p, (forall a, glam_move (to_glam p) a = moves p a) <-> symmetric p) /\
  (forall g, (forall a, moves (of_glam g) a = glam_move g a) <-> symmetric (of_glam g)) /\
  (forall p a, rotates p ->
     glam_move (to_glam p) (V3 (vx (moves p a) - p 0 3) (vy (moves p a) - p 1 3) (vz (moves p a) - p 2 3))
     = V3 (vx a + p 0 3) (vy a + p 1 3) (vz a + p 2 3)).
Proof. split; [apply glam_symmetric|split; [apply of_glam_symmetric|intros; now apply glam_inverse]]. Qed.
Print Assumptions C98_glam_partial.
(** The translation of a pose is where it moves the origin, in every library. *)
Theorem C98_translation_partial : forall p, let o := V3 0 0 0 in let at_ v := [vx v; vy v; vz v] in
  at_ (moves p o) = pose_translation p /\ at_ (glam_move (to_glam p) o) = pose_translation p /\
  forall unit, at_ (iso_move (to_iso unit p) o) = pose_translation p.
Proof.
  intros p. cbv zeta. unfold moves, pose_translation, glam_move, to_glam, iso_move, to_iso. cbn.
  split; [|split; [|intros unit]]; repeat f_equal; try lia. all: cbn; rewrite !Z.mul_0_r; reflexivity.
Qed.
Print Assumptions C98_translation_partial.
Example C98_translation_example : pose_translation quarter = [5; 0; 0]%Z.
Proof. reflexivity. Qed.
Example C98_glam_example : symmetric pose_default /\ rotates quarter.
Proof.
  split; [now repeat split|].
  intros c d Hc Hd. destruct c as [|[|[|]]]; try lia; (destruct d as [|[|[|]]]; try lia; reflexivity).
Qed.

(** nalgebra moves points as the pose does, provided its quaternions stand for rotations. *)
Theorem C98_nalgebra_partial :
  forall unit p a, (forall m i j, rotates m -> i < 3 -> j < 3 -> unit m i j = m i j) -> rotates p ->
    iso_move (to_iso unit p) a = moves p a.
Proof.
  intros unit p a U R. unfold iso_move, moves. rewrite !iso_tr. rewrite !(iso_rot unit p) by (auto; lia). reflexivity.
Qed.
Print Assumptions C98_nalgebra_partial.
Example C98_nalgebra_example :
  (forall m i j, rotates m -> i < 3 -> j < 3 -> (fun m : nat -> nat -> Z => m) m i j = m i j) /\
  iso_move (to_iso (fun m => m) quarter) (V3 2 3 4) = V3 2 2 4.
Proof. split; reflexivity. Qed.

(** *** C99: poses survive conversion and back *)

Theorem C99_refuted : exists p, p = pose_default /\ ~ same_pose (of_glam (to_glam p)) p.
Proof. exists pose_default. split; [reflexivity|]. intros H. specialize (H 3 3 ltac:(lia) ltac:(lia)). discriminate. Qed.
Print Assumptions C99_refuted.

Theorem C99_partial :
  (forall p, exists q, of_faer (to_faer p) = Ret q /\ same_pose q p) /\
  (forall p, same_pose (of_glam (to_glam p)) p <-> last_row_ok p) /\
  (forall g, to_glam (of_glam g) = g) /\
  (forall unit p, (forall m i j, rotates m -> i < 3 -> j < 3 -> unit m i j = m i j) -> rotates p -> last_row_ok p ->
     same_pose (of_iso (to_iso unit p)) p).
Proof.
  split; [apply faer_round|]. split; [apply glam_round|]. split.
  - now intros [[] [] [] []].
  - intros unit p U R (E0 & E1 & E2 & E3) r c Hr Hc. unfold of_iso.
    destruct (Nat.ltb_spec r 3) as [Lr|Lr]; destruct (Nat.ltb_spec c 3) as [Lc|Lc].
    + now apply iso_rot.
    + rewrite iso_tr. now replace c with 3 by lia.
    + replace r with 3 by lia. destruct c as [|[|[|]]]; try lia; congruence.
    + replace r with 3 by lia. replace c with 3 by lia. congruence.
Qed.
Print Assumptions C99_partial.
(** A matrix of faer becomes a pose exactly when it has four rows and four columns. *)
Theorem C99_shape_partial : forall m, (exists q, of_faer m = Ret q) <-> f_rows m = 4 /\ f_cols m = 4.
Proof.
  intros m. unfold of_faer. destruct (Nat.eqb_spec (f_rows m) 4), (Nat.eqb_spec (f_cols m) 4); cbn; split; intros H; eauto; try (destruct H; discriminate || lia).
Qed.
Print Assumptions C99_shape_partial.
Example C99_shape_example : of_faer (Fmat 4 3 (fun _ _ => 1%Z)) = Panic.
Proof. reflexivity. Qed.
Example C99_example : last_row_ok quarter /\ rotates quarter.
Proof. split; [now repeat split|apply C98_glam_example]. Qed.

(** *** C100: inertial readings are those of the registers *)

(** Whatever the unit sends, accelerations, angular velocities and angles are the signed
    numbers of their own registers, scaled without any rounding. *)
Theorem C100_partial :
  forall of_g of_dps of_nt of_deg buf, length buf = 24 -> Forall (fun b => (b < 256)%N) buf ->
    exists r, bulk_read of_g of_dps of_nt of_deg (Some buf) = Ret r /\ length r = 12 /\
      forall k, k < 3 ->
        (exists v, nth_error r k = Some (of_g v) /\ stands_for v (inject_Z (register buf k) * (16 # 32768))) /\
        (exists v, nth_error r (3 + k) = Some (of_dps v) /\ stands_for v (inject_Z (register buf (3 + k)) * (2000 # 32768))) /\
        (exists v, nth_error r (9 + k) = Some (of_deg v) /\ stands_for v (inject_Z (register buf (9 + k)) * (180 # 32768))).
Proof.
  intros of_g of_dps of_nt of_deg buf L B.
  assert (G : forall k, k < 12 -> get_i16 buf (2 * k) = Ret (register buf k)) by (intros k Hk; now apply get_i16_ok).
  assert (I : forall k, k < 12 -> (-32768 <= register buf k < 32768)%Z) by (intros k Hk; now apply get_i16_ok).
  assert (F : forall k reg conv, k < 12 -> reg_offset reg = 2 * k -> field buf reg conv = Ret (conv (register buf k))).
  { intros k reg conv Hk E. unfold field. now rewrite E, G. }
  eexists. split.
  { unfold bulk_read.
    rewrite (F 0) by (reflexivity || lia). cbn [obind]. rewrite (F 1) by (reflexivity || lia). cbn [obind].
    rewrite (F 2) by (reflexivity || lia). cbn [obind]. rewrite (F 3) by (reflexivity || lia). cbn [obind].
    rewrite (F 4) by (reflexivity || lia). cbn [obind]. rewrite (F 5) by (reflexivity || lia). cbn [obind].
    rewrite (F 6) by (reflexivity || lia). cbn [obind]. rewrite (F 7) by (reflexivity || lia). cbn [obind].
    rewrite (F 8) by (reflexivity || lia). cbn [obind]. rewrite (F 9) by (reflexivity || lia). cbn [obind].
    rewrite (F 10) by (reflexivity || lia). cbn [obind]. rewrite (F 11) by (reflexivity || lia). cbn [obind]. reflexivity. }
  split; [reflexivity|].
  assert (A : forall k, k < 12 -> stands_for (acc_g (register buf k)) (inject_Z (register buf k) * (16 # 32768))).
  { intros k Hk. apply acc_exact. auto. }
  assert (Y : forall k, k < 12 -> stands_for (gyro_dps (register buf k)) (inject_Z (register buf k) * (2000 # 32768))).
  { intros k Hk. apply gyro_exact. auto. }
  assert (D : forall k, k < 12 -> stands_for (angle_deg (register buf k)) (inject_Z (register buf k) * (180 # 32768))).
  { intros k Hk. apply angle_exact. auto. }
  intros k Hk.
  assert (C : k = 0 \/ k = 1 \/ k = 2) by lia.
  destruct C as [-> |[-> | ->]];
    (split; [eexists; split; [reflexivity|apply A; lia]|split; [eexists; split; [reflexivity|apply Y; lia]|eexists; split; [reflexivity|apply D; lia]]]).
Qed.
Print Assumptions C100_partial.
Example C100_example :
  exists buf, length buf = 24 /\ Forall (fun b => (b < 256)%N) buf /\ register buf 0 = (-2)%Z /\ register buf 5 = 300%Z.
Proof.
  exists [254; 255; 0; 0; 0; 0; 0; 0; 0; 0; 44; 1; 0; 0; 0; 0; 0; 0; 0; 0; 0; 0; 0; 0]%N.
  split; [reflexivity|]. split; [repeat constructor|]. split; reflexivity.
Qed.

(** The magnetometer has 8.333 nT per unit, but the value handed to the unit constructor is
    never above 8.334 nT: the field of the earth is never seen. And a failing bus panics. *)
Theorem C100_refuted :
  (forall raw, (-32768 <= raw < 32768)%Z -> exists q, stands_for (mag_nt raw) q /\ (Qabs q <= 8334 # 1000)%Q) /\
  (forall of_g of_dps of_nt of_deg, exists buf, register buf 6 = 6000%Z /\
     (exists r, bulk_read of_g of_dps of_nt of_deg (Some buf) = Ret r /\ nth_error r 6 = Some (of_nt (mag_nt 6000)))) /\
  (forall of_g of_dps of_nt of_deg, bulk_read of_g of_dps of_nt of_deg None = Panic).
Proof.
  split; [|split].
  - exact mag_small.
  - intros. exists [0; 0; 0; 0; 0; 0; 0; 0; 0; 0; 0; 0; 112; 23; 0; 0; 0; 0; 0; 0; 0; 0; 0; 0]%N.
    split; [reflexivity|]. eexists. split; reflexivity.
  - reflexivity.
Qed.
Print Assumptions C100_refuted.

(** *** C101: inertial readings survive serialization *)

(** Through bincode (the log) they do. *)
Theorem C101_partial : lossless (fun r => length r = 12 /\ Forall (ubits 32) r) enc_reading dec_reading.
Proof. exact reading_lossless. Qed.
Print Assumptions C101_partial.
Example C101_example : (fun r => length r = 12 /\ Forall (ubits 32) r) (repeat 0x411ce80a%N 12).
Proof. split; [reflexivity|]. repeat constructor. Qed.

(** Through serde they do not: written in SI units, they are read in g, degrees and nanoteslas. *)
Theorem C101_refuted :
  forall of_g of_dps of_nt of_deg, of_g (f32_of 1) <> f32_of 1 \/ of_deg (f32_of 1) <> f32_of 1 ->
    exists r, length r = 12 /\ exists r', de_reading of_g of_dps of_nt of_deg (ser_reading r) = Some r' /\ r' <> r.
Proof.
  intros of_g of_dps of_nt of_deg H. exists (repeat (f32_of 1) 12). split; [reflexivity|].
  eexists. split; [reflexivity|]. intros E. injection E as E0 _ _ _ _ _ _ _ _ E9 _ _. destruct H; contradiction.
Qed.
Print Assumptions C101_refuted.
(** What serde keeps: each value is read back in its own place, its unit converted once more. So the readings are
    unchanged exactly when the conversions do not change them. *)
Theorem C101_serde_partial : forall of_g of_dps of_nt of_deg r, length r = 12 ->
  exists r', de_reading of_g of_dps of_nt of_deg (ser_reading r) = Some r' /\ length r' = 12 /\
    forall i x, nth_error r i = Some x ->
      nth_error r' i = Some ((if i <? 3 then of_g else if i <? 6 then of_dps else if i <? 9 then of_nt else of_deg) x).
Proof.
  intros of_g of_dps of_nt of_deg r H. do 12 (destruct r as [|? r]; [discriminate H|]). destruct r; [|discriminate H].
  eexists. split; [reflexivity|]. split; [reflexivity|]. intros i x Hx. do 12 (destruct i as [|i]; [injection Hx as <-; reflexivity|]). destruct i; discriminate Hx.
Qed.
Print Assumptions C101_serde_partial.
Example C101_serde_example : length (map f32_of [1; 2; 3; 4; 5; 6; 7; 8; 9; 10; 11; 12]%N) = 12.
Proof. reflexivity. Qed.
(** One standard gravity is 9.80665 m/s², bits 0x411ce80a. *)
Example C101_refuted_example : fmul (of_bits 0x411ce80a) (f32_of 1) <> f32_of 1.
Proof. vm_compute. discriminate. Qed.

(** *** C102: a view of an image shows the image *)

(** Pixels of 16 bits: the view handed to safe code goes beyond the buffer. Pixels of several
    channels: with rows that have room for them the conversion panics; kornia is given a view
    beyond the buffer. *)
Theorem C102_refuted :
  (exists f data i v, image_new f data = Ret i /\ as_image_buffer 2 1 i = Ret (Some v) /\ ~ within v i) /\
  (exists f data i, image_new f data = Ret i /\ rows_fit i 3 1 /\ as_image_buffer 1 3 i = Panic /\ as_kornia 1 3 i = Panic) /\
  (exists f data i v, image_new f data = Ret i /\ as_kornia 1 3 i = Ret (Some v) /\ ~ within v i).
Proof.
  split; [|split].
  - exists (Format 4 2 4 [0; 0; 0; 0]%N), (repeat 7%N 8). eexists. eexists. split; [reflexivity|]. split; [reflexivity|].
    unfold within. vm_compute. congruence.
  - exists (Format 2 2 6 [0; 0; 0; 0]%N), (repeat 7%N 12). eexists. split; [reflexivity|]. split; [vm_compute; discriminate|].
    split; reflexivity.
  - exists (Format 4 2 4 [0; 0; 0; 0]%N), (repeat 7%N 8). eexists. eexists. split; [reflexivity|]. split; [reflexivity|].
    unfold within. vm_compute. congruence.
Qed.
Print Assumptions C102_refuted.

(** Images of one byte per pixel whose rows follow each other are shown as they are, all of them, and
    views of bytes by the image crate stay in the buffer whatever their channels. *)
Theorem C102_partial :
  (forall f data i, image_new f data = Ret i -> i_stride f = i_width f ->
     exists v k, as_image_buffer 1 1 i = Ret (Some v) /\ as_kornia 1 1 i = Ret (Some k) /\ within v i /\ within k i /\
       v_width v = i_width f /\ v_height v = i_height f /\ v_width k = i_width f /\ v_height k = i_height f /\
       forall x y c b, in_view v x y c b ->
         view_at v x y c b = image_at i 1 1 x y c b /\ view_at k x y c b = image_at i 1 1 x y c b /\
         (image_at i 1 1 x y c b < v_count v)%N /\ (image_at i 1 1 x y c b < v_count k)%N) /\
  (forall i ch v, as_image_buffer 1 ch i = Ret (Some v) -> within v i /\
     forall x y c b, in_view v x y c b -> (view_at v x y c b < N.of_nat (length (i_data i)))%N).
Proof.
  split.
  - intros f data i H S. unfold image_new in H. destruct (N.leb_spec (byte_size f) (N.of_nat (length data))) as [L|]; [|discriminate].
    injection H as <-. unfold byte_size in L. rewrite S in L.
    eexists. eexists. split.
    { unfold as_image_buffer. cbn [i_format i_data]. rewrite S, N.eqb_refl.
      replace (i_width f * i_height f * 1 <=? N.of_nat (length data))%N with true; [reflexivity|].
      symmetry. apply N.leb_le. lia. }
    split. { unfold as_kornia. cbn [i_format i_data]. rewrite S, N.eqb_refl. reflexivity. }
    unfold within, in_view, view_at, image_at. cbn.
    do 6 (split; [lia || reflexivity|]).
    intros x y c b (Hx & Hy & Hc & Hb). rewrite S.
    assert (y * i_width f + x < i_width f * i_height f)%N.
    { assert (y + 1 <= i_height f)%N by lia. assert ((y + 1) * i_width f <= i_height f * i_width f)%N by (apply N.mul_le_mono_r; assumption). lia. }
    repeat split; lia.
  - intros i ch v. unfold as_image_buffer. destruct (i_width (i_format i) =? i_stride (i_format i))%N; [|discriminate].
    destruct (N.leb_spec (i_width (i_format i) * i_height (i_format i) * ch) (N.of_nat (length (i_data i)))) as [L|]; [|discriminate].
    intros [= <-]. unfold within, in_view, view_at. cbn. split; [lia|]. intros x y c b (Hx & Hy & Hc & Hb).
    assert ((y * i_width (i_format i) + x) + 1 <= i_width (i_format i) * i_height (i_format i))%N.
    { assert (y + 1 <= i_height (i_format i))%N by lia.
      assert ((y + 1) * i_width (i_format i) <= i_height (i_format i) * i_width (i_format i))%N by (apply N.mul_le_mono_r; assumption). lia. }
    assert (((y * i_width (i_format i) + x) + 1) * ch <= i_width (i_format i) * i_height (i_format i) * ch)%N
      by (apply N.mul_le_mono_r; assumption).
    lia.
Qed.
Print Assumptions C102_partial.
Example C102_example :
  exists i, image_new (Format 4 2 4 [0; 0; 0; 0]%N) (repeat 7%N 9) = Ret i /\
    exists v, as_image_buffer 1 1 i = Ret (Some v) /\ in_view v 3 1 0 0 /\ view_at v 3 1 0 0 = 7%N.
Proof. eexists. split; [reflexivity|]. eexists. split; [reflexivity|]. repeat split. Qed.

(** *** C103: images survive the log *)

Theorem C103_image_round_trip : lossless wf_image enc_image dec_image.
Proof. exact image_lossless. Qed.
Print Assumptions C103_image_round_trip.
(** An image made by the camera is read back with a buffer as large as its format says. *)
Theorem C103_image_size :
  forall f data i rest, image_new f data = Ret i -> wf_image i ->
    exists j, dec_image (enc_image i ++ rest) = Some (j, rest) /\ i_format j = f /\ i_data j = data /\
              (byte_size (i_format j) <= N.of_nat (length (i_data j)))%N.
Proof.
  intros f data i rest H W. exists i. split; [now apply image_lossless|].
  unfold image_new in H. destruct (N.leb_spec (byte_size f) (N.of_nat (length data))) as [L|]; [|discriminate].
  injection H as <-. auto.
Qed.
Print Assumptions C103_image_size.
Example C103_example : exists i, image_new (Format 2 2 3 [82; 71; 66; 51]%N) [1; 2; 3; 4; 5; 6]%N = Ret i /\ wf_image i.
Proof. eexists. split; [reflexivity|]. repeat split; repeat constructor. Qed.
