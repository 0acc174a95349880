(** Properties C113 to C116: the detector of AprilTags. *)
From Coq Require Import List Arith NArith ZArith Bool Lia SpecFloat.
From Verif Require Import Base BincodeModel BincodeSpec FloatModel PayloadModel TagModel TagSpec TagProofs.
Import ListNotations.
Local Open Scope N_scope.

(** C113: detections survive the log, whatever follows them. *)
Theorem C113_log : lossless tags_wf enc_detections dec_detections.
Proof. exact detections_lossless. Qed.
Print Assumptions C113_log.
(** C113: whatever the log contains, no more than 16 tags are read. *)
Theorem C113_bounded : forall b t r, dec_detections b = Some (t, r) ->
  (length (t_ids t) <= 16)%nat /\ (length (t_poses t) <= 16)%nat /\ (length (t_margins t) <= 16)%nat.
Proof. exact dec_detections_bound. Qed.
Print Assumptions C113_bounded.
(** C113: detections of one height survive serialization as a sequence, whose announced
    length is right. *)
Theorem C113_sequence : forall t, aligned t -> (length (t_ids t) <= 16)%nat ->
  fst (serialize_tags t) = length (snd (serialize_tags t)) /\
  visit_tags no_detections (snd (serialize_tags t)) = Ret t.
Proof. exact serde_round. Qed.
Print Assumptions C113_sequence.

Definition ex_pose : mat4 := [[1; 2; 3; 4]; [5; 6; 7; 8]; [9; 10; 11; 12]; [0; 0; 0; 0]].
Definition ex_tags : detections := Detections [4; 300] [ex_pose; mat4_default] [0x43160000; 0x3F800000].
Example C113_ex : tags_wf ex_tags /\ aligned ex_tags /\
  dec_detections (enc_detections ex_tags ++ [7]) = Some (ex_tags, [7]) /\
  dec_detections (enc_detections (Detections (repeat 1 17) [] [])) = None.
Proof.
  split; [|split; [split; reflexivity|split; reflexivity]].
  unfold tags_wf, mat4_wf, ubits. cbn. repeat (split; [repeat constructor; cbn; try lia|]); repeat constructor; cbn; lia.
Qed.

(** C114: up to 16 tags with a pose are reported, each with its number, pose and margin,
    in the order of the library; the time of validity is that of the image. *)
Theorem C114_partial : forall as32 ds T (tov : T), (length (estimated ds) <= 16)%nat ->
  exists t, tags_process as32 (Some ds) tov = Ret (t, tov) /\ aligned t /\
    rows t = map (fun x => (fst (fst x), pose_of as32 (snd (fst x)), snd x)) (estimated ds).
Proof. exact process_ok. Qed.
Print Assumptions C114_partial.
(** C114: of these, a user asking for a margin gets those above it, in order. *)
Theorem C114_filter_partial : forall as32 ds T (tov : T) thr, (length (estimated ds) <= 16)%nat ->
  exists t, tags_process as32 (Some ds) tov = Ret (t, tov) /\
    filtered thr t = map (fun x => (fst (fst x), pose_of as32 (snd (fst x)), snd x))
      (filter (fun x => SFltb (of_bits thr) (of_bits (snd x))) (estimated ds)).
Proof.
  intros as32 ds T tov thr L. destruct (process_ok as32 ds T tov L) as (t & P & _ & R).
  exists t. split; [exact P|]. unfold filtered. rewrite R. clear.
  induction (estimated ds) as [|x l IH]; cbn [map filter]; [reflexivity|]. cbn [snd].
  change (flt (of_bits thr) (of_bits (snd x))) with (SFltb (of_bits thr) (of_bits (snd x))).
  destruct (SFltb _ _); cbn [map]; rewrite IH; reflexivity.
Qed.
Print Assumptions C114_filter_partial.
(** C114: without an image there are no tags. *)
Theorem C114_nothing_partial : forall as32 T (tov : T), tags_process as32 None tov = Ret (Detections [] [] [], tov).
Proof. reflexivity. Qed.
Print Assumptions C114_nothing_partial.

Definition ex_est : estimate := Estimate [1; 2; 3; 4; 5; 6; 7; 8; 9] [10; 11; 12].
Definition ex_ds : list detection :=
  [Detection 4 0x43160000 (Some ex_est); Detection 5 0x40000000 None; Detection 6 0x3F800000 (Some ex_est)].
Example C114_ex : (length (estimated ex_ds) <= 16)%nat /\
  exists t, tags_process (fun n => n) (Some ex_ds) 77 = Ret (t, 77) /\ t_ids t = [4; 6] /\
    map (fun r => fst (fst r)) (filtered 0x42C80000 t) = [4].
Proof. split; [cbn; lia|]. eexists. split; [reflexivity|]. split; reflexivity. Qed.

(** C114 is false in general: with 17 tags or more the task panics. *)
Theorem C114_refuted : forall as32 ds T (tov : T), (16 < length (estimated ds))%nat ->
  tags_process as32 (Some ds) tov = Panic.
Proof.
  intros as32 ds T tov L. unfold tags_process. rewrite report_too_many; [reflexivity|split; reflexivity|cbn; lia|cbn; lia].
Qed.
Print Assumptions C114_refuted.
Example C114_refuted_ex : (16 < length (estimated (repeat (Detection 1 0x43160000 (Some ex_est)) 17)))%nat.
Proof. cbn. lia. Qed.

(** C115: the translation of a reported pose is the library's, and its rotation is the
    library's exactly when that is symmetric. *)
Theorem C115_partial : forall as32 e, est_wf e ->
  has_translation as32 e (pose_of as32 e) /\
  (has_rotation as32 e (pose_of as32 e) <->
   forall r c, (r < 3)%nat -> (c < 3)%nat -> option_map as32 (rot e r c) = option_map as32 (rot e c r)).
Proof. intros as32 e W. split; [apply pose_translation_ok, W|apply pose_rotation_iff, W]. Qed.
Print Assumptions C115_partial.

(** A quarter turn about the z axis, in f64: 0 -1 0 / 1 0 0 / 0 0 1. *)
Definition quarter_turn : estimate :=
  Estimate [0; 0xBFF0000000000000; 0; 0x3FF0000000000000; 0; 0; 0; 0; 0x3FF0000000000000] [0; 0; 0x4000000000000000].
Example C115_ex : est_wf quarter_turn /\ est_wf (Estimate [7; 0; 0; 0; 7; 0; 0; 0; 8] [1; 2; 3]) /\
  has_rotation (fun n => n) (Estimate [7; 0; 0; 0; 7; 0; 0; 0; 8] [1; 2; 3])
    (pose_of (fun n => n) (Estimate [7; 0; 0; 0; 7; 0; 0; 0; 8] [1; 2; 3])).
Proof.
  split; [split; reflexivity|]. split; [split; reflexivity|].
  apply C115_partial; [split; reflexivity|].
  intros r c Hr Hc. destruct r as [|[|[|r]]]; try lia; destruct c as [|[|[|c]]]; try lia; reflexivity.
Qed.

(** C115 is false in general: of a quarter turn the pose has the opposite turn (for any
    conversion that keeps 1 and -1 apart). *)
Theorem C115_refuted : exists e, est_wf e /\ forall as32, as32 0x3FF0000000000000 <> as32 0xBFF0000000000000 ->
  ~ has_rotation as32 e (pose_of as32 e).
Proof.
  exists quarter_turn. split; [split; reflexivity|]. intros as32 D H.
  destruct (pose_rotation_iff as32 quarter_turn (conj eq_refl eq_refl)) as [X _]. specialize (X H). clear H. rename X into H.
  specialize (H 0%nat 1%nat ltac:(lia) ltac:(lia)). cbn in H. injection H as H. apply D. symmetry. exact H.
Qed.
Print Assumptions C115_refuted.
(** C115: and no reported pose is a homogeneous matrix: its last row is zero. *)
Theorem C115_row_refuted : forall as32 e, ~ homogeneous (pose_of as32 e).
Proof. intros as32 e H. unfold homogeneous in H. rewrite pose_last_row in H. discriminate H. Qed.
Print Assumptions C115_row_refuted.

(** C116: if the rows of an image made by CuImage::new do not overlap, the detector looks
    only at its buffer (sizes below 2^31). *)
Theorem C116_partial : forall f data im i, image_new f data = Ret im ->
  i_width f <= i_stride f -> i_stride f < 2 ^ 31 -> i_height f < 2 ^ 31 ->
  touches (image_from (i_format im)) i -> (0 <= i < Z.of_nat (length (i_data im)))%Z.
Proof.
  intros f data im i E W S H T. unfold image_new in E. destruct (N.leb_spec (byte_size f) (N.of_nat (length data))); [|discriminate E].
  injection E as <-. cbn [i_format i_data] in *. pose proof (view_inside f i W S H T). lia.
Qed.
Print Assumptions C116_partial.
Definition ex_format : image_format := Format 3 2 4 [71; 82; 69; 89].
Example C116_ex : exists im, image_new ex_format [1; 2; 3; 4; 5; 6; 7; 8] = Ret im /\
  i_width ex_format <= i_stride ex_format /\ touches (image_from (i_format im)) 6.
Proof. eexists. split; [reflexivity|]. split; [discriminate|]. exists 2%Z, 1%Z. vm_compute. intuition congruence. Qed.

(** C116: with a width or a height of 2^31 or more, the detector looks at nothing. *)
Theorem C116_huge_partial : forall f i, 2 ^ 31 <= i_width f < 2 ^ 32 \/ 2 ^ 31 <= i_height f < 2 ^ 32 -> ~ touches (image_from f) i.
Proof.
  intros f i H (x & y & Hx & Hy & _). unfold image_from, u32_as_i32 in *. cbn [v_width v_height] in *.
  destruct H as [H|H]; [destruct (N.ltb_spec (i_width f) (2 ^ 31))|destruct (N.ltb_spec (i_height f) (2 ^ 31))]; lia.
Qed.
Print Assumptions C116_huge_partial.
Example C116_huge_ex : 2 ^ 31 <= i_height (Format 4 3000000000 4 [71; 82; 69; 89]) < 2 ^ 32.
Proof. cbn. lia. Qed.

(** C116 is false in general: an image may be wider than its rows, and is then read beyond
    its buffer. *)
Theorem C116_refuted : exists f data im i, image_new f data = Ret im /\
  touches (image_from (i_format im)) i /\ (Z.of_nat (length (i_data im)) <= i)%Z.
Proof.
  exists (Format 4 1 2 [71; 82; 69; 89]), [1; 2]. eexists. exists 3%Z. split; [reflexivity|].
  split; [exists 3%Z, 0%Z; vm_compute; intuition congruence|cbn; lia].
Qed.
Print Assumptions C116_refuted.
