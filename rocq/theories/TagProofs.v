(** Proofs about the detector of tags. *)
From Coq Require Import List Arith NArith ZArith Bool Lia SpecFloat.
From Verif Require Import Base BincodeModel BincodeSpec BincodeProofs FloatModel PayloadModel TagModel TagSpec.
Import ListNotations.
Local Open Scope N_scope.

(** ** The codec *)
Lemma push_all_ok {A} n (items : list A) : forall acc, (length acc + length items <= n)%nat ->
  push_all n acc items = Some (acc ++ items).
Proof.
  induction items as [|x items IH]; intros acc L; cbn [push_all length] in *.
  - rewrite app_nil_r. reflexivity.
  - unfold push. destruct (Nat.ltb_spec (length acc) n); [|lia].
    rewrite IH by (rewrite app_length; cbn; lia). rewrite <- app_assoc. reflexivity.
Qed.

Lemma arrayvec_lossless {A} (wf : A -> Prop) n e d : lossless wf e d -> (N.of_nat n < 2 ^ 64) ->
  lossless (fun l => (length l <= n)%nat /\ Forall wf l) (enc_arrayvec e) (dec_arrayvec n d).
Proof.
  intros L Hn l rest [Len W]. unfold enc_arrayvec, dec_arrayvec, dbind.
  rewrite (vec_lossless wf e d L l rest) by (split; [exact W|unfold ubits; lia]).
  destruct (Nat.ltb_spec n (length l)); [lia|]. rewrite push_all_ok by (cbn; lia). reflexivity.
Qed.

Lemma mat4_lossless : lossless mat4_wf enc_mat4 dec_mat4.
Proof.
  intros p rest [L W].
  assert (R : lossless (fun r => length r = 4%nat /\ Forall (ubits 32) r) (enc_all enc_f32) (dec_n dec_f32 4)).
  { intros r rest' [Lr Wr]. rewrite <- Lr. apply (dec_n_rt (ubits 32)); [apply f32_lossless|exact Wr]. }
  pose proof (dec_n_rt _ _ _ R p rest W) as Q. rewrite L in Q. exact Q.
Qed.

Lemma detections_lossless : lossless tags_wf enc_detections dec_detections.
Proof.
  intros [ids poses margins] rest (H1 & H2 & H3 & W1 & W2 & W3). cbn [t_ids t_poses t_margins] in *.
  unfold enc_detections, dec_detections, dbind. cbn [t_ids t_poses t_margins]. rewrite <- !app_assoc.
  rewrite (arrayvec_lossless (ubits 64) max_detections enc_u64 dec_u64 u64_lossless ltac:(cbn; lia)) by (split; assumption).
  rewrite (arrayvec_lossless mat4_wf max_detections enc_mat4 dec_mat4 mat4_lossless ltac:(cbn; lia)) by (split; assumption).
  rewrite (arrayvec_lossless (ubits 32) max_detections enc_f32 dec_f32 f32_lossless ltac:(cbn; lia)) by (split; assumption).
  reflexivity.
Qed.

Lemma push_all_bound {A} n (items : list A) : forall acc l, push_all n acc items = Some l ->
  (length acc <= n)%nat -> (length l <= n)%nat.
Proof.
  induction items as [|x items IH]; intros acc l H L; cbn [push_all] in H.
  - injection H as <-. exact L.
  - unfold push in H. destruct (Nat.ltb_spec (length acc) n); [|discriminate H].
    apply (IH _ _ H). rewrite app_length. cbn. lia.
Qed.
Lemma dec_arrayvec_bound {A} n (d : decoder A) b l r : dec_arrayvec n d b = Some (l, r) -> (length l <= n)%nat.
Proof.
  unfold dec_arrayvec, dbind. destruct (dec_vec d b) as [[inner r']|]; [|discriminate].
  destruct (n <? length inner)%nat; [discriminate|].
  destruct (push_all n [] inner) eqn:P; [|discriminate]. intros H. injection H as <- _.
  apply (push_all_bound _ _ _ _ P). cbn. lia.
Qed.
Lemma dec_detections_bound b t r : dec_detections b = Some (t, r) ->
  (length (t_ids t) <= 16)%nat /\ (length (t_poses t) <= 16)%nat /\ (length (t_margins t) <= 16)%nat.
Proof.
  unfold dec_detections, dbind.
  destruct (dec_arrayvec max_detections dec_u64 b) as [[ids r1]|] eqn:E1; [|discriminate].
  destruct (dec_arrayvec max_detections dec_mat4 r1) as [[poses r2]|] eqn:E2; [|discriminate].
  destruct (dec_arrayvec max_detections dec_f32 r2) as [[margins r3]|] eqn:E3; [|discriminate].
  intros H. injection H as <- _. cbn [t_ids t_poses t_margins].
  apply dec_arrayvec_bound in E1. apply dec_arrayvec_bound in E2. apply dec_arrayvec_bound in E3. auto.
Qed.

(** ** Columns and rows *)
Lemma rows_columns (t : detections) : aligned t ->
  map (fun r => fst (fst r)) (rows t) = t_ids t /\ map (fun r => snd (fst r)) (rows t) = t_poses t /\
  map snd (rows t) = t_margins t.
Proof.
  destruct t as [ids poses margins]. intros [H1 H2]. cbn [t_ids t_poses t_margins] in *. unfold rows. cbn [t_ids t_poses t_margins].
  revert poses margins H1 H2. induction ids as [|i ids IH]; intros [|p poses] [|m margins] H1 H2; try discriminate; [auto|].
  cbn [combine map fst snd] in *. destruct (IH poses margins) as (-> & -> & ->); auto.
Qed.

Lemma visit_all l : forall t, aligned t -> (length (t_ids t) + length l <= 16)%nat ->
  visit_tags t l = Ret (Detections (t_ids t ++ map (fun r => fst (fst r)) l) (t_poses t ++ map (fun r => snd (fst r)) l)
    (t_margins t ++ map snd l)).
Proof.
  induction l as [|[[i p] m] l IH]; intros [ids poses margins] [A1 A2] L; cbn [t_ids t_poses t_margins length visit_tags map fst snd] in *.
  - rewrite !app_nil_r. reflexivity.
  - unfold push, max_detections. rewrite A1, A2. destruct (Nat.ltb_spec (length ids) 16); [|lia]. cbn [obind].
    rewrite IH.
    + cbn [t_ids t_poses t_margins]. rewrite <- !app_assoc. reflexivity.
    + split; cbn [t_ids t_poses t_margins]; rewrite !app_length; cbn; lia.
    + cbn [t_ids]. rewrite app_length. cbn. lia.
Qed.

Lemma serde_round t : aligned t -> (length (t_ids t) <= 16)%nat ->
  fst (serialize_tags t) = length (snd (serialize_tags t)) /\ visit_tags no_detections (snd (serialize_tags t)) = Ret t.
Proof.
  intros A L. destruct (rows_columns t A) as (C1 & C2 & C3). cbn [serialize_tags fst snd].
  assert (R : length (rows t) = length (t_ids t)) by (rewrite <- C1, map_length; reflexivity).
  split; [auto|]. rewrite visit_all; [|split; reflexivity|cbn; lia].
  cbn [no_detections t_ids t_poses t_margins app]. rewrite C1, C2, C3. destruct t; reflexivity.
Qed.

(** ** The task *)
Lemma report_all as32 ds : forall t, aligned t -> (length (t_ids t) + length (estimated ds) <= 16)%nat ->
  report as32 ds t = Ret (Detections
    (t_ids t ++ map (fun x => fst (fst x)) (estimated ds))
    (t_poses t ++ map (fun x => pose_of as32 (snd (fst x))) (estimated ds))
    (t_margins t ++ map snd (estimated ds))).
Proof.
  induction ds as [|d ds IH]; intros [ids poses margins] [A1 A2] L; cbn [t_ids t_poses t_margins report] in *.
  - cbn. rewrite !app_nil_r. reflexivity.
  - unfold estimated in *. cbn [flat_map] in *. destruct (d_est d) as [e|]; [|apply IH; [split; assumption|exact L]].
    cbn [app length] in L.
    unfold push, max_detections. rewrite A1, A2. destruct (Nat.ltb_spec (length ids) 16); [|lia]. cbn [obind].
    rewrite IH.
    + cbn [t_ids t_poses t_margins app map fst snd]. rewrite <- !app_assoc. reflexivity.
    + split; cbn [t_ids t_poses t_margins]; rewrite !app_length; cbn; lia.
    + cbn [t_ids]. rewrite app_length. cbn. lia.
Qed.

Lemma report_too_many as32 ds : forall t, aligned t -> (length (t_ids t) <= 16)%nat ->
  (16 < length (t_ids t) + length (estimated ds))%nat -> report as32 ds t = Panic.
Proof.
  induction ds as [|d ds IH]; intros [ids poses margins] [A1 A2] B L; cbn [t_ids t_poses t_margins report] in *.
  - cbn in L. lia.
  - unfold estimated in *. cbn [flat_map] in *. destruct (d_est d) as [e|]; [|apply IH; [split; assumption|exact B|exact L]].
    cbn [app length] in L.
    unfold push, max_detections. rewrite A1, A2. destruct (Nat.ltb_spec (length ids) 16); [|reflexivity]. cbn [obind].
    apply IH.
    + split; cbn [t_ids t_poses t_margins]; rewrite !app_length; cbn; lia.
    + cbn [t_ids]. rewrite app_length. cbn. lia.
    + cbn [t_ids]. rewrite app_length. cbn. lia.
Qed.

Lemma combine_maps {X A B C} (f : X -> A) (g : X -> B) (h : X -> C) l :
  combine (combine (map f l) (map g l)) (map h l) = map (fun x => (f x, g x, h x)) l.
Proof. induction l as [|x l IH]; cbn [map combine]; [reflexivity|]. rewrite IH. reflexivity. Qed.

Lemma process_ok as32 ds T (tov : T) : (length (estimated ds) <= 16)%nat ->
  exists t, tags_process as32 (Some ds) tov = Ret (t, tov) /\ aligned t /\
    rows t = map (fun x => (fst (fst x), pose_of as32 (snd (fst x)), snd x)) (estimated ds).
Proof.
  intros L. unfold tags_process. rewrite report_all by ((split; reflexivity) || (cbn; lia)). cbn [obind].
  eexists. split; [reflexivity|]. cbn [no_detections t_ids t_poses t_margins app]. split.
  - split; cbn [t_ids t_poses t_margins]; rewrite !map_length; reflexivity.
  - unfold rows. cbn [t_ids t_poses t_margins]. apply combine_maps.
Qed.

(** ** Poses *)
Lemma pose_translation_ok as32 e : est_wf e -> has_translation as32 e (pose_of as32 e).
Proof.
  intros [_ L] r R. destruct e as [R_ T]. cbn [e_trans] in *.
  destruct T as [|t0 [|t1 [|t2 [|? T]]]]; try discriminate L.
  destruct r as [|[|[|r]]]; try reflexivity. lia.
Qed.
Lemma pose_rotation_iff as32 e : est_wf e ->
  (has_rotation as32 e (pose_of as32 e) <->
   forall r c, (r < 3)%nat -> (c < 3)%nat -> option_map as32 (rot e r c) = option_map as32 (rot e c r)).
Proof.
  intros [L _]. destruct e as [R T]. cbn [e_rot] in L.
  assert (X : forall r c, (r < 3)%nat -> (c < 3)%nat -> entry (pose_of as32 (Estimate R T)) r c = option_map as32 (rot (Estimate R T) c r)).
  { intros r c Hr Hc.
    destruct R as [|r0 [|r1 [|r2 [|r3 [|r4 [|r5 [|r6 [|r7 [|r8 [|? R]]]]]]]]]]; try discriminate L.
    destruct r as [|[|[|r]]]; try lia; destruct c as [|[|[|c]]]; try lia; reflexivity. }
  split; intros H r c Hr Hc.
  - rewrite <- (H r c Hr Hc). apply X; assumption.
  - rewrite X by assumption. symmetry. apply H; assumption.
Qed.
Lemma pose_last_row as32 e : nth_error (pose_of as32 e) 3 = Some [0; 0; 0; 0].
Proof. reflexivity. Qed.

(** ** The view of the image *)
Lemma view_inside f i : (i_width f <= i_stride f) -> i_stride f < 2 ^ 31 -> i_height f < 2 ^ 31 ->
  touches (image_from f) i -> (0 <= i < Z.of_N (byte_size f))%Z.
Proof.
  intros W S H (x & y & Hx & Hy & ->). unfold image_from, u32_as_i32, byte_size in *. cbn [v_width v_height v_stride] in *.
  destruct (N.ltb_spec (i_width f) (2 ^ 31)); [|lia].
  destruct (N.ltb_spec (i_height f) (2 ^ 31)); [|lia].
  destruct (N.ltb_spec (i_stride f) (2 ^ 31)); [|lia].
  rewrite N2Z.inj_mul. nia.
Qed.
