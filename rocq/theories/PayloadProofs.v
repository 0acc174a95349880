From Coq Require Import List Arith NArith ZArith QArith Bool Lia SpecFloat.
From Verif Require Import Base BincodeModel BincodeSpec BincodeProofs FloatModel PayloadModel PayloadSpec.
Import ListNotations.
Local Open Scope nat_scope.

(** *** Poses *)
Lemma glam_symmetric p : (forall a, glam_move (to_glam p) a = moves p a) <-> symmetric p.
Proof.
  split.
  - intros H. pose proof (H (V3 1 0 0)) as H1. pose proof (H (V3 0 1 0)) as H2.
    unfold glam_move, moves in *. cbn in H1, H2. injection H1 as A1 A2 A3. injection H2 as B1 B2 B3.
    unfold symmetric. repeat split; lia.
  - intros (E1 & E2 & E3) a. unfold glam_move, moves. cbn. rewrite E1, E2, E3. f_equal; ring.
Qed.
Lemma of_glam_symmetric g : (forall a, moves (of_glam g) a = glam_move g a) <-> symmetric (of_glam g).
Proof.
  split.
  - intros H. pose proof (H (V3 1 0 0)) as H1. pose proof (H (V3 0 1 0)) as H2.
    unfold glam_move, moves in *. cbn in H1, H2. injection H1 as A1 A2 A3. injection H2 as B1 B2 B3.
    unfold symmetric. cbn. repeat split; lia.
  - intros (E1 & E2 & E3) a. unfold glam_move, moves. cbn in *. rewrite E1, E2, E3. f_equal; ring.
Qed.
Lemma glam_inverse p a : rotates p ->
  glam_move (to_glam p) (V3 (vx (moves p a) - p 0 3) (vy (moves p a) - p 1 3) (vz (moves p a) - p 2 3))
  = V3 (vx a + p 0 3) (vy a + p 1 3) (vz a + p 2 3).
Proof.
  intros R.
  pose proof (R 0 0 ltac:(lia) ltac:(lia)) as E00. pose proof (R 0 1 ltac:(lia) ltac:(lia)) as E01. pose proof (R 0 2 ltac:(lia) ltac:(lia)) as E02.
  pose proof (R 1 1 ltac:(lia) ltac:(lia)) as E11. pose proof (R 1 2 ltac:(lia) ltac:(lia)) as E12. pose proof (R 2 2 ltac:(lia) ltac:(lia)) as E22.
  cbn [Nat.eqb] in *. unfold glam_move, moves. cbn. destruct a as [x y z]. cbn. f_equal.
  - transitivity ((p 0%nat 0%nat * p 0%nat 0%nat + p 1%nat 0%nat * p 1%nat 0%nat + p 2%nat 0%nat * p 2%nat 0%nat) * x + (p 0%nat 0%nat * p 0%nat 1%nat + p 1%nat 0%nat * p 1%nat 1%nat + p 2%nat 0%nat * p 2%nat 1%nat) * y
                  + (p 0%nat 0%nat * p 0%nat 2%nat + p 1%nat 0%nat * p 1%nat 2%nat + p 2%nat 0%nat * p 2%nat 2%nat) * z + p 0%nat 3%nat)%Z; [ring|]. rewrite E00, E01, E02. ring.
  - transitivity ((p 0%nat 0%nat * p 0%nat 1%nat + p 1%nat 0%nat * p 1%nat 1%nat + p 2%nat 0%nat * p 2%nat 1%nat) * x + (p 0%nat 1%nat * p 0%nat 1%nat + p 1%nat 1%nat * p 1%nat 1%nat + p 2%nat 1%nat * p 2%nat 1%nat) * y
                  + (p 0%nat 1%nat * p 0%nat 2%nat + p 1%nat 1%nat * p 1%nat 2%nat + p 2%nat 1%nat * p 2%nat 2%nat) * z + p 1%nat 3%nat)%Z; [ring|]. rewrite E01, E11, E12. ring.
  - transitivity ((p 0%nat 0%nat * p 0%nat 2%nat + p 1%nat 0%nat * p 1%nat 2%nat + p 2%nat 0%nat * p 2%nat 2%nat) * x + (p 0%nat 1%nat * p 0%nat 2%nat + p 1%nat 1%nat * p 1%nat 2%nat + p 2%nat 1%nat * p 2%nat 2%nat) * y
                  + (p 0%nat 2%nat * p 0%nat 2%nat + p 1%nat 2%nat * p 1%nat 2%nat + p 2%nat 2%nat * p 2%nat 2%nat) * z + p 2%nat 3%nat)%Z; [ring|]. rewrite E02, E12, E22. ring.
Qed.

Lemma flat_entry (p : pose) r c : c < 4 -> p ((r * 4 + c) / 4) ((r * 4 + c) mod 4) = p r c.
Proof.
  intros H. rewrite Nat.add_comm, Nat.div_add, Nat.mod_add by discriminate.
  rewrite Nat.div_small, Nat.mod_small by assumption. reflexivity.
Qed.
(** The rotation that nalgebra keeps. *)
Lemma iso_rot unit p r c : (forall m i j, rotates m -> i < 3 -> j < 3 -> unit m i j = m i j) -> rotates p -> r < 3 -> c < 3 ->
  i_rot (to_iso unit p) r c = p r c.
Proof.
  intros U R Hr Hc. unfold to_iso. cbn [i_rot]. rewrite U; [apply flat_entry; lia| |assumption|assumption].
  intros i j Hi Hj. rewrite !flat_entry by lia. now apply R.
Qed.
Lemma iso_tr unit p r : i_tr (to_iso unit p) r = p r 3.
Proof. unfold to_iso. cbn [i_tr]. apply flat_entry. lia. Qed.

Lemma four r (P : nat -> Prop) : r < 4 -> P 0 -> P 1 -> P 2 -> P 3 -> P r.
Proof. intros H A B C D. destruct r as [|[|[|[|]]]]; auto. lia. Qed.

Lemma glam_round p : same_pose (of_glam (to_glam p)) p <-> last_row_ok p.
Proof.
  split.
  - intros H. unfold last_row_ok. rewrite <- !H by lia. cbn. auto.
  - intros (E0 & E1 & E2 & E3) r c Hr Hc.
    revert c Hc. apply (four r); auto; intros c Hc; apply (four c); auto.
Qed.
Lemma faer_round p : exists q, of_faer (to_faer p) = Ret q /\ same_pose q p.
Proof.
  eexists. split; [reflexivity|]. intros r c Hr Hc. revert c Hc.
  apply (four r); auto; intros c Hc; apply (four c); auto.
Qed.

(** *** The inertial unit *)
Lemma get_i16_ok buf k : length buf = 24 -> Forall (fun b => (b < 256)%N) buf -> k < 12 ->
  get_i16 buf (2 * k) = Ret (register buf k) /\ (-32768 <= register buf k < 32768)%Z.
Proof.
  intros L B Hk. unfold get_i16, register.
  assert (E : forall j, j < 24 -> nth_error buf j = Some (nth j buf 0%N) /\ (nth j buf 0%N < 256)%N).
  { intros j Hj. split; [apply nth_error_nth'; lia|]. rewrite Forall_forall in B. apply B. apply nth_In. lia. }
  destruct (E (2 * k)) as [E1 B1]; [lia|]. destruct (E (S (2 * k))) as [E2 B2]; [lia|].
  replace (2 * k + 1) with (S (2 * k)) by lia. rewrite E1, E2.
  set (lo := nth (2 * k) buf 0%N) in *. set (hi := nth (S (2 * k)) buf 0%N) in *. cbv zeta.
  destruct (Z.ltb_spec (Z.of_N lo + 256 * Z.of_N hi) 32768) as [H|H];
    destruct (Z.leb_spec 32768 (Z.of_N lo + 256 * Z.of_N hi)) as [H'|H']; try lia; split; auto; lia.
Qed.

(** *** Images *)
Lemma format_lossless : lossless wf_format enc_format dec_format.
Proof.
  intros [w h s p] rest ((Hw & Hh & Hs) & L & B). unfold enc_format, dec_format, dbind. cbn [i_width i_height i_stride i_pixel] in *.
  rewrite <- !app_assoc. rewrite (u32_lossless w), (u32_lossless h), (u32_lossless s) by assumption.
  rewrite <- L. now rewrite (dec_n_rt (ubits 8) enc_u8 dec_u8 u8_lossless).
Qed.
Lemma image_lossless : lossless wf_image enc_image dec_image.
Proof.
  intros [q f d] rest (Hq & Hf & Hn & B). unfold enc_image, dec_image, dbind. cbn [i_seq i_format i_data] in *.
  rewrite <- !app_assoc. rewrite (u64_lossless q) by assumption. rewrite format_lossless by assumption.
  rewrite (vec_lossless (ubits 8) enc_u8 dec_u8 u8_lossless) by (split; assumption). reflexivity.
Qed.
Lemma reading_lossless : lossless (fun r => length r = 12 /\ Forall (ubits 32) r) enc_reading dec_reading.
Proof.
  intros r rest [L B]. unfold enc_reading, dec_reading. rewrite <- L. now apply (dec_n_rt (ubits 32) enc_f32 dec_f32 f32_lossless).
Qed.
