(** C48: sorting point clouds; C54: serialized reflectivities. *)
From Coq Require Import List Arith NArith ZArith Bool Lia Permutation Sorted.
From Coq Require Import Reals Lra SpecFloat.
From Flocq Require Import Core BinarySingleNaN.
From Verif Require Import Base BincodeModel BincodeSpec BincodeProofs CodecModel CodecSpec CodecProofs FloatModel FloatFacts CloudModel CloudProofs.
Import ListNotations.
Local Open Scope nat_scope.

(** * Specification *)
Section Spec.
Context {V : Type} (d : V).
(** The points without their order of return. *)
Definition rows (c : cloud V) : list (N * (V * V * V * V)) := map fst (points d c).
(** The sort did what it says. *)
Definition time_ordered (c : cloud V) : Prop := StronglySorted (fun a b => (fst (fst a) <= fst (fst b))%N) (points d c).
End Spec.

Lemma sorted_seq {X} (le : X -> X -> Prop) (f : nat -> X) n : forall a, (forall k l, a <= k -> k <= l -> l < a + n -> le (f k) (f l)) -> StronglySorted le (map f (seq a n)).
Proof.
  induction n as [|n IH]; intros a H; cbn; constructor.
  - apply IH. intros; apply H; lia.
  - apply Forall_forall. intros x Hx. apply in_map_iff in Hx. destruct Hx as (k & <- & Hk). apply in_seq in Hk. apply H; lia.
Qed.

(** * C48 *)
(** A full cloud: the sort ends without panic, the times are ordered, and the points without
    their order of return are the same ones. *)
Theorem C48_full_partial : forall {V} (d : V) n c, room n c -> c_len c = n -> n <> 0 ->
  exists c', sort n c = Some (Ret c') /\ c_len c' = n /\ time_ordered d c' /\ Permutation (rows d c) (rows d c') /\ c_order c' = c_order c.
Proof.
  intros V d n c R L N0. destruct n as [|m]; [lia|]. unfold sort.
  destruct (quicksort_ok d (S m) (S m + 1) 0 m c R) as (c' & E & M & So); try lia.
  exists c'. split; [exact E|]. assert (L' : c_len c' = S m) by (destruct M as (_ & _ & H & _); congruence). split; [exact L'|]. split; [|split].
  - unfold time_ordered, points. rewrite L'. apply sorted_seq. intros k l H1 H2 H3. apply (So k l); lia.
  - unfold rows, points. rewrite L, L', !map_map. apply (moved_permutation d (S m) 0 m c c'); auto.
  - apply M.
Qed.
Print Assumptions C48_full_partial.
(** So when all points have the same order of return, nothing is mixed up. *)
Theorem C48_single_return_partial : forall {V} (d : V) n c o, room n c -> c_len c = n -> n <> 0 -> c_order c = repeat o n ->
  exists c', sort n c = Some (Ret c') /\ time_ordered d c' /\ Permutation (points d c) (points d c').
Proof.
  intros V d n c o R L N0 O. destruct (C48_full_partial d n c R L N0) as (c' & E & L' & T & P & O'). exists c'. split; [exact E|]. split; [exact T|].
  assert (X : forall c, c_len c = n -> c_order c = repeat o n -> points d c = map (fun r => (r, o)) (rows d c)).
  { intros c0 H1 H2. unfold rows, points. rewrite !map_map. apply map_ext_in. intros k Hk. apply in_seq in Hk.
    unfold point. cbn [fst]. rewrite H2. f_equal. rewrite H1 in Hk.
    destruct (nth_in_or_default k (repeat o n) 0%N) as [X|X]; [apply (repeat_spec n o _ X)|].
    assert (In (nth k (repeat o n) 0%N) (repeat o n)) by (apply nth_In; rewrite repeat_length; lia). apply (repeat_spec n o _ H). }
  rewrite (X c L O), (X c' L') by congruence. apply Permutation_map. exact P.
Qed.
Print Assumptions C48_single_return_partial.

Example C48_case : let c := Cloud [5; 2; 9; 2; 1]%N [0; 1; 2; 3; 4] [0; 1; 2; 3; 4] [0; 1; 2; 3; 4] [0; 1; 2; 3; 4] (repeat 7%N 5) 5 in
  room 5 c /\ exists c', sort 5 c = Some (Ret c') /\ c_tov c' = [1; 2; 2; 5; 9]%N /\ c_x c' = [4; 1; 3; 0; 2] /\ c_i c' = [4; 1; 3; 0; 2].
Proof. cbv zeta. split; [repeat split|]. eexists. split; [vm_compute; reflexivity|]. repeat split. Qed.

(** The order of return stays behind: in this full cloud, the first return of one point is
    sorted after the second return of another, and afterwards each has the other's. *)
Theorem C48_order_refuted : exists (c c' : cloud nat), room 2 c /\ c_len c = 2 /\ sort 2 c = Some (Ret c') /\ ~ Permutation (points 0 c) (points 0 c').
Proof.
  exists (Cloud [8; 3]%N [0; 1] [0; 1] [0; 1] [0; 1] [1; 2]%N 2), (Cloud [3; 8]%N [1; 0] [1; 0] [1; 0] [1; 0] [1; 2]%N 2).
  split; [repeat split|]. split; [reflexivity|]. split; [vm_compute; reflexivity|].
  intros P. assert (H := Permutation_in ((8%N, (0, 0, 0, 0)), 1%N) P (or_introl eq_refl)). cbn in H. destruct H as [H|[H|[]]]; discriminate.
Qed.
Print Assumptions C48_order_refuted.
(** The whole capacity is sorted: with two points in room for three, a point is lost and an
    unused zero point is shown. *)
Theorem C48_fill_refuted : exists (c c' : cloud nat), room 3 c /\ c_len c = 2 /\ c_order c = repeat 0%N 3 /\ sort 3 c = Some (Ret c') /\ c_len c' = 2 /\
  In 5%N (map (fun p => fst (fst p)) (points 0 c)) /\ ~ In 5%N (map (fun p => fst (fst p)) (points 0 c')) /\
  ~ In 0%N (map (fun p => fst (fst p)) (points 0 c)) /\ In 0%N (map (fun p => fst (fst p)) (points 0 c')).
Proof.
  exists (Cloud [5; 3; 0]%N [5; 3; 0] [5; 3; 0] [5; 3; 0] [5; 3; 0] [0; 0; 0]%N 2), (Cloud [0; 3; 5]%N [0; 3; 5] [0; 3; 5] [0; 3; 5] [0; 3; 5] [0; 0; 0]%N 2).
  split; [repeat split|]. split; [reflexivity|]. split; [reflexivity|]. split; [vm_compute; reflexivity|]. split; [reflexivity|].
  cbn. repeat split; intuition discriminate.
Qed.
Print Assumptions C48_fill_refuted.

(** * C54 *)
Local Open Scope N_scope.
Lemma reflectivity_read v bits rest : ubits 32 bits -> dec_reflectivity v (enc_reflectivity bits ++ rest) = Some (percent v bits, rest).
Proof. intros H. unfold dec_reflectivity, enc_reflectivity, dbind. rewrite (f32_lossless bits rest H). reflexivity. Qed.
(** A reflectivity of one half is read back as one two hundredth, whichever way the unit is
    converted. *)
Theorem C54_refuted : exists bits, ubits 32 bits /\ forall v, exists bits', dec_reflectivity v (enc_reflectivity bits) = Some (bits', []) /\ bits' <> bits /\ flt (of_bits bits') (of_bits bits) = true.
Proof.
  exists 0x3F000000. split; [reflexivity|]. intros v. exists 1000593162. split; [destruct v; vm_compute; reflexivity|]. split; [discriminate|vm_compute; reflexivity].
Qed.
Print Assumptions C54_refuted.
(** And so is every finite ratio but zero: what is read is smaller. *)
Lemma hundredth_ok : valid (of_bits 0x3C23D70A) /\ fin (of_bits 0x3C23D70A) /\ (0 < val (of_bits 0x3C23D70A) <= / 4)%R.
Proof.
  split; [vm_compute; reflexivity|]. split; [vm_compute; reflexivity|].
  replace (of_bits 0x3C23D70A) with (S754_finite false 10737418 (-30)) by (vm_compute; reflexivity). unfold val, SF2R, F2R. cbn [Fnum Fexp cond_Zopp].
  change (bpow radix2 (-30)) with (/ 1073741824)%R. lra.
Qed.
Lemma hundred_ok : valid (of_bits 0x42C80000) /\ fin (of_bits 0x42C80000) /\ val (of_bits 0x42C80000) = 100%R.
Proof.
  split; [vm_compute; reflexivity|]. split; [vm_compute; reflexivity|].
  replace (of_bits 0x42C80000) with (S754_finite false 13107200 (-17)) by (vm_compute; reflexivity). unfold val, SF2R, F2R. cbn [Fnum Fexp cond_Zopp].
  change (bpow radix2 (-17)) with (/ 131072)%R. lra.
Qed.
Theorem C54_all_refuted : forall v bits, ubits 32 bits -> fin (of_bits bits) -> val (of_bits bits) <> 0%R ->
  exists bits', dec_reflectivity v (enc_reflectivity bits) = Some (bits', []) /\ fin (of_bits bits') /\ (Rabs (val (of_bits bits')) < Rabs (val (of_bits bits)))%R.
Proof.
  intros v bits U F Nz. exists (percent v bits). split. { rewrite <- (app_nil_r (enc_reflectivity bits)). apply reflectivity_read. exact U. }
  assert (V := of_bits_valid bits U). set (x := of_bits bits) in *.
  assert (P : (0 < Rabs (val x))%R) by (apply Rabs_pos_lt; exact Nz).
  assert (Bx : (Rabs (val x) < big)%R).
  { destruct (sf_of x V) as [b Eb]. rewrite Eb, val_b. apply abs_B2R_lt_emax. }
  assert (Q : forall y, (Rabs y <= / 4 * Rabs (val x))%R -> (Rabs (rn y) < Rabs (val x))%R) by (intros y Hy; assert (D := rn_double y); lra).
  unfold percent. fold x. destruct v.
  - destruct hundredth_ok as (Vh & Fh & Bh). set (h := of_bits 0x3C23D70A) in *.
    assert (Q1 : (Rabs (rn (val x * val h)) < Rabs (val x))%R) by (apply Q; rewrite Rabs_mult, (Rabs_pos_eq (val h)) by lra; nra).
    destruct (fmul_real x h V Vh F Fh) as [F' E']; [lra|]. destruct (to_bits_of _ (fmul_valid _ _ V Vh)) as [T _]. rewrite T. split; [auto|]. rewrite E'. exact Q1.
  - destruct hundred_ok as (Vh & Fh & Bh). set (h := of_bits 0x42C80000) in *.
    assert (Q1 : (Rabs (rn (val x / val h)) < Rabs (val x))%R) by (apply Q; rewrite Bh; unfold Rdiv; rewrite Rabs_mult, (Rabs_pos_eq (/ 100)) by lra; nra).
    destruct (fdiv_real x h V Vh F Fh) as [F' E']; [lra|lra|]. destruct (to_bits_of _ (fdiv_valid _ _ V Vh)) as [T _]. rewrite T. split; [auto|]. rewrite E'. exact Q1.
Qed.
Print Assumptions C54_all_refuted.
(** A serialized point: every field but the reflectivity is read back unchanged, and the
    reflectivity as the number of percents. *)
Definition pt_ok (p : pt) : Prop := time_ok (p_tov p) /\ ubits 32 (p_x p) /\ ubits 32 (p_y p) /\ ubits 32 (p_z p) /\ ubits 32 (p_i p) /\ ubits 8 (p_order p).
Theorem C54_point_partial : forall v p rest, pt_ok p ->
  dec_pt v (enc_pt p ++ rest) = Some (Pt (p_tov p) (p_x p) (p_y p) (p_z p) (percent v (p_i p)) (p_order p), rest).
Proof.
  intros v [t x y z i o] rest (H1 & H2 & H3 & H4 & H5 & H6). cbn in *. unfold dec_pt, enc_pt, dbind. cbn [p_tov p_x p_y p_z p_i p_order].
  rewrite <- !app_assoc. rewrite (time_lossless t _ H1), (f32_lossless x _ H2), (f32_lossless y _ H3), (f32_lossless z _ H4), (reflectivity_read v i _ H5), (u8_lossless o _ H6). reflexivity.
Qed.
Print Assumptions C54_point_partial.
(** Zero and the infinities are read back unchanged. *)
Theorem C54_fixed_partial : forall v bits rest, In bits [0; 0x80000000; 0x7F800000; 0xFF800000] -> dec_reflectivity v (enc_reflectivity bits ++ rest) = Some (bits, rest).
Proof.
  intros v bits rest H. rewrite reflectivity_read.
  - destruct H as [<-|[<-|[<-|[<-|[]]]]]; destruct v; reflexivity.
  - destruct H as [<-|[<-|[<-|[<-|[]]]]]; reflexivity.
Qed.
Print Assumptions C54_fixed_partial.
Example C54_case : pt_ok (Pt 77 0x3F800000 0x40000000 0xC0000000 0x3F000000 2) /\
  dec_pt ByMultiplication (enc_pt (Pt 77 0x3F800000 0x40000000 0xC0000000 0x3F000000 2)) = Some (Pt 77 0x3F800000 0x40000000 0xC0000000 0x3BA3D70A 2, []).
Proof. split; [unfold pt_ok; repeat split; try reflexivity|vm_compute; reflexivity]. Qed.
