(** C51: the motor driver. *)
From Coq Require Import List NArith ZArith Bool Reals Lra Lia SpecFloat.
From Flocq Require Import Core BinarySingleNaN.
From Verif Require Import Base FloatModel FloatFacts MotorModel.
Import ListNotations.

(** * Specification *)
(** The duty cycles of a motor running at a power: forward on one channel, backward on the
    other. *)
Definition drive (c : f32) : f32 * f32 := if flt zero c then (c, zero) else if flt c zero then (zero, fopp c) else (zero, zero).
(** The motor runs at a power (zeros of either sign are the same). *)
Definition runs (m : motor) (c : f32) : Prop := (duty0 m, duty1 m) = drive c.

(** * Proofs *)
Lemma eq_drive c d : fne c d = false -> drive c = drive d.
Proof.
  unfold fne. rewrite negb_false_iff. unfold SFeqb. destruct c as [s|[]| |[] m e], d as [s'|[]| |[] m' e']; cbn; try discriminate; auto;
  destruct (Z.compare_spec e e'); try discriminate; subst; change (Pos.compare_cont Eq m m') with (Pos.compare m m'); destruct (Pos.compare_spec m m'); try discriminate; subst; reflexivity.
Qed.
Lemma set_ok a b m : set_duties (true, true) a b m = (Motor (current_power m) (deadzone m) (dryrun m) a b, true).
Proof. reflexivity. Qed.
Lemma process_ok p m : dryrun m = false -> (fne (compensated (deadzone m) p) (current_power m) = true \/ runs m (current_power m)) ->
  exists m', process (Some p) (true, true) m = (m', true) /\ runs m' (compensated (deadzone m) p) /\ runs m' (current_power m') /\ dryrun m' = false /\ deadzone m' = deadzone m.
Proof.
  intros D H. unfold process. rewrite D. set (c := compensated (deadzone m) p) in *. destruct (fne c (current_power m)) eqn:Ne.
  - cbn [current_power]. assert (X : forall a b, drive c = (a, b) -> exists m', set_duties (true, true) a b (Motor c (deadzone m) false (duty0 m) (duty1 m)) = (m', true) /\ runs m' c /\ runs m' (current_power m') /\ dryrun m' = false /\ deadzone m' = deadzone m).
    { intros a b E. eexists. split; [apply set_ok|]. unfold runs. cbn. rewrite E. auto. }
    unfold drive in X. destruct (flt zero c); [apply X; reflexivity|]. destruct (flt c zero); apply X; reflexivity.
  - destruct H as [H|H]; [discriminate|]. exists m. split; [reflexivity|]. assert (E := eq_drive _ _ Ne). unfold runs in *. rewrite E. auto.
Qed.

Lemma process_keeps i hw m : dryrun (fst (process i hw m)) = dryrun m /\ deadzone (fst (process i hw m)) = deadzone m.
Proof.
  assert (K : forall hw a b m, dryrun (fst (set_duties hw a b m)) = dryrun m /\ deadzone (fst (set_duties hw a b m)) = deadzone m) by (intros [[] []] a b m0; split; reflexivity).
  unfold process. destruct i as [q|]; cbn [fst]; [|apply K]. destruct (dryrun m) eqn:D; [rewrite <- D; apply K|].
  destruct (fne _ _); [|cbn; auto]. destruct (flt zero _); [|destruct (flt _ zero)]; match goal with |- context [set_duties ?h ?a ?b ?m] => apply (K h a b m) end.
Qed.

(** Commands only, accepted by the hardware: the motor runs at the last command. *)
Theorem C51_commands_partial : forall dz l p, runs (run (map (fun q => (Some q, (true, true))) (l ++ [p])) (motor_new dz false)) (compensated dz p).
Proof.
  intros dz l p. assert (K : forall l m, dryrun m = false -> deadzone m = dz -> runs m (current_power m) -> runs (run (map (fun q => (Some q, (true, true))) (l ++ [p])) m) (compensated dz p)).
  { clear l. induction l as [|q l IH]; intros m D Z0 R; cbn [run map app].
    - destruct (process_ok p m D (or_intror R)) as (m' & E1 & R1 & _). rewrite E1. cbn [fst]. rewrite <- Z0. exact R1.
    - destruct (process_ok q m D (or_intror R)) as (m' & E1 & _ & R1 & D1 & Z1). rewrite E1. cbn [fst]. apply IH; congruence. }
  apply K; reflexivity.
Qed.
Print Assumptions C51_commands_partial.
(** Whatever happened before, a command that differs from the last one is applied. *)
Theorem C51_changed_partial : forall dz l p, fne (compensated dz p) (current_power (run l (motor_new dz false))) = true ->
  runs (run (l ++ [(Some p, (true, true))]) (motor_new dz false)) (compensated dz p).
Proof.
  intros dz l p. assert (K : forall l m, dryrun m = false -> deadzone m = dz -> dryrun (run l m) = false /\ deadzone (run l m) = dz).
  { clear. induction l as [|[i hw] l IH]; intros m D Z0; cbn [run]; auto. apply IH.
    - rewrite (proj1 (process_keeps i hw m)). auto.
    - rewrite (proj2 (process_keeps i hw m)). auto. }
  assert (App : forall l m, run (l ++ [(Some p, (true, true))]) m = fst (process (Some p) (true, true) (run l m))).
  { clear. induction l as [|[i hw] l IH]; intros m; cbn [run app]; auto. }
  intros H. destruct (K l (motor_new dz false) eq_refl eq_refl) as [D Z0]. rewrite App. rewrite <- Z0 in H at 1.
  destruct (process_ok p (run l (motor_new dz false)) D (or_introl H)) as (m' & E1 & R1 & _). rewrite E1. rewrite Z0 in R1. exact R1.
Qed.
Print Assumptions C51_changed_partial.
(** Half power, then a quarter backward (negative), with a dead zone of a quarter. *)
Example C51_case : let half := of_bits 0x3F000000 in let back := of_bits 0xBE800000 in let dz := of_bits 0x3E800000 in
  let m := run [(Some half, (true, true)); (None, (true, true)); (Some back, (true, true))] (motor_new dz false) in
  to_bits (compensated dz half) = 0x3F200000%N /\ runs m (compensated dz back) /\ to_bits (duty1 m) = 0x3F100000%N /\ fne (compensated dz back) (compensated dz half) = true.
Proof. vm_compute. repeat split. Qed.

(** A message without payload stops the motor; the same command as before is then ignored. *)
Theorem C51_missing_refuted : exists dz p, let m := run [(Some p, (true, true)); (None, (true, true)); (Some p, (true, true))] (motor_new dz false) in
  compensated dz p = p /\ flt zero p = true /\ ~ runs m p /\ runs m zero.
Proof. exists zero, (of_bits 0x3F000000). cbv zeta. split; [vm_compute; reflexivity|]. split; [vm_compute; reflexivity|]. split; [vm_compute; discriminate|vm_compute; reflexivity]. Qed.
Print Assumptions C51_missing_refuted.
(** A command refused by the hardware is not tried again. *)
Theorem C51_failure_refuted : exists dz p, let m := run [(Some p, (false, true)); (Some p, (true, true)); (Some p, (true, true))] (motor_new dz false) in
  compensated dz p = p /\ flt zero p = true /\ ~ runs m p /\ runs m zero.
Proof. exists zero, (of_bits 0x3F000000). cbv zeta. split; [vm_compute; reflexivity|]. split; [vm_compute; reflexivity|]. split; [vm_compute; discriminate|vm_compute; reflexivity]. Qed.
Print Assumptions C51_failure_refuted.
(** Full power backward with a dead zone of a quarter: one and a half. *)
Theorem C51_range_refuted : exists dz p, fle zero dz = true /\ fle dz one = true /\ fle (fopp one) p = true /\ fle p one = true /\
  flt (compensated dz p) (fopp one) = true /\ compensated dz p = of_bits 0xBFC00000.
Proof. exists (of_bits 0x3E800000), (of_bits 0xBF800000). repeat split; vm_compute; reflexivity. Qed.
Print Assumptions C51_range_refuted.

Lemma fle_split x y : valid x -> valid y -> fin x -> fin y -> fle x y = true -> (val x <= val y)%R.
Proof. intros. rewrite fle_real in * by auto. destruct (Rle_bool_spec (val x) (val y)); [auto|discriminate]. Qed.
Lemma one_ok : valid one /\ fin one /\ val one = 1%R.
Proof.
  split; [apply f32_of_valid|]. split; [reflexivity|]. replace one with (S754_finite false 8388608 (-23)) by (vm_compute; reflexivity).
  unfold val, SF2R, F2R. cbn [Fnum Fexp cond_Zopp]. change (bpow radix2 (-23)) with (/ 8388608)%R. lra.
Qed.
Lemma fin_between a x b : fin a -> fin b -> fle a x = true -> fle x b = true -> fin x.
Proof. intros Fa Fb H1 H2. destruct x as [s|s| |s m e]; try reflexivity; [|destruct a as [?|[]| |[] ? ?]; discriminate]. destruct s; [destruct a as [?|[]| |[] ? ?]; discriminate|destruct b as [?|[]| |[] ? ?]; discriminate]. Qed.
Lemma near_one x : (0 <= x <= 1)%R -> (rn x <= x + bpow radix2 (-25))%R.
Proof.
  intros H. assert (P : (0 < bpow radix2 (-25))%R) by apply bpow_gt_0.
  destruct (Req_dec x 1) as [->|N1]. { change 1%R with (bpow radix2 0). rewrite rn_bpow by lia. lra. }
  destruct (Req_dec x 0) as [->|N0]. { rewrite rn_0. lra. }
  assert (Er := error_le_half_ulp radix2 fx (fun z => negb (Z.even z)) x).
  change (round radix2 fx (Znearest (fun z => negb (Z.even z))) x) with (rn x) in Er.
  assert (U : (ulp radix2 fx x <= bpow radix2 (-24))%R).
  { rewrite ulp_neq_0 by auto. apply bpow_le. unfold cexp. assert (mag radix2 x <= 0)%Z. { apply mag_le_bpow; [auto|]. rewrite Rabs_pos_eq by lra. change (bpow radix2 0) with 1%R. lra. }
    unfold SpecFloat.fexp, SpecFloat.emin. lia. }
  replace (-24)%Z with (-25 + 1)%Z in U by lia. rewrite bpow_plus in U. change (bpow radix2 1) with 2%R in U. apply Rabs_le_inv in Er. lra.
Qed.
(** Forward, the compensated power is within the range. *)
Theorem C51_forward_partial : forall dz p, valid dz -> valid p -> fle zero dz = true -> fle dz one = true -> flt zero p = true -> fle p one = true ->
  fle zero (compensated dz p) = true /\ fle (compensated dz p) one = true.
Proof.
  intros dz p Vd Vp D0 D1 P0 P1. destruct one_ok as (V1 & F1 & E1). assert (V0 : valid zero) by reflexivity. assert (F0 : fin zero) by reflexivity. assert (E0 : val zero = 0%R) by reflexivity.
  assert (Fd : fin dz) by (apply (fin_between zero dz one); auto).
  assert (Pz : fle zero p = true) by (clear - P0; unfold flt, fle, SFltb, SFleb in *; destruct (SFcompare zero p) as [[]|]; auto; discriminate).
  assert (Fp : fin p) by (apply (fin_between zero p one); auto).
  assert (Hd0 := fle_split _ _ V0 Vd F0 Fd D0). assert (Hd1 := fle_split _ _ Vd V1 Fd F1 D1). assert (Hp0 := fle_split _ _ V0 Vp F0 Fp Pz). assert (Hp1 := fle_split _ _ Vp V1 Fp F1 P1).
  rewrite E0, E1 in *. unfold compensated. replace (fne p zero) with true.
  2: { clear - P0. unfold fne, flt, SFltb, SFeqb in *. destruct p as [s|[]| |[] m e]; cbn in *; auto; discriminate. }
  rewrite P0.
  assert (B1 : (1 < big)%R) by (change 1%R with (bpow radix2 0); apply bpow_big; lia).
  assert (A : (0 <= rn (1 - val dz) <= 1)%R). { split; [rewrite <- rn_0; apply rn_le; lra|]. replace 1%R with (rn 1) at 2 by (change 1%R with (bpow radix2 0); apply rn_bpow; lia). apply rn_le. lra. }
  destruct (fsub_real one dz V1 Vd F1 Fd) as [Fa Ea]; [rewrite E1, Rabs_pos_eq; lra|]. rewrite E1 in Ea. assert (Va := fsub_valid _ _ V1 Vd). set (a := fsub one dz) in *.
  assert (Bm : (0 <= rn (val a * val p) <= val a)%R).
  { split; [rewrite <- rn_0; apply rn_le; rewrite Ea; nra|]. rewrite <- (rn_val a Va) at 2. apply rn_le. rewrite Ea. nra. }
  destruct (fmul_real a p Va Vp Fa Fp) as [Fb Eb]; [rewrite Rabs_pos_eq; lra|]. assert (Vb := fmul_valid _ _ Va Vp). set (b := fmul a p) in *.
  assert (C : (0 <= rn (val dz + val b) <= 1)%R).
  { split; [rewrite <- rn_0; apply rn_le; lra|]. apply Rle_trans with (rn (1 + bpow radix2 (-25))).
    - apply rn_le. assert (N1 := near_one (1 - val dz) ltac:(lra)). lra.
    - assert (S0 := rn_stays 0 1 (bpow radix2 (-25)) ltac:(lia)). change (bpow radix2 0) with 1%R in S0. rewrite Rabs_R1 in S0.
      rewrite (Rabs_pos_eq (bpow radix2 (-25))) in S0 by apply bpow_ge_0. specialize (S0 ltac:(lra) (Rle_refl _)). apply Rabs_le_inv in S0. lra. }
  destruct (fadd_real dz b Vd Vb Fd Fb) as [Fc Ec]; [rewrite Rabs_pos_eq; lra|]. assert (Vc := fadd_valid _ _ Vd Vb).
  rewrite !fle_real, Ec, E0, E1 by auto. rewrite !Rle_bool_true by lra. auto.
Qed.
Print Assumptions C51_forward_partial.
Example C51_forward_case : let dz := of_bits 0x3DCCCCCD in let p := of_bits 0x3F7FFFFF in valid dz /\ valid p /\ flt zero p = true /\ fle p one = true /\ fle dz one = true /\ compensated dz p = of_bits 0x3F7FFFFF.
Proof. vm_compute. repeat split. Qed.
