(** The arithmetic of the simulated angle reading in the real numbers. *)
From Coq Require Import NArith ZArith Bool Reals Psatz SpecFloat Lia.
From Flocq Require Import Core BinarySingleNaN.
From Verif Require Import Base FloatModel FloatFacts SimModel.
Local Open Scope R_scope.

Lemma rn_near e x : (-124 <= e)%Z -> Rabs x < bpow radix2 e -> Rabs (rn x - x) <= bpow radix2 (e - 25).
Proof.
  intros He H. destruct (Req_dec x 0) as [->|Nz]; [rewrite rn_0, Rminus_0_r, Rabs_R0; apply bpow_ge_0|].
  eapply Rle_trans; [apply (error_le_half_ulp radix2 fx)|]. rewrite ulp_neq_0 by exact Nz. unfold cexp.
  assert (M : (mag radix2 x <= e)%Z) by (apply mag_le_bpow; assumption).
  assert (F : (fx (mag radix2 x) <= e - 24)%Z) by (unfold SpecFloat.fexp, SpecFloat.emin; lia).
  apply (bpow_le radix2) in F. replace (e - 25)%Z with (-1 + (e - 24))%Z by lia. rewrite bpow_plus. change (bpow radix2 (-1)) with (/2). lra.
Qed.
Lemma cast_real x : fin x -> 0 <= val x < 65536 -> IZR (cast_f32 0 65535 x) <= val x < IZR (cast_f32 0 65535 x) + 1 /\ (0 <= cast_f32 0 65535 x)%Z.
Proof.
  destruct x as [s|s| |s m e]; try discriminate; intros _ H.
  - cbn. cbn in H. split; [lra|lia].
  - unfold val, SF2R, F2R in H. destruct s.
    { exfalso. cbn [Defs.Fnum Defs.Fexp cond_Zopp] in H. assert (0 < bpow radix2 e) by apply bpow_gt_0. assert (IZR (Z.neg m) < 0) by (apply IZR_lt; lia). cbn in H. nra. }
    cbn [Defs.Fnum Defs.Fexp cond_Zopp] in H. unfold val, SF2R, F2R. cbn [Defs.Fnum Defs.Fexp cond_Zopp]. unfold cast_f32.
    set (t := (if 0 <=? e then Z.pos m * 2 ^ e else Z.pos m / 2 ^ - e)%Z).
    assert (B : IZR t <= IZR (Z.pos m) * bpow radix2 e < IZR t + 1).
    { unfold t. destruct (Z.leb_spec 0 e).
      - rewrite mult_IZR, (IZR_Zpower radix2) by assumption. lra.
      - assert (P : (0 < 2 ^ - e)%Z) by (apply Z.pow_pos_nonneg; lia). pose proof (Z.div_mod (Z.pos m) (2 ^ - e) ltac:(lia)) as D. pose proof (Z.mod_pos_bound (Z.pos m) _ P) as Q.
        set (k := (2 ^ - e)%Z) in *. set (d := (Z.pos m / k)%Z) in *. assert (E : bpow radix2 e = / IZR k).
        { unfold k. rewrite (IZR_Zpower radix2) by lia. rewrite <- bpow_opp. f_equal. lia. }
        rewrite E. assert (Pk : 0 < IZR k) by (apply IZR_lt; lia). assert (L1 : IZR d * IZR k <= IZR (Z.pos m)) by (rewrite <- mult_IZR; apply IZR_le; nia).
        assert (L2 : IZR (Z.pos m) < (IZR d + 1) * IZR k) by (rewrite <- (plus_IZR d 1), <- mult_IZR; apply IZR_lt; nia).
        split.
        + apply (Rmult_le_reg_r (IZR k)); [exact Pk|]. rewrite Rmult_assoc, Rinv_l by lra. lra.
        + apply (Rmult_lt_reg_r (IZR k)); [exact Pk|]. rewrite Rmult_assoc, Rinv_l by lra. lra. }
    assert (T0 : (0 <= t)%Z). { unfold t. destruct (Z.leb_spec 0 e); [nia|]. apply Z.div_pos; [lia|]. apply Z.pow_pos_nonneg; lia. }
    assert (T1 : (t < 65536)%Z) by (apply lt_IZR; lra). replace (Z.max 0 (Z.min 65535 t)) with t by lia. split; [exact B|exact T0].
Qed.
Definition p32 : R := 13176795 / 4194304.
Lemma half_pi_real : valid half_pi /\ fin half_pi /\ val half_pi = p32 / 2.
Proof. split; [reflexivity|]. split; [reflexivity|]. unfold val. replace half_pi with (S754_finite false 13176795 (-23)) by reflexivity. unfold SF2R, F2R. cbn [cond_Zopp Defs.Fnum Defs.Fexp]. change (bpow radix2 (-23)) with (/ 8388608). unfold p32. lra. Qed.
Lemma two_pi_real : valid two_pi /\ fin two_pi /\ val two_pi = 2 * p32.
Proof. split; [reflexivity|]. split; [reflexivity|]. unfold val. replace two_pi with (S754_finite false 13176795 (-21)) by reflexivity. unfold SF2R, F2R. cbn [cond_Zopp Defs.Fnum Defs.Fexp]. change (bpow radix2 (-21)) with (/ 2097152). unfold p32. lra. Qed.
Lemma k4096 : valid (of_bits 0x45800000) /\ fin (of_bits 0x45800000) /\ val (of_bits 0x45800000) = 4096.
Proof. split; [reflexivity|]. split; [reflexivity|]. unfold val. replace (of_bits 0x45800000) with (S754_finite false 8388608 (-11)) by reflexivity. unfold SF2R, F2R. cbn [cond_Zopp Defs.Fnum Defs.Fexp]. change (bpow radix2 (-11)) with (/ 2048). unfold p32. lra. Qed.
Lemma small_big e x : (-149 <= e < 128)%Z -> Rabs x <= bpow radix2 e -> Rabs (rn x) < big.
Proof. intros H B. eapply Rle_lt_trans; [apply (rn_abs_le x e); [lia|exact B]|]. apply bpow_big. lia. Qed.
Lemma adc_real y : valid y -> fin y -> Rabs (val y) <= p32 ->
  exists turn, (turn = 0 \/ turn = 1) /\ let r := ((val y - p32 / 2) / (2 * p32) + turn) * 4096 in
  r - 1 - 1 / 500 < IZR (Z.of_N (adc y)) <= r + 1 / 500 /\ (adc y <= 4096)%N.
Proof.
  intros V F B. destruct half_pi_real as (Vh & Fh & Hh). destruct two_pi_real as (Vt & Ft & Ht). destruct k4096 as (Vk & Fk & Hk).
  assert (P : 3.1415 < p32 < 3.1416) by (unfold p32; lra). apply Rabs_le_inv in B. set (Y := val y) in *.
  unfold adc. assert (B8 : bpow radix2 3 = 8) by reflexivity. assert (E22 : bpow radix2 (3 - 25) = / 4194304) by reflexivity.
  destruct (fsub_real y half_pi V Vh F Fh) as [Fa Ha]. { apply (small_big 3); [lia|]. rewrite Hh, B8. apply Rabs_le. fold Y. lra. }
  rewrite Hh in Ha. fold Y in Ha. set (a := fsub y half_pi) in *. assert (Va : valid a) by (apply fsub_valid; assumption).
  pose proof (rn_near 3 (Y - p32 / 2) ltac:(lia) ltac:(rewrite B8; apply Rabs_def1; lra)) as Ea. rewrite E22, <- Ha in Ea. apply Rabs_le_inv in Ea.
  set (A := val a) in *.
  assert (M : exists b turn, (if flt a (S754_zero false) then fadd a two_pi else a) = b /\ (turn = 0 \/ turn = 1) /\ valid b /\ fin b /\
    0 <= val b <= 2 * p32 /\ Rabs (val b - (Y - p32 / 2 + turn * (2 * p32))) <= / 2000000).
  { rewrite flt_real by (assumption || reflexivity). fold A. replace (val (S754_zero false)) with 0 by reflexivity. destruct (Rlt_bool_spec A 0) as [L|L].
    - destruct (fadd_real a two_pi Va Vt Fa Ft) as [Fb Hb]. { apply (small_big 3); [lia|]. rewrite Ht, B8. fold A. apply Rabs_le. lra. }
      rewrite Ht in Hb. fold A in Hb. exists (fadd a two_pi), 1. split; [reflexivity|]. split; [auto|]. split; [apply fadd_valid; assumption|]. split; [exact Fb|].
      pose proof (rn_near 3 (A + 2 * p32) ltac:(lia) ltac:(rewrite B8; apply Rabs_def1; lra)) as Eb. rewrite E22, <- Hb in Eb. apply Rabs_le_inv in Eb. split.
      + split; [lra|]. rewrite Hb, <- Ht, <- (rn_val two_pi Vt). apply rn_le. rewrite rn_val by exact Vt. lra.
      + apply Rabs_le. lra.
    - exists a, 0. do 2 (split; [auto|]). split; [exact Va|]. split; [exact Fa|]. fold A. split; [lra|]. apply Rabs_le. lra. }
  destruct M as (b & turn & -> & Tn & Vb & Fb & Bb & Eb). exists turn. split; [exact Tn|]. cbv zeta. apply Rabs_le_inv in Eb.
  assert (Q0 : 0 <= val b / (2 * p32) <= 1). { split; [apply Rmult_le_pos; [lra|left; apply Rinv_0_lt_compat; lra]|]. apply (Rmult_le_reg_r (2 * p32)); [lra|]. unfold Rdiv. rewrite Rmult_assoc, Rinv_l by lra. lra. }
  destruct (fdiv_real b two_pi Vb Vt Fb Ft) as [Fq Hq]. { rewrite Ht. lra. } { apply (small_big 3); [lia|]. rewrite Ht, B8. apply Rabs_le. lra. }
  rewrite Ht in Hq. set (q := fdiv b two_pi) in *. assert (Vq : valid q) by (apply fdiv_valid; assumption).
  pose proof (rn_near 1 (val b / (2 * p32)) ltac:(lia) ltac:(change (bpow radix2 1) with 2; apply Rabs_def1; lra)) as Eq1. rewrite <- Hq in Eq1. change (bpow radix2 (1 - 25)) with (/ 16777216) in Eq1. apply Rabs_le_inv in Eq1.
  assert (Q1 : 0 <= val q <= 1).
  { rewrite Hq. split; [rewrite <- rn_0; apply rn_le; lra|]. assert (X : rn 1 = 1) by exact (rn_bpow 0 ltac:(lia)). rewrite <- X. apply rn_le. lra. }
  assert (B12 : bpow radix2 12 = 4096) by reflexivity. assert (B13 : bpow radix2 13 = 8192) by reflexivity.
  destruct (fmul_real q (of_bits 0x45800000) Vq Vk Fq Fk) as [Fm Hm]. { apply (small_big 13); [lia|]. rewrite Hk, B13. apply Rabs_le. lra. }
  rewrite Hk in Hm. set (w := fmul q (of_bits 0x45800000)) in *.
  pose proof (rn_near 13 (val q * 4096) ltac:(lia) ltac:(rewrite B13; apply Rabs_def1; lra)) as Em. rewrite <- Hm in Em. change (bpow radix2 (13 - 25)) with (/ 4096) in Em. apply Rabs_le_inv in Em.
  assert (W1 : 0 <= val w <= 4096).
  { rewrite Hm. split; [rewrite <- rn_0; apply rn_le; lra|]. assert (X : rn 4096 = 4096) by exact (rn_bpow 12 ltac:(lia)). apply Rle_trans with (rn 4096); [apply rn_le; lra|rewrite X; lra]. }
  destruct (cast_real w Fm ltac:(lra)) as [Cw C0]. rewrite Z2N.id by exact C0.
  assert (R : Rabs (val b / (2 * p32) - ((Y - p32 / 2) / (2 * p32) + turn)) <= / 12000000).
  { replace (val b / (2 * p32) - ((Y - p32 / 2) / (2 * p32) + turn)) with ((val b - (Y - p32 / 2 + turn * (2 * p32))) * / (2 * p32)) by (field; lra).
    rewrite Rabs_mult, (Rabs_pos_eq (/ (2 * p32))) by (left; apply Rinv_0_lt_compat; lra). apply Rabs_le in Eb.
    apply Rle_trans with (/ 2000000 * / 6). { apply Rmult_le_compat; try apply Rabs_pos; [left; apply Rinv_0_lt_compat; lra|exact Eb|apply Rinv_le; lra]. } lra. }
  apply Rabs_le_inv in R. split; [lra|]. assert (Z : (cast_f32 0 65535 w <= 4096)%Z) by (apply le_IZR; lra). lia.
Qed.
