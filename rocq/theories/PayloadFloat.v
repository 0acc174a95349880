(** The scaling of the inertial unit is exact: proofs through the real numbers. *)
From Coq Require Import NArith ZArith QArith Qabs Qreals Bool Reals Psatz SpecFloat Lia.
From Flocq Require Import Core BinarySingleNaN.
From Verif Require Import Base FloatModel FloatFacts PayloadModel PayloadSpec.
Local Open Scope Z_scope.

Lemma rn_exact m e : Z.abs m < 2 ^ 24 -> -149 <= e -> rn (IZR m * bpow radix2 e) = (IZR m * bpow radix2 e)%R.
Proof.
  intros H E. unfold rn. apply round_generic; [apply valid_rnd_round_mode|].
  change fx with (FLT_exp (-149) 24). apply generic_format_FLT. exists (Float radix2 m e); [reflexivity|exact H|exact E].
Qed.
Lemma big_exact m e : Z.abs m < 2 ^ 24 -> -149 <= e <= 100 -> (Rabs (rn (IZR m * bpow radix2 e)) < big)%R.
Proof.
  intros H E. rewrite rn_exact by lia. rewrite Rabs_mult, (Rabs_pos_eq (bpow radix2 e)) by apply bpow_ge_0.
  apply Rlt_trans with (bpow radix2 24 * bpow radix2 e)%R.
  - apply Rmult_lt_compat_r; [apply bpow_gt_0|]. rewrite <- abs_IZR. change (bpow radix2 24) with (IZR (2 ^ 24)). now apply IZR_lt.
  - rewrite <- bpow_plus. apply bpow_big. lia.
Qed.

Lemma f32_of_z_real z : Z.abs z < 2 ^ 24 -> valid (f32_of_z z) /\ fin (f32_of_z z) /\ val (f32_of_z z) = IZR z.
Proof.
  intros H. unfold f32_of_z. rewrite binary_normalize_equiv. split; [apply valid_b|].
  pose proof (binary_normalize_correct 24 128 prec_ok emax_ok mode_NE z 0 false) as C.
  assert (F : F2R (Float radix2 z 0) = (IZR z * bpow radix2 0)%R) by reflexivity.
  cbv zeta in C. rewrite F in C. fold (rn (IZR z * bpow radix2 0)) in C. rewrite Rlt_bool_true in C by (apply big_exact; lia).
  destruct C as (C1 & C2 & _). unfold fin. rewrite is_finite_SF_B2SF. split; [exact C2|].
  rewrite val_b, C1, rn_exact by lia. change (bpow radix2 0) with 1%R. ring.
Qed.

(** raw / 32768 * k, where k = m * 2 ^ e. *)
Lemma scaled raw k m e : -32768 <= raw < 32768 -> 0 < k < 2 ^ 24 -> k = m * 2 ^ e -> 0 <= e -> 0 < m < 2 ^ 8 ->
  valid (fdiv (f32_of_z raw) (f32_of 32768)) /\ fin (fdiv (f32_of_z raw) (f32_of 32768)) /\
  val (fdiv (f32_of_z raw) (f32_of 32768)) = (IZR raw * bpow radix2 (-15))%R /\
  let x := fmul (fdiv (f32_of_z raw) (f32_of 32768)) (f32_of_z k) in
  fin x /\ val x = (IZR raw * IZR k / 32768)%R.
Proof.
  intros Hr Hk Ek He Hm. destruct (f32_of_z_real raw) as (V1 & F1 & R1); [lia|].
  assert (V2 : valid (f32_of 32768)) by apply f32_of_valid.
  assert (F2 : fin (f32_of 32768)) by reflexivity.
  assert (R2 : val (f32_of 32768) = 32768%R).
  { change (f32_of 32768) with (f32_of_z 32768). apply f32_of_z_real. lia. }
  assert (Q : (val (f32_of_z raw) / val (f32_of 32768) = IZR raw * bpow radix2 (-15))%R).
  { rewrite R1, R2. change (bpow radix2 (-15)) with (/ 32768)%R. reflexivity. }
  assert (D : fin (fdiv (f32_of_z raw) (f32_of 32768)) /\ val (fdiv (f32_of_z raw) (f32_of 32768)) = (IZR raw * bpow radix2 (-15))%R).
  { rewrite <- (rn_exact raw (-15)), <- Q by lia. apply fdiv_real; auto.
    - rewrite R2. lra.
    - rewrite Q. apply big_exact; lia. }
  destruct D as [F3 R3].
  assert (V3' : valid (fdiv (f32_of_z raw) (f32_of 32768))) by now apply fdiv_valid.
  split; [assumption|]. split; [assumption|]. split; [assumption|]. cbv zeta.
  destruct (f32_of_z_real k) as (V4 & F4 & R4); [lia|].
  assert (P : (val (fdiv (f32_of_z raw) (f32_of 32768)) * val (f32_of_z k) = IZR (raw * m) * bpow radix2 (e - 15))%R).
  { rewrite R3, R4, Ek, !mult_IZR. change 2 with (radix_val radix2). rewrite (IZR_Zpower radix2) by assumption.
    unfold Z.sub. rewrite bpow_plus. change (- (15))%Z with (-15)%Z. ring. }
  assert (B : Z.abs (raw * m) < 2 ^ 24). { rewrite Z.abs_mul, (Z.abs_eq m) by lia. nia. }
  assert (E1 : -149 <= e - 15 <= 100).
  { assert (e < 24); [|lia]. destruct (Z.lt_ge_cases e 24) as [|G]; [assumption|exfalso].
    assert (2 ^ 24 <= 2 ^ e) by (apply Z.pow_le_mono_r; lia). nia. }
  destruct (fmul_real (fdiv (f32_of_z raw) (f32_of 32768)) (f32_of_z k)) as [F5 R5]; auto.
  { rewrite P. now apply big_exact. }
  split; [assumption|]. rewrite R5, P, rn_exact by lia. rewrite <- P, R3, R4.
  change (bpow radix2 (-15)) with (/ 32768)%R. field.
Qed.

Lemma Q2R_inject z : Q2R (inject_Z z) = IZR z.
Proof. unfold Q2R, inject_Z. cbn. field. Qed.
Lemma stands x q : fin x -> val x = Q2R q -> stands_for x q.
Proof.
  unfold fin, val, stands_for. destruct x as [s|s| |s m e]; cbn [is_finite_SF SF2R]; try discriminate; intros _ H.
  - apply eqR_Qeq. rewrite <- H. symmetry. apply (Q2R_inject 0).
  - apply eqR_Qeq. rewrite Q2R_mult, !Q2R_inject, <- H, mult_IZR.
    change 2 with (radix_val radix2). rewrite !(IZR_Zpower radix2) by lia.
    unfold F2R. cbn [Fnum Fexp]. rewrite Rmult_assoc, <- bpow_plus. replace (e + Z.max 0 (- e)) with (Z.max 0 e) by lia.
    destruct s; reflexivity.
Qed.

Lemma scaled_stands raw k m e : -32768 <= raw < 32768 -> 0 < k < 2 ^ 24 -> k = m * 2 ^ e -> 0 <= e -> 0 < m < 2 ^ 8 ->
  stands_for (fmul (fdiv (f32_of_z raw) (f32_of 32768)) (f32_of_z k)) (inject_Z raw * (inject_Z k * (1 # 32768))).
Proof.
  intros Hr Hk Ek He Hm. destruct (scaled raw k m e Hr Hk Ek He Hm) as (_ & _ & _ & F & R). apply stands; [exact F|].
  rewrite R, !Q2R_mult, !Q2R_inject. unfold Q2R. cbn. field.
Qed.
Lemma stands_eq x p q : p == q -> stands_for x p -> stands_for x q.
Proof. intros E. destruct x; cbn; try contradiction; now rewrite E. Qed.

Lemma acc_exact raw : -32768 <= raw < 32768 -> stands_for (acc_g raw) (inject_Z raw * (16 # 32768)).
Proof.
  intros H. apply (stands_eq _ (inject_Z raw * (inject_Z 16 * (1 # 32768)))); [reflexivity|].
  apply (scaled_stands raw 16 1 4); auto; lia.
Qed.
Lemma gyro_exact raw : -32768 <= raw < 32768 -> stands_for (gyro_dps raw) (inject_Z raw * (2000 # 32768)).
Proof.
  intros H. apply (stands_eq _ (inject_Z raw * (inject_Z 2000 * (1 # 32768)))); [reflexivity|].
  apply (scaled_stands raw 2000 125 4); auto; lia.
Qed.
Lemma angle_exact raw : -32768 <= raw < 32768 -> stands_for (angle_deg raw) (inject_Z raw * (180 # 32768)).
Proof.
  intros H. apply (stands_eq _ (inject_Z raw * (inject_Z 180 * (1 # 32768)))); [reflexivity|].
  apply (scaled_stands raw 180 45 2); auto; lia.
Qed.

(** The number a finite float stands for. *)
Definition number (x : f32) : Q :=
  match x with
  | S754_finite s m e => inject_Z ((if s then Zneg m else Zpos m) * 2 ^ Z.max 0 e) / inject_Z (2 ^ Z.max 0 (- e))
  | _ => 0
  end.
Lemma number_ok x : fin x -> stands_for x (number x) /\ val x = Q2R (number x).
Proof.
  unfold fin. destruct x as [s|s| |s m e]; cbn [is_finite_SF]; try discriminate; intros _.
  - split; [reflexivity|]. unfold val. cbn. symmetry. apply (Q2R_inject 0).
  - assert (N : ~ inject_Z (2 ^ Z.max 0 (- e)) == 0).
    { intros H. change 0%Q with (inject_Z 0) in H. apply Qeq_eqR in H. rewrite !Q2R_inject in H. apply eq_IZR in H.
      assert (0 < 2 ^ Z.max 0 (- e)) by (apply Z.pow_pos_nonneg; lia). lia. }
    split; [unfold stands_for, number; now rewrite Qmult_comm, Qmult_div_r|].
    unfold val, number. cbn [SF2R]. rewrite Q2R_div, !Q2R_inject, mult_IZR by exact N.
    change 2 with (radix_val radix2). rewrite !(IZR_Zpower radix2) by lia. unfold F2R. cbn [Fnum Fexp].
    replace (bpow radix2 e) with (bpow radix2 (Z.max 0 e) / bpow radix2 (Z.max 0 (- e)))%R.
    + unfold Rdiv. rewrite <- Rmult_assoc. now destruct s.
    + unfold Rdiv. rewrite <- bpow_opp, <- bpow_plus. f_equal. lia.
Qed.
Lemma mag_small raw : -32768 <= raw < 32768 -> exists q, stands_for (mag_nt raw) q /\ (Qabs q <= 8334 # 1000)%Q.
Proof.
  intros H. destruct (scaled raw 16 1 4) as (V & F & R & _); auto; try lia.
  set (c := of_bits 0x410553f8). assert (Vc : valid c) by reflexivity. assert (Fc : fin c) by reflexivity.
  assert (Rc : val c = (8737784 / 1048576)%R).
  { replace c with (S754_finite false 8737784 (-20)) by reflexivity.
    change (IZR 8737784 * / IZR (2 ^ 20) = 8737784 / 1048576)%R. change (2 ^ 20) with 1048576. reflexivity. }
  assert (A : (Rabs (val (fdiv (f32_of_z raw) (f32_of 32768)) * val c) <= val c)%R).
  { rewrite Rabs_mult, (Rabs_pos_eq (val c)) by (rewrite Rc; lra). rewrite <- (Rmult_1_l (val c)) at 2.
    apply Rmult_le_compat_r; [rewrite Rc; lra|]. rewrite R. change (bpow radix2 (-15)) with (/ 32768)%R.
    apply Rabs_le. assert (-32768 <= IZR raw <= 32768)%R by (split; apply IZR_le; lia). lra. }
  assert (B : (Rabs (rn (val (fdiv (f32_of_z raw) (f32_of 32768)) * val c)) <= val c)%R).
  { apply Rabs_le. apply Rabs_le_inv in A. split.
    - rewrite <- (rn_val c Vc) at 1. rewrite <- rn_opp. apply rn_le. lra.
    - rewrite <- (rn_val c Vc) at 2. apply rn_le. lra. }
  destruct (fmul_real (fdiv (f32_of_z raw) (f32_of 32768)) c) as [F5 R5]; auto.
  { eapply Rle_lt_trans; [exact B|]. rewrite Rc. apply Rlt_trans with (bpow radix2 4); [change (bpow radix2 4) with 16%R; lra|apply bpow_big; lia]. }
  change (fmul (fdiv (f32_of_z raw) (f32_of 32768)) c) with (mag_nt raw) in *.
  destruct (number_ok _ F5) as [S N]. exists (number (mag_nt raw)). split; [exact S|].
  rewrite <- R5, N, Rc in B. apply Rabs_le_inv in B.
  apply Qabs_Qle_condition. split; apply Rle_Qle.
  - rewrite Q2R_opp. unfold Q2R at 1. cbn [Qnum Qden]. lra.
  - unfold Q2R at 2. cbn [Qnum Qden]. lra.
Qed.
