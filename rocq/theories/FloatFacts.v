(** The numbers of FloatModel and the real numbers: a bridge to Flocq. *)
From Coq Require Import NArith ZArith Bool Reals Psatz SpecFloat Lia.
From Flocq Require Import Core BinarySingleNaN.
From Verif Require Import Base BincodeModel BincodeSpec FloatModel.
Local Open Scope Z_scope.

Lemma prec_ok : Prec_gt_0 24. Proof. reflexivity. Qed.
Lemma emax_ok : Prec_lt_emax 24 128. Proof. reflexivity. Qed.
#[global] Existing Instance prec_ok.
#[global] Existing Instance emax_ok.
Notation b32 := (binary_float 24 128).
Notation fx := (SpecFloat.fexp 24 128).
#[global] Instance fx_valid : Valid_exp fx := FLT_exp_valid (SpecFloat.emin 24 128) 24.
#[global] Instance fx_mono : Monotone_exp fx := FLT_exp_monotone (SpecFloat.emin 24 128) 24.
(** Rounding to the nearest f32. *)
Definition rn (x : R) : R := round radix2 fx (round_mode mode_NE) x.
Definition valid (x : f32) : Prop := valid_binary 24 128 x = true.
Definition fin (x : f32) : Prop := is_finite_SF x = true.
Definition val (x : f32) : R := SF2R radix2 x.

Lemma sf_of x : valid x -> exists b : b32, x = B2SF b.
Proof. intros H. exists (SF2B x H). symmetry. apply B2SF_SF2B. Qed.
Lemma valid_b (b : b32) : valid (B2SF b).
Proof. apply valid_binary_B2SF. Qed.
Lemma val_b (b : b32) : val (B2SF b) = B2R b.
Proof. apply SF2R_B2SF. Qed.

Lemma round_nearest_even_equiv s m l : round_nearest_even m l = choice_mode mode_NE s m l.
Proof. case l; [reflexivity|intro c]. case c; [|reflexivity..]. simpl. unfold Round.cond_incr. now case Z.even. Qed.
Lemma binary_round_aux_equiv sx mx ex lx : SpecFloat.binary_round_aux 24 128 sx mx ex lx = binary_round_aux 24 128 mode_NE sx mx ex lx.
Proof. unfold SpecFloat.binary_round_aux, binary_round_aux. set (mrse' := shr_fexp _ _ _). case mrse'; intros mrs' e'; simpl. now rewrite (round_nearest_even_equiv sx). Qed.
Lemma binary_round_equiv s m e : SpecFloat.binary_round 24 128 s m e = binary_round 24 128 mode_NE s m e.
Proof. unfold SpecFloat.binary_round, binary_round, shl_align_fexp. set (mez := shl_align _ _ _); case mez as [mz ez]. apply binary_round_aux_equiv. Qed.
Lemma binary_normalize_equiv m e szero : SpecFloat.binary_normalize 24 128 m e szero = B2SF (binary_normalize 24 128 prec_ok emax_ok mode_NE m e szero).
Proof. case m as [|p|p]; [now simpl| |]; simpl; rewrite B2SF_SF2B; apply binary_round_equiv. Qed.
Lemma fmul_equiv (x y : b32) : fmul (B2SF x) (B2SF y) = B2SF (Bmult mode_NE x y).
Proof.
  destruct x as [sx|sx| |sx mx ex Bx], y as [sy|sy| |sy my ey By]; [now trivial..|]. unfold fmul. simpl. rewrite B2SF_SF2B. apply binary_round_aux_equiv.
Qed.
Lemma fadd_equiv (x y : b32) : fadd (B2SF x) (B2SF y) = B2SF (Bplus mode_NE x y).
Proof.
  destruct x as [sx|sx| |sx mx ex Bx], y as [sy|sy| |sy my ey By]; [now (trivial || unfold fadd; simpl; case Bool.eqb)..|]. apply binary_normalize_equiv.
Qed.
Lemma fsub_equiv (x y : b32) : fsub (B2SF x) (B2SF y) = B2SF (Bminus mode_NE x y).
Proof.
  destruct x as [sx|sx| |sx mx ex Bx], y as [sy|sy| |sy my ey By]; [now (trivial || unfold fsub; simpl; case Bool.eqb)..|].
  unfold fsub. simpl. unfold Zminus. rewrite <- cond_Zopp_negb. apply binary_normalize_equiv.
Qed.
Lemma fdiv_equiv (x y : b32) : fdiv (B2SF x) (B2SF y) = B2SF (Bdiv mode_NE x y).
Proof.
  destruct x as [sx|sx| |sx mx ex Bx], y as [sy|sy| |sy my ey By]; [now (trivial || unfold fdiv; simpl; case Bool.eqb)..|].
  unfold fdiv. simpl. rewrite B2SF_SF2B. set (melz := SFdiv_core_binary _ _ _ _ _ _). case melz as [[mz ez] lz]. apply binary_round_aux_equiv.
Qed.
Lemma fopp_equiv (x : b32) : fopp (B2SF x) = B2SF (Bopp x).
Proof. now destruct x. Qed.

Lemma fmul_valid x y : valid x -> valid y -> valid (fmul x y).
Proof. intros Hx Hy. destruct (sf_of x Hx) as [a ->], (sf_of y Hy) as [b ->]. rewrite fmul_equiv. apply valid_b. Qed.
Lemma fadd_valid x y : valid x -> valid y -> valid (fadd x y).
Proof. intros Hx Hy. destruct (sf_of x Hx) as [a ->], (sf_of y Hy) as [b ->]. rewrite fadd_equiv. apply valid_b. Qed.
Lemma fsub_valid x y : valid x -> valid y -> valid (fsub x y).
Proof. intros Hx Hy. destruct (sf_of x Hx) as [a ->], (sf_of y Hy) as [b ->]. rewrite fsub_equiv. apply valid_b. Qed.
Lemma fdiv_valid x y : valid x -> valid y -> valid (fdiv x y).
Proof. intros Hx Hy. destruct (sf_of x Hx) as [a ->], (sf_of y Hy) as [b ->]. rewrite fdiv_equiv. apply valid_b. Qed.
Lemma fopp_valid x : valid x -> valid (fopp x).
Proof. now destruct x. Qed.
Lemma f32_of_valid n : valid (f32_of n).
Proof. unfold f32_of. rewrite binary_normalize_equiv. apply valid_b. Qed.
Lemma fopp_fin x : fin x -> fin (fopp x).
Proof. now destruct x. Qed.
Lemma fopp_val x : val (fopp x) = (- val x)%R.
Proof. destruct x as [s|s| |s m e]; unfold val; simpl; try lra. rewrite <- F2R_Zopp. f_equal. destruct s; reflexivity. Qed.

Local Open Scope R_scope.
Definition big : R := bpow radix2 128.
Lemma fmul_real x y : valid x -> valid y -> fin x -> fin y -> Rabs (rn (val x * val y)) < big -> fin (fmul x y) /\ val (fmul x y) = rn (val x * val y).
Proof.
  intros Hx Hy. destruct (sf_of x Hx) as [a ->], (sf_of y Hy) as [b ->]. unfold fin. rewrite fmul_equiv, !is_finite_SF_B2SF, !val_b. intros Fa Fb B.
  assert (C := Bmult_correct 24 128 _ _ mode_NE a b). rewrite Rlt_bool_true in C by exact B. destruct C as (C1 & C2 & _). rewrite Fa, Fb in C2. auto.
Qed.
Lemma fadd_real x y : valid x -> valid y -> fin x -> fin y -> Rabs (rn (val x + val y)) < big -> fin (fadd x y) /\ val (fadd x y) = rn (val x + val y).
Proof.
  intros Hx Hy. destruct (sf_of x Hx) as [a ->], (sf_of y Hy) as [b ->]. unfold fin. rewrite fadd_equiv, !is_finite_SF_B2SF, !val_b. intros Fa Fb B.
  assert (C := Bplus_correct 24 128 _ _ mode_NE a b Fa Fb). rewrite Rlt_bool_true in C by exact B. destruct C as (C1 & C2 & _). auto.
Qed.
Lemma fsub_real x y : valid x -> valid y -> fin x -> fin y -> Rabs (rn (val x - val y)) < big -> fin (fsub x y) /\ val (fsub x y) = rn (val x - val y).
Proof.
  intros Hx Hy. destruct (sf_of x Hx) as [a ->], (sf_of y Hy) as [b ->]. unfold fin. rewrite fsub_equiv, !is_finite_SF_B2SF, !val_b. intros Fa Fb B.
  assert (C := Bminus_correct 24 128 _ _ mode_NE a b Fa Fb). rewrite Rlt_bool_true in C by exact B. destruct C as (C1 & C2 & _). auto.
Qed.
Lemma fdiv_real x y : valid x -> valid y -> fin x -> fin y -> val y <> 0 -> Rabs (rn (val x / val y)) < big -> fin (fdiv x y) /\ val (fdiv x y) = rn (val x / val y).
Proof.
  intros Hx Hy. destruct (sf_of x Hx) as [a ->], (sf_of y Hy) as [b ->]. unfold fin. rewrite fdiv_equiv, !is_finite_SF_B2SF, !val_b. intros Fa Fb Nz B.
  assert (C := Bdiv_correct 24 128 _ _ mode_NE a b Nz). rewrite Rlt_bool_true in C by exact B. destruct C as (C1 & C2 & _). rewrite Fa in C2. auto.
Qed.
Lemma f32_of_real n : Rabs (rn (IZR (Z.of_N n))) < big -> fin (f32_of n) /\ val (f32_of n) = rn (IZR (Z.of_N n)).
Proof.
  unfold fin, f32_of. rewrite binary_normalize_equiv, is_finite_SF_B2SF, val_b. intros B.
  assert (C := binary_normalize_correct 24 128 _ _ mode_NE (Z.of_N n) 0 false). cbv zeta in C.
  replace (F2R (Float radix2 (Z.of_N n) 0)) with (IZR (Z.of_N n)) in C by (unfold F2R; simpl; ring).
  rewrite Rlt_bool_true in C by exact B. destruct C as (C1 & C2 & _). auto.
Qed.
Lemma fle_real x y : valid x -> valid y -> fin x -> fin y -> fle x y = Rle_bool (val x) (val y).
Proof.
  intros Hx Hy. destruct (sf_of x Hx) as [a ->], (sf_of y Hy) as [b ->]. unfold fin. rewrite !is_finite_SF_B2SF, !val_b. intros Fa Fb. apply Bleb_correct; assumption.
Qed.
Lemma flt_real x y : valid x -> valid y -> fin x -> fin y -> flt x y = Rlt_bool (val x) (val y).
Proof.
  intros Hx Hy. destruct (sf_of x Hx) as [a ->], (sf_of y Hy) as [b ->]. unfold fin. rewrite !is_finite_SF_B2SF, !val_b. intros Fa Fb. apply Bltb_correct; assumption.
Qed.
Lemma fne_real x y : valid x -> valid y -> fin x -> fin y -> fne x y = negb (Req_bool (val x) (val y)).
Proof.
  intros Hx Hy. destruct (sf_of x Hx) as [a ->], (sf_of y Hy) as [b ->]. unfold fin. rewrite !is_finite_SF_B2SF, !val_b. intros Fa Fb. unfold fne. f_equal. apply Beqb_correct; assumption.
Qed.
(** Rounding. *)
Lemma rn_le x y : x <= y -> rn x <= rn y.
Proof. intros H. unfold rn. apply round_le; auto with typeclass_instances. Qed.
Lemma rn_val x : valid x -> rn (val x) = val x.
Proof.
  intros H. destruct (sf_of x H) as [b ->]. rewrite val_b. unfold rn. apply round_generic; auto with typeclass_instances. apply generic_format_B2R.
Qed.
Lemma rn_bpow e : (-149 <= e)%Z -> rn (bpow radix2 e) = bpow radix2 e.
Proof.
  intros H. unfold rn. apply round_generic; auto with typeclass_instances. apply generic_format_bpow. unfold SpecFloat.fexp, SpecFloat.emin. lia.
Qed.
Lemma rn_opp x : rn (- x) = - rn x.
Proof. unfold rn. apply round_NE_opp. Qed.
Lemma rn_abs_le x e : (-149 <= e)%Z -> Rabs x <= bpow radix2 e -> Rabs (rn x) <= bpow radix2 e.
Proof.
  intros H B. apply Rabs_le. apply Rabs_le_inv in B. split.
  - rewrite <- (rn_bpow e H), <- rn_opp. apply rn_le. lra.
  - rewrite <- (rn_bpow e H). apply rn_le. lra.
Qed.
Lemma bpow_big e : (e < 128)%Z -> bpow radix2 e < big.
Proof. intros H. unfold big. apply bpow_lt. auto. Qed.
(** Not a NaN. *)
Lemma fin_not_nan x : fin x -> x <> S754_nan.
Proof. now destruct x. Qed.
Lemma fmul_not_nan x y : valid x -> valid y -> fin x -> fin y -> fmul x y <> S754_nan.
Proof.
  intros Hx Hy. destruct (sf_of x Hx) as [a ->], (sf_of y Hy) as [b ->]. unfold fin. rewrite fmul_equiv, !is_finite_SF_B2SF. intros Fa Fb.
  assert (C := Bmult_correct 24 128 _ _ mode_NE a b). destruct (Rlt_bool _ _).
  - destruct C as (_ & C & _). rewrite Fa, Fb in C. apply fin_not_nan. unfold fin. rewrite is_finite_SF_B2SF. exact C.
  - rewrite C. discriminate.
Qed.
Lemma fadd_not_nan x y : valid x -> valid y -> x <> S754_nan -> fin y -> fadd x y <> S754_nan.
Proof.
  intros Hx Hy. destruct (sf_of x Hx) as [a ->], (sf_of y Hy) as [b ->]. unfold fin. rewrite fadd_equiv, !is_finite_SF_B2SF. intros Na Fb.
  destruct (is_finite a) eqn:Fa.
  - assert (C := Bplus_correct 24 128 _ _ mode_NE a b Fa Fb). destruct (Rlt_bool _ _).
    + destruct C as (_ & C & _). apply fin_not_nan. unfold fin. rewrite is_finite_SF_B2SF. exact C.
    + destruct C as [C _]. rewrite C. discriminate.
  - destruct a, b; try discriminate; try (elim Na; reflexivity).
Qed.
(** The nearest number is never further than zero. *)
Lemma rn_double x : Rabs (rn x) <= 2 * Rabs x.
Proof.
  destruct (round_N_pt radix2 fx (fun z => negb (Z.even z)) x) as [_ N0]. specialize (N0 0 (generic_format_0 _ _)).
  change (round radix2 fx (Znearest (fun z => negb (Z.even z))) x) with (rn x) in N0. rewrite Rminus_0_l, Rabs_Ropp in N0.
  assert (T := Rabs_triang (rn x - x) x). replace (rn x - x + x) with (rn x) in T by ring. lra.
Qed.
Lemma rn_0 : rn 0 = 0.
Proof. apply round_0. auto with typeclass_instances. Qed.
(** Adding a little to a number within a power of two stays within. *)
Lemma rn_stays e x y : (-100 <= e <= 126)%Z -> Rabs x <= bpow radix2 e -> Rabs y <= bpow radix2 (e - 25) -> Rabs (rn (x + y)) <= bpow radix2 e.
Proof.
  intros He Hx Hy. assert (U : rn (bpow radix2 e + bpow radix2 (e - 25)) <= bpow radix2 e).
  { unfold rn. apply round_N_le_midp; auto with typeclass_instances.
    - apply generic_format_bpow. unfold SpecFloat.fexp, SpecFloat.emin. lia.
    - rewrite succ_eq_pos by apply bpow_ge_0. rewrite ulp_bpow. replace (fx (e + 1)) with (e - 25 + 2)%Z by (unfold SpecFloat.fexp, SpecFloat.emin; lia).
      rewrite (bpow_plus radix2 (e - 25) 2). assert (0 < bpow radix2 (e - 25)) by apply bpow_gt_0. change (bpow radix2 2) with 4. lra. }
  apply Rabs_le_inv in Hx, Hy. apply Rabs_le. split.
  - rewrite <- (Ropp_involutive (rn (x + y))), <- rn_opp. apply Ropp_le_contravar. eapply Rle_trans; [apply rn_le|exact U]. lra.
  - eapply Rle_trans; [apply rn_le|exact U]. lra.
Qed.

Local Close Scope R_scope.
(** * Floats in bits *)
Lemma to_bits_of x : valid x -> of_bits (to_bits x) = x /\ ubits 32 (to_bits x).
Proof.
  unfold valid, ubits. destruct x as [s|s| |s m e]; cbn [valid_binary]; intros H.
  - destruct s; split; reflexivity.
  - destruct s; split; reflexivity.
  - split; reflexivity.
  - assert (Hb := H). unfold SpecFloat.bounded, canonical_mantissa in Hb. apply andb_prop in Hb. destruct Hb as [C Hemax].
    apply Zeq_bool_eq in C. apply Zle_bool_imp_le in Hemax. unfold SpecFloat.fexp, SpecFloat.emin in C.
    assert (D := Digits.Zpos_digits2_pos m). change (SpecFloat.digits2_pos m) with (Digits.digits2_pos m) in C. rewrite D in C.
    assert (Dg := Digits.Zdigits_correct radix2 (Zpos m)). cbn [Z.abs] in Dg. change (radix_val radix2) with 2%Z in Dg.
    set (k := Digits.Zdigits radix2 (Z.pos m)) in *.
    assert (K0 : (0 < k)%Z) by (apply Digits.Zdigits_gt_0; lia).
    assert (M24 : (Z.pos m < 2 ^ 24)%Z) by (assert (2 ^ k <= 2 ^ 24)%Z by (apply Z.pow_le_mono_r; lia); lia).
    unfold to_bits, of_bits. destruct (Z.ltb_spec (Z.pos m) (2 ^ 23)) as [Sm|Sm].
    + assert (e = -149)%Z.
      { assert (k <= 23)%Z. { destruct (Z.le_gt_cases k 23); auto. assert (2 ^ 23 <= 2 ^ (k - 1))%Z by (apply Z.pow_le_mono_r; lia). lia. } lia. }
      subst e. set (sg := if s then (2 ^ 31)%Z else 0%Z). rewrite Z2N.id by (subst sg; destruct s; lia).
      assert (Tb : Z.testbit (sg + Z.pos m) 31 = s).
      { rewrite Z.testbit_eqb by lia. subst sg. destruct s; [apply Z.eqb_eq|apply Z.eqb_neq]; lia. }
      rewrite Tb. assert (E1 : (((sg + Z.pos m) / 2 ^ 23) mod 256 = 0)%Z) by (subst sg; destruct s; lia). rewrite E1. cbn [Z.eqb].
      assert (E2 : ((sg + Z.pos m) mod 2 ^ 23 = Z.pos m)%Z) by (subst sg; destruct s; lia). rewrite E2. split; [reflexivity|]. change (2 ^ 32)%N with 4294967296%N. subst sg. destruct s; lia.
    + assert (k = 24)%Z. { destruct (Z.le_gt_cases k 23); [assert (2 ^ k <= 2 ^ 23)%Z by (apply Z.pow_le_mono_r; lia); lia|].
        destruct (Z.le_gt_cases k 24); [lia|]. assert (2 ^ 24 <= 2 ^ (k - 1))%Z by (apply Z.pow_le_mono_r; lia). lia. }
      assert (Er : (-149 <= e <= 104)%Z) by lia. set (sg := if s then (2 ^ 31)%Z else 0%Z). rewrite Z2N.id by (subst sg; destruct s; lia).
      set (v := ((e + 150) * 2 ^ 23 + (Z.pos m - 2 ^ 23))%Z).
      assert (Tb : Z.testbit (sg + v) 31 = s).
      { rewrite Z.testbit_eqb by lia. subst sg v. destruct s; [apply Z.eqb_eq|apply Z.eqb_neq]; lia. }
      rewrite Tb. assert (E1 : (((sg + v) / 2 ^ 23) mod 256 = e + 150)%Z) by (subst sg v; destruct s; lia). rewrite E1.
      assert (E2 : ((sg + v) mod 2 ^ 23 = Z.pos m - 2 ^ 23)%Z) by (subst sg v; destruct s; lia). rewrite E2.
      rewrite (proj2 (Z.eqb_neq _ _)) by lia. rewrite (proj2 (Z.eqb_neq _ _)) by lia.
      replace (Z.pos m - 2 ^ 23 + 2 ^ 23)%Z with (Z.pos m) by lia. replace (e + 150 - 150)%Z with e by lia. split; [reflexivity|].
      change (2 ^ 32)%N with 4294967296%N. subst sg v. destruct s; lia.
Qed.
Lemma of_bits_valid b : ubits 32 b -> valid (of_bits b).
Proof.
  unfold ubits, valid, of_bits. change (2 ^ 32)%N with 4294967296%N. intros H. set (z := Z.of_N b). set (s := Z.testbit z 31).
  destruct (Z.eqb_spec ((z / 2 ^ 23) mod 256) 255); [destruct (z mod 2 ^ 23 =? 0)%Z; reflexivity|].
  assert (Mr : (0 <= z mod 2 ^ 23 < 2 ^ 23)%Z) by (apply Z.mod_pos_bound; lia). assert (Er : (0 <= (z / 2 ^ 23) mod 256 < 256)%Z) by (apply Z.mod_pos_bound; lia).
  assert (V : forall m e, (SpecFloat.fexp 24 128 (Digits.Zdigits radix2 (Z.pos m) + e) = e)%Z -> (e <= 104)%Z -> valid_binary 24 128 (S754_finite s m e) = true).
  { intros m e C E0. cbn [valid_binary]. unfold SpecFloat.bounded, canonical_mantissa. apply andb_true_intro. split; [|apply Zle_imp_le_bool; lia].
    apply Zeq_is_eq_bool. change (SpecFloat.digits2_pos m) with (Digits.digits2_pos m). rewrite Digits.Zpos_digits2_pos. exact C. }
  destruct (Z.eqb_spec ((z / 2 ^ 23) mod 256) 0).
  - destruct (z mod 2 ^ 23)%Z as [|p|p] eqn:E1; try reflexivity. apply V; [|lia]. unfold SpecFloat.fexp, SpecFloat.emin.
    assert (Digits.Zdigits radix2 (Z.pos p) <= 23)%Z; [|lia]. apply Digits.Zdigits_le_Zpower. cbn [Z.abs]. exact (proj2 Mr).
  - destruct (z mod 2 ^ 23 + 2 ^ 23)%Z as [|p|p] eqn:E1; try reflexivity. apply V; [|lia]. unfold SpecFloat.fexp, SpecFloat.emin.
    assert (Digits.Zdigits radix2 (Z.pos p) <= 24)%Z by (apply Digits.Zdigits_le_Zpower; cbn [Z.abs]; change (Zpower radix2 24) with (2 ^ 24)%Z; lia).
    assert (23 < Digits.Zdigits radix2 (Z.pos p))%Z by (apply Digits.Zdigits_gt_Zpower; cbn [Z.abs]; change (Zpower radix2 23) with (2 ^ 23)%Z; lia). lia.
Qed.
