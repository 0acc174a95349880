(** The numbers of ClockModel's Display and the real numbers. *)
From Coq Require Import List Arith NArith ZArith Bool Reals Psatz SpecFloat Lia DecimalN.
From Flocq Require Import Core BinarySingleNaN Relative.
From Verif Require Import Base LogModel ClockModel.
Import ListNotations.
Local Open Scope Z_scope.

Lemma prec_ok : Prec_gt_0 53. Proof. reflexivity. Qed.
Lemma emax_ok : Prec_lt_emax 53 1024. Proof. reflexivity. Qed.
#[global] Existing Instance prec_ok.
#[global] Existing Instance emax_ok.
Notation b64 := (binary_float 53 1024).
Notation fx := (SpecFloat.fexp 53 1024).
#[global] Instance fx_valid : Valid_exp fx := FLT_exp_valid (SpecFloat.emin 53 1024) 53.
Definition rn (x : R) : R := round radix2 fx (round_mode mode_NE) x.
Definition val (x : spec_float) : R := SF2R radix2 x.

Lemma round_nearest_even_equiv s m l : round_nearest_even m l = choice_mode mode_NE s m l.
Proof. case l; [reflexivity|intro c]. case c; [|reflexivity..]. simpl. unfold Round.cond_incr. now case Z.even. Qed.
Lemma binary_round_aux_equiv sx mx ex lx : SpecFloat.binary_round_aux 53 1024 sx mx ex lx = binary_round_aux 53 1024 mode_NE sx mx ex lx.
Proof. unfold SpecFloat.binary_round_aux, binary_round_aux. set (mrse' := shr_fexp _ _ _). case mrse'; intros mrs' e'; simpl. now rewrite (round_nearest_even_equiv sx). Qed.
Lemma binary_round_equiv s m e : SpecFloat.binary_round 53 1024 s m e = binary_round 53 1024 mode_NE s m e.
Proof. unfold SpecFloat.binary_round, binary_round, shl_align_fexp. set (mez := shl_align _ _ _); case mez as [mz ez]. apply binary_round_aux_equiv. Qed.
Lemma binary_normalize_equiv m e szero : SpecFloat.binary_normalize 53 1024 m e szero = B2SF (binary_normalize 53 1024 prec_ok emax_ok mode_NE m e szero).
Proof. case m as [|p|p]; [now simpl| |]; simpl; rewrite B2SF_SF2B; apply binary_round_equiv. Qed.
Lemma div_equiv (x y : b64) : f64_div (B2SF x) (B2SF y) = B2SF (Bdiv mode_NE x y).
Proof.
  destruct x as [sx|sx| |sx mx ex Bx], y as [sy|sy| |sy my ey By]; [now (trivial || unfold f64_div; simpl; case Bool.eqb)..|].
  unfold f64_div. simpl. rewrite B2SF_SF2B. set (melz := SFdiv_core_binary _ _ _ _ _ _). case melz as [[mz ez] lz]. apply binary_round_aux_equiv.
Qed.

Local Open Scope R_scope.
Lemma rn_le x y : x <= y -> rn x <= rn y.
Proof. apply round_le; [apply FLT_exp_valid|]; try apply valid_rnd_N; reflexivity. Qed.
Lemma rn_bpow e : (-1000 <= e)%Z -> rn (bpow radix2 e) = bpow radix2 e.
Proof.
  intros H. apply round_generic; [apply valid_rnd_N|]. apply generic_format_bpow. unfold fx, SpecFloat.emin. lia.
Qed.
Lemma rn_error x : bpow radix2 (-1000) <= Rabs x -> Rabs (rn x - x) <= bpow radix2 (-53) * Rabs x.
Proof.
  intros H. unfold rn. replace (bpow radix2 (-53)) with (/ 2 * bpow radix2 (-53 + 1)).
  2:{ change 2 with (bpow radix2 1). rewrite <- bpow_opp, <- bpow_plus. reflexivity. }
  apply (relative_error_N_FLT radix2 (SpecFloat.emin 53 1024) 53 eq_refl).
  eapply Rle_trans; [|exact H]. apply bpow_le. unfold SpecFloat.emin. lia.
Qed.
Lemma rn_int z : (Z.abs z <= 2 ^ 53)%Z -> rn (IZR z) = IZR z.
Proof.
  intros H. apply round_generic; [apply valid_rnd_N|].
  apply generic_format_FLT.
  destruct (Z.eq_dec (Z.abs z) (2 ^ 53)) as [E|N].
  - assert (S : (z = 2 ^ 53 \/ z = - 2 ^ 53)%Z) by lia.
    destruct S as [-> | ->]; [exists (Float radix2 (2 ^ 52) 1)|exists (Float radix2 (- 2 ^ 52) 1)];
      try (unfold F2R; simpl Fnum; simpl Fexp; change (bpow radix2 1) with 2; rewrite <- mult_IZR; f_equal; reflexivity);
      cbn; unfold SpecFloat.emin; try lia.
  - exists (Float radix2 z 0); cbn; unfold SpecFloat.emin; try lia. unfold F2R. simpl. lra.
Qed.
Lemma of_real n : (n < 2 ^ 64)%N -> is_finite_SF (f64_of n) = true /\ val (f64_of n) = rn (IZR (Z.of_N n)) /\ exists b : b64, f64_of n = B2SF b.
Proof.
  intros L. unfold f64_of. rewrite binary_normalize_equiv, is_finite_SF_B2SF. unfold val. rewrite SF2R_B2SF.
  assert (C := binary_normalize_correct 53 1024 _ _ mode_NE (Z.of_N n) 0 false). cbv zeta in C.
  replace (F2R (Float radix2 (Z.of_N n) 0)) with (IZR (Z.of_N n)) in C by (unfold F2R; simpl; ring).
  rewrite Rlt_bool_true in C; [destruct C as (C1 & C2 & _); eauto|].
  fold (rn (IZR (Z.of_N n))). assert (P : 0 <= rn (IZR (Z.of_N n))).
  { replace 0 with (rn 0) by (apply round_0, valid_rnd_N). apply rn_le. apply IZR_le. lia. }
  rewrite Rabs_pos_eq by exact P. apply Rle_lt_trans with (bpow radix2 64); [|apply bpow_lt; lia].
  rewrite <- (rn_bpow 64) by lia. apply rn_le. rewrite <- IZR_Zpower by lia. apply IZR_le.
  change (Z.of_N n <= 2 ^ 64)%Z. lia.
Qed.
Lemma div_real n u : (n < 2 ^ 64)%N -> (1 <= u <= 2 ^ 53)%N -> (u <= n)%N ->
  is_finite_SF (f64_div (f64_of n) (f64_of u)) = true /\
  val (f64_div (f64_of n) (f64_of u)) = rn (rn (IZR (Z.of_N n)) / IZR (Z.of_N u)).
Proof.
  intros L U Un. destruct (of_real n L) as (Fn & Vn & bn & En). destruct (of_real u) as (Fu & Vu & bu & Eu); [lia|].
  rewrite rn_int in Vu by lia. rewrite En, Eu in *. rewrite div_equiv, is_finite_SF_B2SF. unfold val in *. rewrite SF2R_B2SF in *.
  assert (U1 : 1 <= IZR (Z.of_N u)) by (apply IZR_le; lia).
  assert (C := Bdiv_correct 53 1024 _ _ mode_NE bn bu). rewrite Vu, Vn in C. specialize (C ltac:(lra)).
  fold (rn (rn (IZR (Z.of_N n)) / IZR (Z.of_N u))) in C. rewrite is_finite_SF_B2SF in Fn.
  rewrite Rlt_bool_true in C; [destruct C as (C1 & C2 & _); rewrite Fn in C2; auto|].
  assert (P : 0 <= rn (IZR (Z.of_N n))).
  { replace 0 with (rn 0) by (apply round_0, valid_rnd_N). apply rn_le. apply IZR_le. lia. }
  assert (B : rn (IZR (Z.of_N n)) <= bpow radix2 64).
  { rewrite <- (rn_bpow 64) by lia. apply rn_le. rewrite <- IZR_Zpower by lia. apply IZR_le.
    change (Z.of_N n <= 2 ^ 64)%Z. lia. }
  assert (Q : 0 <= rn (IZR (Z.of_N n)) / IZR (Z.of_N u) <= bpow radix2 64).
  { split; [apply Rmult_le_pos; [exact P|]; apply Rlt_le, Rinv_0_lt_compat; lra|].
    apply Rle_trans with (rn (IZR (Z.of_N n)) / 1); [|lra]. apply Rmult_le_compat_l; [exact P|].
    apply Rinv_le; lra. }
  rewrite Rabs_pos_eq by (replace 0 with (rn 0) by (apply round_0, valid_rnd_N); now apply rn_le).
  apply Rle_lt_trans with (bpow radix2 64); [|apply bpow_lt; lia].
  rewrite <- (rn_bpow 64) by lia. apply rn_le, Q.
Qed.
Lemma div_error n u : (n < 2 ^ 64)%N -> (1 <= u <= 2 ^ 53)%N -> (u <= n)%N ->
  Rabs (val (f64_div (f64_of n) (f64_of u)) - IZR (Z.of_N n) / IZR (Z.of_N u)) <=
  bpow radix2 (-51) * (IZR (Z.of_N n) / IZR (Z.of_N u)) /\
  0 < val (f64_div (f64_of n) (f64_of u)).
Proof.
  intros L U Un. rewrite (proj2 (div_real n u L U Un)).
  set (N := IZR (Z.of_N n)). set (W := IZR (Z.of_N u)).
  assert (U1 : 1 <= W) by (apply IZR_le; lia). assert (NW : W <= N) by (apply IZR_le; lia).
  assert (E53 : 0 < bpow radix2 (-53) <= / 1024).
  { split; [apply bpow_gt_0|]. replace (/ 1024) with (bpow radix2 (-10)) by (simpl; lra). apply bpow_le. lia. }
  assert (E1000 : bpow radix2 (-1000) <= / 2).
  { replace (/ 2) with (bpow radix2 (-1)) by (simpl; lra). apply bpow_le. lia. }
  assert (E51 : bpow radix2 (-51) = 4 * bpow radix2 (-53)).
  { change 4 with (bpow radix2 2). rewrite <- bpow_plus. reflexivity. }
  pose proof (rn_error N) as A. rewrite (Rabs_pos_eq N) in A by lra. specialize (A ltac:(lra)).
  set (M := rn N) in *. apply Rabs_le_inv in A. set (e := bpow radix2 (-53)) in *.
  assert (I : 0 < / W <= 1) by (split; [apply Rinv_0_lt_compat; lra|rewrite <- Rinv_1; apply Rinv_le; lra]).
  assert (WI : W * / W = 1) by (apply Rinv_r; lra).
  assert (MW : (1 - e) * (N / W) <= M / W <= (1 + e) * (N / W)).
  { unfold Rdiv. split; rewrite <- Rmult_assoc; apply Rmult_le_compat_r; nra. }
  assert (NW1 : 1 <= N / W) by (unfold Rdiv; rewrite <- WI; apply Rmult_le_compat_r; lra).
  unfold e in *. clear A I. set (q := N / W) in *. set (r := M / W) in *. clearbody q r. clear M. clear N W U1 NW WI.
  set (d := bpow radix2 (-53)) in *.
  assert (R0 : / 2 <= r) by nra.
  pose proof (rn_error r) as B. rewrite (Rabs_pos_eq r) in B by lra. specialize (B ltac:(lra)).
  apply Rabs_le_inv in B. fold d in B. split; [|nra].
  apply Rabs_le. rewrite E51. nra.
Qed.
Lemma thousandths_near x : is_finite_SF x = true -> 0 < val x -> Rabs (IZR (Z.of_N (thousandths x)) - 1000 * val x) <= / 2.
Proof.
  destruct x as [s|s| |[] m e]; intros F P; try discriminate F; unfold val in P; simpl in P; try lra.
  { exfalso. assert (Q : F2R (Float radix2 (Zneg m) e) < 0) by now apply F2R_lt_0. simpl in P. lra. }
  unfold val, thousandths. simpl SF2R. unfold F2R. simpl Fnum. simpl Fexp.
  destruct (Z.leb_spec 0 e) as [E|E].
  - match goal with |- Rabs ?d <= _ => replace d with 0 end; [rewrite Rabs_R0; lra|].
    rewrite <- IZR_Zpower by exact E. rewrite <- !mult_IZR, <- minus_IZR. f_equal.
    rewrite !N2Z.inj_mul, N2Z.inj_pow, Z2N.id by exact E.
    change (Z.of_N (N.pos m)) with (Z.pos m). change (radix2 ^ e)%Z with (2 ^ e)%Z. simpl (Z.of_N 1000). simpl (Z.of_N 2). lia.
  - set (d := (2 ^ Z.to_N (- e))%N). set (n := (1000 * N.pos m)%N).
    assert (D : bpow radix2 e * IZR (Z.of_N d) = 1).
    { unfold d. rewrite N2Z.inj_pow, Z2N.id by lia. change (Z.of_N 2) with (radix_val radix2). rewrite IZR_Zpower by lia.
      rewrite <- bpow_plus. replace (e + - e)%Z with 0%Z by lia. reflexivity. }
    assert (Dp : (0 < d)%N) by (unfold d; apply N.neq_0_lt_0, N.pow_nonzero; discriminate).
    pose proof (bpow_gt_0 radix2 e) as Bp.
    assert (G : forall k : N, (2 * Z.abs (Z.of_N k * Z.of_N d - Z.of_N n) <= Z.of_N d)%Z ->
       Rabs (IZR (Z.of_N k) - 1000 * (IZR (Z.pos m) * bpow radix2 e)) <= / 2).
    { intros k K. apply IZR_le in K. rewrite mult_IZR, abs_IZR, minus_IZR, mult_IZR in K.
      assert (X : IZR (Z.of_N n) = 1000 * IZR (Z.pos m)) by (unfold n; rewrite N2Z.inj_mul, mult_IZR; reflexivity).
      rewrite X in K. set (dd := IZR (Z.of_N d)) in *. set (b := bpow radix2 e) in *.
      replace (IZR (Z.of_N k) - 1000 * (IZR (Z.pos m) * b)) with ((IZR (Z.of_N k) * dd - 1000 * IZR (Z.pos m)) * b).
      2:{ rewrite Rmult_minus_distr_r. rewrite Rmult_assoc, (Rmult_comm dd), D. ring. }
      rewrite Rabs_mult, (Rabs_pos_eq b) by lra.
      apply Rmult_le_reg_l with 2; [lra|]. rewrite <- Rmult_assoc.
      replace (2 * / 2) with (dd * b) by (rewrite Rmult_comm, D; lra). apply Rmult_le_compat_r; lra. }
    change (N.mul 1000 (N.pos m)) with n. pose proof (N.div_mod n d ltac:(lia)) as DM. pose proof (N.mod_lt n d ltac:(lia)) as ML.
    set (q := (n / d)%N) in *. set (r := (n mod d)%N) in *. clearbody q r n d.
    destruct (N.compare_spec (2 * r) d) as [C|C|C].
    + destruct (N.even q); apply G; nia.
    + apply G; nia.
    + apply G; nia.
Qed.
