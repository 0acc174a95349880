From Coq Require Import List Arith NArith ZArith Bool Reals Psatz SpecFloat Lia DecimalN.
From Flocq Require Import Core BinarySingleNaN Relative.
From Verif Require ClockFloat.
From Verif Require Import Base LogModel ClockModel ClockSpec.
Import ListNotations.
Local Open Scope Z_scope.


Lemma close_thousandths n u : (n < 2 ^ 64)%N -> (1 <= u <= 2 ^ 53)%N -> (u <= n)%N ->
  close n u (thousandths (f64_div (f64_of n) (f64_of u))).
Proof.
  intros L U Un. destruct (ClockFloat.div_real n u L U Un) as [F _]. destruct (ClockFloat.div_error n u L U Un) as [E P].
  pose proof (ClockFloat.thousandths_near _ F P) as T. set (k := thousandths _) in *. set (x := ClockFloat.val _) in *. clearbody k x.
  unfold close. apply le_IZR. rewrite !mult_IZR, minus_IZR, mult_IZR, abs_IZR, minus_IZR, !mult_IZR.
  set (K := IZR (Z.of_N k)) in *. set (N := IZR (Z.of_N n)) in *. set (W := IZR (Z.of_N u)) in *.
  assert (U1 : (1 <= W)%R) by (apply IZR_le; lia). assert (N0 : (0 <= N)%R) by (apply IZR_le; lia).
  assert (WI : (W * / W = 1)%R) by (apply Rinv_r; lra).
  assert (E51 : (bpow radix2 (-51) * IZR (2 ^ 51) = 1)%R).
  { change (2 ^ 51)%Z with (Zpower radix2 51). rewrite IZR_Zpower by lia. rewrite <- bpow_plus. reflexivity. }
  set (e := bpow radix2 (-51)) in *. set (B := IZR (2 ^ 51)) in *.
  assert (B0 : (0 < B)%R) by (apply IZR_lt; reflexivity).
  assert (e0 : (0 < e)%R) by apply bpow_gt_0.
  assert (X : (Rabs (K * W - 1000 * N) <= W / 2 + 1000 * (e * N))%R).
  { replace (K * W - 1000 * N)%R with ((K - 1000 * x) * W + 1000 * ((x - N / W) * W))%R.
    2:{ assert (Z : (N / W * W = N)%R) by (unfold Rdiv; rewrite Rmult_assoc, (Rmult_comm (/ W)), WI; ring).
        transitivity (K * W - 1000 * (N / W * W))%R; [ring|now rewrite Z]. }
    eapply Rle_trans; [apply Rabs_triang|]. rewrite !Rabs_mult, (Rabs_pos_eq W), (Rabs_pos_eq 1000) by lra.
    apply Rplus_le_compat; [unfold Rdiv; rewrite (Rmult_comm W); apply Rmult_le_compat_r; lra|].
    apply Rmult_le_compat_l; [lra|]. replace (e * N)%R with (e * (N / W) * W)%R.
    2:{ unfold Rdiv. transitivity (e * N * (W * / W))%R; [ring|rewrite WI; ring]. }
    apply Rmult_le_compat_r; lra. }
  apply Rle_trans with (B * (2000 * (e * N)))%R; [apply Rmult_le_compat_l; lra|].
  replace (B * (2000 * (e * N)))%R with (2000 * ((e * B) * N))%R by ring. rewrite E51. lra.
Qed.
