(** The rate the console shows is at most the change it is computed from. *)
From Coq Require Import List Arith NArith ZArith Bool Reals Psatz SpecFloat Lia Permutation.
From Flocq Require Import Core BinarySingleNaN.
From Verif Require Import Base FloatModel FloatFacts PoolModel PoolSpec PoolProofs RegModel RegSpec RegProofs.
Import ListNotations.
Local Open Scope R_scope.

Lemma rn_small z : (0 <= z <= 2 ^ 24)%Z -> rn (IZR z) = IZR z.
Proof.
  intros H. unfold rn. apply round_generic; [auto with typeclass_instances|]. apply generic_format_FLT.
  destruct (Z.eq_dec z (2 ^ 24)) as [->|N].
  - exists (Float radix2 (2 ^ 23) 1); cbn; unfold SpecFloat.emin; try lia.
    unfold F2R. simpl. rewrite <- mult_IZR. f_equal.
  - exists (Float radix2 z 0); cbn; unfold SpecFloat.emin; try lia. unfold F2R. simpl. lra.
Qed.
Lemma of_small d : (d <= 2 ^ 24)%N -> fin (f32_of d) /\ val (f32_of d) = IZR (Z.of_N d).
Proof.
  intros H. assert (R : rn (IZR (Z.of_N d)) = IZR (Z.of_N d)) by (apply rn_small; lia).
  rewrite <- R at 1. apply f32_of_real. rewrite R. rewrite Rabs_pos_eq by (apply IZR_le; lia).
  apply Rle_lt_trans with (bpow radix2 24); [|apply bpow_big; lia]. rewrite <- IZR_Zpower by lia. apply IZR_le. cbn. lia.
Qed.
Lemma usize_le x (n : N) : fin x -> val x <= IZR (Z.of_N n) -> (usize_of x <= n)%N.
Proof.
  destruct x as [s|s| |s m e]; unfold fin, val; cbn; try discriminate; try (intros; apply N.le_0_l); intros _ H.
  destruct s; [apply N.le_0_l|]. apply N.le_trans with (1 := N.le_min_r _ _).
  assert (Z : (match e with Zneg q => Z.pos m / Z.pow_pos 2 q | _ => Z.pos m * 2 ^ e end <= Z.of_N n)%Z); [|lia].
  unfold F2R in H. cbn [Fnum Fexp cond_Zopp] in H. destruct e as [|q|q].
  - apply le_IZR. rewrite mult_IZR. cbn [bpow] in H. change (IZR (2 ^ 0)) with 1. exact H.
  - apply le_IZR. rewrite mult_IZR. change (2 ^ Z.pos q)%Z with (radix2 ^ Z.pos q)%Z. rewrite IZR_Zpower by lia. exact H.
  - change (Z.pow_pos 2 q) with (2 ^ Z.pos q)%Z. apply Z.div_le_upper_bound; [apply Z.pow_pos_nonneg; lia|]. apply le_IZR. rewrite mult_IZR.
    change (2 ^ Z.pos q)%Z with (radix2 ^ Z.pos q)%Z. rewrite IZR_Zpower by lia.
    pose proof (bpow_gt_0 radix2 (Z.pos q)) as P. apply Rmult_le_compat_r with (r := bpow radix2 (Z.pos q)) in H; [|lra].
    rewrite Rmult_assoc, <- bpow_plus in H. replace (Z.neg q + Z.pos q)%Z with 0%Z in H by lia. change (bpow radix2 0) with 1 in H. rewrite Rmult_1_r in H. rewrite Rmult_comm. exact H.
Qed.
Lemma rate_le d e : (d <= 2 ^ 24)%N -> valid e -> fle (f32_of 1) e = true -> (usize_of (fdiv (f32_of d) e) <= d)%N.
Proof.
  intros D V L. destruct (of_small d D) as [F E]. destruct (of_small 1 ltac:(lia)) as [F1 E1].
  assert (C : fin e \/ e = S754_infinity false).
  { destruct e as [s|s| |s m x]; unfold fin; cbn; auto; try destruct s; auto; try discriminate. }
  destruct C as [C| ->].
  2:{ unfold fin in F. destruct (f32_of d) as [s|s| |s m x]; cbn in *; try discriminate; destruct s; cbn; lia. }
  rewrite fle_real in L by auto using f32_of_valid. rewrite E1 in L. destruct (Rle_bool_spec (IZR (Z.of_N 1)) (val e)) as [L1|]; [|discriminate]. cbn in L1.
  assert (Dp : 0 <= IZR (Z.of_N d)) by (apply IZR_le; lia).
  assert (Q : 0 <= IZR (Z.of_N d) / val e <= IZR (Z.of_N d)).
  { split; [apply Rmult_le_pos; [auto|left; apply Rinv_0_lt_compat; lra]|]. apply Rmult_le_reg_r with (val e); [lra|].
    unfold Rdiv. rewrite Rmult_assoc, Rinv_l by lra. nra. }
  assert (R : 0 <= rn (IZR (Z.of_N d) / val e) <= IZR (Z.of_N d)).
  { split; [rewrite <- rn_0; apply rn_le; lra|]. rewrite <- (rn_small (Z.of_N d)) by lia. apply rn_le. rewrite (rn_small (Z.of_N d)) by lia. lra. }
  destruct (fdiv_real (f32_of d) e) as [X1 X2]; auto using f32_of_valid; [lra| |].
  - rewrite E, Rabs_pos_eq by lra. apply Rle_lt_trans with (bpow radix2 24); [|apply bpow_big; lia].
    apply Rle_trans with (1 := proj2 R). rewrite <- IZR_Zpower by lia. apply IZR_le. cbn. lia.
  - apply usize_le; auto. rewrite X2, E. lra.
Qed.
Lemma secs_valid d : valid (as_secs_f32 d).
Proof. unfold as_secs_f32. auto using fadd_valid, fdiv_valid, f32_of_valid. Qed.

Local Open Scope nat_scope.
Section Rate.
Context {A : Type}.
Variable M : nat.
Hypothesis small : (N.of_nat M <= 2 ^ 24)%N.
Definition rates (rows : list row) : Prop := forall r, In r rows -> r_in_use r <= M /\ (r_rate r <= N.of_nat M)%N.
Lemma put_rates now s rows : forall rows', s_total s <= M -> rates rows -> put now s rows = Ret rows' -> rates rows'.
Proof.
  unfold rates. induction rows as [|r rows IH]; intros rows' T R; cbn [put].
  - unfold row_new, sub. destruct (_ <=? _); [|discriminate]. intros E. injection E as <-. intros r [<-|[]]. cbn. lia.
  - destruct (pid_eqb _ _).
    + unfold row_update, sub. destruct (_ <=? _); [|discriminate]. intros E. injection E as <-. intros q [<-|I]; [|apply R; right; auto].
      cbn. split; [lia|]. destruct (R r (or_introl eq_refl)) as [R1 R2].
      destruct (fle _ _) eqn:L; auto. eapply N.le_trans; [apply rate_le; auto using secs_valid; unfold abs_diff; lia|unfold abs_diff; lia].
    + destruct (put now s rows) as [rows1|] eqn:E; [|discriminate]. intros X. injection X as <-. intros q [<-|I]; [apply R; left; auto|].
      apply (IH rows1 T); auto. intros r0 I0. apply R. right. auto.
Qed.
Lemma puts_rates now l : forall rows rows', (forall s, In s l -> s_total s <= M) -> rates rows -> puts now l rows = Ret rows' -> rates rows'.
Proof.
  induction l as [|s l IH]; intros rows rows' T R; cbn [puts].
  - intros E. injection E as <-. auto.
  - destruct (put _ s rows) as [rows1|] eqn:E; [|discriminate]. cbn. apply IH; [intros; apply T; right; auto|].
    eapply put_rates; eauto. apply T. left. auto.
Qed.
Lemma erun_rates l : forall h (d : desk A) d' os, world_ok h (fst d) -> table_ok h (snd d) -> Forall fair l -> rates (snd d) ->
  erun d l = Ret (d', os) -> (forall id n b, In (id, n, b) (made (h ++ combine l os)) -> n <= M) -> rates (snd d').
Proof.
  induction l as [|e l IH]; intros h d d' os W T F R; cbn [erun].
  - intros E. injection E as <- <-. auto.
  - inversion F as [|? ? F1 F2]; subst. destruct (estep_ok h d e W T F1) as (d1 & o & E1 & W1 & T1). rewrite E1. cbn [obind].
    destruct (erun d1 l) as [[d2 os2]|] eqn:E2; [|discriminate]. intros E. injection E as <- <-. cbn [combine]. intros S.
    apply (IH (h ++ [(e, o)]) d1 d2 os2); auto; [|rewrite <- app_assoc; auto].
    destruct e as [x|ord now]; cbn [estep] in E1.
    + destruct (wstep (fst d) x). injection E1 as <- _. auto.
    + destruct (puts now _ _) as [rows|] eqn:P; [|discriminate]. injection E1 as <- _. cbn. eapply puts_rates; eauto.
      intros s I. destruct (stats_ok h (fst d) ord W F1) as (_ & S1 & _). destruct (S1 s I) as (k & _ & K).
      apply (S (s_id s) (s_total s) (s_buffer s)). unfold made. rewrite flat_map_app. apply in_or_app. left.
      apply (nth_error_In _ k). apply (so_made _ _ _ K).
Qed.
End Rate.
